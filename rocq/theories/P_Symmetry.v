(** What cannot be seen in the results: C168-C171. *)
From Coq Require Import Reals Lra.
From Verif Require Import Base Ggml_model Encoder_model Encoder_spec Encoder_proofs Eval_model Eval_spec Eval_proofs
  P_Eval Real_spec Real_proofs P_Real Symmetry_spec Symmetry_proofs.
Local Open Scope R_scope.
Local Open Scope nat_scope.

(** * C168: the head treats its inputs one by one *)

Lemma cut_probs {V} (P : prim V) e act sh h n hidden : 0 < h ->
  lm_probs P e act sh h n (firstn (n * h) hidden) = lm_probs P e act sh h n hidden.
Proof.
  intros Hh. unfold lm_probs. f_equal. unfold s_cut. apply map_ext_in. intros j Hj. apply in_seq in Hj.
  rewrite skipn_firstn_comm, firstn_firstn. f_equal. nia.
Qed.

Lemma probs_row {V} (P : prim V) e act sh h n hidden t : t < n ->
  lm_probs P e act sh h 1 (firstn h (skipn (t * h) hidden)) = [nth t (lm_probs P e act sh h n hidden) []].
Proof.
  intros Ht. unfold lm_probs, s_lm, s_layer_norm, s_dense, s_cut. rewrite !map_map.
  rewrite nth_over_seq by exact Ht. cbn [seq map Nat.mul skipn]. rewrite firstn_firstn, Nat.min_id. reflexivity.
Qed.

(** The results of a call for the best [k], spelt out. *)
Lemma top_k_run {V} (le : V -> V -> Prop) (P : prim V) L m sh act hidden n c cnt ids_cells prob_cells :
  lm_sound P m sh act -> lm_runnable L m n -> sorts le (p_zero P) (p_argsort P) ->
  n * hidden_dim (em_hp m) <= length hidden ->
  (1 <= top_k c <= Z.of_nat (em_vocab_count m))%Z ->
  let k := Z.to_nat (top_k c) in
  n * k <= length ids_cells -> n * k <= length prob_cells ->
  let rows := lm_probs P (ln_eps (em_hp m)) act sh (hidden_dim (em_hp m)) n hidden in
  berts_eval_lm P L (ELoaded m) hidden (n * hidden_dim (em_hp m)) (Some c) (Some ids_cells) (Some prob_cells) (Some cnt) =
  Ok (mklv true (Some (concat (map (fun r => firstn k (p_argsort P r)) rows) ++ skipn (n * k) ids_cells))
    (Some (concat (map (fun r => map (fun i => nth i r (p_zero P)) (firstn k (p_argsort P r))) rows) ++ skipn (n * k) prob_cells))
    (Some (N.of_nat (n * k)))) /\
  length rows = n /\ Forall (fun r => length r = em_vocab_count m) rows.
Proof.
  intros Hs Hr Hso HL Hk k HI HP rows.
  set (h := hidden_dim (em_hp m)) in *.
  assert (Hh : 0 < h) by exact (ls_hidden _ _ _ _ Hs).
  assert (ER : lm_probs P (ln_eps (em_hp m)) act sh h n (firstn (n * h) hidden) = rows) by (apply cut_probs, Hh).
  destruct (lm_run P L m sh act (firstn (n * h) hidden) n Hs Hr) as (prob & _ & _ & LR & FR).
  { rewrite firstn_length. fold h. lia. }
  fold h in LR, FR. rewrite ER in LR, FR. split; [|split; assumption].
  cbn [berts_eval_lm].
  pose proof (lm_prefix P L m hidden n c ids_cells prob_cells cnt sh act Hs Hr HL) as E. cbv zeta in E.
  fold h in E. rewrite E, ER. clear E.
  replace (top_k c <=? 0)%Z with false by lia. fold k.
  assert (FI : Forall (fun r => length r = em_vocab_count m) (map (p_argsort P) rows)).
  { apply Forall_map. eapply Forall_impl; [|exact FR]. cbv beta. intros r <-. apply (sorts_length le _ _ _ Hso). }
  assert (FB : Forall (Forall (fun i => i < em_vocab_count m)) (map (p_argsort P) rows)).
  { apply Forall_map. eapply Forall_impl; [|exact FR]. cbv beta. intros r <-. apply (sorts_bound le (p_zero P) _ _ Hso). }
  rewrite (top_rows_spec P (map (p_argsort P) rows) rows k (em_vocab_count m) n) by
    (try (rewrite map_length); try exact LR; try assumption; try lia).
  cbn [obind fst snd Nat.mul firstn app]. rewrite (Nat.min_l k) by lia.
  replace (map (fun j => firstn k (nth j (map (p_argsort P) rows) [])) (seq 0 n))
    with (map (fun r => firstn k (p_argsort P r)) rows).
  - replace (map (fun j => map (fun i => nth i (nth j rows []) (p_zero P)) (firstn k (nth j (map (p_argsort P) rows) []))) (seq 0 n))
      with (map (fun r => map (fun i => nth i r (p_zero P)) (firstn k (p_argsort P r))) rows).
    + rewrite (Nat.mul_comm n k). reflexivity.
    + apply (nth_ext _ _ [] []); [rewrite !map_length, seq_length; exact LR|].
      intros j Hj. rewrite map_length, LR in Hj. rewrite nth_over_seq by exact Hj.
      rewrite !(nth_map_lt _ rows j [] []) by lia. reflexivity.
  - apply (nth_ext _ _ [] []); [rewrite !map_length, seq_length; exact LR|].
    intros j Hj. rewrite map_length, LR in Hj. rewrite nth_over_seq by exact Hj.
    rewrite !(nth_map_lt _ rows j [] []) by lia. reflexivity.
Qed.

Lemma concat_block {A} (l : list (list A)) k rest t : Forall (fun r => length r = k) l -> t < length l ->
  firstn k (skipn (t * k) (concat l ++ rest)) = nth t l [].
Proof.
  revert t. induction l as [|r l IH]; intros t H Ht; [cbn in Ht; lia|].
  inversion H as [|? ? E H']; subst. cbn [concat]. rewrite <- app_assoc. destruct t as [|t].
  - cbn [Nat.mul skipn nth]. rewrite firstn_app, Nat.sub_diag, firstn_all. cbn. apply app_nil_r.
  - cbn [nth]. replace (S t * length r) with (t * length r + length r) by lia.
    rewrite <- skipn_skipn, skipn_app, skipn_all, Nat.sub_diag. cbn [app skipn]. apply IH; [exact H'|cbn in Ht; lia].
Qed.

(** The part of the results that belongs to one input is what a call with this input alone
    gives. *)
Theorem C168_each_input_alone {V} (le : V -> V -> Prop) (P : prim V) L m sh act hidden n c cnt ids_cells prob_cells :
  lm_sound P m sh act -> lm_runnable L m n -> lm_runnable L m 1 -> sorts le (p_zero P) (p_argsort P) ->
  let h := hidden_dim (em_hp m) in
  n * h <= length hidden ->
  (1 <= top_k c <= Z.of_nat (em_vocab_count m))%Z ->
  let k := Z.to_nat (top_k c) in
  n * k <= length ids_cells -> n * k <= length prob_cells ->
  exists ids probs,
    berts_eval_lm P L (ELoaded m) hidden (n * h) (Some c) (Some ids_cells) (Some prob_cells) (Some cnt) =
      Ok (mklv true (Some ids) (Some probs) (Some (N.of_nat (n * k)))) /\
    forall t cnt' ids_cells' prob_cells', t < n -> length ids_cells' = k -> length prob_cells' = k ->
      berts_eval_lm P L (ELoaded m) (firstn h (skipn (t * h) hidden)) h (Some c)
        (Some ids_cells') (Some prob_cells') (Some cnt') =
      Ok (mklv true (Some (firstn k (skipn (t * k) ids))) (Some (firstn k (skipn (t * k) probs))) (Some (N.of_nat k))).
Proof.
  intros Hs Hr H1 Hso h HL Hk k HI HP.
  destruct (top_k_run le P L m sh act hidden n c cnt ids_cells prob_cells Hs Hr Hso HL Hk HI HP) as (E & LR & FR).
  fold h k in E, LR, FR. set (rows := lm_probs P (ln_eps (em_hp m)) act sh h n hidden) in *.
  eexists _, _. split; [exact E|]. intros t cnt' ic pc Ht Hi Hp.
  assert (HR : length (firstn h (skipn (t * h) hidden)) = h) by (rewrite firstn_length, skipn_length; nia).
  destruct (top_k_run le P L m sh act (firstn h (skipn (t * h) hidden)) 1 c cnt' ic pc Hs H1 Hso) as (E1 & _ & _);
    [fold h; lia|exact Hk|fold k; lia|fold k; lia|].
  fold h k in E1. rewrite !Nat.mul_1_l in E1. rewrite E1.
  rewrite (probs_row P (ln_eps (em_hp m)) act sh h n hidden t Ht). fold rows.
  assert (FS : Forall (fun r => length (firstn k (p_argsort P r)) = k) rows).
  { eapply Forall_impl; [|exact FR]. cbv beta. intros r Lr. rewrite firstn_length, (sorts_length le _ _ _ Hso), Lr. lia. }
  rewrite !concat_block.
  - rewrite !(nth_map_lt _ rows t [] []) by lia. cbn [map concat]. rewrite !app_nil_r.
    rewrite !skipn_all2 by lia. rewrite !app_nil_r. reflexivity.
  - apply Forall_map. eapply Forall_impl; [|exact FS]. cbv beta. intros r Lr. rewrite map_length. exact Lr.
  - rewrite map_length. lia.
  - apply Forall_map. exact FS.
  - rewrite map_length. lia.
Qed.
Print Assumptions C168_each_input_alone.

Lemma demo_lm_runnable_1 : lm_runnable lib64 demo 1.
Proof. constructor; [lia|reflexivity|vm_compute; reflexivity|cbn; lia]. Qed.

Example C168_example :
  (exists sh act, lm_sound zprim demo sh act) /\ lm_runnable lib64 demo 2 /\ lm_runnable lib64 demo 1 /\
  berts_eval_lm zprim lib64 (ELoaded demo) [1;2;8;4]%Z 4 (Some (mkli 2)) (Some [9;9;9;9]) (Some [7;7;7;7]%Z) (Some 4%N) =
    Ok (mklv true (Some [2;1;2;0]) (Some [3;2;12;8]%Z) (Some 4%N)) /\
  berts_eval_lm zprim lib64 (ELoaded demo) [8;4]%Z 2 (Some (mkli 2)) (Some [9;9]) (Some [7;7]%Z) (Some 0%N) =
    Ok (mklv true (Some [2;0]) (Some [12;8]%Z) (Some 2%N)).
Proof.
  split; [exists demo_sl; eexists; exact demo_lm|]. split; [exact demo_lm_runnable|]. split; [exact demo_lm_runnable_1|].
  split; vm_compute; reflexivity.
Qed.

(** * C169: a constant in the decoder bias, and the order of the scores *)

(** Whatever buffers and capacity are given, adding one number to all decoder biases changes
    nothing that a call does. *)
Theorem C169_decoder_constant : forall eps (P : prim R) L m m' sh sh' act hidden n c cnt ids_cells prob_cells,
  exact eps P -> em_hp m' = em_hp m -> em_kind m' = em_kind m -> em_vocab_count m' = em_vocab_count m ->
  lm_sound P m sh act -> lm_sound P m' sh' act -> decoder_shifted sh sh' ->
  lm_runnable L m n -> n * hidden_dim (em_hp m) <= length hidden ->
  berts_eval_lm P L (ELoaded m') hidden (n * hidden_dim (em_hp m)) (Some c) (Some ids_cells) (Some prob_cells) (Some cnt) =
  berts_eval_lm P L (ELoaded m) hidden (n * hidden_dim (em_hp m)) (Some c) (Some ids_cells) (Some prob_cells) (Some cnt).
Proof.
  intros eps P L m m' sh sh' act hidden n c cnt ic pc EX Eh Ek Ev Hs Hs' Hd Hr HL.
  assert (Hr' : lm_runnable L m' n).
  { destruct Hr as [A B C D]. constructor; try assumption. rewrite Eh, Ev. exact C. }
  cbn [berts_eval_lm].
  pose proof (lm_prefix P L m hidden n c ic pc cnt sh act Hs Hr HL) as E.
  pose proof (lm_prefix P L m' hidden n c ic pc cnt sh' act Hs' Hr') as E'. rewrite Eh, Ev in E'. specialize (E' HL).
  cbv zeta in E, E'. rewrite E, E', (lm_probs_shift eps P EX _ _ _ _ _ _ _ Hd). reflexivity.
Qed.
Print Assumptions C169_decoder_constant.

(** The ids written for an input are those of its [k] highest scores, best first. *)
Theorem C169_highest_scores : forall eps (P : prim R) L m sh act hidden n c cnt ids_cells prob_cells,
  exact eps P -> lm_sound P m sh act -> lm_runnable L m n ->
  let h := hidden_dim (em_hp m) in
  n * h <= length hidden ->
  (1 <= top_k c <= Z.of_nat (em_vocab_count m))%Z ->
  let k := Z.to_nat (top_k c) in
  n * k <= length ids_cells -> n * k <= length prob_cells ->
  exists ids probs,
    berts_eval_lm P L (ELoaded m) hidden (n * h) (Some c) (Some ids_cells) (Some prob_cells) (Some cnt) =
      Ok (mklv true (Some (concat ids ++ skipn (n * k) ids_cells)) (Some probs) (Some (N.of_nat (n * k)))) /\
    length ids = n /\
    forall t, t < n ->
      let sc := scores P (ln_eps (em_hp m)) act sh (firstn h (skipn (t * h) hidden)) in
      best Rle 0%R k sc (nth t ids []) (map (fun i => nth i sc 0%R) (nth t ids [])).
Proof.
  intros eps P L m sh act hidden n c cnt ic pc EX Hs Hr h HL Hk k HI HP.
  assert (Hso : sorts Rle (p_zero P) (p_argsort P)) by (rewrite (ex_zero _ _ EX); exact (ex_sort _ _ EX)).
  destruct (C52_top_k Rle P L m sh act hidden n c cnt ic pc Hs Hr Hso HL Hk HI HP) as (ids & ps & E & LR & LI & LP & HB).
  exists ids, (concat ps ++ skipn (n * k) pc). split; [exact E|]. split; [exact LI|].
  intros t Ht sc. specialize (HB t Ht). rewrite (ex_zero _ _ EX) in HB.
  apply (best_scores k sc _ (nth t ps [])).
  assert (ES : nth t (s_lm P (ln_eps (em_hp m)) act (sl_dw sh) (sl_db sh) (sl_lw sh) (sl_lb sh) (sl_cw sh) (sl_cb sh)
                (s_cut (hidden_dim (em_hp m)) n hidden)) [] = softmax sc); [|rewrite <- ES; exact HB].
  unfold sc, scores, s_lm, s_layer_norm, s_dense, s_cut. rewrite !map_map. rewrite nth_over_seq by exact Ht.
  rewrite (ex_soft _ _ EX). cbn [map concat]. rewrite app_nil_r. reflexivity.
Qed.
Print Assumptions C169_highest_scores.

(** A model for given parameters, with three tokens and hidden size two. *)
Section Build.
Definition block_tensors (y : s_block R) : block R :=
  mkblock R (rmatrix_tensor (sq_w y) 2 2) (rvector_tensor (sq_b y) 2)
    (rmatrix_tensor (sk_w y) 2 2) (rvector_tensor (sk_b y) 2)
    (rmatrix_tensor (sv_w y) 2 2) (rvector_tensor (sv_b y) 2)
    (rmatrix_tensor (sff_w y) 2 2) (rvector_tensor (sff_b y) 2)
    (rvector_tensor (sln_ff_w y) 2) (rvector_tensor (sln_ff_b y) 2)
    (rmatrix_tensor (si_w y) 3 2) (rvector_tensor (si_b y) 3)
    (rmatrix_tensor (so_w y) 2 3) (rvector_tensor (so_b y) 2)
    (rvector_tensor (sln_out_w y) 2) (rvector_tensor (sln_out_b y) 2).
Definition head_tensors (s : s_lm_head R) : head R :=
  mkhead R (rmatrix_tensor (sl_dw s) 2 2) (rvector_tensor (sl_db s) 2)
    (rvector_tensor (sl_lw s) 2) (rvector_tensor (sl_lb s) 2)
    (rmatrix_tensor (sl_cw s) 3 2) (rvector_tensor (sl_cb s) 3).
Definition build (s : s_model R) (y : s_block R) (sl : s_lm_head R) : emodel R :=
  mkem R Bert demo_hp (mkweights R (rmatrix_tensor (sm_words s) 3 2) (rmatrix_tensor (sm_segments s) 2 2)
    (rmatrix_tensor (sm_positions s) 4 2) (rvector_tensor (sm_lw s) 2) (rvector_tensor (sm_lb s) 2)
    [block_tensors y] (rmatrix_tensor (sm_pw s) 2 2) (rvector_tensor (sm_pb s) 2) (Some (head_tensors sl))) 3.

Definition shifted_sl : s_lm_head R :=
  mksl (sl_dw real_sl) (sl_db real_sl) (sl_lw real_sl) (sl_lb real_sl) (sl_cw real_sl) (map (fun x => x + 100)%R (sl_cb real_sl)).

Lemma shifted_lm : lm_sound rprim (build real_sm real_sb shifted_sl) shifted_sl (fun x => x).
Proof.
  constructor; try exact rprim_rows; try (cbn; lia); [|reflexivity].
  exists (head_tensors shifted_sl). split; [reflexivity|]. constructor; rshapes.
Qed.
End Build.

Example C169_example :
  decoder_shifted real_sl shifted_sl /\ sl_cb shifted_sl <> sl_cb real_sl /\
  (exists act, lm_sound rprim real_demo real_sl act /\ lm_sound rprim (build real_sm real_sb shifted_sl) shifted_sl act) /\
  berts_eval_lm rprim lib64 (ELoaded (build real_sm real_sb shifted_sl)) [1;2;3;4]%R 4 (Some (mkli 2))
    (Some [0;0;0;0]) (Some [0;0;0;0]%R) (Some 4%N) =
  berts_eval_lm rprim lib64 (ELoaded real_demo) [1;2;3;4]%R 4 (Some (mkli 2)) (Some [0;0;0;0]) (Some [0;0;0;0]%R) (Some 4%N).
Proof.
  assert (HD : decoder_shifted real_sl shifted_sl).
  { exists (map (fun x => x + 100)%R (sl_cb real_sl)). split; [exists 100%R; reflexivity|reflexivity]. }
  split; [exact HD|]. split.
  { cbn. intros E. apply (f_equal (fun l => nth 0 l 0%R)) in E. cbn in E. lra. }
  split; [exists (fun x => x); split; [exact real_lm|exact shifted_lm]|].
  apply (C169_decoder_constant _ rprim lib64 real_demo (build real_sm real_sb shifted_sl) real_sl shifted_sl (fun x => x)
    [1;2;3;4]%R 2 (mkli 2) 4%N [0;0;0;0] [0;0;0;0]%R rprim_exact eq_refl eq_refl eq_refl real_lm shifted_lm HD real_lm_runnable).
  cbn. lia.
Qed.

(** * C170: key biases *)

(** Models that differ in the key biases alone give the same results. *)
Theorem C170_key_biases : forall eps (P : prim R) L m m' words rows s s' toks segs count c last cells cnt,
  exact eps P -> em_hp m' = em_hp m -> em_kind m' = em_kind m -> key_biases_differ s s' ->
  arrays_ok toks segs count -> Forall (fun t => (t < 4294967296)%N) toks ->
  runnable P L m words rows s (firstn count toks) (given_segments segs count) c last -> sound P m' words rows s' ->
  known_tokens words (firstn count toks) -> enough_rows (em_kind m) rows (firstn count toks) ->
  Nat.min (N.to_nat cnt) (values (em_hp m) (pool_type c) count) <= length cells ->
  berts_eval P L (ELoaded m') toks segs count (Some c) (Some cells) (Some cnt) =
  berts_eval P L (ELoaded m) toks segs count (Some c) (Some cells) (Some cnt).
Proof.
  intros eps P L m m' words rows s s' toks segs count c last cells cnt EX Eh Ek Hd Ha Hu Hr Hs' Hk He Hw.
  destruct (runs P L m words rows s toks segs count c last cells cnt Ha Hu Hr Hk He Hw) as (_ & E).
  assert (Hr' : runnable P L m' words rows s' (firstn count toks) (given_segments segs count) c last).
  { destruct Hr as [A B C D F G]. constructor; try rewrite Eh; try assumption. }
  destruct (runs P L m' words rows s' toks segs count c last cells cnt Ha Hu Hr' Hk) as (_ & E').
  { rewrite Ek. exact He. } { rewrite Eh. exact Hw. }
  assert (EA : answer P m' s' (pool_type c) last (firstn count toks) (given_segments segs count) =
               answer P m s (pool_type c) last (firstn count toks) (given_segments segs count));
    [|rewrite E, E', Eh, EA; reflexivity].
  clear E E'. pose proof (w_layers _ _ _ _ _ _ (s_weights _ _ _ _ _ (r_sound _ _ _ _ _ _ _ _ _ _ Hr))) as HB.
  pose proof (w_layers _ _ _ _ _ _ (s_weights _ _ _ _ _ Hs')) as HB'.
  destruct Hd as (ys & HF & ->). cbn [sm_blocks] in HB'.
  unfold answer. cbn [sm_pw sm_pb]. rewrite Ek. f_equal. f_equal. unfold hidden_states, s_encode.
  cbn [sm_words sm_positions sm_segments sm_lw sm_lb sm_blocks]. rewrite Eh.
  apply (layers_same P (fun y y' => other_key_bias y y' /\ length (sk_b y) = length (sk_w y) /\ length (sk_b y') = length (sk_w y'))).
  - intros y y' x (H & A & B). apply (layer_key_bias eps P EX); assumption.
  - assert (LB : forall hh mm bs zs, Forall2 (block_is P hh mm) bs zs -> Forall (fun y => length (sk_b y) = length (sk_w y)) zs).
    { clear. intros hh mm bs zs H. induction H as [|b z bs zs Hb H IH]; constructor; [|exact IH].
      destruct (b_kw _ _ _ _ _ Hb) as (_ & _ & _ & _ & A & _). destruct (b_kb _ _ _ _ _ Hb) as (_ & _ & _ & _ & _ & B & _). congruence. }
    apply LB in HB. apply LB in HB'. clear - HF HB HB'. induction HF as [|y y' zs zs' H HF IH]; constructor.
    + inversion HB; inversion HB'; subst. split; [exact H|split; assumption].
    + inversion HB; inversion HB'; subst. apply IH; assumption.
Qed.
Print Assumptions C170_key_biases.

Definition keyed_sb : s_block R :=
  mksb (sq_w real_sb) (sq_b real_sb) (sk_w real_sb) [5; -7]%R (sv_w real_sb) (sv_b real_sb) (sff_w real_sb) (sff_b real_sb)
    (sln_ff_w real_sb) (sln_ff_b real_sb) (si_w real_sb) (si_b real_sb) (so_w real_sb) (so_b real_sb)
    (sln_out_w real_sb) (sln_out_b real_sb).
Definition keyed_sm : s_model R :=
  mksm (sm_words real_sm) (sm_positions real_sm) (sm_segments real_sm) (sm_lw real_sm) (sm_lb real_sm) [keyed_sb]
    (sm_pw real_sm) (sm_pb real_sm).

Lemma build_sound s y sl : length (sm_words s) = 3 -> length (sm_positions s) = 4 -> length (sm_segments s) = 2 ->
  Forall (fun r => length r = 2) (sm_words s) -> Forall (fun r => length r = 2) (sm_positions s) -> Forall (fun r => length r = 2) (sm_segments s) ->
  length (sm_lw s) = 2 -> length (sm_lb s) = 2 -> sm_blocks s = [y] ->
  length (sm_pw s) = 2 -> Forall (fun r => length r = 2) (sm_pw s) -> length (sm_pb s) = 2 ->
  block_is rprim 2 3 (block_tensors y) y ->
  sound rprim (build s y sl) 3 4 s.
Proof.
  intros A1 A2 A3 A4 A5 A6 A7 A8 A9 A10 A11 A12 A13. constructor; try exact rprim_rows; cbn; try reflexivity; try lia; try exact I.
  constructor; cbn; try (apply rmatrix_tensor_is; try assumption; lia); try (apply rvector_tensor_is; assumption); [|reflexivity].
  rewrite A9. constructor; [exact A13|constructor].
Qed.

Lemma keyed_sound : sound rprim (build keyed_sm keyed_sb real_sl) 3 4 keyed_sm.
Proof. apply build_sound; try reflexivity; repeat constructor. Qed.

Example C170_example :
  key_biases_differ real_sm keyed_sm /\ sk_b keyed_sb <> sk_b real_sb /\
  berts_eval rprim lib64 (ELoaded (build keyed_sm keyed_sb real_sl)) [0;2;1]%N (Some [0;0;1]%N) 3 (Some (ask (-1) PoolAvg)) (Some [9;9]%R) (Some 2%N) =
  berts_eval rprim lib64 (ELoaded real_demo) [0;2;1]%N (Some [0;0;1]%N) 3 (Some (ask (-1) PoolAvg)) (Some [9;9]%R) (Some 2%N).
Proof.
  assert (HD : key_biases_differ real_sm keyed_sm).
  { exists [keyed_sb]. split; [|reflexivity]. constructor; [|constructor]. exists [5; -7]%R. reflexivity. }
  split; [exact HD|]. split.
  { cbn. intros E. apply (f_equal (fun l => nth 1 l 0%R)) in E. cbn in E. lra. }
  apply (C170_key_biases _ rprim lib64 real_demo (build keyed_sm keyed_sb real_sl) 3 4 real_sm keyed_sm
    [0;2;1]%N (Some [0;0;1]%N) 3 (ask (-1) PoolAvg) 1 [9;9]%R 2%N rprim_exact eq_refl eq_refl HD demo_arrays).
  - apply tokens_small3; lia.
  - apply real_runnable. discriminate.
  - exact keyed_sound.
  - exact real_known.
  - exact real_enough.
  - cbn. lia.
Qed.

(** * C171: constants before the layer norms *)

(** Models that differ by a constant per row of the embedding tables, and by constants in the
    biases that lead into layer norms, give the same results. *)
Theorem C171_constants : forall eps (P : prim R) L m m' words rows s s' toks segs count c last cells cnt,
  exact eps P -> em_hp m' = em_hp m -> em_kind m' = em_kind m -> constants_differ s s' ->
  arrays_ok toks segs count -> Forall (fun t => (t < 4294967296)%N) toks ->
  runnable P L m words rows s (firstn count toks) (given_segments segs count) c last -> sound P m' words rows s' ->
  known_tokens words (firstn count toks) -> enough_rows (em_kind m) rows (firstn count toks) ->
  Nat.min (N.to_nat cnt) (values (em_hp m) (pool_type c) count) <= length cells ->
  berts_eval P L (ELoaded m') toks segs count (Some c) (Some cells) (Some cnt) =
  berts_eval P L (ELoaded m) toks segs count (Some c) (Some cells) (Some cnt).
Proof.
  intros eps P L m m' words rows s s' toks segs count c last cells cnt EX Eh Ek Hd Ha Hu Hr Hs' Hk He Hw.
  destruct (runs P L m words rows s toks segs count c last cells cnt Ha Hu Hr Hk He Hw) as (_ & E).
  assert (Hr' : runnable P L m' words rows s' (firstn count toks) (given_segments segs count) c last).
  { destruct Hr as [A B C D F G]. constructor; try rewrite Eh; try assumption. }
  destruct (runs P L m' words rows s' toks segs count c last cells cnt Ha Hu Hr' Hk) as (_ & E').
  { rewrite Ek. exact He. } { rewrite Eh. exact Hw. }
  assert (EA : answer P m' s' (pool_type c) last (firstn count toks) (given_segments segs count) =
               answer P m s (pool_type c) last (firstn count toks) (given_segments segs count));
    [|rewrite E, E', Eh, EA; reflexivity].
  clear E E'. destruct Hd as (ws & ps & ss & ys & Fw & Fp & Fs & FB & ->).
  unfold answer. cbn [sm_pw sm_pb]. rewrite Ek. f_equal. f_equal. unfold hidden_states, s_encode.
  cbn [sm_words sm_positions sm_segments sm_lw sm_lb sm_blocks]. rewrite Eh.
  rewrite (embed_shift eps P EX _ (sm_words s) (sm_positions s) (sm_segments s)) by assumption.
  apply (layers_same P other_constants); [|exact FB].
  intros y y' x H. apply (layer_constants eps P EX _ _ _ _ _ _ H).
Qed.
Print Assumptions C171_constants.

Definition moved_sb : s_block R :=
  mksb (sq_w real_sb) (sq_b real_sb) (sk_w real_sb) (sk_b real_sb) (sv_w real_sb) (sv_b real_sb)
    (sff_w real_sb) (map (fun x => x + 3)%R (sff_b real_sb))
    (sln_ff_w real_sb) (sln_ff_b real_sb) (si_w real_sb) (si_b real_sb)
    (so_w real_sb) (map (fun x => x + -4)%R (so_b real_sb)) (sln_out_w real_sb) (sln_out_b real_sb).
Definition moved_sm : s_model R :=
  mksm (map (map (fun x => x + 10)%R) (sm_words real_sm)) (map (map (fun x => x + 20)%R) (sm_positions real_sm))
    (map (map (fun x => x + 30)%R) (sm_segments real_sm)) (sm_lw real_sm) (sm_lb real_sm) [moved_sb]
    (sm_pw real_sm) (sm_pb real_sm).

Lemma moved_sound : sound rprim (build moved_sm moved_sb real_sl) 3 4 moved_sm.
Proof. apply build_sound; try reflexivity; repeat constructor. Qed.

Lemma all_shifted c (M : list (list R)) : Forall2 shifted M (map (map (fun x => x + c)%R) M).
Proof. induction M as [|r M IH]; constructor; [exists c; reflexivity|exact IH]. Qed.

Example C171_example :
  constants_differ real_sm moved_sm /\ sm_words moved_sm <> sm_words real_sm /\
  berts_eval rprim lib64 (ELoaded (build moved_sm moved_sb real_sl)) [0;2;1]%N (Some [0;0;1]%N) 3 (Some (ask (-1) PoolAvg)) (Some [9;9]%R) (Some 2%N) =
  berts_eval rprim lib64 (ELoaded real_demo) [0;2;1]%N (Some [0;0;1]%N) 3 (Some (ask (-1) PoolAvg)) (Some [9;9]%R) (Some 2%N).
Proof.
  assert (HD : constants_differ real_sm moved_sm).
  { exists (map (map (fun x => x + 10)%R) (sm_words real_sm)), (map (map (fun x => x + 20)%R) (sm_positions real_sm)),
      (map (map (fun x => x + 30)%R) (sm_segments real_sm)), [moved_sb].
    split; [apply all_shifted|]. split; [apply all_shifted|]. split; [apply all_shifted|]. split; [|reflexivity].
    constructor; [|constructor]. exists (map (fun x => x + 3)%R (sff_b real_sb)), (map (fun x => x + -4)%R (so_b real_sb)).
    split; [exists 3%R; reflexivity|]. split; [exists (-4)%R; reflexivity|reflexivity]. }
  split; [exact HD|]. split.
  { cbn. intros E. apply (f_equal (fun l => nth 0 (nth 0 l []) 0%R)) in E. cbn in E. lra. }
  apply (C171_constants _ rprim lib64 real_demo (build moved_sm moved_sb real_sl) 3 4 real_sm moved_sm
    [0;2;1]%N (Some [0;0;1]%N) 3 (ask (-1) PoolAvg) 1 [9;9]%R 2%N rprim_exact eq_refl eq_refl HD demo_arrays).
  - apply tokens_small3; lia.
  - apply real_runnable. discriminate.
  - exact moved_sound.
  - exact real_known.
  - exact real_enough.
  - cbn. lia.
Qed.
