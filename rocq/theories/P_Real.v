(** What the results are in exact real arithmetic: C146-C151. *)
From Coq Require Import Reals Lra Permutation Sorted.
From Verif Require Import Base Api_model Ggml_model Encoder_model Encoder_spec Encoder_proofs Eval_model Eval_spec Eval_proofs
  Cpp_proofs Fill_model Fill_spec Tool_spec P_Eval P_Fill Real_spec Real_proofs.
Local Open Scope R_scope.
Local Open Scope nat_scope.

(** ** Exact arithmetic exists *)
Section Instance.
Local Open Scope R_scope.
Fixpoint rplace (r : list R) (i : nat) (l : list nat) : list nat :=
  match l with
  | [] => [i]
  | j :: l' => if Rle_dec (nth j r 0) (nth i r 0) then i :: j :: l' else j :: rplace r i l'
  end.
Definition rsort (r : list R) : list nat := fold_right (rplace r) [] (seq 0 (length r)).
Fixpoint rmax (r : list R) : R := match r with [] => 0 | [x] => x | x :: r' => Rmax x (rmax r') end.

(** all layer norm constants read as 1 *)
Definition rprim : prim R :=
  mkprim R 0 Rplus Rmult (fun a b => rsum (zip_with Rmult a b))
    (fun _ r => map (fun x => (x - mean r) / sqrt (variance r + 1)) r)
    softmax (fun d r => softmax (map (fun x => x * / sqrt (INR d)) r))
    (fun x => x) (Rmax 0) (fun x => x) (fun x => (exp x - exp (- x)) / (exp x + exp (- x)))
    mean rmax rsort.

Lemma rplace_perm r i l : Permutation (rplace r i l) (i :: l).
Proof.
  induction l as [|j l IH]; [apply Permutation_refl|]. cbn [rplace].
  destruct (Rle_dec (nth j r 0) (nth i r 0)); [apply Permutation_refl|].
  apply (perm_trans (perm_skip j IH)). apply perm_swap.
Qed.

Lemma rplace_sorted r i l : StronglySorted (fun a b => nth b r 0 <= nth a r 0) l ->
  StronglySorted (fun a b => nth b r 0 <= nth a r 0) (rplace r i l).
Proof.
  induction l as [|j l IH]; intros H; cbn [rplace]; [repeat constructor|].
  inversion H as [|? ? H1 H2]; subst.
  destruct (Rle_dec (nth j r 0) (nth i r 0)) as [E|E].
  - constructor; [exact H|]. constructor; [lra|].
    eapply Forall_impl; [|exact H2]. cbv beta. intros a. lra.
  - constructor; [apply IH, H1|].
    apply (Permutation_Forall (Permutation_sym (rplace_perm r i l))). constructor; [lra|exact H2].
Qed.

Lemma rsort_sorts : sorts Rle 0 rsort.
Proof.
  intros r. unfold rsort.
  assert (HP : forall l, Permutation (fold_right (rplace r) [] l) l).
  { induction l as [|i l IH]; [apply Permutation_refl|]. cbn [fold_right].
    apply (perm_trans (rplace_perm r i _)). apply perm_skip, IH. }
  assert (HS : forall l, StronglySorted (fun a b => nth b r 0 <= nth a r 0) (fold_right (rplace r) [] l)).
  { induction l as [|i l IH]; [constructor|]. apply rplace_sorted, IH. }
  split; [|split].
  - apply (Permutation_NoDup (Permutation_sym (HP _))), seq_NoDup.
  - intros i. split; intros H.
    + apply (Permutation_in _ (HP _)), in_seq in H. lia.
    + apply (Permutation_in _ (Permutation_sym (HP _))), in_seq. lia.
  - intros i j Hij Hj. apply (strongly_nth _ _ 0%nat (HS (seq 0 (length r))) i j Hij).
    rewrite (Permutation_length (HP _)), seq_length. exact Hj.
Qed.

Lemma rmax_greatest r : r <> [] -> In (rmax r) r /\ Forall (fun x => x <= rmax r) r.
Proof.
  induction r as [|x r IH]; intros H; [congruence|]. destruct r as [|y r]; [split; [left; reflexivity|repeat constructor; cbn; lra]|].
  destruct (IH ltac:(discriminate)) as (I & F). change (rmax (x :: y :: r)) with (Rmax x (rmax (y :: r))).
  split.
  - unfold Rmax. destruct (Rle_dec x (rmax (y :: r))); [right; exact I|left; reflexivity].
  - constructor; [apply Rmax_l|]. eapply Forall_impl; [|exact F]. cbv beta. intros a Ha.
    apply Rle_trans with (rmax (y :: r)); [exact Ha|apply Rmax_r].
Qed.

Lemma rprim_exact : exact (fun _ => 1) rprim.
Proof. constructor; try reflexivity; [exact rmax_greatest|exact rsort_sorts]. Qed.
End Instance.

(** ** A real model: the numbers of the integer one *)
Definition rmatrix_tensor (M : list (list R)) (r c : nat) : tensor R :=
  packed F32 c r 1 1 (fun i j _ _ => nth i (nth j M []) 0%R).
Definition rvector_tensor (v : list R) (c : nat) : tensor R :=
  packed F32 c 1 1 1 (fun i _ _ _ => nth i v 0%R).
Definition reals : list Z -> list R := map IZR.
Definition table : list (list Z) -> list (list R) := map reals.

Definition real_sb : s_block R :=
  mksb (table (sq_w demo_sb)) (reals (sq_b demo_sb)) (table (sk_w demo_sb)) (reals (sk_b demo_sb))
    (table (sv_w demo_sb)) (reals (sv_b demo_sb)) (table (sff_w demo_sb)) (reals (sff_b demo_sb))
    (reals (sln_ff_w demo_sb)) (reals (sln_ff_b demo_sb))
    (table (si_w demo_sb)) (reals (si_b demo_sb)) (table (so_w demo_sb)) (reals (so_b demo_sb))
    (reals (sln_out_w demo_sb)) (reals (sln_out_b demo_sb)).
Definition real_block : block R :=
  mkblock R (rmatrix_tensor (sq_w real_sb) 2 2) (rvector_tensor (sq_b real_sb) 2)
    (rmatrix_tensor (sk_w real_sb) 2 2) (rvector_tensor (sk_b real_sb) 2)
    (rmatrix_tensor (sv_w real_sb) 2 2) (rvector_tensor (sv_b real_sb) 2)
    (rmatrix_tensor (sff_w real_sb) 2 2) (rvector_tensor (sff_b real_sb) 2)
    (rvector_tensor (sln_ff_w real_sb) 2) (rvector_tensor (sln_ff_b real_sb) 2)
    (rmatrix_tensor (si_w real_sb) 3 2) (rvector_tensor (si_b real_sb) 3)
    (rmatrix_tensor (so_w real_sb) 2 3) (rvector_tensor (so_b real_sb) 2)
    (rvector_tensor (sln_out_w real_sb) 2) (rvector_tensor (sln_out_b real_sb) 2).
Definition real_sm : s_model R :=
  mksm (table (sm_words demo_sm)) (table (sm_positions demo_sm)) (table (sm_segments demo_sm))
    (reals (sm_lw demo_sm)) (reals (sm_lb demo_sm)) [real_sb] (table (sm_pw demo_sm)) (reals (sm_pb demo_sm)).
Definition real_sl : s_lm_head R :=
  mksl (table (sl_dw demo_sl)) (reals (sl_db demo_sl)) (reals (sl_lw demo_sl)) (reals (sl_lb demo_sl))
    (table (sl_cw demo_sl)) (reals (sl_cb demo_sl)).
Definition real_head : head R :=
  mkhead R (rmatrix_tensor (sl_dw real_sl) 2 2) (rvector_tensor (sl_db real_sl) 2)
    (rvector_tensor (sl_lw real_sl) 2) (rvector_tensor (sl_lb real_sl) 2)
    (rmatrix_tensor (sl_cw real_sl) 3 2) (rvector_tensor (sl_cb real_sl) 3).
Definition tensors (s : s_model R) : weights R :=
  mkweights R (rmatrix_tensor (sm_words s) 3 2) (rmatrix_tensor (sm_segments s) 2 2)
    (rmatrix_tensor (sm_positions s) 4 2) (rvector_tensor (sm_lw s) 2) (rvector_tensor (sm_lb s) 2)
    [real_block] (rmatrix_tensor (sm_pw s) 2 2) (rvector_tensor (sm_pb s) 2) (Some real_head).
Definition real_demo : emodel R := mkem R Bert demo_hp (tensors real_sm) 3.
Definition real_rdemo : emodel R := mkem R (Roberta 1) demo_hp (tensors real_sm) 3.

Lemma rmatrix_tensor_is M r c : length M = r -> Forall (fun x => length x = c) M -> 0 < c ->
  is_matrix rprim (rmatrix_tensor M r c) r c M.
Proof.
  intros H1 H2 H3. repeat split; try assumption. unfold transposed, rmatrix_tensor. cbn.
  apply Nat.leb_gt. lia.
Qed.
Lemma rvector_tensor_is v c : length v = c -> is_vector rprim (rvector_tensor v c) c v.
Proof. intros H. repeat split; assumption. Qed.

Ltac rshapes := first [apply rmatrix_tensor_is; [reflexivity|repeat constructor|cbn; lia] | apply rvector_tensor_is; reflexivity].

Lemma real_weights_are : weights_are rprim demo_hp 3 4 (tensors real_sm) real_sm.
Proof. constructor; try (rshapes; fail); [|reflexivity]. constructor; [|constructor]. constructor; rshapes. Qed.

Lemma rprim_rows : row_ops_ok rprim.
Proof. exact (exact_rows _ _ rprim_exact). Qed.

Lemma real_sound : sound rprim real_demo 3 4 real_sm.
Proof. constructor; try exact real_weights_are; try exact rprim_rows; cbn; try reflexivity; try lia; exact I. Qed.
Lemma real_rsound : sound rprim real_rdemo 3 4 real_sm.
Proof. constructor; try exact real_weights_are; try exact rprim_rows; cbn; try reflexivity; lia. Qed.

Lemma real_runnable p : p <> PoolOther ->
  runnable rprim lib64 real_demo 3 4 real_sm [0;2;1]%N [0;0;1]%N (ask (-1) p) 1.
Proof.
  intros Hp. constructor.
  - exact real_sound.
  - constructor; cbn; try lia; [repeat constructor; lia|exact Hp].
  - cbn; lia.
  - exact (names_backward 1 1 (le_n 1) (le_n 1)).
  - destruct p; vm_compute; reflexivity.
  - destruct p; cbn; lia.
Qed.

Lemma real_rrunnable p : p <> PoolOther ->
  runnable rprim lib64 real_rdemo 3 4 real_sm [0;1;2]%N [0;1;0]%N (ask (-1) p) 1.
Proof.
  intros Hp. constructor.
  - exact real_rsound.
  - constructor; cbn; try lia; [repeat constructor; lia|exact Hp].
  - cbn; lia.
  - exact (names_backward 1 1 (le_n 1) (le_n 1)).
  - destruct p; vm_compute; reflexivity.
  - destruct p; cbn; lia.
Qed.

Lemma real_lm : lm_sound rprim real_demo real_sl (fun x => x).
Proof.
  constructor; try exact rprim_rows; try (cbn; lia); [|reflexivity].
  exists real_head. split; [reflexivity|]. constructor; rshapes.
Qed.
Lemma real_lm_runnable : lm_runnable lib64 real_demo 2.
Proof. constructor; [lia|reflexivity|vm_compute; reflexivity|cbn; lia]. Qed.

(** * C146: the head writes probabilities *)

Lemma head_rows eps P e act sh (x : matrix R) t : exact eps P -> t < length x -> 0 < length (sl_cw sh) -> length (sl_cb sh) = length (sl_cw sh) ->
  distribution (nth t (s_lm P e act (sl_dw sh) (sl_db sh) (sl_lw sh) (sl_lb sh) (sl_cw sh) (sl_cb sh) x) []).
Proof.
  intros EX Ht Hw Hb. unfold s_lm.
  set (y := s_layer_norm P e (sl_lw sh) (sl_lb sh) (map (map act) (s_dense P (sl_dw sh) (sl_db sh) x))).
  assert (Ly : length y = length x) by (unfold y, s_layer_norm, s_dense; rewrite !map_length; reflexivity).
  unfold s_dense. rewrite map_map.
  rewrite (nth_map_lt _ y t [] []) by lia. rewrite (ex_soft _ _ EX). apply softmax_distribution.
  intros E. apply (f_equal (@length R)) in E. rewrite zip_length, map_length, Hb in E. cbn in E. lia.
Qed.

Lemma lm_rows_are eps P L m sh act hidden n t : exact eps P ->
  lm_sound P m sh act -> lm_runnable L m n -> t < n ->
  distribution (nth t (s_lm P (ln_eps (em_hp m)) act (sl_dw sh) (sl_db sh) (sl_lw sh) (sl_lb sh) (sl_cw sh) (sl_cb sh)
                        (s_cut (hidden_dim (em_hp m)) n hidden)) []).
Proof.
  intros EX Hs Hr Ht. destruct (ls_head _ _ _ _ Hs) as (hd & _ & HH).
  destruct (h_cw _ _ _ _ _ HH) as (_ & _ & _ & _ & LC & _). destruct (h_cb _ _ _ _ _ HH) as (_ & _ & _ & _ & _ & LB & _).
  pose proof (ls_words _ _ _ _ Hs).
  apply (head_rows eps); [exact EX|unfold s_cut; rewrite map_length, seq_length; exact Ht|lia|congruence].
Qed.

(** All probabilities: every input token gets a distribution over the vocabulary. *)
Theorem C146_all_probabilities : forall eps (P : prim R) L m sh act hidden n c cnt ids_cells prob_cells,
  exact eps P -> lm_sound P m sh act -> lm_runnable L m n ->
  n * hidden_dim (em_hp m) <= length hidden -> (top_k c <= 0)%Z ->
  let words := em_vocab_count m in
  n * words <= N.to_nat cnt -> n * words <= length ids_cells -> n * words <= length prob_cells ->
  exists r rows rest, berts_eval_lm P L (ELoaded m) hidden (n * hidden_dim (em_hp m)) (Some c)
      (Some ids_cells) (Some prob_cells) (Some cnt) = Ok r /\ l_ok r = true /\
    l_probs r = Some (concat rows ++ rest) /\ length rows = n /\
    Forall (fun row => length row = words /\ distribution row) rows.
Proof.
  intros eps P L m sh act hidden n c cnt ic pc EX Hs Hr HL Hk words Hc HI HP.
  assert (Hso : sorts Rle (p_zero P) (p_argsort P)) by (rewrite (ex_zero _ _ EX); exact (ex_sort _ _ EX)).
  destruct (C54_all_written Rle P L m sh act hidden n c cnt ic pc Hs Hr Hso HL Hk Hc HI HP) as (ids & E & LR & LI & HB).
  eexists _, _, _. split; [exact E|]. split; [reflexivity|]. split; [reflexivity|]. split; [exact LR|].
  apply Forall_forall. intros row Hin. apply (In_nth _ _ []) in Hin as (t & Ht & <-). rewrite LR in Ht.
  split; [exact (proj1 (HB t Ht))|]. apply (lm_rows_are eps P L); assumption.
Qed.
Print Assumptions C146_all_probabilities.

(** The best k: positive, descending, at least their share, at most 1 together, and 1 when
    they are the whole vocabulary. *)
Theorem C146_best_probabilities : forall eps (P : prim R) L m sh act hidden n c cnt ids_cells prob_cells,
  exact eps P -> lm_sound P m sh act -> lm_runnable L m n ->
  n * hidden_dim (em_hp m) <= length hidden ->
  (1 <= top_k c <= Z.of_nat (em_vocab_count m))%Z ->
  let k := Z.to_nat (top_k c) in
  n * k <= length ids_cells -> n * k <= length prob_cells ->
  exists r ps rest, berts_eval_lm P L (ELoaded m) hidden (n * hidden_dim (em_hp m)) (Some c)
      (Some ids_cells) (Some prob_cells) (Some cnt) = Ok r /\ l_ok r = true /\
    l_probs r = Some (concat ps ++ rest) /\ length ps = n /\
    Forall (fun p => length p = k /\ Forall (fun x => 0 < x <= 1)%R p /\
      (forall i j, i < j -> j < k -> (nth j p 0 <= nth i p 0)%R) /\
      (INR k / INR (em_vocab_count m) <= rsum p <= 1)%R /\
      (k = em_vocab_count m -> rsum p = 1%R)) ps.
Proof.
  intros eps P L m sh act hidden n c cnt ic pc EX Hs Hr HL Hk k HI HP.
  assert (Hso : sorts Rle (p_zero P) (p_argsort P)) by (rewrite (ex_zero _ _ EX); exact (ex_sort _ _ EX)).
  destruct (C52_top_k Rle P L m sh act hidden n c cnt ic pc Hs Hr Hso HL Hk HI HP) as (ids & ps & E & LR & LI & LP & HB).
  eexists _, _, _. split; [exact E|]. split; [reflexivity|]. split; [reflexivity|]. split; [exact LP|].
  apply Forall_forall. intros p Hin. apply (In_nth _ _ []) in Hin as (t & Ht & <-). rewrite LP in Ht.
  specialize (HB t Ht). rewrite (ex_zero _ _ EX) in HB.
  set (row := nth t (s_lm _ _ _ _ _ _ _ _ _ _) []) in HB.
  assert (D : distribution row) by (apply (lm_rows_are eps P L); assumption).
  assert (LW : length row = em_vocab_count m).
  { destruct (lm_run P L m sh act (firstn (n * hidden_dim (em_hp m)) hidden) n Hs Hr) as (prob & _ & _ & LR' & FR).
    { rewrite firstn_length. lia. }
    assert (ER : lm_probs P (ln_eps (em_hp m)) act sh (hidden_dim (em_hp m)) n (firstn (n * hidden_dim (em_hp m)) hidden)
               = s_lm P (ln_eps (em_hp m)) act (sl_dw sh) (sl_db sh) (sl_lw sh) (sl_lb sh) (sl_cw sh) (sl_cb sh) (s_cut (hidden_dim (em_hp m)) n hidden)).
    { unfold lm_probs. f_equal. unfold s_cut. apply map_ext_in. intros j Hj. apply in_seq in Hj.
      rewrite skipn_firstn_comm, firstn_firstn. f_equal. nia. }
    rewrite ER in LR', FR. unfold row. apply (Forall_nth_lt (fun r => length r = em_vocab_count m)); [exact FR|rewrite LR'; exact Ht]. }
  destruct (best_sum k row _ _ D HB) as (A & B & C). rewrite LW in B, C.
  split; [rewrite (best_probs _ _ _ _ _ _ HB), map_length; exact (best_length _ _ _ _ _ _ HB)|].
  split; [exact A|]. split; [exact (best_order _ _ _ _ _ _ HB)|]. split; [exact B|exact C].
Qed.
Print Assumptions C146_best_probabilities.

Example C146_example :
  (exists eps, exact eps rprim) /\ (exists act, lm_sound rprim real_demo real_sl act) /\ lm_runnable lib64 real_demo 2 /\
  exists r ps rest, berts_eval_lm rprim lib64 (ELoaded real_demo) [1;2;3;4]%R 4 (Some (mkli 2)) (Some [0;0;0;0])
      (Some [0;0;0;0]%R) (Some 4%N) = Ok r /\ l_probs r = Some (concat ps ++ rest) /\
    Forall (fun p => length p = 2 /\ (2 / 3 <= rsum p <= 1)%R) ps.
Proof.
  split; [eexists; exact rprim_exact|]. split; [eexists; exact real_lm|]. split; [exact real_lm_runnable|].
  destruct (C146_best_probabilities _ rprim lib64 real_demo real_sl _ [1;2;3;4]%R 2 (mkli 2) 4 [0;0;0;0] [0;0;0;0]%R
    rprim_exact real_lm real_lm_runnable) as (r & ps & rest & E & _ & Ep & LP & F); [cbn; lia|cbn; lia|cbn; lia|cbn; lia|].
  exists r, ps, rest. split; [exact E|]. split; [exact Ep|].
  eapply Forall_impl; [|exact F]. cbv beta. intros p (A & _ & _ & B & _). split; [exact A|].
  change (em_vocab_count real_demo) with 3 in B. change (Z.to_nat (top_k (mkli 2))) with 2 in B. cbn [INR] in B. lra.
Qed.

(** * C147: the lines of the mask filling tool *)
Theorem C147_printed_probabilities : forall eps (P : prim R) L ji jt jv load exe path k_str prompt z
    (m : opened (V := R)) words rows s sh act ids pos,
  exact eps P ->
  reads k_str z -> is_int z -> (1 <= z)%Z -> load path = Ok (Some m) -> (Z.to_N z <= m_count (op_api m))%N -> tokens32 ji ->
  prepared P L m words rows s prompt ids pos -> ready Rle P L m sh act (length ids) ->
  exists ls, fill_mask P L ji jt jv load [exe; path; k_str; prompt] = Ok (0%N, ls) /\
    length ls = Z.to_nat z /\ Forall (fun l => 0 < li_score l <= 1)%R ls /\
    (forall i j a b, i < j -> nth_error ls i = Some a -> nth_error ls j = Some b -> (li_score b <= li_score a)%R) /\
    (INR (Z.to_nat z) / INR (N.to_nat (m_count (op_api m))) <= rsum (map li_score ls) <= 1)%R /\
    (Z.to_N z = m_count (op_api m) -> rsum (map li_score ls) = 1%R).
Proof.
  intros eps P L ji jt jv load exe path k_str prompt z m words rows s sh act ids pos EX Hz Hi H1 Hl Hc Hj Hp Hr.
  destruct (C109_most_probable R Rle P L ji jt jv load exe path k_str prompt z m words rows s sh act ids pos Hz Hi H1 Hl Hc Hj Hp Hr)
    as (ls & E & PR).
  exists ls. split; [exact E|]. destruct (pr_best _ _ _ _ _ _ PR) as (is & EI & HB). rewrite (ex_zero _ _ EX) in HB.
  assert (Hpos : pos < length ids). { destruct (rd_mask _ _ _ _ _ _ _ _ _ Hp) as (Hm & _). apply nth_error_Some. congruence. }
  pose proof (rd_lm _ _ _ _ _ _ _ Hr) as HL. pose proof (rd_lm_run _ _ _ _ _ _ _ Hr) as HR.
  set (a := answer P (op_eval m) s PoolNone (n_layers (em_hp (op_eval m))) ids (repeat 0%N (length ids))) in *.
  set (row := mask_row P (op_eval m) s sh act ids pos) in *.
  assert (D : distribution row).
  { unfold row, mask_row, lm_probs. apply (lm_rows_are eps P L); assumption. }
  assert (LW : length row = em_vocab_count (op_eval m)).
  { destruct (lm_run P L (op_eval m) sh act a (length ids) HL HR) as (prob & _ & _ & LR & FR).
    { unfold a. pose proof (rd_run _ _ _ _ _ _ _ _ _ Hp) as Hrun.
      destruct (runs P L (op_eval m) words rows s ids None (length ids) (mkei (-1) PoolNone) (n_layers (em_hp (op_eval m))) [] 0%N) as (LA & _).
      - split; [lia|exact I].
      - exact (rd_small _ _ _ _ _ _ _ _ _ Hp).
      - rewrite firstn_all. exact Hrun.
      - rewrite firstn_all. exact (rd_known _ _ _ _ _ _ _ _ _ Hp).
      - rewrite firstn_all. exact (rd_rows _ _ _ _ _ _ _ _ _ Hp).
      - cbn [N.to_nat Nat.min length]. lia.
      - rewrite firstn_all in LA. cbn [pool_type values given_segments] in LA. symmetry. exact LA. }
    unfold row, mask_row. fold a. apply (Forall_nth_lt (fun r => length r = em_vocab_count (op_eval m))); [exact FR|].
    unfold lm_probs in LR |- *. rewrite LR. exact Hpos. }
  destruct (best_sum _ row _ _ D HB) as (A & B & C). rewrite LW in B, C.
  pose proof (rd_count _ _ _ _ _ _ _ _ _ Hp) as HC.
  split.
  { pose proof (best_length _ _ _ _ _ _ HB) as BL. apply (f_equal (@length N)) in EI. rewrite !map_length in EI. lia. }
  assert (LL : length ls = Z.to_nat z).
  { pose proof (best_length _ _ _ _ _ _ HB) as BL. apply (f_equal (@length N)) in EI. rewrite !map_length in EI. lia. }
  split; [apply Forall_map in A; exact A|]. split.
  { intros i j x y Hij Hx Hy.
    assert (Hjl : j < length ls) by (apply nth_error_Some; congruence).
    pose proof (best_order _ _ _ _ _ _ HB i j Hij ltac:(lia)) as O.
    rewrite (nth_error_nth (map li_score ls) i 0%R (x := li_score x)) in O by (rewrite nth_error_map, Hx; reflexivity).
    rewrite (nth_error_nth (map li_score ls) j 0%R (x := li_score y)) in O by (rewrite nth_error_map, Hy; reflexivity). exact O. }
  rewrite HC, Nat2N.id. split; [exact B|]. intros Hall. apply C. lia.
Qed.
Print Assumptions C147_printed_probabilities.

(** a model that knows one text *)
Definition real_api : api_model :=
  mkam 0 1 INVALID 2 INVALID INVALID INVALID (fun id => Ok [65 + id]%N) (fun _ => Ok 0%N) 3 (fun _ => Ok [1%N]).
Example C147_example :
  prepared rprim lib64 (mkopened real_api real_demo) 3 4 real_sm (u "cold") [0;1;2]%N 1 /\
  ready Rle rprim lib64 (mkopened real_api real_demo) real_sl (fun x => x) 3 /\
  exists ls, fill_mask rprim lib64 (fun _ => 0%N) (fun _ => 0) (fun _ => 0%R) (fun _ => Ok (Some (mkopened real_api real_demo)))
    [u "fill_mask"; u "m"; u "3"; u "cold"] = Ok (0%N, ls) /\ length ls = 3 /\ rsum (map li_score ls) = 1%R.
Proof.
  assert (HP : prepared rprim lib64 (mkopened real_api real_demo) 3 4 real_sm (u "cold") [0;1;2]%N 1).
  { constructor; cbn; try reflexivity; try (intros Hx; discriminate Hx); try lia.
    - split; [reflexivity|]. intros [|[|[|i]]] Hi; cbn in Hi; try discriminate; [reflexivity|destruct i; discriminate].
    - repeat constructor; lia.
    - constructor.
      + exact real_sound.
      + constructor; cbn; try lia; [repeat constructor; lia|discriminate].
      + cbn; lia.
      + exact (names_backward 1 1 (le_n 1) (le_n 1)).
      + vm_compute; reflexivity.
      + cbn; lia.
    - repeat constructor; lia. }
  assert (HR : ready Rle rprim lib64 (mkopened real_api real_demo) real_sl (fun x => x) 3).
  { constructor; [exact real_lm| |exact rsort_sorts|].
    - constructor; [lia|reflexivity|vm_compute; reflexivity|cbn; lia].
    - intros id _. eexists. split; [reflexivity|cbn; lia]. }
  split; [exact HP|]. split; [exact HR|].
  destruct (C147_printed_probabilities (fun _ => 1%R) rprim lib64 (fun _ => 0%N) (fun _ => 0) (fun _ => 0%R)
    (fun _ => Ok (Some (mkopened real_api real_demo))) (u "fill_mask") (u "m") (u "3") (u "cold") 3
    (mkopened real_api real_demo) 3 4 real_sm real_sl (fun x => x) [0;1;2]%N 1 rprim_exact) as (ls & E & LL & _ & _ & _ & S).
  - exists [], [], Z.of_N, [51%N], 3%N, []. split; [reflexivity|]. split; [constructor|]. split; [constructor|].
    split; [|split; [exact I|reflexivity]]. apply (digits_one 3). lia.
  - unfold is_int; lia.
  - lia.
  - reflexivity.
  - cbn; lia.
  - intros i. lia.
  - exact HP.
  - exact HR.
  - exists ls. split; [exact E|]. split; [exact LL|]. apply S. reflexivity.
Qed.

(** * C148: pooled results *)
Theorem C148_pooled_inside : forall eps (P : prim R) L m words rows s toks segs count c last cells,
  exact eps P -> pool_type c <> PoolNone ->
  arrays_ok toks segs count -> Forall (fun t => (t < 4294967296)%N) toks ->
  runnable P L m words rows s (firstn count toks) (given_segments segs count) c last ->
  known_tokens words (firstn count toks) -> enough_rows (em_kind m) rows (firstn count toks) ->
  length cells = hidden_dim (em_hp m) ->
  exists out, berts_eval P L (ELoaded m) toks segs count (Some c) (Some cells) (Some (N.of_nat (length cells))) =
      Ok (mkev true (Some out) (Some (N.of_nat (hidden_dim (em_hp m))))) /\
    length out = hidden_dim (em_hp m) /\ Forall (fun x => -1 < x < 1)%R out.
Proof.
  intros eps P L m words rows s toks segs count c last cells EX HP Ha Hu Hr Hk He HL.
  assert (HV : values (em_hp m) (pool_type c) count = hidden_dim (em_hp m)) by (unfold values; destruct (pool_type c); congruence).
  destruct (runs P L m words rows s toks segs count c last cells (N.of_nat (length cells)) Ha Hu Hr Hk He) as (LA & E).
  { rewrite Nat2N.id. apply Nat.le_min_l. }
  cbv zeta in LA, E. rewrite HV in LA, E. rewrite Nat2N.id, HL, Nat.min_id in E.
  rewrite firstn_all2, skipn_all2, app_nil_r in E by lia. rewrite HL.
  eexists. split; [exact E|]. split; [exact LA|].
  assert (G : forall x, Forall (fun x => -1 < x < 1)%R (concat (map (map (p_tanh P)) x))).
  { intros x. induction x as [|r x IH]; [constructor|]. cbn [map concat]. apply Forall_app. split; [|exact IH].
    apply Forall_map, Forall_forall. intros v _. rewrite (ex_tanh _ _ EX). apply tanh_inside. }
  unfold answer, s_output. destruct (pool_type c); try apply G. congruence.
Qed.
Print Assumptions C148_pooled_inside.

Lemma real_known : known_tokens 3 [0;2;1]%N.
Proof. repeat constructor; lia. Qed.
Lemma real_enough : enough_rows (em_kind real_demo) 4 [0;2;1]%N.
Proof. cbn; lia. Qed.
Lemma tokens_small3 a b c : (a < 3)%N -> (b < 3)%N -> (c < 3)%N -> Forall (fun t => (t < 4294967296)%N) [a; b; c].
Proof. intros. repeat constructor; lia. Qed.

Example C148_example :
  exists out, berts_eval rprim lib64 (ELoaded real_demo) [0;2;1]%N (Some [0;0;1]%N) 3 (Some (ask (-1) PoolAvg))
      (Some [9;9]%R) (Some 2%N) = Ok (mkev true (Some out) (Some 2%N)) /\
    length out = 2 /\ Forall (fun x => -1 < x < 1)%R out.
Proof.
  apply (C148_pooled_inside _ rprim lib64 real_demo 3 4 real_sm [0;2;1]%N (Some [0;0;1]%N) 3 (ask (-1) PoolAvg) 1 [9;9]%R rprim_exact).
  - discriminate.
  - exact demo_arrays.
  - apply tokens_small3; lia.
  - apply real_runnable. discriminate.
  - exact real_known.
  - exact real_enough.
  - reflexivity.
Qed.

(** * C149: the size of unpooled results *)
Lemma table_row (M : list (list R)) n h i : length M = n -> Forall (fun r => length r = h) M -> length (nth i M []) <= h.
Proof.
  intros Ln F. destruct (Nat.lt_ge_cases i (length M)) as [H|H].
  - rewrite (Forall_nth_lt (fun r => length r = h) M i [] F H). lia.
  - rewrite nth_overflow by exact H. cbn. lia.
Qed.

Lemma states_normed (P : prim R) m words rows s last tokens segments pos :
  sound P m words rows s -> last <= n_layers (em_hp m) ->
  length pos = length tokens -> length segments = length tokens ->
  Forall (fun r => exists v, length v <= hidden_dim (em_hp m) /\
            r = norm_row P (ln_eps (em_hp m)) (fst (final_norm s last)) (snd (final_norm s last)) v)
    (hidden_states P m s last tokens segments pos).
Proof.
  intros Hs Hl Hp Hg. pose proof (s_weights _ _ _ _ _ Hs) as HW. unfold hidden_states, s_encode.
  rewrite s_embed_rows by (rewrite !map_length; assumption).
  destruct last as [|k].
  - cbn [firstn fold_left final_norm fst snd]. apply Forall_map, Forall_forall. intros (p & (t & g)) _.
    unfold embed_row. cbn [fst snd]. eexists. split; [|reflexivity]. rewrite !zip_length.
    destruct (w_segs _ _ _ _ _ _ HW) as (_ & _ & _ & _ & LS & FS & _).
    pose proof (table_row _ _ _ (Z.to_nat g) LS FS). lia.
  - pose proof (w_layers _ _ _ _ _ _ HW) as HB. pose proof (w_count _ _ _ _ _ _ HW) as HC.
    assert (LB : length (sm_blocks s) = n_layers (em_hp m)) by (rewrite <- HC; clear - HB; induction HB; cbn; congruence).
    destruct (nth_error (sm_blocks s) k) as [y|] eqn:Ey; [|apply nth_error_None in Ey; lia].
    assert (EF : firstn (S k) (sm_blocks s) = firstn k (sm_blocks s) ++ [y]).
    { clear - Ey. revert k Ey. induction (sm_blocks s) as [|b l IH]; intros [|k] Ey; try discriminate.
      - injection Ey as ->. reflexivity.
      - cbn [nth_error] in Ey. cbn [firstn app]. f_equal. apply IH, Ey. }
    rewrite EF, fold_left_app. cbn [fold_left final_norm]. rewrite Ey. cbn [fst snd].
    rewrite s_layer_rows. apply Forall_map, Forall_forall. intros r _.
    unfold layer_row, finish_row. eexists. split; [|reflexivity]. rewrite zip_length. unfold dense_row at 2. rewrite zip_length.
    assert (exists yb, block_is P (hidden_dim (em_hp m)) (intermediate_dim (em_hp m)) yb y) as (yb & Hy).
    { clear - HB Ey. revert k Ey. induction HB as [|yb s0 ys ss H HB IH]; intros [|k] Ey; try discriminate.
      - injection Ey as <-. exists yb. exact H.
      - exact (IH k Ey). }
    destruct (b_ob _ _ _ _ _ Hy) as (_ & _ & _ & _ & _ & LO & _). lia.
Qed.

Theorem C149_states_bounded : forall eps (P : prim R) L m words rows s toks segs count c last cells,
  exact eps P -> (0 < eps (ln_eps (em_hp m)))%R -> pool_type c = PoolNone ->
  arrays_ok toks segs count -> Forall (fun t => (t < 4294967296)%N) toks ->
  runnable P L m words rows s (firstn count toks) (given_segments segs count) c last ->
  known_tokens words (firstn count toks) -> enough_rows (em_kind m) rows (firstn count toks) ->
  length cells = count * hidden_dim (em_hp m) ->
  let h := hidden_dim (em_hp m) in
  let '(scale, shift) := final_norm s last in
  exists out, berts_eval P L (ELoaded m) toks segs count (Some c) (Some cells) (Some (N.of_nat (length cells))) =
      Ok (mkev true (Some out) (Some (N.of_nat (count * h)))) /\
    length out = count * h /\ length scale = h /\ length shift = h /\
    forall t i, t < count -> i < h ->
      (Rabs (nth (t * h + i) out 0) <= Rabs (nth i scale 0) * sqrt (INR h) + Rabs (nth i shift 0))%R.
Proof.
  intros eps P L m words rows s toks segs count c last cells EX Hep HP Ha Hu Hr Hk He HL h.
  destruct (final_norm s last) as (scale, shift) eqn:EN.
  destruct (runs P L m words rows s toks segs count c last cells (N.of_nat (length cells)) Ha Hu Hr Hk He) as (LA & E).
  { rewrite Nat2N.id. apply Nat.le_min_l. }
  cbv zeta in LA, E. rewrite HP in LA, E. unfold values in LA, E. fold h in LA, E, HL.
  rewrite Nat2N.id, HL, Nat.min_id in E. rewrite firstn_all2, skipn_all2, app_nil_r in E by lia. rewrite HL.
  pose proof (r_sound _ _ _ _ _ _ _ _ _ _ Hr) as Hs. pose proof (r_valid _ _ _ _ _ _ _ _ _ _ Hr) as Hv.
  pose proof (s_weights _ _ _ _ _ Hs) as HW.
  assert (LT : length (firstn count toks) = count) by (rewrite firstn_length; destruct Ha; lia).
  assert (Hu' : Forall (fun t => (t < 4294967296)%N) (firstn count toks)).
  { apply Forall_forall. intros t Ht. rewrite Forall_forall in Hu. apply Hu. eapply firstn_in, Ht. }
  assert (Hlast : last <= n_layers (em_hp m)).
  { destruct (r_layer _ _ _ _ _ _ _ _ _ _ Hr); lia. }
  exists (answer P m s PoolNone last (firstn count toks) (given_segments segs count)).
  split; [exact E|]. split; [exact LA|].
  assert (LN : length scale = h /\ length shift = h).
  { unfold final_norm in EN. destruct last as [|k].
    - injection EN as <- <-. destruct (w_lw _ _ _ _ _ _ HW) as (_ & _ & _ & _ & _ & A & _).
      destruct (w_lb _ _ _ _ _ _ HW) as (_ & _ & _ & _ & _ & B & _). split; assumption.
    - pose proof (w_layers _ _ _ _ _ _ HW) as HB. pose proof (w_count _ _ _ _ _ _ HW) as HC.
      assert (LB : length (sm_blocks s) = n_layers (em_hp m)) by (rewrite <- HC; clear - HB; induction HB; cbn; congruence).
      destruct (nth_error (sm_blocks s) k) as [y|] eqn:Ey; [|apply nth_error_None in Ey; lia]. injection EN as <- <-.
      assert (exists yb, block_is P (hidden_dim (em_hp m)) (intermediate_dim (em_hp m)) yb y) as (yb & Hy).
      { clear - HB Ey. revert k Ey. induction HB as [|yb s0 ys ss H HB IH]; intros [|k] Ey; try discriminate.
        - injection Ey as <-. exists yb. exact H.
        - exact (IH k Ey). }
      destruct (b_low _ _ _ _ _ Hy) as (_ & _ & _ & _ & _ & A & _).
      destruct (b_lob _ _ _ _ _ Hy) as (_ & _ & _ & _ & _ & B & _). split; assumption. }
  split; [exact (proj1 LN)|]. split; [exact (proj2 LN)|]. intros t i Ht Hi.
  destruct (states_shape P m words rows s _ _ c last Hs Hv (r_some _ _ _ _ _ _ _ _ _ _ Hr) Hlast Hu' Hk He) as (SL & SF).
  unfold answer, s_output.
  set (X := hidden_states P m s last (firstn count toks) (given_segments segs count) (position_ids (em_kind m) (firstn count toks))) in *.
  assert (EN' : nth (t * h + i) (concat X) 0%R = nth i (nth t X []) 0%R).
  { assert (HT : t < length X) by lia. clear - SF HT Hi. fold h in SF. revert t HT.
    induction SF as [|r X Hr SF IH]; intros t HT; [cbn in HT; lia|]. cbn [concat]. destruct t as [|t].
    - cbn [Nat.mul Nat.add nth]. rewrite app_nth1 by lia. reflexivity.
    - rewrite app_nth2 by nia. cbn [nth]. rewrite <- IH by (cbn in HT; lia). f_equal. nia. }
  rewrite EN'.
  assert (FX := states_normed P m words rows s last (firstn count toks) (given_segments segs count)
    (position_ids (em_kind m) (firstn count toks)) Hs Hlast).
  fold X in FX. rewrite EN in FX. cbn [fst snd] in FX.
  assert (LPos : length (position_ids (em_kind m) (firstn count toks)) = length (firstn count toks)).
  { unfold position_ids. destruct (em_kind m); rewrite map_length, seq_length; reflexivity. }
  specialize (FX LPos (v_segments _ _ _ _ Hv)).
  assert (HX : t < length X) by lia.
  destruct (Forall_nth_lt _ X t [] FX HX) as (v & Lv & ->).
  eapply Rle_trans; [apply (norm_row_bounded eps P EX); exact Hep|].
  apply Rplus_le_compat_r, Rmult_le_compat_l; [apply Rabs_pos|].
  apply sqrt_le_1_alt, le_INR, Lv.
Qed.
Print Assumptions C149_states_bounded.

Example C149_example :
  final_norm real_sm 1 = (reals [1;1]%Z, reals [0;0]%Z) /\
  exists out, berts_eval rprim lib64 (ELoaded real_demo) [0;2;1]%N (Some [0;0;1]%N) 3 (Some (ask (-1) PoolNone))
      (Some [9;9;9;9;9;9]%R) (Some 6%N) = Ok (mkev true (Some out) (Some 6%N)) /\
    length out = 6 /\ (Rabs (nth 3 out 0) <= sqrt 2)%R.
Proof.
  split; [reflexivity|].
  destruct (C149_states_bounded _ rprim lib64 real_demo 3 4 real_sm [0;2;1]%N (Some [0;0;1]%N) 3 (ask (-1) PoolNone) 1 [9;9;9;9;9;9]%R
    rprim_exact Rlt_0_1 eq_refl demo_arrays) as (out & E & LO & _ & _ & B).
  - apply tokens_small3; lia.
  - apply real_runnable. discriminate.
  - exact real_known.
  - exact real_enough.
  - reflexivity.
  - exists out. split; [exact E|]. split; [exact LO|].
    specialize (B 1 1 ltac:(lia) ltac:(cbn; lia)). change (1 * hidden_dim (em_hp real_demo) + 1) with 3 in B.
    change (nth 1 (sln_out_w real_sb) 0%R) with 1%R in B. change (nth 1 (sln_out_b real_sb) 0%R) with 0%R in B.
    change (INR (hidden_dim (em_hp real_demo))) with (1 + 1)%R in B. rewrite Rabs_R0, Rabs_R1 in B.
    replace 2%R with (1 + 1)%R by lra. lra.
Qed.

(** * C150: RoBERTa does not see where padding stands *)
Lemma tokens_of_pairs (tokens segments : list N) : length segments = length tokens -> map fst (combine tokens segments) = tokens.
Proof.
  revert segments. induction tokens as [|t tokens IH]; intros [|g segments] H; try discriminate; [reflexivity|].
  cbn. f_equal. apply IH. cbn in H. lia.
Qed.
Lemma segments_of_pairs (tokens segments : list N) : length segments = length tokens -> map snd (combine tokens segments) = segments.
Proof.
  revert segments. induction tokens as [|t tokens IH]; intros [|g segments] H; try discriminate; [reflexivity|].
  cbn. f_equal. apply IH. cbn in H. lia.
Qed.

Lemma ordinary_count pad tokens segments : length segments = length tokens ->
  ordinary pad tokens (length tokens) = length (filter (ordinary_pair pad) (combine tokens segments)).
Proof.
  intros H. unfold ordinary. rewrite firstn_all2 by lia. rewrite <- (tokens_of_pairs tokens segments H) at 1.
  generalize (combine tokens segments). intros l. induction l as [|(t, g) l IH]; [reflexivity|].
  cbn [map fst filter]. change (ordinary_pair pad (t, g)) with (negb (t =? pad)%N).
  destruct (negb (t =? pad)%N); cbn [length]; rewrite IH; reflexivity.
Qed.

Lemma alike_request {V} (P : prim V) L m words rows s pad c last tokens segments tokens' segments' :
  em_kind m = Roberta pad -> runnable P L m words rows s tokens segments c last ->
  known_tokens words tokens -> enough_rows (em_kind m) rows tokens -> Forall (fun t => (t < 4294967296)%N) tokens ->
  length segments' = length tokens' -> padded_alike pad (combine tokens segments) (combine tokens' segments') ->
  length tokens' = length tokens /\
  runnable P L m words rows s tokens' segments' c last /\ known_tokens words tokens' /\
  enough_rows (em_kind m) rows tokens' /\ Forall (fun t => (t < 4294967296)%N) tokens'.
Proof.
  intros Hm Hr Hk He Hu HL (HF & HP). pose proof (r_valid _ _ _ _ _ _ _ _ _ _ Hr) as Hv.
  pose proof (v_segments _ _ _ _ Hv) as HS.
  assert (LT : length tokens' = length tokens).
  { apply Permutation_length in HP. rewrite !combine_length in HP. lia. }
  assert (PT : Permutation tokens tokens').
  { rewrite <- (tokens_of_pairs tokens segments HS), <- (tokens_of_pairs tokens' segments' HL). apply Permutation_map, HP. }
  assert (PS : Permutation segments segments').
  { rewrite <- (segments_of_pairs tokens segments HS), <- (segments_of_pairs tokens' segments' HL). apply Permutation_map, HP. }
  split; [exact LT|]. split; [|split; [|split]].
  - constructor.
    + exact (r_sound _ _ _ _ _ _ _ _ _ _ Hr).
    + constructor.
      * rewrite LT. exact (v_tokens _ _ _ _ Hv).
      * exact HL.
      * exact (Permutation_Forall PS (v_range _ _ _ _ Hv)).
      * exact (v_pool _ _ _ _ Hv).
      * exact (v_layer _ _ _ _ Hv).
    + rewrite LT. exact (r_some _ _ _ _ _ _ _ _ _ _ Hr).
    + exact (r_layer _ _ _ _ _ _ _ _ _ _ Hr).
    + rewrite LT. exact (r_fits _ _ _ _ _ _ _ _ _ _ Hr).
    + exact (r_nodes _ _ _ _ _ _ _ _ _ _ Hr).
  - exact (Permutation_Forall PT Hk).
  - rewrite Hm in He |- *. cbn [enough_rows] in *. destruct He as (H0 & H1). split; [exact H0|].
    intros (t & Ht & Hne). rewrite (ordinary_count pad tokens' segments' HL), <- HF, <- (ordinary_count pad tokens segments HS).
    apply H1. exists t. split; [|exact Hne]. exact (Permutation_in _ (Permutation_sym PT) Ht).
  - exact (Permutation_Forall PT Hu).
Qed.

(** The states of both requests are one function of the placed tokens. *)
Lemma states_alike eps (P : prim R) m s pad last tokens segments tokens' segments' : exact eps P -> em_kind m = Roberta pad ->
  length segments = length tokens -> length segments' = length tokens' ->
  padded_alike pad (combine tokens segments) (combine tokens' segments') ->
  exists g, hidden_states P m s last tokens segments (position_ids (em_kind m) tokens) = map g (placed pad 0 (combine tokens segments)) /\
            hidden_states P m s last tokens' segments' (position_ids (em_kind m) tokens') = map g (placed pad 0 (combine tokens' segments')).
Proof.
  intros EX Hm H1 H2 HA. unfold hidden_states, s_encode. rewrite Hm.
  assert (LP : forall l, length (position_ids (Roberta pad) l) = length l).
  { intros l. unfold position_ids. rewrite map_length, seq_length. reflexivity. }
  rewrite !s_embed_rows by (rewrite !map_length, ?LP; congruence). rewrite !roberta_placed by assumption.
  destruct (layers_perm eps P EX (ln_eps (em_hp m)) (attn_heads (em_hp m)) (hidden_dim (em_hp m) / attn_heads (em_hp m))
    (firstn last (sm_blocks s)) (embed_row P (ln_eps (em_hp m)) s) _ _ (placed_perm pad _ _ HA)) as (g & A & B).
  exists g. split; [exact A|exact B].
Qed.

Lemma map_nth_in {A B} (g : A -> B) l i d d' : i < length l -> nth i (map g l) d = g (nth i l d').
Proof. intros H. apply nth_map_lt. exact H. Qed.

Theorem C150_padding_anywhere : forall eps (P : prim R) L m words rows s pad c last tokens segments tokens' segments' cells,
  exact eps P -> em_kind m = Roberta pad ->
  runnable P L m words rows s tokens segments c last ->
  known_tokens words tokens -> enough_rows (em_kind m) rows tokens -> Forall (fun t => (t < 4294967296)%N) tokens ->
  length segments' = length tokens' -> padded_alike pad (combine tokens segments) (combine tokens' segments') ->
  length cells = values (em_hp m) (pool_type c) (length tokens) ->
  let ask tokens segments := berts_eval P L (ELoaded m) tokens (Some segments) (length tokens) (Some c)
                               (Some cells) (Some (N.of_nat (length cells))) in
  exists out out',
    ask tokens segments = Ok (mkev true (Some out) (Some (N.of_nat (length cells)))) /\
    ask tokens' segments' = Ok (mkev true (Some out') (Some (N.of_nat (length cells)))) /\
    length out = length cells /\ length out' = length cells /\
    match pool_type c with
    | PoolAvg | PoolMax => out' = out
    | PoolCls => nth 0 tokens 0%N = nth 0 tokens' 0%N -> nth 0 segments 0%N = nth 0 segments' 0%N -> out' = out
    | _ => exists rows rows', out = concat rows /\ out' = concat rows' /\
             length rows = length tokens /\ length rows' = length tokens /\
             Forall (fun r => length r = hidden_dim (em_hp m)) (rows ++ rows') /\
             forall i j, i < length tokens -> j < length tokens ->
               nth i tokens 0%N = nth j tokens' 0%N -> nth i segments 0%N = nth j segments' 0%N ->
               (nth i tokens 0%N = pad \/ ordinary pad tokens i = ordinary pad tokens' j) ->
               nth i rows [] = nth j rows' []
    end.
Proof.
  intros eps P L m words rows s pad c last tokens segments tokens' segments' cells EX Hm Hr Hk He Hu HL HA HC ask.
  destruct (alike_request P L m words rows s pad c last tokens segments tokens' segments' Hm Hr Hk He Hu HL HA)
    as (LT & Hr' & Hk' & He' & Hu').
  pose proof (r_valid _ _ _ _ _ _ _ _ _ _ Hr) as Hv. pose proof (v_segments _ _ _ _ Hv) as HS.
  pose proof (r_valid _ _ _ _ _ _ _ _ _ _ Hr') as Hv'.
  pose proof (r_some _ _ _ _ _ _ _ _ _ _ Hr) as Hn.
  pose proof (r_sound _ _ _ _ _ _ _ _ _ _ Hr) as Hs.
  assert (Hlast : last <= n_layers (em_hp m)).
  { destruct (r_layer _ _ _ _ _ _ _ _ _ _ Hr); lia. }
  assert (RUN : forall ts sg, length sg = length ts -> length ts = length tokens -> runnable P L m words rows s ts sg c last -> known_tokens words ts ->
     enough_rows (em_kind m) rows ts -> Forall (fun t => (t < 4294967296)%N) ts ->
     ask ts sg = Ok (mkev true (Some (answer P m s (pool_type c) last ts sg)) (Some (N.of_nat (length cells)))) /\
     length (answer P m s (pool_type c) last ts sg) = length cells).
  { intros ts sg H1 H2 H3 H4 H5 H6. unfold ask.
    destruct (runs P L m words rows s ts (Some sg) (length ts) c last cells (N.of_nat (length cells))) as (LA & E).
    - split; [lia|lia].
    - exact H6.
    - cbn [given_segments]. rewrite (firstn_all2 sg) by lia. rewrite firstn_all. exact H3.
    - rewrite firstn_all. exact H4.
    - rewrite firstn_all. exact H5.
    - rewrite Nat2N.id. apply Nat.le_min_l.
    - cbv zeta in LA, E. cbn [given_segments] in LA, E. rewrite (firstn_all2 sg) in LA, E by lia. rewrite firstn_all in LA, E.
      rewrite Nat2N.id, H2, HC, Nat.min_id in E. rewrite <- H2 in E at 1. rewrite H2 in LA.
      rewrite (firstn_all2 (answer P m s (pool_type c) last ts sg)), skipn_all2, app_nil_r in E by lia.
      rewrite HC. split; [exact E|exact LA]. }
  exists (answer P m s (pool_type c) last tokens segments), (answer P m s (pool_type c) last tokens' segments').
  split; [apply RUN; auto|]. split; [apply RUN; auto|]. split; [apply RUN; auto|]. split; [apply RUN; auto|].
  unfold answer.
  destruct (states_shape P m words rows s _ _ c last Hs Hv Hn Hlast Hu Hk He) as (SL & SF).
  destruct (states_shape P m words rows s _ _ c last Hs Hv' ltac:(lia) Hlast Hu' Hk' He') as (SL' & SF').
  destruct (states_alike eps P m s pad last tokens segments tokens' segments' EX Hm HS HL HA) as (g & E1 & E2).
  rewrite E1 in *. rewrite E2 in *. clear E1 E2.
  pose proof (placed_perm pad _ _ HA) as PP.
  set (A := placed pad 0 (combine tokens segments)) in *. set (B := placed pad 0 (combine tokens' segments')) in *.
  rewrite map_length in SL, SL'.
  assert (N0 : forall l : list (Z * (Z * Z)), length l = length tokens -> Forall (fun r => length r = hidden_dim (em_hp m)) (map g l) ->
     length (nth 0 (map g l) []) = hidden_dim (em_hp m)).
  { intros l Hl F. apply (Forall_nth_lt (fun r => length r = hidden_dim (em_hp m))); [exact F|rewrite map_length; lia]. }
  assert (CP : forall c0, Permutation (column P (map g A) c0) (column P (map g B) c0)).
  { intros c0. unfold column. apply Permutation_map, Permutation_map, PP. }
  assert (CN : forall c0, column P (map g A) c0 <> []).
  { intros c0 E. apply (f_equal (@length R)) in E. unfold column in E. rewrite !map_length in E. cbn in E. lia. }
  pose proof (v_pool _ _ _ _ Hv) as HPO.
  destruct (pool_type c); cbn [s_output s_pooled].
  - exists (map g A), (map g B). split; [reflexivity|]. split; [reflexivity|]. rewrite !map_length.
    split; [exact SL|]. split; [lia|]. split; [apply Forall_app; split; assumption|].
    intros i j Hi Hj Ht Hg Ho.
    rewrite (map_nth_in g A i [] (0%Z, (0%Z, 0%Z))) by lia. rewrite (map_nth_in g B j [] (0%Z, (0%Z, 0%Z))) by lia. f_equal.
    unfold A, B. rewrite !placed_nth by (assumption || lia). rewrite Ht in *. rewrite Hg.
    destruct Ho as [Ho|Ho]; [rewrite Ho, N.eqb_refl; reflexivity|]. rewrite Ho. reflexivity.
  - intros Ht Hg. do 3 f_equal. f_equal.
    rewrite (map_nth_in g A 0 [] (0%Z, (0%Z, 0%Z))) by lia. rewrite (map_nth_in g B 0 [] (0%Z, (0%Z, 0%Z))) by lia. f_equal.
    unfold A, B. rewrite !placed_nth by (assumption || lia). rewrite Ht, Hg.
    assert (O : ordinary pad tokens 0 = ordinary pad tokens' 0); [|rewrite O; reflexivity].
    destruct tokens as [|t tokens]; [cbn in Hn; lia|]. destruct tokens' as [|t' tokens']; [cbn in LT; lia|].
    rewrite !ordinary_first. cbn [nth] in Ht. rewrite Ht. reflexivity.
  - do 4 f_equal. rewrite (N0 A SL SF), (N0 B ltac:(lia) SF'). apply map_ext. intros c0. symmetry. apply (avg_perm eps P EX), CP.
  - do 4 f_equal. rewrite (N0 A SL SF), (N0 B ltac:(lia) SF'). apply map_ext. intros c0. symmetry. apply (max_perm eps P EX); [apply CN|apply CP].
  - elim HPO. reflexivity.
Qed.
Print Assumptions C150_padding_anywhere.

(** padding (word 1) before instead of between the two ordinary tokens *)
Example C150_example :
  padded_alike 1 (combine [0;1;2]%N [0;1;0]%N) (combine [1;0;2]%N [1;0;0]%N) /\
  exists out, berts_eval rprim lib64 (ELoaded real_rdemo) [0;1;2]%N (Some [0;1;0]%N) 3 (Some (ask (-1) PoolMax))
                (Some [9;9]%R) (Some 2%N) = Ok (mkev true (Some out) (Some 2%N)) /\
              berts_eval rprim lib64 (ELoaded real_rdemo) [1;0;2]%N (Some [1;0;0]%N) 3 (Some (ask (-1) PoolMax))
                (Some [9;9]%R) (Some 2%N) = Ok (mkev true (Some out) (Some 2%N)).
Proof.
  assert (HA : padded_alike 1 (combine [0;1;2]%N [0;1;0]%N) (combine [1;0;2]%N [1;0;0]%N)).
  { split; [reflexivity|]. apply perm_swap. }
  split; [exact HA|].
  assert (HR := real_rrunnable PoolMax ltac:(discriminate)).
  assert (HK : known_tokens 3 [0;1;2]%N) by (repeat constructor; lia).
  assert (HE : enough_rows (em_kind real_rdemo) 4 [0;1;2]%N) by (split; [lia|intros _; cbn; lia]).
  assert (HS : Forall (fun t => (t < 4294967296)%N) [0;1;2]%N) by (apply tokens_small3; lia).
  destruct (C150_padding_anywhere _ rprim lib64 real_rdemo 3 4 real_sm 1 (ask (-1) PoolMax) 1
    [0;1;2]%N [0;1;0]%N [1;0;2]%N [1;0;0]%N [9;9]%R rprim_exact eq_refl HR HK HE HS eq_refl HA eq_refl) as (out & out' & E1 & E2 & _ & _ & E).
  cbn [pool_type ask] in E. subst out'. exists out. split; [exact E1|exact E2].
Qed.

(** * C151: but padding is not ignored *)
Section Ignored.
Local Open Scope R_scope.

Definition pad_sm : s_model R :=
  mksm [[3/4; -(3/4)]; [0;0]; [0;0]] [[0;0];[0;0];[0;0];[0;0]] [[0;0];[0;0]] [1;1] [0;0] [real_sb] [[1;0];[0;1]] [0;0].
Definition pad_model : emodel R := mkem R (Roberta 1) demo_hp (tensors pad_sm) 3.

Lemma pad_weights_are : weights_are rprim demo_hp 3 4 (tensors pad_sm) pad_sm.
Proof. constructor; try (rshapes; fail); [|reflexivity]. constructor; [|constructor]. constructor; rshapes. Qed.
Lemma pad_sound : sound rprim pad_model 3 4 pad_sm.
Proof. constructor; try exact pad_weights_are; try exact rprim_rows; cbn; try reflexivity; lia. Qed.

Lemma pad_runnable tokens segments : (1 <= length tokens <= 4)%nat -> length segments = length tokens ->
  Forall (fun s => (s < 2)%N) segments ->
  runnable rprim lib64 pad_model 3 4 pad_sm tokens segments (P_Eval.ask 0 PoolAvg) 0.
Proof.
  intros H1 H2 H3. constructor.
  - exact pad_sound.
  - constructor; cbn; try lia; [exact H3|discriminate].
  - lia.
  - exact (names_forward 1 0 (Nat.le_0_l 1)).
  - destruct tokens as [|a [|b [|x [|y [|z l]]]]]; cbn [length] in H1; try lia; vm_compute; reflexivity.
  - cbn; lia.
Qed.

Definition th (x : R) : R := (exp x - exp (- x)) / (exp x + exp (- x)).
Lemma th_injective x y : th x = th y -> x = y.
Proof.
  unfold th. rewrite !exp_Ropp. intros H. apply exp_inv.
  pose proof (exp_pos x) as X. pose proof (exp_pos y) as Y. set (a := exp x) in *. set (b := exp y) in *.
  pose proof (Rinv_0_lt_compat a X). pose proof (Rinv_0_lt_compat b Y).
  assert (E : (a - / a) * (b + / b) = (b - / b) * (a + / a)).
  { apply (f_equal (fun v => v * ((a + / a) * (b + / b)))) in H. unfold Rdiv in H.
    replace ((a - / a) * / (a + / a) * ((a + / a) * (b + / b))) with ((a - / a) * (b + / b) * (/ (a + / a) * (a + / a))) in H by ring.
    replace ((b - / b) * / (b + / b) * ((a + / a) * (b + / b))) with ((b - / b) * (a + / a) * (/ (b + / b) * (b + / b))) in H by ring.
    rewrite !Rinv_l in H by lra. lra. }
  assert (E2 : a * / b = b * / a) by lra.
  apply (f_equal (fun v => v * (a * b))) in E2.
  replace (a * / b * (a * b)) with (a * a * (/ b * b)) in E2 by ring.
  replace (b * / a * (a * b)) with (b * b * (/ a * a)) in E2 by ring.
  rewrite !Rinv_l in E2 by lra.
  assert ((a - b) * (a + b) = 0) as Z by lra. apply Rmult_integral in Z. lra.
Qed.

Lemma norm_two a b q : 0 <= q -> q * q = (a - (a + b) / 2) * (a - (a + b) / 2) + 1 ->
  map (fun x => (x - mean [a; b]) / sqrt (variance [a; b] + 1)) [a; b] = [(a - (a + b) / 2) / q; (b - (a + b) / 2) / q].
Proof.
  intros Hq E. assert (M : mean [a; b] = (a + b) / 2).
  { unfold mean, rsum. cbn [fold_right length INR]. lra. }
  assert (V : variance [a; b] + 1 = q * q).
  { rewrite E. unfold variance. rewrite M. unfold mean, rsum. cbn [map fold_right length INR]. lra. }
  rewrite V, sqrt_square by exact Hq. cbn [map]. rewrite M. reflexivity.
Qed.

Lemma row_word p : (0 <= p < 4)%Z -> embed_row rprim (ln_eps demo_hp) pad_sm (p, (0%Z, 0%Z)) = [3/5; -(3/5)].
Proof.
  intros Hp. unfold embed_row, norm_row. cbn [fst snd].
  assert (E : nth (Z.to_nat p) (sm_positions pad_sm) [] = [0; 0]).
  { assert (p = 0 \/ p = 1 \/ p = 2 \/ p = 3)%Z as [->|[->|[->| ->]]] by lia; reflexivity. }
  rewrite E. change (nth (Z.to_nat 0) (sm_segments pad_sm) []) with [0; 0]. change (nth (Z.to_nat 0) (sm_words pad_sm) []) with [3/4; -(3/4)].
  change (sm_lw pad_sm) with [1; 1]. change (sm_lb pad_sm) with [0; 0].
  unfold zip_with. cbn [combine map fst snd]. cbn [rprim p_norm p_add p_mul].
  rewrite (norm_two (0 + (0 + 3/4)) (0 + (0 + -(3/4))) (5/4)) by lra.
  cbn [combine map fst snd]. f_equal; [lra|]. f_equal. lra.
Qed.

Lemma row_padding p : (0 <= p < 4)%Z -> embed_row rprim (ln_eps demo_hp) pad_sm (p, (1%Z, 0%Z)) = [0; 0].
Proof.
  intros Hp. unfold embed_row, norm_row. cbn [fst snd].
  assert (E : nth (Z.to_nat p) (sm_positions pad_sm) [] = [0; 0]).
  { assert (p = 0 \/ p = 1 \/ p = 2 \/ p = 3)%Z as [->|[->|[->| ->]]] by lia; reflexivity. }
  rewrite E. change (nth (Z.to_nat 0) (sm_segments pad_sm) []) with [0; 0]. change (nth (Z.to_nat 1) (sm_words pad_sm) []) with [0; 0].
  change (sm_lw pad_sm) with [1; 1]. change (sm_lb pad_sm) with [0; 0].
  unfold zip_with. cbn [combine map fst snd]. cbn [rprim p_norm p_add p_mul].
  rewrite (norm_two (0 + (0 + 0)) (0 + (0 + 0)) 1) by lra.
  cbn [combine map fst snd]. f_equal; [lra|]. f_equal. lra.
Qed.

Lemma pad_answer tokens segments X a b : length segments = length tokens ->
  map (embed_row rprim (ln_eps demo_hp) pad_sm) (placed 1 0 (combine tokens segments)) = X ->
  map (fun c => mean (column rprim X c)) (seq 0 (length (nth 0 X []))) = [a; b] ->
  answer rprim pad_model pad_sm PoolAvg 0 tokens segments = [th a; th b].
Proof.
  intros HL HX HM. unfold answer, hidden_states, s_encode. cbn [firstn fold_left em_kind pad_model].
  rewrite s_embed_rows; [|unfold position_ids; rewrite !map_length, seq_length; reflexivity|rewrite !map_length; exact HL].
  rewrite roberta_placed by exact HL. change (em_hp pad_model) with demo_hp. rewrite HX.
  unfold s_output, s_pooled. change (p_avg rprim) with mean. rewrite HM.
  cbn [pad_sm sm_pw sm_pb]. unfold s_dense. cbn [map concat app]. cbn [rprim p_dot p_add]. unfold zip_with, rsum.
  cbn [combine map fst snd fold_right p_tanh]. cbn [app].
  change (p_tanh rprim) with th. f_equal; [f_equal; lra|]. f_equal. f_equal. lra.
Qed.
End Ignored.

(** Appending one padding token changes the average-pooled result. *)
Theorem C151_padding_ignored_refuted :
  exists eps (P : prim R) L m pad words rows s tokens segments c last out out',
    exact eps P /\ em_kind m = Roberta pad /\
    runnable P L m words rows s tokens segments c last /\
    runnable P L m words rows s (tokens ++ [pad]) (segments ++ [0%N]) c last /\
    berts_eval P L (ELoaded m) tokens (Some segments) (length tokens) (Some c) (Some [0;0]%R) (Some 2%N) =
      Ok (mkev true (Some out) (Some 2%N)) /\
    berts_eval P L (ELoaded m) (tokens ++ [pad]) (Some (segments ++ [0%N])) (length tokens + 1) (Some c) (Some [0;0]%R) (Some 2%N) =
      Ok (mkev true (Some out') (Some 2%N)) /\
    out <> out'.
Proof.
  exists (fun _ => 1%R), rprim, lib64, pad_model, 1%N, 3, 4, pad_sm, [0%N], [0%N], (ask 0 PoolAvg), 0,
    [th (3/5); th (-(3/5))], [th (3/10); th (-(3/10))].
  assert (R1 : runnable rprim lib64 pad_model 3 4 pad_sm [0%N] [0%N] (ask 0 PoolAvg) 0)
    by (apply pad_runnable; cbn; try lia; repeat constructor; lia).
  assert (R2 : runnable rprim lib64 pad_model 3 4 pad_sm [0;1]%N [0;0]%N (ask 0 PoolAvg) 0)
    by (apply pad_runnable; cbn; try lia; repeat constructor; lia).
  assert (A1 : answer rprim pad_model pad_sm PoolAvg 0 [0%N] [0%N] = [th (3/5); th (-(3/5))]).
  { apply (pad_answer [0%N] [0%N] [[3/5; -(3/5)]%R]); [reflexivity| |].
    - change (placed 1 0 (combine [0%N] [0%N])) with [(2%Z, (0%Z, 0%Z))]. cbn [map]. rewrite row_word by lia. reflexivity.
    - cbn [nth length seq map column]. unfold mean, rsum. cbn [fold_right length INR]. f_equal; [lra|]. f_equal. lra. }
  assert (A2 : answer rprim pad_model pad_sm PoolAvg 0 [0;1]%N [0;0]%N = [th (3/10); th (-(3/10))]).
  { apply (pad_answer [0;1]%N [0;0]%N [[3/5; -(3/5)]; [0; 0]]%R); [reflexivity| |].
    - change (placed 1 0 (combine [0;1]%N [0;0]%N)) with [(2%Z, (0%Z, 0%Z)); (0%Z, (1%Z, 0%Z))]. cbn [map].
      rewrite row_word by lia. rewrite row_padding by lia. reflexivity.
    - cbn [nth length seq map column]. unfold mean, rsum. cbn [fold_right length INR]. f_equal; [lra|]. f_equal. lra. }
  split; [exact rprim_exact|]. split; [reflexivity|]. split; [exact R1|]. split; [exact R2|]. split; [|split].
  - destruct (runs rprim lib64 pad_model 3 4 pad_sm [0%N] (Some [0%N]) 1 (ask 0 PoolAvg) 0 [0;0]%R 2%N) as (LA & E).
    + split; cbn; lia.
    + repeat constructor; lia.
    + exact R1.
    + repeat constructor; lia.
    + split; [lia|intros _; cbn; lia].
    + cbn; lia.
    + cbv zeta in LA, E. change (firstn 1 [0%N]) with [0%N] in E. change (given_segments (Some [0%N]) 1) with [0%N] in E.
      change (pool_type (ask 0 PoolAvg)) with PoolAvg in E. rewrite A1 in E. exact E.
  - destruct (runs rprim lib64 pad_model 3 4 pad_sm [0;1]%N (Some [0;0]%N) 2 (ask 0 PoolAvg) 0 [0;0]%R 2%N) as (LA & E).
    + split; cbn; lia.
    + repeat constructor; lia.
    + exact R2.
    + repeat constructor; lia.
    + split; [lia|intros _; cbn; lia].
    + cbn; lia.
    + cbv zeta in LA, E. change (firstn 2 [0;1]%N) with [0;1]%N in E. change (given_segments (Some [0;0]%N) 2) with [0;0]%N in E.
      change (pool_type (ask 0 PoolAvg)) with PoolAvg in E. rewrite A2 in E. exact E.
  - intros E. injection E as E _. apply th_injective in E. lra.
Qed.
Print Assumptions C151_padding_ignored_refuted.
