(** Theorems about berts_eval and berts_eval_lm. *)
From Coq Require Import Permutation Sorted.
From Verif Require Import Base Ggml_model Encoder_model Encoder_spec Encoder_proofs Eval_model Eval_spec Eval_proofs.

(** ** A small model for the examples: words 0..2, hidden size 2, one layer, integers
    for numbers *)
Definition matrix_tensor (M : list (list Z)) (r c : nat) : tensor Z :=
  packed F32 c r 1 1 (fun i j _ _ => nth i (nth j M []) 0%Z).
Definition vector_tensor (v : list Z) (c : nat) : tensor Z :=
  packed F32 c 1 1 1 (fun i _ _ _ => nth i v 0%Z).

(** ids by decreasing value *)
Fixpoint place (r : list Z) (i : nat) (l : list nat) : list nat :=
  match l with
  | [] => [i]
  | j :: l' => if (nth j r 0 <=? nth i r 0)%Z then i :: j :: l' else j :: place r i l'
  end.
Definition by_value (r : list Z) : list nat := fold_right (place r) [] (seq 0 (length r)).

Definition zprim : prim Z :=
  mkprim Z 0%Z Z.add Z.mul (fun a b => fold_right Z.add 0%Z (zip_with Z.mul a b))
    (fun _ r => r) (fun r => r) (fun _ r => r) (fun x => x) (Z.max 0) (fun x => x) (fun x => x)
    (fold_right Z.add 0%Z) (fold_right Z.max 0%Z) by_value.

(** sizes of a 64-bit build *)
Definition lib64 : lib := mklib 368 32 16 81984 2048.

Definition demo_hp : hparams := mkhp 2 1 1 4 3 2 Gelu 4427486594234968593.
Definition demo_sb : s_block Z :=
  (mksb [[1;0];[0;1]] [0;0] [[1;0];[0;1]] [0;0] [[1;0];[0;1]] [0;0] [[1;0];[0;1]] [0;0] [1;1] [0;0]
    [[1;0];[0;1];[1;1]] [0;0;0] [[1;0;0];[0;1;0]] [0;0] [1;1] [0;0])%Z.
Definition demo_block : block Z :=
  mkblock Z (matrix_tensor (sq_w demo_sb) 2 2) (vector_tensor (sq_b demo_sb) 2)
    (matrix_tensor (sk_w demo_sb) 2 2) (vector_tensor (sk_b demo_sb) 2)
    (matrix_tensor (sv_w demo_sb) 2 2) (vector_tensor (sv_b demo_sb) 2)
    (matrix_tensor (sff_w demo_sb) 2 2) (vector_tensor (sff_b demo_sb) 2)
    (vector_tensor (sln_ff_w demo_sb) 2) (vector_tensor (sln_ff_b demo_sb) 2)
    (matrix_tensor (si_w demo_sb) 3 2) (vector_tensor (si_b demo_sb) 3)
    (matrix_tensor (so_w demo_sb) 2 3) (vector_tensor (so_b demo_sb) 2)
    (vector_tensor (sln_out_w demo_sb) 2) (vector_tensor (sln_out_b demo_sb) 2).
Definition demo_sm : s_model Z :=
  mksm [[1;2];[3;4];[5;6]]%Z [[10;0];[20;0];[30;0];[40;0]]%Z [[0;100];[0;200]]%Z [1;1]%Z [0;0]%Z
    [demo_sb] [[1;0];[0;1]]%Z [7;8]%Z.
Definition demo_sl : s_lm_head Z :=
  mksl [[1;0];[0;1]]%Z [0;0]%Z [1;1]%Z [0;0]%Z [[1;0];[0;1];[1;1]]%Z [0;0;0]%Z.
Definition demo_head : head Z :=
  mkhead Z (matrix_tensor (sl_dw demo_sl) 2 2) (vector_tensor (sl_db demo_sl) 2)
    (vector_tensor (sl_lw demo_sl) 2) (vector_tensor (sl_lb demo_sl) 2)
    (matrix_tensor (sl_cw demo_sl) 3 2) (vector_tensor (sl_cb demo_sl) 3).
Definition demo_weights : weights Z :=
  mkweights Z (matrix_tensor (sm_words demo_sm) 3 2) (matrix_tensor (sm_segments demo_sm) 2 2)
    (matrix_tensor (sm_positions demo_sm) 4 2) (vector_tensor (sm_lw demo_sm) 2) (vector_tensor (sm_lb demo_sm) 2)
    [demo_block] (matrix_tensor (sm_pw demo_sm) 2 2) (vector_tensor (sm_pb demo_sm) 2) (Some demo_head).
Definition demo : emodel Z := mkem Z Bert demo_hp demo_weights 3.
(** the same weights read as RoBERTa with padding id 1 *)
Definition rdemo : emodel Z := mkem Z (Roberta 1) demo_hp demo_weights 3.

Lemma matrix_tensor_is M r c : length M = r -> Forall (fun x => length x = c) M -> 0 < c ->
  is_matrix zprim (matrix_tensor M r c) r c M.
Proof.
  intros H1 H2 H3. repeat split; try assumption. unfold transposed, matrix_tensor. cbn.
  apply Nat.leb_gt. lia.
Qed.
Lemma vector_tensor_is v c : length v = c -> is_vector zprim (vector_tensor v c) c v.
Proof. intros H. repeat split; assumption. Qed.

Ltac shapes := first [apply matrix_tensor_is; [reflexivity|repeat constructor|cbn; lia] | apply vector_tensor_is; reflexivity].

Lemma demo_weights_are : weights_are zprim demo_hp 3 4 demo_weights demo_sm.
Proof. constructor; try (shapes; fail); [|reflexivity]. constructor; [|constructor]. constructor; shapes. Qed.

Lemma zprim_rows : row_ops_ok zprim.
Proof. constructor; reflexivity. Qed.

Lemma demo_sound : sound zprim demo 3 4 demo_sm.
Proof. constructor; try exact demo_weights_are; try exact zprim_rows; cbn; try reflexivity; try lia; exact I. Qed.
Lemma rdemo_sound : sound zprim rdemo 3 4 demo_sm.
Proof. constructor; try exact demo_weights_are; try exact zprim_rows; cbn; try reflexivity; lia. Qed.

Definition ask (l : Z) (p : pooling) : eval_info := mkei l p.

Lemma demo_valid : valid_request demo_hp [0;2;1]%N [0;0;1]%N (ask (-1) PoolNone).
Proof. constructor; cbn; try lia; [repeat constructor; lia|discriminate]. Qed.

Lemma demo_runnable p : p <> PoolOther ->
  runnable zprim lib64 demo 3 4 demo_sm [0;2;1]%N [0;0;1]%N (ask (-1) p) 1.
Proof.
  intros Hp. constructor.
  - exact demo_sound.
  - constructor; cbn; try lia; [repeat constructor; lia|exact Hp].
  - cbn; lia.
  - exact (names_backward 1 1 (le_n 1) (le_n 1)).
  - destruct p; vm_compute; reflexivity.
  - destruct p; cbn; lia.
Qed.

(** ** Validation *)

Lemma loaded {V} (P : prim V) L m toks segs count c out cnt :
  arrays_ok toks segs count ->
  berts_eval P L (ELoaded m) toks segs count (Some c) out (Some cnt) =
  eval P L m (firstn count toks) (given_segments segs count) c out cnt.
Proof.
  intros (H1 & H2). unfold berts_eval, given_segments.
  replace (length toks <? count) with false by (symmetry; apply Nat.ltb_ge; exact H1).
  destruct segs as [sg|]; [|reflexivity].
  replace (length sg <? count) with false by (symmetry; apply Nat.ltb_ge; exact H2). reflexivity.
Qed.

(** C41.  A request that breaks a rule is refused and writes no value. *)
Theorem C41_eval_rejects {V} (P : prim V) L m toks segs count c cells cnt :
  arrays_ok toks segs count ->
  output_layer c <> INT64_MIN ->
  ~ valid_request (em_hp m) (firstn count toks) (given_segments segs count) c ->
  exists cnt', berts_eval P L (ELoaded m) toks segs count (Some c) (Some cells) (Some cnt) =
               Ok (mkev false (Some cells) (Some cnt')).
Proof. intros Ha Hm Hv. rewrite loaded by exact Ha. apply eval_rejects; assumption. Qed.
Print Assumptions C41_eval_rejects.

Example C41_example_rejects :
  arrays_ok [0;1;2;0;1]%N None 5 /\
  ~ valid_request (em_hp demo) (firstn 5 [0;1;2;0;1]%N) (given_segments None 5) (ask 1 PoolCls) /\
  berts_eval zprim lib64 (ELoaded demo) [0;1;2;0;1]%N None 5 (Some (ask 1 PoolCls)) (Some [9;9]%Z) (Some 2%N) =
    Ok (mkev false (Some [9;9]%Z) (Some 2%N)) /\
  berts_eval zprim lib64 (ELoaded demo) [0]%N (Some [2]%N) 1 (Some (ask 1 PoolCls)) (Some [9;9]%Z) (Some 2%N) =
    Ok (mkev false (Some [9;9]%Z) (Some 2%N)) /\
  berts_eval zprim lib64 (ELoaded demo) [0]%N None 1 (Some (ask (-2) PoolCls)) (Some [9;9]%Z) (Some 5%N) =
    Ok (mkev false (Some [9;9]%Z) (Some 2%N)).
Proof.
  split; [split; [repeat constructor|exact I]|]. split; [|repeat split; vm_compute; reflexivity].
  intros H. pose proof (v_tokens _ _ _ _ H) as H'. cbn in H'. lia.
Qed.

(** Missing pointers are refused too. *)
Theorem C41_missing_arguments {V} (P : prim V) L ctx toks segs count c (out : option (list V)) cnt :
  (forall m, ctx <> ELoaded m) \/ c = None \/ cnt = None ->
  berts_eval P L ctx toks segs count c out cnt = Ok (mkev false out cnt).
Proof.
  intros H. unfold berts_eval. destruct ctx as [| |m]; try reflexivity.
  destruct c as [c|]; [|reflexivity]. destruct cnt as [n|]; [|reflexivity].
  destruct H as [H|[H|H]]; [elim (H m eq_refl)|discriminate|discriminate].
Qed.
Print Assumptions C41_missing_arguments.

(** Everything a request can ask for, and what it gets. *)
Lemma runs {V} (P : prim V) L m words rows s toks segs count c last cells cnt :
  arrays_ok toks segs count -> Forall (fun t => (t < 4294967296)%N) toks ->
  runnable P L m words rows s (firstn count toks) (given_segments segs count) c last ->
  known_tokens words (firstn count toks) -> enough_rows (em_kind m) rows (firstn count toks) ->
  let need := values (em_hp m) (pool_type c) count in
  let w := Nat.min (N.to_nat cnt) need in
  w <= length cells ->
  let a := answer P m s (pool_type c) last (firstn count toks) (given_segments segs count) in
  length a = need /\
  berts_eval P L (ELoaded m) toks segs count (Some c) (Some cells) (Some cnt) =
  Ok (mkev true (Some (firstn w a ++ skipn w cells)) (Some (N.of_nat need))).
Proof.
  intros Ha Hu Hr Hk He need w Hw a. rewrite loaded by exact Ha.
  assert (Hu' : Forall (fun t => (t < 4294967296)%N) (firstn count toks)).
  { apply Forall_forall. intros t Ht. rewrite Forall_forall in Hu. apply Hu. eapply firstn_in, Ht. }
  assert (LT : length (firstn count toks) = count) by (rewrite firstn_length; destruct Ha; lia).
  destruct (eval_outcome P L m words rows s _ _ c last cells cnt (r_sound _ _ _ _ _ _ _ _ _ _ Hr)
    (r_valid _ _ _ _ _ _ _ _ _ _ Hr) (r_some _ _ _ _ _ _ _ _ _ _ Hr) (r_layer _ _ _ _ _ _ _ _ _ _ Hr) Hu'
    (r_fits _ _ _ _ _ _ _ _ _ _ Hr)) as (E & EL).
  rewrite LT in E, EL.
  assert (LU := proj2 (request_lookups P m words rows s _ _ c (r_sound _ _ _ _ _ _ _ _ _ _ Hr)
    (r_valid _ _ _ _ _ _ _ _ _ _ Hr) (r_some _ _ _ _ _ _ _ _ _ _ Hr) Hu') (conj Hk He)).
  rewrite LU in E. specialize (EL LU). fold a in E, EL. fold need in E, EL.
  split; [exact EL|]. rewrite E.
  pose proof (r_nodes _ _ _ _ _ _ _ _ _ _ Hr) as HN.
  replace (graph_nodes L <? encoder_nodes (pool_type c) last) with false by (symmetry; apply Nat.ltb_ge; exact HN).
  replace (N.to_nat (N.min cnt (N.of_nat need))) with w by (unfold w; lia).
  unfold copy_n. rewrite EL.
  replace (need <? w) with false by (symmetry; apply Nat.ltb_ge; unfold w; lia).
  replace (length cells <? w) with false by (symmetry; apply Nat.ltb_ge; exact Hw). reflexivity.
Qed.

(** A request that keeps the rules succeeds (ids and positions existing). *)
Theorem C41_eval_accepts {V} (P : prim V) L m words rows s toks segs count c last cells cnt :
  arrays_ok toks segs count -> Forall (fun t => (t < 4294967296)%N) toks ->
  runnable P L m words rows s (firstn count toks) (given_segments segs count) c last ->
  known_tokens words (firstn count toks) -> enough_rows (em_kind m) rows (firstn count toks) ->
  N.to_nat cnt <= length cells ->
  exists r, berts_eval P L (ELoaded m) toks segs count (Some c) (Some cells) (Some cnt) = Ok r /\ e_ok r = true.
Proof.
  intros Ha Hu Hr Hk He Hc.
  destruct (runs P L m words rows s toks segs count c last cells cnt Ha Hu Hr Hk He ltac:(lia)) as (_ & ->).
  eexists. split; reflexivity.
Qed.
Print Assumptions C41_eval_accepts.

Lemma demo_known : known_tokens 3 [0;2;1]%N.
Proof. repeat constructor; lia. Qed.
Lemma demo_rows : enough_rows (em_kind demo) 4 [0;2;1]%N.
Proof. cbn; lia. Qed.
Lemma demo_arrays : arrays_ok [0;2;1]%N (Some [0;0;1]%N) 3.
Proof. split; repeat constructor. Qed.

Example C41_example_accepts :
  exists r, berts_eval zprim lib64 (ELoaded demo) [0;2;1]%N (Some [0;0;1]%N) 3 (Some (ask (-1) PoolAvg))
    (Some [0;0]%Z) (Some 2%N) = Ok r /\ e_ok r = true.
Proof.
  apply (C41_eval_accepts zprim lib64 demo 3 4 demo_sm [0;2;1]%N (Some [0;0;1]%N) 3 (ask (-1) PoolAvg) 1).
  - exact demo_arrays.
  - repeat constructor; lia.
  - exact (demo_runnable PoolAvg ltac:(discriminate)).
  - exact demo_known.
  - exact demo_rows.
  - cbn; lia.
Qed.

(** C87.  The one output layer no check covers: negating the least integer. *)
Theorem C87_least_layer_undefined {V} (P : prim V) L m toks segs count p cells cnt :
  arrays_ok toks segs count ->
  length (firstn count toks) <= max_tokens (em_hp m) ->
  length (given_segments segs count) = length (firstn count toks) ->
  Forall (fun s => (s < N.of_nat (segment_count (em_hp m)))%N) (given_segments segs count) ->
  p <> PoolOther ->
  berts_eval P L (ELoaded m) toks segs count (Some (mkei INT64_MIN p)) (Some cells) (Some cnt) = UB.
Proof.
  intros Ha H1 H2 H3 Hp. rewrite loaded by exact Ha. unfold eval.
  replace (max_tokens (em_hp m) <? length (firstn count toks)) with false by (symmetry; apply Nat.ltb_ge; exact H1).
  rewrite H2, Nat.eqb_refl. cbn [negb]. rewrite (proj2 (segments_checked _ _) H3).
  cbn [pool_type output_layer].
  destruct (needed (em_hp m) p (length (firstn count toks))) eqn:E; [reflexivity|].
  destruct p; try discriminate. congruence.
Qed.
Print Assumptions C87_least_layer_undefined.

(** The documented promise (every layer out of range is refused) fails there. *)
Theorem C87_every_layer_checked_refuted :
  exists (m : emodel Z) toks count l,
    arrays_ok toks None count /\ l <> 0%Z /\ (l < - Z.of_nat (n_layers (em_hp m)))%Z /\
    berts_eval zprim lib64 (ELoaded m) toks None count (Some (mkei l PoolCls)) (Some []) (Some 0%N) = UB.
Proof. exists demo, [0]%N, 1, INT64_MIN.
  split; [split; [repeat constructor|exact I]|]. split; [discriminate|]. split; vm_compute; reflexivity. Qed.
Print Assumptions C87_every_layer_checked_refuted.

(** ** C42.  Output layers *)
Theorem C42_same_layer {V} (P : prim V) L m toks segs count p out cnt k :
  (Z.of_nat (n_layers (em_hp m)) < 9223372036854775808)%Z ->
  1 <= k <= n_layers (em_hp m) ->
  berts_eval P L (ELoaded m) toks segs count (Some (mkei (- Z.of_nat k) p)) out cnt =
  berts_eval P L (ELoaded m) toks segs count
    (Some (mkei (Z.of_nat (n_layers (em_hp m)) + 1 - Z.of_nat k) p)) out cnt.
Proof.
  intros HN Hk.
  assert (R : resolve_layer (n_layers (em_hp m)) (- Z.of_nat k) =
              resolve_layer (n_layers (em_hp m)) (Z.of_nat (n_layers (em_hp m)) + 1 - Z.of_nat k)).
  { rewrite (names_resolve _ _ (n_layers (em_hp m) + 1 - k)) by (try exact HN; constructor; lia).
    rewrite (names_resolve _ _ (n_layers (em_hp m) + 1 - k)); [reflexivity| |exact HN].
    replace (Z.of_nat (n_layers (em_hp m)) + 1 - Z.of_nat k)%Z with (Z.of_nat (n_layers (em_hp m) + 1 - k)) by lia.
    constructor. lia. }
  assert (E : forall t s cnt, eval P L m t s (mkei (- Z.of_nat k) p) out cnt =
              eval P L m t s (mkei (Z.of_nat (n_layers (em_hp m)) + 1 - Z.of_nat k) p) out cnt).
  { intros t s n. unfold eval. cbn [output_layer pool_type]. rewrite R. reflexivity. }
  unfold berts_eval. destruct cnt as [n|]; [|reflexivity].
  destruct (length toks <? count); [reflexivity|].
  destruct segs as [sg|]; [destruct (length sg <? count); [reflexivity|]|]; apply E.
Qed.
Print Assumptions C42_same_layer.

(** A layer number names one layer, between 0 and n; negative numbers never the
    embedding. *)
Theorem C42_layer_unique n l a :
  names_layer n l a ->
  a <= n /\ ((l < 0)%Z -> 1 <= a) /\ ((0 <= l)%Z -> l = Z.of_nat a) /\
  (forall b, names_layer n l b -> b = a) /\
  ((Z.of_nat n < 9223372036854775808)%Z -> resolve_layer n l = Ok a).
Proof.
  intros H. split; [exact (names_bound _ _ _ H)|].
  split; [destruct H; lia|]. split; [destruct H; lia|]. split.
  - intros b Hb. destruct H as [k Hk|k H1 Hk].
    + remember (Z.of_nat k) as x eqn:Ex in Hb. destruct Hb; lia.
    + remember (- Z.of_nat k)%Z as x eqn:Ex in Hb. destruct Hb; lia.
  - exact (names_resolve n l a H).
Qed.
Print Assumptions C42_layer_unique.

Example C42_example : names_layer 24 (-24) 1 /\ names_layer 24 (-1) 24 /\ names_layer 24 0 0 /\
  resolve_layer 24 (-24) = Ok 1 /\ resolve_layer 24 24 = Ok 24.
Proof.
  split; [exact (names_backward 24 24 ltac:(lia) ltac:(lia))|].
  split; [exact (names_backward 24 1 ltac:(lia) ltac:(lia))|].
  split; [exact (names_forward 24 0 ltac:(lia))|]. split; reflexivity.
Qed.

(** ** C43.  The output buffer *)

(** Of a result of [values] numbers the first [cnt] (or all) are written, the rest of the
    buffer keeps its contents and the full number is reported. *)
Theorem C43_eval_writes {V} (P : prim V) L m words rows s toks segs count c last cells cnt :
  arrays_ok toks segs count -> Forall (fun t => (t < 4294967296)%N) toks ->
  runnable P L m words rows s (firstn count toks) (given_segments segs count) c last ->
  known_tokens words (firstn count toks) -> enough_rows (em_kind m) rows (firstn count toks) ->
  let need := values (em_hp m) (pool_type c) count in
  let w := Nat.min (N.to_nat cnt) need in
  w <= length cells ->
  let a := answer P m s (pool_type c) last (firstn count toks) (given_segments segs count) in
  length a = need /\
  berts_eval P L (ELoaded m) toks segs count (Some c) (Some cells) (Some cnt) =
  Ok (mkev true (Some (firstn w a ++ skipn w cells)) (Some (N.of_nat need))).
Proof. apply runs. Qed.
Print Assumptions C43_eval_writes.

(** A dry run of a valid request reports the same number and touches nothing else. *)
Theorem C43_dry_run {V} (P : prim V) L m toks segs count c cnt :
  arrays_ok toks segs count ->
  valid_request (em_hp m) (firstn count toks) (given_segments segs count) c ->
  (N.of_nat (max_tokens (em_hp m)) < 2147483648)%N -> (N.of_nat (hidden_dim (em_hp m)) < 4294967296)%N ->
  berts_eval P L (ELoaded m) toks segs count (Some c) None (Some cnt) =
  Ok (mkev true None (Some (N.of_nat (values (em_hp m) (pool_type c) count)))).
Proof.
  intros Ha Hv HM HH. rewrite loaded by exact Ha. unfold eval.
  assert (LT : length (firstn count toks) = count) by (rewrite firstn_length; destruct Ha; lia).
  pose proof (v_tokens _ _ _ _ Hv) as HT.
  replace (max_tokens (em_hp m) <? length (firstn count toks)) with false by (symmetry; apply Nat.ltb_ge; exact HT).
  rewrite (v_segments _ _ _ _ Hv), Nat.eqb_refl. cbn [negb].
  rewrite (proj2 (segments_checked _ _) (v_range _ _ _ _ Hv)), LT.
  rewrite needed_values; [reflexivity|exact (v_pool _ _ _ _ Hv)|lia|exact HH].
Qed.
Print Assumptions C43_dry_run.

(** Dry run, then a buffer of the reported size: the whole result. *)
Theorem C43_two_calls {V} (P : prim V) L m words rows s toks segs count c last cells cnt :
  arrays_ok toks segs count -> Forall (fun t => (t < 4294967296)%N) toks ->
  runnable P L m words rows s (firstn count toks) (given_segments segs count) c last ->
  known_tokens words (firstn count toks) -> enough_rows (em_kind m) rows (firstn count toks) ->
  exists n, berts_eval P L (ELoaded m) toks segs count (Some c) None (Some cnt) = Ok (mkev true None (Some n)) /\
    (length cells = N.to_nat n ->
     berts_eval P L (ELoaded m) toks segs count (Some c) (Some cells) (Some n) =
     Ok (mkev true (Some (answer P m s (pool_type c) last (firstn count toks) (given_segments segs count))) (Some n))).
Proof.
  intros Ha Hu Hr Hk He. pose proof (r_sound _ _ _ _ _ _ _ _ _ _ Hr) as Hs.
  exists (N.of_nat (values (em_hp m) (pool_type c) count)). split.
  - apply C43_dry_run; [exact Ha|exact (r_valid _ _ _ _ _ _ _ _ _ _ Hr)|exact (s_max _ _ _ _ _ Hs)|exact (s_dim _ _ _ _ _ Hs)].
  - intros HL. set (need := values (em_hp m) (pool_type c) count) in *.
    destruct (runs P L m words rows s toks segs count c last cells (N.of_nat need) Ha Hu Hr Hk He) as (LA & E).
    { fold need. lia. }
    rewrite E. fold need in LA |- *. rewrite Nat2N.id, Nat.min_id.
    rewrite <- LA at 1. rewrite firstn_all. rewrite skipn_all2 by lia. rewrite app_nil_r. reflexivity.
Qed.
Print Assumptions C43_two_calls.

Example C43_example :
  let req cells cnt := berts_eval zprim lib64 (ELoaded demo) [0;2;1]%N (Some [0;0;1]%N) 3
                         (Some (ask (-1) PoolNone)) cells (Some cnt) in
  runnable zprim lib64 demo 3 4 demo_sm (firstn 3 [0;2;1]%N) (given_segments (Some [0;0;1]%N) 3) (ask (-1) PoolNone) 1 /\
  req None 0%N = Ok (mkev true None (Some 6%N)) /\
  (let a := answer zprim demo demo_sm PoolNone 1 [0;2;1]%N [0;0;1]%N in
   length a = 6 /\ NoDup a /\
   req (Some [0;0;0;0;0;0]%Z) 6%N = Ok (mkev true (Some a) (Some 6%N)) /\
   req (Some [0;0;0;0;0;0]%Z) 2%N = Ok (mkev true (Some (firstn 2 a ++ [0;0;0;0]%Z)) (Some 6%N)) /\
   req (Some [0;0;0;0;0;0;-3]%Z) 7%N = Ok (mkev true (Some (a ++ [-3]%Z)) (Some 6%N))).
Proof.
  intros req. split; [exact (demo_runnable PoolNone ltac:(discriminate))|].
  split; [vm_compute; reflexivity|]. vm_compute.
  split; [reflexivity|]. split; [repeat constructor; simpl; intuition discriminate|]. repeat split.
Qed.

(** ** C44.  Dry runs do not look at the output layer *)
Theorem C44_dry_run_predicts_refuted :
  exists (m : emodel Z) toks count c n,
    arrays_ok toks None count /\
    berts_eval zprim lib64 (ELoaded m) toks None count (Some c) None (Some 0%N) = Ok (mkev true None (Some n)) /\
    berts_eval zprim lib64 (ELoaded m) toks None count (Some c) (Some (repeat 0%Z (N.to_nat n))) (Some n) =
      Ok (mkev false (Some (repeat 0%Z (N.to_nat n))) (Some n)).
Proof.
  exists demo, [0]%N, 1, (ask 2 PoolCls), 2%N.
  split; [split; [repeat constructor|exact I]|]. split; vm_compute; reflexivity.
Qed.
Print Assumptions C44_dry_run_predicts_refuted.

(** What a successful dry run tells: all rules but the one for the layer hold. *)
Theorem C44_dry_run_predicts_partial {V} (P : prim V) L m toks segs count c cnt n :
  arrays_ok toks segs count ->
  berts_eval P L (ELoaded m) toks segs count (Some c) None (Some cnt) = Ok (mkev true None (Some n)) ->
  (- Z.of_nat (n_layers (em_hp m)) <= output_layer c <= Z.of_nat (n_layers (em_hp m)))%Z ->
  valid_request (em_hp m) (firstn count toks) (given_segments segs count) c.
Proof.
  intros Ha H Hl. rewrite loaded in H by exact Ha. unfold eval in H.
  destruct (max_tokens (em_hp m) <? length (firstn count toks)) eqn:E1; [discriminate|].
  destruct (length (firstn count toks) =? length (given_segments segs count)) eqn:E2; cbn [negb] in H; [|discriminate].
  destruct (existsb _ (given_segments segs count)) eqn:E3; [discriminate|]. apply segments_checked in E3.
  destruct (needed (em_hp m) (pool_type c) (length (firstn count toks))) eqn:E4; [|discriminate].
  constructor; [apply Nat.ltb_ge, E1|symmetry; apply Nat.eqb_eq, E2|exact E3| |exact Hl].
  intros E. rewrite E in E4. discriminate.
Qed.
Print Assumptions C44_dry_run_predicts_partial.

(** A dry run succeeds exactly if all rules but the one for the layer hold. *)
Theorem C44_dry_run_iff {V} (P : prim V) L m toks segs count c cnt :
  arrays_ok toks segs count ->
  ((exists n, berts_eval P L (ELoaded m) toks segs count (Some c) None (Some cnt) = Ok (mkev true None (Some n))) <->
   exists l, valid_request (em_hp m) (firstn count toks) (given_segments segs count) (mkei l (pool_type c))).
Proof.
  intros Ha. split.
  - intros (n & H). exists 0%Z.
    refine (C44_dry_run_predicts_partial P L m toks segs count (mkei 0%Z (pool_type c)) cnt n Ha _ _); [|cbn [output_layer]; lia].
    rewrite loaded in H |- * by exact Ha. unfold eval in *. cbn [pool_type]. exact H.
  - intros (l & Hv). rewrite loaded by exact Ha. unfold eval.
    pose proof (v_tokens _ _ _ _ Hv) as HT. pose proof (v_pool _ _ _ _ Hv) as HP. cbn [pool_type] in HP.
    replace (max_tokens (em_hp m) <? length (firstn count toks)) with false by (symmetry; apply Nat.ltb_ge; exact HT).
    rewrite (v_segments _ _ _ _ Hv), Nat.eqb_refl. cbn [negb].
    rewrite (proj2 (segments_checked _ _) (v_range _ _ _ _ Hv)).
    destruct (pool_type c); cbn [needed]; try (eexists; reflexivity). elim HP. reflexivity.
Qed.
Print Assumptions C44_dry_run_iff.

Example C44_example : berts_eval zprim lib64 (ELoaded demo) [0;2]%N None 2 (Some (ask (-1) PoolMax)) None (Some 0%N) =
  Ok (mkev true None (Some 2%N)) /\ (- 1 <= -1 <= 1)%Z.
Proof. split; [vm_compute; reflexivity|lia]. Qed.

(** ** C45, C47.  Look-ups *)

(** A request reads inside the embedding tables exactly when its token ids and position
    ids exist; otherwise it reads foreign memory. *)
Theorem C45_lookups_inside_iff {V} (P : prim V) L m words rows s toks segs count c last cells cnt :
  arrays_ok toks segs count -> Forall (fun t => (t < 4294967296)%N) toks ->
  runnable P L m words rows s (firstn count toks) (given_segments segs count) c last ->
  N.to_nat cnt <= length cells ->
  berts_eval P L (ELoaded m) toks segs count (Some c) (Some cells) (Some cnt) <> UB <->
  known_tokens words (firstn count toks) /\ enough_rows (em_kind m) rows (firstn count toks).
Proof.
  intros Ha Hu Hr Hc. split.
  - intros HN.
    assert (Hu' : Forall (fun t => (t < 4294967296)%N) (firstn count toks)).
    { apply Forall_forall. intros t Ht. rewrite Forall_forall in Hu. apply Hu. eapply firstn_in, Ht. }
    apply (request_lookups P m words rows s _ _ c (r_sound _ _ _ _ _ _ _ _ _ _ Hr)
      (r_valid _ _ _ _ _ _ _ _ _ _ Hr) (r_some _ _ _ _ _ _ _ _ _ _ Hr) Hu').
    destruct (eval_outcome P L m words rows s _ _ c last cells cnt (r_sound _ _ _ _ _ _ _ _ _ _ Hr)
      (r_valid _ _ _ _ _ _ _ _ _ _ Hr) (r_some _ _ _ _ _ _ _ _ _ _ Hr) (r_layer _ _ _ _ _ _ _ _ _ _ Hr) Hu'
      (r_fits _ _ _ _ _ _ _ _ _ _ Hr)) as (E & _).
    rewrite loaded in HN by exact Ha. rewrite E in HN.
    pose proof (r_nodes _ _ _ _ _ _ _ _ _ _ Hr) as Hg.
    replace (graph_nodes L <? encoder_nodes (pool_type c) last) with false in HN by (symmetry; apply Nat.ltb_ge; exact Hg).
    destruct (looked_up _); [reflexivity|congruence].
  - intros (Hk & He).
    destruct (C41_eval_accepts P L m words rows s toks segs count c last cells cnt Ha Hu Hr Hk He Hc) as (r & -> & _).
    discriminate.
Qed.
Print Assumptions C45_lookups_inside_iff.

Example C45_example :
  (exists r, berts_eval zprim lib64 (ELoaded demo) [0;2;1]%N None 3 (Some (ask 0 PoolNone)) (Some (repeat 0%Z 6)) (Some 6%N) = Ok r) /\
  berts_eval zprim lib64 (ELoaded demo) [0;3;1]%N None 3 (Some (ask 0 PoolNone)) (Some (repeat 0%Z 6)) (Some 6%N) = UB.
Proof. split; [eexists|]; vm_compute; reflexivity. Qed.

(** BERT: with a position table of max_tokens rows (as the converter writes it) only the
    word ids matter. *)
Theorem C45_bert_lookups_partial {V} (P : prim V) L m words rows s toks segs count c last cells cnt :
  em_kind m = Bert -> max_tokens (em_hp m) <= rows ->
  arrays_ok toks segs count -> Forall (fun t => (t < 4294967296)%N) toks ->
  runnable P L m words rows s (firstn count toks) (given_segments segs count) c last ->
  N.to_nat cnt <= length cells -> known_tokens words (firstn count toks) ->
  berts_eval P L (ELoaded m) toks segs count (Some c) (Some cells) (Some cnt) <> UB.
Proof.
  intros Hb Hm Ha Hu Hr Hc Hk.
  apply (C45_lookups_inside_iff P L m words rows s toks segs count c last cells cnt Ha Hu Hr Hc).
  split; [exact Hk|]. rewrite Hb. cbn. pose proof (v_tokens _ _ _ _ (r_valid _ _ _ _ _ _ _ _ _ _ Hr)). lia.
Qed.
Print Assumptions C45_bert_lookups_partial.

(** Nothing checks word ids. *)
Theorem C45_lookups_inside_refuted :
  exists (m : emodel Z) words rows s toks count c last,
    em_kind m = Bert /\ max_tokens (em_hp m) <= rows /\ arrays_ok toks None count /\
    runnable zprim lib64 m words rows s (firstn count toks) (given_segments None count) c last /\
    berts_eval zprim lib64 (ELoaded m) toks None count (Some c) (Some [0;0]%Z) (Some 2%N) = UB.
Proof.
  exists demo, 3, 4, demo_sm, [0;3;1]%N, 3, (ask (-1) PoolCls), 1.
  split; [reflexivity|]. split; [cbn; lia|]. split; [split; [repeat constructor|exact I]|].
  split; [|vm_compute; reflexivity]. constructor.
  - exact demo_sound.
  - constructor; cbn; try lia; [repeat constructor; lia|discriminate].
  - cbn; lia.
  - exact (names_backward 1 1 (le_n 1) (le_n 1)).
  - vm_compute; reflexivity.
  - cbn; lia.
Qed.
Print Assumptions C45_lookups_inside_refuted.

Lemma nth_over_seq {A} (g : nat -> A) n i d : i < n -> nth i (map g (seq 0 n)) d = g i.
Proof.
  intros H. rewrite (nth_indep _ d (g 0)) by (rewrite map_length, seq_length; exact H).
  rewrite map_nth, seq_nth by exact H. reflexivity.
Qed.

(** C46.  The position ids of RoBERTa. *)
Theorem C46_roberta_positions pad tokens :
  (pad + N.of_nat (length tokens) < 2147483648)%N ->
  length (roberta_positions pad tokens) = length tokens /\
  (forall i, i < length tokens ->
     nth i (roberta_positions pad tokens) (-1)%Z =
     if (nth i tokens 0 =? pad)%N then 0%Z else (Z.of_N pad + Z.of_nat (ordinary pad tokens i))%Z) /\
  (forall i j, i < j -> j < length tokens -> nth i tokens 0%N <> pad -> nth j tokens 0%N <> pad ->
     (nth i (roberta_positions pad tokens) (-1) < nth j (roberta_positions pad tokens) (-1))%Z).
Proof.
  intros Hs. pose proof (positions_length (Roberta pad) tokens) as HL. cbn [positions] in HL.
  assert (HV : forall i, i < length tokens -> nth i (roberta_positions pad tokens) (-1)%Z =
    if (nth i tokens 0 =? pad)%N then 0%Z else (Z.of_N pad + Z.of_nat (ordinary pad tokens i))%Z).
  { intros i Hi. change (roberta_positions pad tokens) with (positions (Roberta pad) tokens).
    rewrite positions_spec by exact Hs. cbn [position_ids].
    rewrite nth_over_seq by exact Hi. reflexivity. }
  split; [exact HL|]. split; [exact HV|].
  intros i j Hij Hj Hi' Hj'. rewrite !HV by lia.
  apply N.eqb_neq in Hi'. apply N.eqb_neq in Hj'. rewrite Hi', Hj'.
  apply N.eqb_neq in Hj'. pose proof (ordinary_step pad tokens i j Hij Hj Hj'). lia.
Qed.
Print Assumptions C46_roberta_positions.

Example C46_example : roberta_positions 1 [0;1;5;1;1;7]%N = [2;0;3;0;0;4]%Z /\ ordinary 1 [0;1;5;1;1;7]%N 5 = 3.
Proof. split; reflexivity. Qed.

(** C47.  RoBERTa: exactly when the last position exists. *)
Theorem C47_roberta_lookups_iff {V} (P : prim V) L m words rows s toks segs count c last cells cnt pad :
  em_kind m = Roberta pad ->
  arrays_ok toks segs count -> Forall (fun t => (t < 4294967296)%N) toks ->
  runnable P L m words rows s (firstn count toks) (given_segments segs count) c last ->
  N.to_nat cnt <= length cells -> known_tokens words (firstn count toks) ->
  berts_eval P L (ELoaded m) toks segs count (Some c) (Some cells) (Some cnt) <> UB <->
  0 < rows /\ ((exists t, In t (firstn count toks) /\ t <> pad) ->
    (pad + N.of_nat (length (filter (fun t => negb (t =? pad)%N) (firstn count toks))) < N.of_nat rows)%N).
Proof.
  intros Hb Ha Hu Hr Hc Hk.
  rewrite (C45_lookups_inside_iff P L m words rows s toks segs count c last cells cnt Ha Hu Hr Hc).
  rewrite Hb. cbn [enough_rows]. unfold ordinary.
  rewrite (firstn_all2 (n := S (length (firstn count toks)))) by lia. tauto.
Qed.
Print Assumptions C47_roberta_lookups_iff.

Lemma filter_le {A} (f : A -> bool) l : length (filter f l) <= length l.
Proof. induction l as [|x l IH]; [apply le_n|]. simpl. destruct (f x); simpl; lia. Qed.

(** Enough: padding id + token count below the number of rows. *)
Theorem C47_roberta_lookups_partial {V} (P : prim V) L m words rows s toks segs count c last cells cnt pad :
  em_kind m = Roberta pad -> (pad + N.of_nat count < N.of_nat rows)%N ->
  arrays_ok toks segs count -> Forall (fun t => (t < 4294967296)%N) toks ->
  runnable P L m words rows s (firstn count toks) (given_segments segs count) c last ->
  N.to_nat cnt <= length cells -> known_tokens words (firstn count toks) ->
  berts_eval P L (ELoaded m) toks segs count (Some c) (Some cells) (Some cnt) <> UB.
Proof.
  intros Hb Hrows Ha Hu Hr Hc Hk.
  apply (C47_roberta_lookups_iff P L m words rows s toks segs count c last cells cnt pad Hb Ha Hu Hr Hc Hk).
  split; [lia|]. intros _. pose proof (filter_le (fun t => negb (t =? pad)%N) (firstn count toks)) as H.
  rewrite firstn_length in H. lia.
Qed.
Print Assumptions C47_roberta_lookups_partial.

(** The converter writes a position table of max_tokens rows.  Then every request of
    max_tokens ordinary tokens, which validation lets pass, reads past the table. *)
Theorem C47_full_request_undefined {V} (P : prim V) L m words rows s toks segs count c last cells cnt pad :
  em_kind m = Roberta pad -> rows = max_tokens (em_hp m) -> count = max_tokens (em_hp m) ->
  arrays_ok toks segs count -> Forall (fun t => (t < 4294967296)%N) toks ->
  runnable P L m words rows s (firstn count toks) (given_segments segs count) c last ->
  N.to_nat cnt <= length cells -> known_tokens words (firstn count toks) -> ~ In pad (firstn count toks) ->
  berts_eval P L (ELoaded m) toks segs count (Some c) (Some cells) (Some cnt) = UB.
Proof.
  intros Hb Hrows Hcount Ha Hu Hr Hc Hk Hp.
  pose proof (proj1 (C47_roberta_lookups_iff P L m words rows s toks segs count c last cells cnt pad Hb Ha Hu Hr Hc Hk)) as H.
  assert (D : forall (o : outcome (evaluated V)), (o <> UB -> False) -> o = UB).
  { intros [ | | |] Ho; try reflexivity; exfalso; apply Ho; discriminate. }
  apply D. intros HN. destruct (H HN) as (_ & H2).
  assert (F : filter (fun t => negb (t =? pad)%N) (firstn count toks) = firstn count toks).
  { clear - Hp. induction (firstn count toks) as [|t l IH]; [reflexivity|]. simpl.
    destruct (t =? pad)%N eqn:E; [apply N.eqb_eq in E; subst; elim Hp; left; reflexivity|].
    simpl. rewrite IH; [reflexivity|]. intros Hin. apply Hp. right. exact Hin. }
  rewrite F, firstn_length in H2. destruct Ha as (Ha & _).
  pose proof (r_some _ _ _ _ _ _ _ _ _ _ Hr) as Hs.
  destruct (firstn count toks) as [|t l] eqn:Et; [simpl in Hs; lia|].
  assert (X : exists t0, In t0 (t :: l) /\ t0 <> pad).
  { exists t. split; [left; reflexivity|]. intros ->. apply Hp. left. reflexivity. }
  specialize (H2 X). lia.
Qed.
Print Assumptions C47_full_request_undefined.

Lemma rdemo_runnable toks last p : 0 < length toks <= 4 -> last <= 1 -> p <> PoolOther ->
  runnable zprim lib64 rdemo 3 4 demo_sm toks (repeat 0%N (length toks)) (ask (Z.of_nat last) p) last.
Proof.
  intros Hn Hl Hp. constructor.
  - exact rdemo_sound.
  - constructor; cbn [rdemo em_hp demo_hp max_tokens segment_count n_layers ask pool_type output_layer];
      [lia|apply repeat_length| |exact Hp|lia].
    apply Forall_forall. intros x Hx. apply repeat_spec in Hx. subst. cbn. lia.
  - lia.
  - exact (names_forward 1 last Hl).
  - unfold fits. cbn [rdemo em_hp ask pool_type].
    destruct toks as [|? [|? [|? [|? [|? ?]]]]]; simpl length in *; try lia;
      destruct last as [|[|last]]; try lia; destruct p; vm_compute; reflexivity.
  - cbn [ask pool_type lib64 graph_nodes]. unfold encoder_nodes.
    assert (10 + 46 * last + match p with PoolNone => 0 | _ => 5 end <= 61) by (destruct p; lia).
    apply (Nat.le_trans _ 61); [assumption|]. cbn. repeat (apply le_n || apply le_S).
Qed.

Theorem C47_lookups_inside_refuted :
  exists (m : emodel Z) words rows s toks count c last pad,
    em_kind m = Roberta pad /\ rows = max_tokens (em_hp m) /\ arrays_ok toks None count /\
    runnable zprim lib64 m words rows s (firstn count toks) (given_segments None count) c last /\
    known_tokens words (firstn count toks) /\
    berts_eval zprim lib64 (ELoaded m) toks None count (Some c) (Some [0;0]%Z) (Some 2%N) = UB.
Proof.
  exists rdemo, 3, 4, demo_sm, [0;2;2;0]%N, 4, (ask 1 PoolCls), 1, 1%N.
  split; [reflexivity|]. split; [reflexivity|]. split; [split; [repeat constructor|exact I]|].
  split; [exact (rdemo_runnable [0;2;2;0]%N 1 PoolCls ltac:(cbn; lia) ltac:(lia) ltac:(discriminate))|].
  split; [repeat constructor; lia|]. vm_compute. reflexivity.
Qed.
Print Assumptions C47_lookups_inside_refuted.

Example C47_example :
  exists r, berts_eval zprim lib64 (ELoaded rdemo) [0;1;2]%N None 3 (Some (ask 1 PoolCls)) (Some [0;0]%Z) (Some 2%N) = Ok r /\
  (1 + N.of_nat 2 < N.of_nat 4)%N.
Proof. eexists. split; [vm_compute; reflexivity|lia]. Qed.

(** C90.  Padding tokens: the reference implementation (Hugging Face,
    create_position_ids_from_input_ids) numbers ordinary tokens from padding_idx + 1 and
    gives padding tokens padding_idx. *)
Definition reference_positions (pad : N) (tokens : list N) : list Z :=
  map (fun i => Z.of_N pad + (if (nth i tokens 0 =? pad)%N then 0 else Z.of_nat (ordinary pad tokens i)))%Z
      (seq 0 (length tokens)).

Theorem C90_reference_positions_refuted :
  exists pad tokens, (pad + N.of_nat (length tokens) < 2147483648)%N /\
    roberta_positions pad tokens <> reference_positions pad tokens.
Proof. exists 1%N, [0;1]%N. split; [reflexivity|]. discriminate. Qed.
Print Assumptions C90_reference_positions_refuted.

Theorem C90_reference_positions_partial pad tokens :
  (pad + N.of_nat (length tokens) < 2147483648)%N ->
  (forall i, i < length tokens -> nth i tokens 0%N <> pad ->
     nth i (roberta_positions pad tokens) (-1)%Z = nth i (reference_positions pad tokens) (-1)%Z) /\
  (pad = 0%N \/ ~ In pad tokens <-> roberta_positions pad tokens = reference_positions pad tokens).
Proof.
  intros Hs. destruct (C46_roberta_positions pad tokens Hs) as (HL & HV & _).
  assert (HR : forall i, i < length tokens -> nth i (reference_positions pad tokens) (-1)%Z =
     (Z.of_N pad + (if (nth i tokens 0 =? pad)%N then 0 else Z.of_nat (ordinary pad tokens i)))%Z).
  { intros i Hi. unfold reference_positions. rewrite nth_over_seq by exact Hi. reflexivity. }
  split; [|split].
  - intros i Hi Hp. rewrite HV, HR by exact Hi. apply N.eqb_neq in Hp. rewrite Hp. reflexivity.
  - intros H. apply (nth_ext _ _ (-1)%Z (-1)%Z).
    + rewrite HL. unfold reference_positions. rewrite map_length, seq_length. reflexivity.
    + intros i Hi. rewrite HL in Hi. rewrite HV, HR by exact Hi.
      destruct (nth i tokens 0 =? pad)%N eqn:E; [|reflexivity]. apply N.eqb_eq in E.
      destruct H as [->|H]; [reflexivity|]. elim H. rewrite <- E. apply nth_In, Hi.
  - intros H. destruct (N.eq_dec pad 0) as [->|Hp]; [left; reflexivity|]. right. intros Hin.
    apply (In_nth _ _ 0%N) in Hin. destruct Hin as (i & Hi & Ei).
    specialize (HV i Hi). specialize (HR i Hi). rewrite H in HV. rewrite HV, Ei, N.eqb_refl in HR. lia.
Qed.
Print Assumptions C90_reference_positions_partial.

Example C90_example : roberta_positions 1 [0;1;5]%N = [2;0;3]%Z /\ reference_positions 1 [0;1;5]%N = [2;1;3]%Z.
Proof. split; reflexivity. Qed.

(** ** C48-C50.  Memory, shapes and nodes of the encoder graph *)

Definition fresh (size : N) : arena := mkarena size 0 0 [].

(** The graph of a sound model, from an empty arena. *)
Lemma graph_built {V} (P : prim V) L m words rows s tokens segments c last size :
  sound P m words rows s -> valid_request (em_hp m) tokens segments c -> 0 < length tokens ->
  names_layer (n_layers (em_hp m)) (output_layer c) last -> Forall (fun t => (t < 4294967296)%N) tokens ->
  fits (get_context_buffer_size L (length tokens) (em_hp m) (pool_type c)) last ->
  let cost := (calc (get_context_buffer_size L (length tokens) (em_hp m) (pool_type c)) last - graph_overhead L)%N in
  (cost + graph_overhead L = calc (get_context_buffer_size L (length tokens) (em_hp m) (pool_type c)) last)%N /\
  exists t, build_graph P L (em_kind m) (em_hp m) (em_weights m) last (pool_type c) tokens segments (fresh size) =
    (if (size <? cost)%N then UB
     else Ok (t, mkarena size cost (encoder_nodes (pool_type c) last)
                   [(words, map to_i32 tokens); (rows, positions (em_kind m) tokens);
                    (segment_count (em_hp m), map to_i32 segments)])) /\
    ne0 t = hidden_dim (em_hp m) /\
    ne1 t = match pool_type c with PoolNone => length tokens | _ => 1 end /\
    ne2 t = 1 /\ ne3 t = 1 /\ contiguous t = true.
Proof.
  intros Hs Hv Hn Hl Hu Hf cost.
  assert (E : cost = graph_cost L (em_hp m) (pool_type c) last (length tokens)).
  { unfold cost. rewrite (estimate_fits _ _ _ _ _ (s_heads _ _ _ _ _ Hs) (v_pool _ _ _ _ Hv) (names_bound _ _ _ Hl) Hf). lia. }
  split.
  { rewrite E. symmetry. apply (estimate_fits _ _ _ _ _ (s_heads _ _ _ _ _ Hs) (v_pool _ _ _ _ Hv) (names_bound _ _ _ Hl) Hf). }
  destruct (eval_graph P L m words rows s tokens segments c last Hs Hv Hn Hl Hu) as (t & Ht & ((X & HX) & _)).
  exists t. rewrite Ht by (cbn; lia). unfold step, fresh. cbn [capacity used nodes lookups app].
  rewrite N.add_0_l, <- E. split; [reflexivity|].
  destruct HX as (Et & _). rewrite Et. cbn [ne0 ne1 ne2 ne3 packed].
  repeat split; try reflexivity. apply packed_contiguous.
Qed.

(** The estimate is exact: the graph and its bookkeeping fill the arena completely, and
    one byte less is too little. *)
Theorem C48_encoder_memory {V} (P : prim V) L m words rows s tokens segments c last :
  sound P m words rows s -> valid_request (em_hp m) tokens segments c -> 0 < length tokens ->
  names_layer (n_layers (em_hp m)) (output_layer c) last -> Forall (fun t => (t < 4294967296)%N) tokens ->
  fits (get_context_buffer_size L (length tokens) (em_hp m) (pool_type c)) last ->
  let size := calc (get_context_buffer_size L (length tokens) (em_hp m) (pool_type c)) last in
  (exists t a, build_graph P L (em_kind m) (em_hp m) (em_weights m) last (pool_type c) tokens segments (fresh size) =
     Ok (t, a) /\ (used a + graph_overhead L = size)%N) /\
  (forall small t a, 
     build_graph P L (em_kind m) (em_hp m) (em_weights m) last (pool_type c) tokens segments (fresh small) = Ok (t, a) ->
     (used a + graph_overhead L = size)%N).
Proof.
  intros Hs Hv Hn Hl Hu Hf size. split.
  - destruct (graph_built P L m words rows s tokens segments c last size Hs Hv Hn Hl Hu Hf) as (E & t & Eb & _).
    fold size in E, Eb.
    replace (size <? size - graph_overhead L)%N with false in Eb by lia.
    eexists t, _. split; [exact Eb|]. exact E.
  - intros small t a Hb.
    destruct (graph_built P L m words rows s tokens segments c last small Hs Hv Hn Hl Hu Hf) as (E & t' & Eb & _).
    fold size in E, Eb. rewrite Eb in Hb.
    destruct (small <? size - graph_overhead L)%N; [discriminate|]. injection Hb as _ <-. exact E.
Qed.
Print Assumptions C48_encoder_memory.

Example C48_example :
  let size := calc (get_context_buffer_size lib64 3 demo_hp PoolAvg) 1 in
  (exists t a, build_graph zprim lib64 Bert demo_hp demo_weights 1 PoolAvg [0;2;1]%N [0;0;1]%N (fresh size) = Ok (t, a) /\
    (used a + graph_overhead lib64 = size)%N) /\ fits (get_context_buffer_size lib64 3 demo_hp PoolAvg) 1.
Proof.
  intros size. split; [|vm_compute; reflexivity].
  pose proof (demo_runnable PoolAvg ltac:(discriminate)) as Hr.
  exact (proj1 (C48_encoder_memory zprim lib64 demo 3 4 demo_sm [0;2;1]%N [0;0;1]%N (ask (-1) PoolAvg) 1 demo_sound
    (r_valid _ _ _ _ _ _ _ _ _ _ Hr) (r_some _ _ _ _ _ _ _ _ _ _ Hr) (r_layer _ _ _ _ _ _ _ _ _ _ Hr)
    ltac:(repeat constructor; lia) (r_fits _ _ _ _ _ _ _ _ _ _ Hr))).
Qed.

(** Every shape requirement of the operations holds (else the builder aborts), and the
    output tensor has the reported number of elements in storage order. *)
Theorem C50_encoder_shapes {V} (P : prim V) L m words rows s tokens segments c last size :
  sound P m words rows s -> valid_request (em_hp m) tokens segments c -> 0 < length tokens ->
  names_layer (n_layers (em_hp m)) (output_layer c) last -> Forall (fun t => (t < 4294967296)%N) tokens ->
  fits (get_context_buffer_size L (length tokens) (em_hp m) (pool_type c)) last ->
  (calc (get_context_buffer_size L (length tokens) (em_hp m) (pool_type c)) last <= size)%N ->
  exists t a, build_graph P L (em_kind m) (em_hp m) (em_weights m) last (pool_type c) tokens segments (fresh size) =
     Ok (t, a) /\
    ne0 t = hidden_dim (em_hp m) /\ ne1 t = match pool_type c with PoolNone => length tokens | _ => 1 end /\
    ne2 t = 1 /\ ne3 t = 1 /\ contiguous t = true /\
    numel t = values (em_hp m) (pool_type c) (length tokens) /\
    nodes a = encoder_nodes (pool_type c) last.
Proof.
  intros Hs Hv Hn Hl Hu Hf Hsz.
  destruct (graph_built P L m words rows s tokens segments c last size Hs Hv Hn Hl Hu Hf) as (E & t & Eb & A0 & A1 & A2 & A3 & A4).
  match type of Eb with _ = if (size <? ?k)%N then _ else _ => replace (size <? k)%N with false in Eb by lia end.
  eexists t, _. split; [exact Eb|]. repeat split; try assumption.
  unfold numel. rewrite A0, A1, A2, A3. unfold values. destruct (pool_type c); lia.
Qed.
Print Assumptions C50_encoder_shapes.

Example C50_example : exists t a,
  build_graph zprim lib64 Bert demo_hp demo_weights 1 PoolNone [0;2;1]%N [0;0;1]%N (fresh 1000000) = Ok (t, a) /\
  ne0 t = 2 /\ ne1 t = 3 /\ ne2 t = 1 /\ ne3 t = 1 /\ contiguous t = true /\ numel t = 6 /\ nodes a = 56.
Proof.
  pose proof (demo_runnable PoolNone ltac:(discriminate)) as Hr.
  exact (C50_encoder_shapes zprim lib64 demo 3 4 demo_sm [0;2;1]%N [0;0;1]%N (ask (-1) PoolNone) 1 1000000 demo_sound
    (r_valid _ _ _ _ _ _ _ _ _ _ Hr) (r_some _ _ _ _ _ _ _ _ _ _ Hr) (r_layer _ _ _ _ _ _ _ _ _ _ Hr)
    ltac:(repeat constructor; lia) (r_fits _ _ _ _ _ _ _ _ _ _ Hr) ltac:(vm_compute; discriminate)).
Qed.

(** C91.  What is computed: the BERT encoder, for any arithmetic. *)
Theorem C91_encoder_values {V} (P : prim V) L m words rows s toks segs count c last cells :
  arrays_ok toks segs count -> Forall (fun t => (t < 4294967296)%N) toks ->
  runnable P L m words rows s (firstn count toks) (given_segments segs count) c last ->
  known_tokens words (firstn count toks) -> enough_rows (em_kind m) rows (firstn count toks) ->
  length cells = values (em_hp m) (pool_type c) count ->
  let tokens := firstn count toks in
  let embedding :=
    s_embed P (ln_eps (em_hp m)) (sm_words s) (sm_positions s) (sm_segments s) (sm_lw s) (sm_lb s)
      (position_ids (em_kind m) tokens) (map Z.of_N tokens) (map Z.of_N (given_segments segs count)) in
  let states := fold_left (fun x y => s_layer P (ln_eps (em_hp m)) (attn_heads (em_hp m)) (hidden_dim (em_hp m) / attn_heads (em_hp m)) y x)
                  (firstn last (sm_blocks s)) embedding in
  let result :=
    match pool_type c with
    | PoolNone => concat states
    | p => concat (map (map (p_tanh P)) (s_dense P (sm_pw s) (sm_pb s) [s_pooled P p states]))
    end in
  berts_eval P L (ELoaded m) toks segs count (Some c) (Some cells) (Some (N.of_nat (length cells))) =
  Ok (mkev true (Some result) (Some (N.of_nat (length result)))).
Proof.
  intros Ha Hu Hr Hk He HL tokens embedding states result.
  destruct (runs P L m words rows s toks segs count c last cells (N.of_nat (length cells)) Ha Hu Hr Hk He) as (LA & E).
  { rewrite Nat2N.id. apply Nat.le_min_l. }
  assert (ER : result = answer P m s (pool_type c) last (firstn count toks) (given_segments segs count)).
  { unfold result, answer, hidden_states, s_encode. fold tokens. fold embedding. fold states.
    destruct (pool_type c); reflexivity. }
  rewrite E, ER, Nat2N.id, HL, Nat.min_id, LA.
  replace (firstn _ (answer _ _ _ _ _ _ _)) with (answer P m s (pool_type c) last (firstn count toks) (given_segments segs count))
    by (rewrite <- LA at 1; rewrite firstn_all; reflexivity).
  rewrite skipn_all2 by lia. rewrite app_nil_r. reflexivity.
Qed.
Print Assumptions C91_encoder_values.

(** Integers for numbers: word + position + segment rows, then the pooler. *)
Example C91_example :
  berts_eval zprim lib64 (ELoaded demo) [0;2;1]%N (Some [0;0;1]%N) 3 (Some (ask 0 PoolNone))
    (Some (repeat 0%Z 6)) (Some 6%N) = Ok (mkev true (Some [11;102;25;106;33;204]%Z) (Some 6%N)) /\
  berts_eval zprim lib64 (ELoaded demo) [0;2;1]%N (Some [0;0;1]%N) 3 (Some (ask 0 PoolMax))
    (Some (repeat 0%Z 2)) (Some 2%N) = Ok (mkev true (Some [33+7;204+8]%Z) (Some 2%N)).
Proof. split; vm_compute; reflexivity. Qed.

(** C96.  No segment array is the same as all-zero segments. *)
Theorem C96_null_segments {V} (P : prim V) L m toks count c out cnt zeros :
  count <= length zeros -> Forall (fun s => s = 0%N) zeros ->
  berts_eval P L (ELoaded m) toks (Some zeros) count c out cnt =
  berts_eval P L (ELoaded m) toks None count c out cnt.
Proof.
  intros HL HZ. unfold berts_eval. destruct c as [c|]; [|reflexivity]. destruct cnt as [n|]; [|reflexivity].
  destruct (length toks <? count); [reflexivity|].
  replace (length zeros <? count) with false by (symmetry; apply Nat.ltb_ge; exact HL).
  replace (firstn count zeros) with (repeat 0%N count); [reflexivity|].
  clear - HL HZ. revert count HL. induction HZ as [|z zs Hz HZ IH]; intros [|count] HL; simpl in *; try lia; [reflexivity|reflexivity|].
  subst z. f_equal. apply IH. lia.
Qed.
Print Assumptions C96_null_segments.

Example C96_example :
  berts_eval zprim lib64 (ELoaded demo) [0;2]%N (Some [0;0]%N) 2 (Some (ask 1 PoolCls)) (Some [0;0]%Z) (Some 2%N) =
  berts_eval zprim lib64 (ELoaded demo) [0;2]%N None 2 (Some (ask 1 PoolCls)) (Some [0;0]%Z) (Some 2%N) /\
  berts_eval zprim lib64 (ELoaded demo) [0;2]%N (Some [1;0]%N) 2 (Some (ask 1 PoolCls)) (Some [0;0]%Z) (Some 2%N) <>
  berts_eval zprim lib64 (ELoaded demo) [0;2]%N None 2 (Some (ask 1 PoolCls)) (Some [0;0]%Z) (Some 2%N).
Proof. split; [vm_compute; reflexivity|]. vm_compute. discriminate. Qed.

(** C88.  Zero tokens pass validation and divide by zero in the tensor library. *)
Theorem C88_no_tokens_undefined {V} (P : prim V) L m words rows s toks c cells cnt segs :
  weights_are P (em_hp m) words rows (em_weights m) s -> 0 < hidden_dim (em_hp m) ->
  (N.of_nat (n_layers (em_hp m)) < 4294967296)%N -> pool_type c <> PoolOther ->
  (- Z.of_nat (n_layers (em_hp m)) <= output_layer c <= Z.of_nat (n_layers (em_hp m)))%Z ->
  berts_eval P L (ELoaded m) toks segs 0 (Some c) (Some cells) (Some cnt) = UB.
Proof.
  intros Hw Hh HN Hp Hl. rewrite loaded by (split; [lia|destruct segs; [lia|exact I]]).
  replace (given_segments segs 0) with (@nil N) by (destruct segs; reflexivity).
  destruct (names_total _ _ Hl) as (last & Hlast).
  apply (eval_no_tokens P L m words rows s c cells cnt last Hw Hh HN); [|exact Hlast].
  constructor; cbn [firstn length]; try reflexivity; try assumption; [lia|constructor].
Qed.
Print Assumptions C88_no_tokens_undefined.

Theorem C88_valid_requests_defined_refuted :
  exists (m : emodel Z) words rows s c,
    sound zprim m words rows s /\ valid_request (em_hp m) [] [] c /\
    berts_eval zprim lib64 (ELoaded m) [] None 0 (Some c) (Some []) (Some 0%N) = UB.
Proof.
  exists demo, 3, 4, demo_sm, (ask 0 PoolNone). split; [exact demo_sound|]. split; [|vm_compute; reflexivity].
  constructor; cbn; try lia; [constructor|discriminate].
Qed.
Print Assumptions C88_valid_requests_defined_refuted.

(** C89.  A graph of more nodes than the tensor library allows stops the process. *)
Theorem C89_too_many_nodes {V} (P : prim V) L m words rows s toks segs count c last cells cnt :
  arrays_ok toks segs count -> Forall (fun t => (t < 4294967296)%N) toks ->
  sound P m words rows s ->
  valid_request (em_hp m) (firstn count toks) (given_segments segs count) c -> 0 < count ->
  names_layer (n_layers (em_hp m)) (output_layer c) last ->
  fits (get_context_buffer_size L count (em_hp m) (pool_type c)) last ->
  graph_nodes L < encoder_nodes (pool_type c) last ->
  berts_eval P L (ELoaded m) toks segs count (Some c) (Some cells) (Some cnt) = Abort.
Proof.
  intros Ha Hu Hs Hv Hn Hl Hf Hg. rewrite loaded by exact Ha.
  assert (LT : length (firstn count toks) = count) by (rewrite firstn_length; destruct Ha; lia).
  assert (Hu' : Forall (fun t => (t < 4294967296)%N) (firstn count toks)).
  { apply Forall_forall. intros t Ht. rewrite Forall_forall in Hu. apply Hu. eapply firstn_in, Ht. }
  rewrite <- LT in Hf.
  destruct (eval_outcome P L m words rows s _ _ c last cells cnt Hs Hv ltac:(lia) Hl Hu' Hf) as (-> & _).
  apply Nat.ltb_lt in Hg. rewrite Hg. reflexivity.
Qed.
Print Assumptions C89_too_many_nodes.

(** With the library's limit of 2048 nodes: 45 layers are too many, 44 are not. *)
Example C89_limit : encoder_nodes PoolNone 44 <= 2048 /\ 2048 < encoder_nodes PoolNone 45 /\
  encoder_nodes PoolCls 44 <= 2048 /\ 2048 < encoder_nodes PoolCls 45.
Proof. repeat split; apply Nat.leb_le; vm_compute; reflexivity. Qed.

Example C89_example : graph_nodes (mklib 368 32 16 81984 60) < encoder_nodes PoolCls 1 /\
  berts_eval zprim (mklib 368 32 16 81984 60) (ELoaded demo) [0;2]%N None 2 (Some (ask 1 PoolCls)) (Some [0;0]%Z) (Some 2%N) = Abort.
Proof. split; [cbn; lia|vm_compute; reflexivity]. Qed.

(** C93.  Heads that do not divide the hidden size stop the process at the first layer. *)
Theorem C93_bad_head_count {V} (P : prim V) L m words rows s toks segs count c last cells cnt :
  arrays_ok toks segs count ->
  row_ops_ok P -> weights_are P (em_hp m) words rows (em_weights m) s ->
  0 < hidden_dim (em_hp m) -> attn_heads (em_hp m) <> 0 ->
  hidden_dim (em_hp m) mod attn_heads (em_hp m) <> 0 ->
  (N.of_nat (n_layers (em_hp m)) < 4294967296)%N ->
  valid_request (em_hp m) (firstn count toks) (given_segments segs count) c -> 0 < count ->
  names_layer (n_layers (em_hp m)) (output_layer c) last -> 1 <= last ->
  fits (get_context_buffer_size L count (em_hp m) (pool_type c)) last ->
  berts_eval P L (ELoaded m) toks segs count (Some c) (Some cells) (Some cnt) = Abort.
Proof.
  intros Ha OK Hw Hh Hz Hm HN Hv Hn Hl H1 Hf. rewrite loaded by exact Ha.
  assert (LT : length (firstn count toks) = count) by (rewrite firstn_length; destruct Ha; lia).
  rewrite <- LT in Hf.
  apply (eval_heads_abort P L m words rows s _ _ c last cells cnt); try assumption. lia.
Qed.
Print Assumptions C93_bad_head_count.

Definition odd_heads : emodel Z := mkem Z Bert (mkhp 2 1 3 4 3 2 Gelu 4427486594234968593) demo_weights 3.
Example C93_example :
  weights_are zprim (em_hp odd_heads) 3 4 (em_weights odd_heads) demo_sm /\
  2 mod 3 <> 0 /\
  berts_eval zprim lib64 (ELoaded odd_heads) [0;2]%N None 2 (Some (ask 1 PoolCls)) (Some [0;0]%Z) (Some 2%N) = Abort /\
  exists r, berts_eval zprim lib64 (ELoaded odd_heads) [0;2]%N None 2 (Some (ask 0 PoolCls)) (Some [0;0]%Z) (Some 2%N) = Ok r.
Proof.
  split; [constructor; try (shapes; fail); [|reflexivity]; constructor; [|constructor]; constructor; shapes|].
  split; [discriminate|]. split; [vm_compute; reflexivity|]. eexists. vm_compute. reflexivity.
Qed.

(** C94.  Encoder layers know only GELU; other activations make every evaluation of a
    layer fail. *)
Theorem C94_other_activations_fail {V} (P : prim V) L m words rows s toks segs count c last cells cnt :
  arrays_ok toks segs count ->
  row_ops_ok P -> weights_are P (em_hp m) words rows (em_weights m) s ->
  0 < hidden_dim (em_hp m) -> 0 < intermediate_dim (em_hp m) ->
  hidden_dim (em_hp m) = hidden_dim (em_hp m) / attn_heads (em_hp m) * attn_heads (em_hp m) ->
  hidden_act (em_hp m) <> Gelu ->
  (N.of_nat (n_layers (em_hp m)) < 4294967296)%N ->
  valid_request (em_hp m) (firstn count toks) (given_segments segs count) c -> 0 < count ->
  names_layer (n_layers (em_hp m)) (output_layer c) last -> 1 <= last ->
  fits (get_context_buffer_size L count (em_hp m) (pool_type c)) last ->
  exists need, berts_eval P L (ELoaded m) toks segs count (Some c) (Some cells) (Some cnt) =
               Ok (mkev false (Some cells) (Some need)).
Proof.
  intros Ha OK Hw Hh Hi Hd Hg HN Hv Hn Hl H1 Hf. rewrite loaded by exact Ha.
  assert (LT : length (firstn count toks) = count) by (rewrite firstn_length; destruct Ha; lia).
  rewrite <- LT in Hf.
  apply (eval_activation_fails P L m words rows s _ _ c last cells cnt); try assumption. lia.
Qed.
Print Assumptions C94_other_activations_fail.

Definition relu_model : emodel Z := mkem Z Bert (mkhp 2 1 1 4 3 2 Relu 4427486594234968593) demo_weights 3.
Example C94_example :
  weights_are zprim (em_hp relu_model) 3 4 (em_weights relu_model) demo_sm /\
  berts_eval zprim lib64 (ELoaded relu_model) [0;2]%N None 2 (Some (ask 1 PoolCls)) (Some [9;9]%Z) (Some 2%N) =
    Ok (mkev false (Some [9;9]%Z) (Some 2%N)).
Proof.
  split; [constructor; try (shapes; fail); [|reflexivity]; constructor; [|constructor]; constructor; shapes|].
  vm_compute. reflexivity.
Qed.

(** ** Language-model head *)

Lemma by_value_places r i l : Permutation (place r i l) (i :: l).
Proof.
  induction l as [|j l IH]; [apply Permutation_refl|]. simpl.
  destruct (nth j r 0 <=? nth i r 0)%Z; [apply Permutation_refl|].
  apply (perm_trans (perm_skip j IH)). apply perm_swap.
Qed.

Lemma place_sorted r i l : StronglySorted (fun a b => (nth b r 0 <= nth a r 0)%Z) l ->
  StronglySorted (fun a b => (nth b r 0 <= nth a r 0)%Z) (place r i l).
Proof.
  induction l as [|j l IH]; intros H; simpl; [repeat constructor|].
  inversion H as [|? ? H1 H2]; subst.
  destruct (nth j r 0 <=? nth i r 0)%Z eqn:E.
  - constructor; [exact H|]. constructor; [lia|].
    eapply Forall_impl; [|exact H2]. cbv beta. intros a. lia.
  - constructor; [apply IH, H1|].
    apply (Permutation_Forall (Permutation_sym (by_value_places r i l))). constructor; [lia|exact H2].
Qed.

Lemma strongly_nth {A} (R : A -> A -> Prop) l d : StronglySorted R l ->
  forall i j, i < j -> j < length l -> R (nth i l d) (nth j l d).
Proof.
  induction 1 as [|x l H IH HF]; intros i j Hij Hj; [simpl in Hj; lia|].
  destruct j as [|j]; [lia|]. destruct i as [|i]; cbn [nth length] in *.
  - rewrite Forall_forall in HF. apply HF, nth_In. lia.
  - apply IH; lia.
Qed.

Lemma by_value_sorts : sorts Z.le 0%Z by_value.
Proof.
  intros r. unfold by_value.
  assert (HP : forall l, Permutation (fold_right (place r) [] l) l).
  { induction l as [|i l IH]; [apply Permutation_refl|]. simpl.
    apply (perm_trans (by_value_places r i _)). apply perm_skip, IH. }
  assert (HS : forall l, StronglySorted (fun a b => (nth b r 0 <= nth a r 0)%Z) (fold_right (place r) [] l)).
  { induction l as [|i l IH]; [constructor|]. apply place_sorted, IH. }
  split; [|split].
  - apply (Permutation_NoDup (Permutation_sym (HP _))), seq_NoDup.
  - intros i. split; intros H.
    + apply (Permutation_in _ (HP _)), in_seq in H. lia.
    + apply (Permutation_in _ (Permutation_sym (HP _))), in_seq. lia.
  - intros i j Hij Hj. apply (strongly_nth _ _ 0 (HS (seq 0 (length r))) i j Hij).
    rewrite (Permutation_length (HP _)), seq_length. exact Hj.
Qed.

Lemma demo_lm : lm_sound zprim demo demo_sl (fun x => x).
Proof.
  constructor; try exact zprim_rows; try (cbn; lia); [|reflexivity].
  exists demo_head. split; [reflexivity|]. constructor; shapes.
Qed.

Lemma demo_lm_runnable : lm_runnable lib64 demo 2.
Proof. constructor; [lia|reflexivity|vm_compute; reflexivity|cbn; lia]. Qed.

(** C51.  Which buffers are accepted and what is reported. *)
Theorem C51_lm_length {V} (P : prim V) L m hidden count c out outp cnt :
  0 < hidden_dim (em_hp m) -> count mod hidden_dim (em_hp m) <> 0 ->
  berts_eval_lm P L (ELoaded m) hidden count (Some c) out outp (Some cnt) = Ok (mklv false out outp (Some cnt)).
Proof.
  intros Hh Hm. cbn [berts_eval_lm]. unfold eval_lm.
  replace (hidden_dim (em_hp m) =? 0) with false by (symmetry; apply Nat.eqb_neq; lia).
  apply Nat.eqb_neq in Hm. rewrite Hm. reflexivity.
Qed.
Print Assumptions C51_lm_length.

(** outputs per token *)
Definition lm_width {V} (m : emodel V) (c : lm_info) : nat :=
  if (0 <? top_k c)%Z then Nat.min (Z.to_nat (top_k c)) (em_vocab_count m) else em_vocab_count m.

Lemma width_same {V} (m : emodel V) c :
  (if (top_k c <=? 0)%Z then em_vocab_count m else Nat.min (Z.to_nat (top_k c)) (em_vocab_count m)) = lm_width m c.
Proof. unfold lm_width. destruct (top_k c <=? 0)%Z eqn:E, (0 <? top_k c)%Z eqn:E'; try reflexivity; lia. Qed.

Theorem C51_lm_dry_run {V} (P : prim V) L m hidden n c cnt :
  0 < hidden_dim (em_hp m) -> (N.of_nat (em_vocab_count m) < 4294967296)%N -> (N.of_nat n < 2147483648)%N ->
  berts_eval_lm P L (ELoaded m) hidden (n * hidden_dim (em_hp m)) (Some c) None None (Some cnt) =
  Ok (mklv true None None (Some (N.of_nat (n * lm_width m c)))).
Proof.
  intros Hh Hw Hn. cbn [berts_eval_lm]. unfold eval_lm.
  replace (hidden_dim (em_hp m) =? 0) with false by (symmetry; apply Nat.eqb_neq; lia).
  rewrite Nat.mod_mul, Nat.div_mul by lia. cbn [Nat.eqb negb]. rewrite width_same.
  assert (lm_width m c <= em_vocab_count m) by (unfold lm_width; destruct (0 <? top_k c)%Z; lia).
  unfold w64. rewrite N.mod_small by nia. repeat f_equal. lia.
Qed.
Print Assumptions C51_lm_dry_run.

Theorem C51_lm_one_buffer {V} (P : prim V) L m hidden n c out outp cnt :
  0 < hidden_dim (em_hp m) ->
  (out = None /\ outp <> None) \/ (out <> None /\ outp = None) ->
  exists need, berts_eval_lm P L (ELoaded m) hidden (n * hidden_dim (em_hp m)) (Some c) out outp (Some cnt) =
    Ok (mklv false out outp (Some need)).
Proof.
  intros Hh H. cbn [berts_eval_lm]. unfold eval_lm.
  replace (hidden_dim (em_hp m) =? 0) with false by (symmetry; apply Nat.eqb_neq; lia).
  rewrite Nat.mod_mul, Nat.div_mul by lia. cbn [Nat.eqb negb].
  destruct H as [(-> & H)|(H & ->)].
  - destruct outp; [|congruence]. eexists. reflexivity.
  - destruct out; [|congruence]. eexists. reflexivity.
Qed.
Print Assumptions C51_lm_one_buffer.

Theorem C51_lm_missing_arguments {V} (P : prim V) L ctx hidden count c out outp cnt :
  (forall m, ctx <> ELoaded m) \/ c = None \/ cnt = None ->
  berts_eval_lm P L ctx hidden count c out outp cnt = Ok (mklv false out outp cnt).
Proof.
  intros H. unfold berts_eval_lm. destruct ctx as [| |m]; try reflexivity.
  destruct c as [c|]; [|reflexivity]. destruct cnt as [n|]; [|reflexivity].
  destruct H as [H|[H|H]]; [elim (H m eq_refl)|discriminate|discriminate].
Qed.
Print Assumptions C51_lm_missing_arguments.

Example C51_example :
  berts_eval_lm zprim lib64 (ELoaded demo) [1;2;3;4;5]%Z 5 (Some (mkli 2)) None None (Some 0%N) =
    Ok (mklv false None None (Some 0%N)) /\
  berts_eval_lm zprim lib64 (ELoaded demo) [1;2;3;4]%Z 4 (Some (mkli 2)) None None (Some 0%N) =
    Ok (mklv true None None (Some 4%N)) /\
  berts_eval_lm zprim lib64 (ELoaded demo) [1;2;3;4]%Z 4 (Some (mkli 7)) None None (Some 0%N) =
    Ok (mklv true None None (Some 6%N)) /\
  berts_eval_lm zprim lib64 (ELoaded demo) [1;2;3;4]%Z 4 (Some (mkli (-1))) None None (Some 0%N) =
    Ok (mklv true None None (Some 6%N)) /\
  berts_eval_lm zprim lib64 (ELoaded demo) [1;2;3;4]%Z 4 (Some (mkli 2)) (Some [0;0;0;0]) None (Some 4%N) =
    Ok (mklv false (Some [0;0;0;0]) None (Some 4%N)).
Proof. repeat split; vm_compute; reflexivity. Qed.

(** C52, C92.  Top k: per input row the [k] most probable ids with their probabilities,
    the probabilities being those of the head. *)
Theorem C52_top_k {V} (le : V -> V -> Prop) (P : prim V) L m sh act hidden n c cnt ids_cells prob_cells :
  lm_sound P m sh act -> lm_runnable L m n -> sorts le (p_zero P) (p_argsort P) ->
  n * hidden_dim (em_hp m) <= length hidden ->
  (1 <= top_k c <= Z.of_nat (em_vocab_count m))%Z ->
  let k := Z.to_nat (top_k c) in
  n * k <= length ids_cells -> n * k <= length prob_cells ->
  let rows := s_lm P (ln_eps (em_hp m)) act (sl_dw sh) (sl_db sh) (sl_lw sh) (sl_lb sh) (sl_cw sh) (sl_cb sh)
                (s_cut (hidden_dim (em_hp m)) n hidden) in
  exists ids ps,
    berts_eval_lm P L (ELoaded m) hidden (n * hidden_dim (em_hp m)) (Some c)
      (Some ids_cells) (Some prob_cells) (Some cnt) =
    Ok (mklv true (Some (concat ids ++ skipn (n * k) ids_cells))
                    (Some (concat ps ++ skipn (n * k) prob_cells)) (Some (N.of_nat (n * k)))) /\
    length rows = n /\ length ids = n /\ length ps = n /\
    forall t, t < n -> best le (p_zero P) k (nth t rows []) (nth t ids []) (nth t ps []).
Proof.
  intros Hs Hr Hso HL Hk k HI HP rows.
  set (h := hidden_dim (em_hp m)) in *.
  assert (Hh : 0 < h) by exact (ls_hidden _ _ _ _ Hs).
  assert (ER : lm_probs P (ln_eps (em_hp m)) act sh h n (firstn (n * h) hidden) = rows).
  { unfold lm_probs, rows. f_equal. unfold s_cut. apply map_ext_in. intros j Hj. apply in_seq in Hj.
    rewrite skipn_firstn_comm, firstn_firstn. f_equal. nia. }
  destruct (lm_run P L m sh act (firstn (n * h) hidden) n Hs Hr) as (prob & _ & _ & LR & FR).
  { rewrite firstn_length. fold h. lia. }
  fold h in LR, FR. rewrite ER in LR, FR.
  exists (map (fun r => firstn k (p_argsort P r)) rows).
  exists (map (fun r => map (fun i => nth i r (p_zero P)) (firstn k (p_argsort P r))) rows).
  split; [|split; [exact LR|split; [rewrite map_length; exact LR|split; [rewrite map_length; exact LR|]]]].
  - cbn [berts_eval_lm].
    pose proof (lm_prefix P L m hidden n c ids_cells prob_cells cnt sh act Hs Hr HL) as E. cbv zeta in E.
    fold h in E. rewrite E, ER. clear E.
    replace (top_k c <=? 0)%Z with false by lia. fold k.
    assert (FI : Forall (fun r => length r = em_vocab_count m) (map (p_argsort P) rows)).
    { apply Forall_map. eapply Forall_impl; [|exact FR]. cbv beta. intros r <-. apply (sorts_length le _ _ _ Hso). }
    assert (FB : Forall (Forall (fun i => i < em_vocab_count m)) (map (p_argsort P) rows)).
    { apply Forall_map. eapply Forall_impl; [|exact FR]. cbv beta. intros r <-. apply (sorts_bound le (p_zero P) _ _ Hso). }
    rewrite (top_rows_spec P (map (p_argsort P) rows) rows k (em_vocab_count m) n) by
      (try (rewrite map_length); try exact LR; try assumption; try lia).
    cbn [obind fst snd Nat.mul firstn app]. rewrite (Nat.min_l k) by lia.
    replace (map (fun j => firstn k (nth j (map (p_argsort P) rows) [])) (seq 0 n))
      with (map (fun r => firstn k (p_argsort P r)) rows).
    + replace (map (fun j => map (fun i => nth i (nth j rows []) (p_zero P)) (firstn k (nth j (map (p_argsort P) rows) []))) (seq 0 n))
        with (map (fun r => map (fun i => nth i r (p_zero P)) (firstn k (p_argsort P r))) rows).
      * rewrite (Nat.mul_comm n k). reflexivity.
      * apply (nth_ext _ _ [] []); [rewrite !map_length, seq_length; exact LR|].
        intros j Hj. rewrite map_length, LR in Hj. rewrite nth_over_seq by exact Hj.
        rewrite !(nth_map_lt _ rows j [] []) by lia. reflexivity.
    + apply (nth_ext _ _ [] []); [rewrite !map_length, seq_length; exact LR|].
      intros j Hj. rewrite map_length, LR in Hj. rewrite nth_over_seq by exact Hj.
      rewrite !(nth_map_lt _ rows j [] []) by lia. reflexivity.
  - intros t Ht. rewrite !(nth_map_lt _ rows t [] []) by lia.
    apply best_firstn; [exact Hso|].
    rewrite Forall_forall in FR. rewrite (FR (nth t rows [])) by (apply nth_In; lia). lia.
Qed.
Print Assumptions C52_top_k.

Example C52_example :
  (exists sh act, lm_sound zprim demo sh act) /\ lm_runnable lib64 demo 2 /\ sorts Z.le 0%Z (p_argsort zprim) /\
  berts_eval_lm zprim lib64 (ELoaded demo) [1;2;8;4]%Z 4 (Some (mkli 2))
    (Some [9;9;9;9;9]) (Some [7;7;7;7;7]%Z) (Some 5%N) =
  Ok (mklv true (Some [2;1;2;0;9]) (Some [3;2;12;8;7]%Z) (Some 4%N)).
Proof.
  split; [exists demo_sl; eexists; exact demo_lm|]. split; [exact demo_lm_runnable|].
  split; [exact by_value_sorts|]. vm_compute. reflexivity.
Qed.

(** C53.  With top_k > 0 the capacity argument is ignored: a call is defined exactly when
    top_k is at most the vocabulary and both buffers hold n * top_k cells. *)
Theorem C53_top_k_defined_iff {V} (le : V -> V -> Prop) (P : prim V) L m sh act hidden n c cnt ids_cells prob_cells :
  lm_sound P m sh act -> lm_runnable L m n -> sorts le (p_zero P) (p_argsort P) ->
  n * hidden_dim (em_hp m) <= length hidden -> (0 < top_k c)%Z ->
  let k := Z.to_nat (top_k c) in
  berts_eval_lm P L (ELoaded m) hidden (n * hidden_dim (em_hp m)) (Some c)
      (Some ids_cells) (Some prob_cells) (Some cnt) <> UB <->
  k <= em_vocab_count m /\ n * k <= length ids_cells /\ n * k <= length prob_cells.
Proof.
  intros Hs Hr Hso HL Hk k. split.
  - intros HN.
    destruct (le_lt_dec k (em_vocab_count m)) as [H1|H1];
      [destruct (le_lt_dec (n * k) (length ids_cells)) as [H2|H2];
       [destruct (le_lt_dec (n * k) (length prob_cells)) as [H3|H3]; [auto|]|]|]; exfalso; apply HN;
      (cbn [berts_eval_lm];
       pose proof (lm_prefix P L m hidden n c ids_cells prob_cells cnt sh act Hs Hr HL) as E; cbv zeta in E; rewrite E; clear E;
       replace (top_k c <=? 0)%Z with false by lia; fold k;
       set (h := hidden_dim (em_hp m)) in *;
       destruct (lm_run P L m sh act (firstn (n * h) hidden) n Hs Hr) as (prob & _ & _ & LR & FR);
       [rewrite firstn_length; fold h; lia|]; fold h in LR, FR;
       set (rows := lm_probs P (ln_eps (em_hp m)) act sh h n (firstn (n * h) hidden)) in *;
       pose proof (lr_some _ _ _ Hr) as Hn; destruct n as [|r]; [lia|];
       rewrite (top_rows_overrun _ _ k (em_vocab_count m) r 0); [reflexivity|]).
    + right. right. nia.
    + right. left. nia.
    + left.
      assert (FI : Forall (fun r => length r = em_vocab_count m) (map (p_argsort P) rows)).
      { apply Forall_map. eapply Forall_impl; [|exact FR]. cbv beta. intros x <-. apply (sorts_length le _ _ _ Hso). }
      rewrite (length_concat_uniform _ (em_vocab_count m)) by exact FI. rewrite map_length, LR. nia.
  - intros (H1 & H2 & H3).
    destruct (C52_top_k le P L m sh act hidden n c cnt ids_cells prob_cells Hs Hr Hso HL ltac:(lia) H2 H3)
      as (ids & ps & -> & _). discriminate.
Qed.
Print Assumptions C53_top_k_defined_iff.

(** Without top_k the capacity is respected. *)
Theorem C53_all_defined_iff {V} (le : V -> V -> Prop) (P : prim V) L m sh act hidden n c cnt ids_cells prob_cells :
  lm_sound P m sh act -> lm_runnable L m n -> sorts le (p_zero P) (p_argsort P) ->
  n * hidden_dim (em_hp m) <= length hidden -> (top_k c <= 0)%Z ->
  let w := Nat.min (N.to_nat cnt) (n * em_vocab_count m) in
  berts_eval_lm P L (ELoaded m) hidden (n * hidden_dim (em_hp m)) (Some c)
      (Some ids_cells) (Some prob_cells) (Some cnt) <> UB <->
  w <= length ids_cells /\ w <= length prob_cells.
Proof.
  intros Hs Hr Hso HL Hk w. cbn [berts_eval_lm].
  pose proof (lm_prefix P L m hidden n c ids_cells prob_cells cnt sh act Hs Hr HL) as E. cbv zeta in E. rewrite E. clear E.
  replace (top_k c <=? 0)%Z with true by lia.
  set (h := hidden_dim (em_hp m)) in *.
  destruct (lm_run P L m sh act (firstn (n * h) hidden) n Hs Hr) as (prob & _ & _ & LR & FR);
    [rewrite firstn_length; fold h; lia|]; fold h in LR, FR.
  set (rows := lm_probs P (ln_eps (em_hp m)) act sh h n (firstn (n * h) hidden)) in *.
  replace (N.to_nat (N.min cnt (N.of_nat (em_vocab_count m * n)))) with w by (unfold w; nia).
  assert (FI : Forall (fun r => length r = em_vocab_count m) (map (p_argsort P) rows)).
  { apply Forall_map. eapply Forall_impl; [|exact FR]. cbv beta. intros x <-. apply (sorts_length le _ _ _ Hso). }
  unfold copy_n. rewrite (length_concat_uniform _ (em_vocab_count m)) by exact FI.
  rewrite (length_concat_uniform rows (em_vocab_count m)) by exact FR. rewrite map_length, LR.
  replace (n * em_vocab_count m <? w) with false by (symmetry; apply Nat.ltb_ge; unfold w; lia). cbn [orb].
  destruct (length ids_cells <? w) eqn:E1; cbn [obind].
  - apply Nat.ltb_lt in E1. split; [congruence|lia].
  - apply Nat.ltb_ge in E1. destruct (length prob_cells <? w) eqn:E2; cbn [obind].
    + apply Nat.ltb_lt in E2. split; [congruence|lia].
    + apply Nat.ltb_ge in E2. split; [auto|discriminate].
Qed.
Print Assumptions C53_all_defined_iff.

(** Buffers of the stated capacity are overrun, and so are buffers of the size a dry run
    reports when top_k exceeds the vocabulary. *)
Theorem C53_lm_respects_buffers_refuted :
  exists (m : emodel Z) hidden n,
    (exists sh act, lm_sound zprim m sh act) /\ lm_runnable lib64 m n /\
    n * hidden_dim (em_hp m) = length hidden /\
    (exists c ids_cells prob_cells,
       (top_k c <= Z.of_nat (em_vocab_count m))%Z /\ length ids_cells = 1 /\ length prob_cells = 1 /\
       berts_eval_lm zprim lib64 (ELoaded m) hidden (length hidden) (Some c) (Some ids_cells) (Some prob_cells) (Some 1%N) = UB) /\
    (exists c need ids_cells prob_cells,
       berts_eval_lm zprim lib64 (ELoaded m) hidden (length hidden) (Some c) None None (Some 0%N) =
         Ok (mklv true None None (Some need)) /\
       length ids_cells = N.to_nat need /\ length prob_cells = N.to_nat need /\
       berts_eval_lm zprim lib64 (ELoaded m) hidden (length hidden) (Some c) (Some ids_cells) (Some prob_cells) (Some need) = UB).
Proof.
  exists demo, [1;2;8;4]%Z, 2. split; [exists demo_sl; eexists; exact demo_lm|].
  split; [exact demo_lm_runnable|]. split; [reflexivity|]. split.
  - exists (mkli 2), [0], [0]%Z. split; [cbn; lia|]. repeat split; vm_compute; reflexivity.
  - exists (mkli 4), 6%N, (repeat 0 6), (repeat 0%Z 6). repeat split; vm_compute; reflexivity.
Qed.
Print Assumptions C53_lm_respects_buffers_refuted.

Example C53_example :
  exists r, berts_eval_lm zprim lib64 (ELoaded demo) [1;2;8;4]%Z 4 (Some (mkli 0)) (Some [0;0]) (Some [0;0]%Z) (Some 2%N) = Ok r /\
  l_count r = Some 6%N.
Proof. eexists. split; vm_compute; reflexivity. Qed.

(** C54.  Without top_k the ids are sorted by probability but the probabilities stay in
    id order. *)
Theorem C54_all_written {V} (le : V -> V -> Prop) (P : prim V) L m sh act hidden n c cnt ids_cells prob_cells :
  lm_sound P m sh act -> lm_runnable L m n -> sorts le (p_zero P) (p_argsort P) ->
  n * hidden_dim (em_hp m) <= length hidden -> (top_k c <= 0)%Z ->
  let words := em_vocab_count m in
  n * words <= N.to_nat cnt -> n * words <= length ids_cells -> n * words <= length prob_cells ->
  let rows := s_lm P (ln_eps (em_hp m)) act (sl_dw sh) (sl_db sh) (sl_lw sh) (sl_lb sh) (sl_cw sh) (sl_cb sh)
                (s_cut (hidden_dim (em_hp m)) n hidden) in
  exists ids,
    berts_eval_lm P L (ELoaded m) hidden (n * hidden_dim (em_hp m)) (Some c)
      (Some ids_cells) (Some prob_cells) (Some cnt) =
    Ok (mklv true (Some (concat ids ++ skipn (n * words) ids_cells))
                    (Some (concat rows ++ skipn (n * words) prob_cells)) (Some (N.of_nat (n * words)))) /\
    length rows = n /\ length ids = n /\
    forall t, t < n -> length (nth t rows []) = words /\
      best le (p_zero P) words (nth t rows []) (nth t ids []) (map (fun i => nth i (nth t rows []) (p_zero P)) (nth t ids [])).
Proof.
  intros Hs Hr Hso HL Hk words Hc HI HP rows.
  set (h := hidden_dim (em_hp m)) in *.
  assert (Hh : 0 < h) by exact (ls_hidden _ _ _ _ Hs).
  assert (ER : lm_probs P (ln_eps (em_hp m)) act sh h n (firstn (n * h) hidden) = rows).
  { unfold lm_probs, rows. f_equal. unfold s_cut. apply map_ext_in. intros j Hj. apply in_seq in Hj.
    rewrite skipn_firstn_comm, firstn_firstn. f_equal. nia. }
  destruct (lm_run P L m sh act (firstn (n * h) hidden) n Hs Hr) as (prob & _ & _ & LR & FR).
  { rewrite firstn_length. fold h. lia. }
  fold h in LR, FR. rewrite ER in LR, FR. fold words in FR.
  assert (FI : Forall (fun r => length r = words) (map (p_argsort P) rows)).
  { apply Forall_map. eapply Forall_impl; [|exact FR]. cbv beta. intros x <-. apply (sorts_length le _ _ _ Hso). }
  exists (map (p_argsort P) rows). split; [|split; [exact LR|split; [rewrite map_length; exact LR|]]].
  - cbn [berts_eval_lm].
    pose proof (lm_prefix P L m hidden n c ids_cells prob_cells cnt sh act Hs Hr HL) as E. cbv zeta in E.
    fold h words in E. rewrite E, ER. clear E.
    replace (top_k c <=? 0)%Z with true by lia.
    replace (N.to_nat (N.min cnt (N.of_nat (words * n)))) with (n * words) by nia.
    unfold copy_n.
    assert (L1 : length (concat (map (p_argsort P) rows)) = n * words)
      by (rewrite (length_concat_uniform _ words) by exact FI; rewrite map_length, LR; reflexivity).
    assert (L2 : length (concat rows) = n * words)
      by (rewrite (length_concat_uniform _ words) by exact FR; rewrite LR; reflexivity).
    rewrite L1, L2, Nat.ltb_irrefl. cbn [orb].
    replace (length ids_cells <? n * words) with false by (symmetry; apply Nat.ltb_ge; exact HI).
    replace (length prob_cells <? n * words) with false by (symmetry; apply Nat.ltb_ge; exact HP).
    cbn [obind]. rewrite (firstn_all2 (n := n * words) (concat (map _ rows))) by lia.
    rewrite (firstn_all2 (n := n * words) (concat rows)) by lia.
    rewrite (Nat.mul_comm n words). reflexivity.
  - intros t Ht. rewrite !(nth_map_lt _ rows t [] []) by lia.
    assert (LT : length (nth t rows []) = words).
    { rewrite Forall_forall in FR. apply FR, nth_In. lia. }
    split; [exact LT|].
    assert (E : p_argsort P (nth t rows []) = firstn words (p_argsort P (nth t rows []))).
    { symmetry. apply firstn_all2. rewrite (sorts_length le _ _ _ Hso). lia. }
    rewrite E. apply best_firstn; [exact Hso|lia].
Qed.
Print Assumptions C54_all_written.

(** So the i-th probability is not the one of the i-th id. *)
Theorem C54_own_probability_refuted :
  exists (m : emodel Z) hidden ids ps,
    (exists sh act, lm_sound zprim m sh act) /\ sorts Z.le 0%Z (p_argsort zprim) /\
    berts_eval_lm zprim lib64 (ELoaded m) hidden 2 (Some (mkli 0)) (Some [0;0;0]) (Some [0;0;0]%Z) (Some 3%N) =
      Ok (mklv true (Some ids) (Some ps) (Some 3%N)) /\
    (exists best_ids best_ps,
       berts_eval_lm zprim lib64 (ELoaded m) hidden 2 (Some (mkli 3)) (Some [0;0;0]) (Some [0;0;0]%Z) (Some 3%N) =
         Ok (mklv true (Some best_ids) (Some best_ps) (Some 3%N)) /\
       best_ids = ids /\ best_ps <> ps) /\
    exists i, i < 3 /\ nth i ps 0%Z <> nth (nth i ids 0) ps 0%Z.
Proof.
  exists demo, [1;2]%Z, [2;1;0], [1;2;3]%Z. split; [exists demo_sl; eexists; exact demo_lm|].
  split; [exact by_value_sorts|]. split; [vm_compute; reflexivity|]. split.
  - exists [2;1;0], [3;2;1]%Z. split; [vm_compute; reflexivity|]. split; [reflexivity|discriminate].
  - exists 0. split; [lia|]. discriminate.
Qed.
Print Assumptions C54_own_probability_refuted.

(** C95.  A model without head fails with buffers, though its dry run succeeds. *)
Theorem C95_no_head {V} (P : prim V) L m hidden n c ids_cells prob_cells cnt :
  0 < hidden_dim (em_hp m) -> lm (em_weights m) = None ->
  exists need,
    berts_eval_lm P L (ELoaded m) hidden (n * hidden_dim (em_hp m)) (Some c) None None (Some cnt) =
      Ok (mklv true None None (Some need)) /\
    berts_eval_lm P L (ELoaded m) hidden (n * hidden_dim (em_hp m)) (Some c) (Some ids_cells) (Some prob_cells) (Some cnt) =
      Ok (mklv false (Some ids_cells) (Some prob_cells) (Some need)).
Proof.
  intros Hh Hn. cbn [berts_eval_lm]. unfold eval_lm.
  replace (hidden_dim (em_hp m) =? 0) with false by (symmetry; apply Nat.eqb_neq; lia).
  rewrite Nat.mod_mul, Nat.div_mul by lia. cbn [Nat.eqb negb].
  unfold run. rewrite Hn. unfold bbind, bfail. eexists. split; reflexivity.
Qed.
Print Assumptions C95_no_head.

Definition headless : emodel Z :=
  mkem Z Bert demo_hp (mkweights Z (token_embedding demo_weights) (segment_embedding demo_weights) (position_embedding demo_weights)
    (ln_w demo_weights) (ln_b demo_weights) [demo_block] (pool_w demo_weights) (pool_b demo_weights) None) 3.
Example C95_example :
  lm (em_weights headless) = None /\
  berts_eval_lm zprim lib64 (ELoaded headless) [1;2]%Z 2 (Some (mkli 1)) None None (Some 0%N) = Ok (mklv true None None (Some 1%N)) /\
  berts_eval_lm zprim lib64 (ELoaded headless) [1;2]%Z 2 (Some (mkli 1)) (Some [0]) (Some [0]%Z) (Some 1%N) =
    Ok (mklv false (Some [0]) (Some [0]%Z) (Some 1%N)).
Proof. repeat split; vm_compute; reflexivity. Qed.

(** C49.  The estimate for the head is exact too. *)
Theorem C49_lm_memory {V} (P : prim V) L m sh act hidden n :
  lm_sound P m sh act -> lm_runnable L m n -> length hidden = hidden_dim (em_hp m) * n ->
  let size := calc (get_context_buffer_size_for_lm L n (em_hp m) (em_vocab_count m)) 0 in
  (exists r a, build_lm_graph P L (em_kind m) (em_hp m) (em_weights m) (em_vocab_count m) hidden (fresh size) = Ok (r, a) /\
     (used a + graph_overhead L = size)%N /\ nodes a = 15 /\ lookups a = [] /\
     ne0 (fst r) = em_vocab_count m /\ ne1 (fst r) = n /\ contiguous (fst r) = true) /\
  (forall small r a,
     build_lm_graph P L (em_kind m) (em_hp m) (em_weights m) (em_vocab_count m) hidden (fresh small) = Ok (r, a) ->
     (used a + graph_overhead L = size)%N).
Proof.
  intros Hs Hr HL size.
  destruct (ls_head _ _ _ _ Hs) as (hd & Hlm & Hh).
  destruct (does_build_lm P L (ls_rows_ok _ _ _ _ Hs) (em_kind m) (em_hp m) (em_weights m) hd sh (em_vocab_count m) act
    hidden n Hlm Hh (ls_act _ _ _ _ Hs) HL (ls_hidden _ _ _ _ Hs) (lr_some _ _ _ Hr) (ls_words _ _ _ _ Hs))
    as (r & Hb & HQ).
  assert (Hz : size = (lm_cost L (hidden_dim (em_hp m)) (em_vocab_count m) n + graph_overhead L)%N).
  { unfold size. rewrite (fits_w64 _ _ (lr_fits _ _ _ Hr)). apply (lm_sum_exact L). }
  split.
  - eexists r, _. rewrite Hb by (cbn; lia). unfold step, fresh. cbn [capacity used nodes lookups].
    rewrite N.add_0_l, Hz.
    match goal with |- context [if (?x <? ?y)%N then _ else _] => replace (x <? y)%N with false by lia end.
    split; [reflexivity|]. cbn [used nodes lookups].
    destruct HQ as ((Et & _) & _). split; [reflexivity|]. split; [reflexivity|]. split; [reflexivity|].
    rewrite Et. split; [reflexivity|]. split; [reflexivity|]. apply packed_contiguous.
  - intros small r' a. rewrite Hb by (cbn; lia). unfold step, fresh. cbn [capacity used nodes lookups].
    rewrite N.add_0_l. destruct (small <? _)%N; [discriminate|]. intros E. injection E as _ <-. cbn [used]. lia.
Qed.
Print Assumptions C49_lm_memory.

Example C49_example :
  let size := calc (get_context_buffer_size_for_lm lib64 2 demo_hp 3) 0 in
  exists r a, build_lm_graph zprim lib64 Bert demo_hp demo_weights 3 [1;2;8;4]%Z (fresh size) = Ok (r, a) /\
    (used a + graph_overhead lib64 = size)%N.
Proof.
  destruct (C49_lm_memory zprim lib64 demo demo_sl (fun x => x) [1;2;8;4]%Z 2 demo_lm demo_lm_runnable eq_refl)
    as ((r & a & E & F & _) & _).
  exists r, a. split; assumption.
Qed.
