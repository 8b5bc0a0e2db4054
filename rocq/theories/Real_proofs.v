From Coq Require Import Reals Lra Permutation.
From Verif Require Import Base Ggml_model Encoder_model Encoder_spec Eval_model Eval_spec Eval_proofs Real_spec.
Local Open Scope R_scope.

(** ** Sums *)
Lemma rsum_app a b : rsum (a ++ b) = rsum a + rsum b.
Proof. induction a as [|x a IH]; simpl; [lra|]. unfold rsum in *. simpl. rewrite IH. lra. Qed.

Lemma rsum_cons x a : rsum (x :: a) = x + rsum a.
Proof. reflexivity. Qed.

Lemma rsum_perm a b : Permutation a b -> rsum a = rsum b.
Proof. induction 1; rewrite ?rsum_cons in *; try lra; reflexivity. Qed.

Lemma rsum_nonneg l : Forall (fun x => 0 <= x) l -> 0 <= rsum l.
Proof. induction 1; [simpl; lra|]. rewrite rsum_cons. lra. Qed.

Lemma rsum_pos l : l <> [] -> Forall (fun x => 0 < x) l -> 0 < rsum l.
Proof.
  intros H F. destruct F as [|x l Hx F]; [congruence|]. rewrite rsum_cons.
  assert (0 <= rsum l); [|lra]. apply rsum_nonneg. eapply Forall_impl; [|exact F]. intros; lra.
Qed.

Lemma rsum_div l s : rsum (map (fun x => x / s) l) = rsum l / s.
Proof. induction l as [|x l IH]; cbn [map]; [unfold rsum, Rdiv; simpl; lra|]. rewrite !rsum_cons, IH. unfold Rdiv. lra. Qed.

Lemma rsum_le_member l x : Forall (fun y => 0 <= y) l -> In x l -> x <= rsum l.
Proof.
  induction 1 as [|y l Hy F IH]; [intros []|]. rewrite rsum_cons. pose proof (rsum_nonneg l F).
  intros [->|H1]; [lra|]. specialize (IH H1). lra.
Qed.

Lemma rsum_le_all l m : Forall (fun x => x <= m) l -> rsum l <= INR (length l) * m.
Proof.
  induction 1 as [|x l Hx F IH]; [simpl; lra|]. cbn [length]. rewrite rsum_cons, S_INR. lra.
Qed.
Lemma rsum_ge_all l m : Forall (fun x => m <= x) l -> INR (length l) * m <= rsum l.
Proof.
  induction 1 as [|x l Hx F IH]; [simpl; lra|]. cbn [length]. rewrite rsum_cons, S_INR. lra.
Qed.

(** ** Softmax *)
Lemma softmax_length l : length (softmax l) = length l.
Proof. apply map_length. Qed.

Lemma exp_sum_pos l : l <> [] -> 0 < rsum (map exp l).
Proof.
  intros H. apply rsum_pos; [destruct l; [congruence|discriminate]|].
  apply Forall_map, Forall_forall. intros x _. apply exp_pos.
Qed.

Lemma softmax_distribution l : l <> [] -> distribution (softmax l).
Proof.
  intros H. pose proof (exp_sum_pos l H) as S. split.
  - apply Forall_map, Forall_forall. intros x Hx. pose proof (exp_pos x).
    split; [apply Rdiv_lt_0_compat; assumption|].
    apply (Rmult_le_reg_r (rsum (map exp l))); [exact S|].
    unfold Rdiv. rewrite Rmult_assoc, Rinv_l by lra. rewrite Rmult_1_r, Rmult_1_l.
    apply rsum_le_member; [|apply in_map, Hx].
    apply Forall_map, Forall_forall. intros y _. pose proof (exp_pos y). lra.
  - unfold softmax. replace (map (fun x => exp x / rsum (map exp l)) l)
      with (map (fun x => x / rsum (map exp l)) (map exp l)) by (rewrite map_map; reflexivity).
    rewrite rsum_div. apply Rinv_r. lra.
Qed.

(** ** The best k of a distribution *)
Lemma pick_all (r : list R) : map (fun i => nth i r 0) (seq 0 (length r)) = r.
Proof.
  induction r as [|x r IH]; [reflexivity|]. cbn [length seq map nth]. f_equal.
  rewrite <- seq_shift, map_map. exact IH.
Qed.

Lemma NoDup_app_intro {A} (a b : list A) : NoDup a -> NoDup b -> (forall x, In x a -> ~ In x b) -> NoDup (a ++ b).
Proof.
  induction 1 as [|x a Hx Ha IH]; intros Hb D; [exact Hb|]. cbn [app]. constructor.
  - rewrite in_app_iff. intros [H|H]; [tauto|]. exact (D x (or_introl eq_refl) H).
  - apply IH; [exact Hb|]. intros y Hy. apply D. right. exact Hy.
Qed.

Lemma pick_rest (r : list R) ids : NoDup ids -> Forall (fun i => (i < length r)%nat) ids ->
  exists rest, Permutation (ids ++ rest) (seq 0 (length r)) /\ (forall i, In i rest -> (i < length r)%nat /\ ~ In i ids).
Proof.
  intros HN HF.
  exists (filter (fun i => negb (existsb (Nat.eqb i) ids)) (seq 0 (length r))).
  assert (EX : forall i, existsb (Nat.eqb i) ids = true <-> In i ids).
  { intros i. rewrite existsb_exists. split; [intros (x & H & E); apply Nat.eqb_eq in E; subst; exact H|intros H; exists i; split; [exact H|apply Nat.eqb_refl]]. }
  assert (IR : forall i, In i (filter (fun i => negb (existsb (Nat.eqb i) ids)) (seq 0 (length r))) <-> (i < length r)%nat /\ ~ In i ids).
  { intros i. rewrite filter_In, in_seq, Bool.negb_true_iff, <- Bool.not_true_iff_false, EX. split; intros [A B]; split; auto; lia. }
  split; [|intros i H; apply IR, H].
  apply NoDup_Permutation.
  - apply NoDup_app_intro; [exact HN|apply NoDup_filter, seq_NoDup|].
    intros x Hx Hy. apply IR in Hy. tauto.
  - apply seq_NoDup.
  - intros i. rewrite in_app_iff, IR, in_seq. rewrite Forall_forall in HF.
    destruct (in_dec Nat.eq_dec i ids) as [H|H]; [specialize (HF i H); split; intros; [lia|auto]|].
    split; [intros [H1|H1]; [tauto|lia]|intros H1; right; split; [lia|exact H]].
Qed.

Lemma picked_sum (r : list R) ids : NoDup ids -> Forall (fun i => (i < length r)%nat) ids ->
  exists rest, rsum (map (fun i => nth i r 0) ids) + rsum (map (fun i => nth i r 0) rest) = rsum r /\
    (length ids + length rest = length r)%nat /\ (forall i, In i rest -> (i < length r)%nat /\ ~ In i ids).
Proof.
  intros HN HF. destruct (pick_rest r ids HN HF) as (rest & HP & HR). exists rest.
  split; [|split; [|exact HR]].
  - rewrite <- rsum_app, <- map_app. transitivity (rsum (map (fun i => nth i r 0) (seq 0 (length r)))).
    + apply rsum_perm, Permutation_map, HP.
    + rewrite pick_all. reflexivity.
  - apply Permutation_length in HP. rewrite app_length, seq_length in HP. exact HP.
Qed.

Lemma best_sum k r ids ps : distribution r -> best Rle 0 k r ids ps ->
  Forall (fun p => 0 < p <= 1) ps /\ INR k / INR (length r) <= rsum ps <= 1 /\ (k = length r -> rsum ps = 1).
Proof.
  intros [HD HS] HB. destruct HB as [BL BN BE BO BP BR].
  destruct (picked_sum r ids BN BE) as (rest & ES & EL & HR). rewrite <- BP in ES.
  rewrite Forall_forall in HD, BE.
  assert (HP : Forall (fun p => 0 < p <= 1) ps).
  { subst ps. apply Forall_map, Forall_forall. intros i Hi. apply HD, nth_In, BE, Hi. }
  split; [exact HP|].
  assert (R0 : 0 <= rsum (map (fun i => nth i r 0) rest)).
  { apply rsum_nonneg, Forall_map, Forall_forall. intros i Hi.
    destruct (HD (nth i r 0)) as [Q _]; [apply nth_In, HR, Hi|lra]. }
  assert (LP : length ps = k) by (rewrite BP, map_length; exact BL).
  split; [split; [|lra]|].
  - destruct k as [|k].
    { unfold Rdiv. simpl. rewrite Rmult_0_l. apply rsum_nonneg. eapply Forall_impl; [|exact HP]. intros; lra. }
    set (m := nth k ps 0).
    assert (A : Forall (fun p => m <= p) ps).
    { apply Forall_forall. intros p Hp. apply (In_nth _ _ 0) in Hp as (i & Hi & <-).
      unfold m. destruct (Nat.eq_dec i k) as [->|Ne]; [lra|]. apply BO; lia. }
    assert (B : Forall (fun p => p <= m) (map (fun i => nth i r 0) rest)).
    { apply Forall_map, Forall_forall. intros i Hi. destruct (HR i Hi) as [H1 H2].
      unfold m. apply BR; [exact H1|exact H2|lia]. }
    apply rsum_ge_all in A. apply rsum_le_all in B. rewrite map_length in B. rewrite LP in A.
    assert (NR : INR (length r) = INR (S k) + INR (length rest)) by (rewrite <- plus_INR; f_equal; lia).
    assert (K0 : 0 < INR (S k)) by (apply lt_0_INR; lia).
    assert (N0 : 0 < INR (length r)) by (rewrite NR; pose proof (pos_INR (length rest)); lra).
    apply (Rmult_le_reg_r (INR (length r))); [exact N0|].
    unfold Rdiv. rewrite Rmult_assoc, Rinv_l by lra. rewrite Rmult_1_r, NR.
    assert (Q : INR (S k) * rsum (map (fun i => nth i r 0) rest) <= rsum ps * INR (length rest)).
    { apply Rle_trans with (INR (S k) * (INR (length rest) * m)).
      - apply Rmult_le_compat_l; [lra|exact B].
      - replace (INR (S k) * (INR (length rest) * m)) with (INR (S k) * m * INR (length rest)) by ring.
        apply Rmult_le_compat_r; [apply pos_INR|exact A]. }
    rewrite HS in ES. rewrite Rmult_plus_distr_l.
    replace (INR (S k)) with (INR (S k) * (rsum ps + rsum (map (fun i => nth i r 0) rest))) at 1 by (rewrite ES; ring).
    lra.
  - intros ->. rewrite BL in EL. assert (rest = []) as -> by (destruct rest; [reflexivity|simpl in EL; lia]).
    cbn [map] in ES. change (rsum []) with 0 in ES. lra.
Qed.

(** ** Layer norm *)
Lemma norm_bounded e r x : 0 < e -> In x r ->
  Rabs ((x - mean r) / sqrt (variance r + e)) <= sqrt (INR (length r)).
Proof.
  intros He Hx. set (n := INR (length r)).
  assert (Hn : 0 < n) by (apply lt_0_INR; destruct r; [destruct Hx|simpl; lia]).
  set (f := fun x => (x - mean r) * (x - mean r)).
  assert (F0 : Forall (fun y => 0 <= y) (map f r)).
  { apply Forall_map, Forall_forall. intros y _. apply Rle_0_sqr. }
  assert (V : rsum (map f r) = n * variance r).
  { unfold variance, mean at 1. fold f. rewrite map_length. fold n. unfold Rdiv. rewrite <- Rmult_assoc, Rinv_r_simpl_m; lra. }
  assert (V0 : 0 <= variance r).
  { apply (Rmult_le_reg_l n); [exact Hn|]. rewrite Rmult_0_r, <- V. apply rsum_nonneg, F0. }
  assert (X : f x <= n * (variance r + e)).
  { apply Rle_trans with (rsum (map f r)); [apply rsum_le_member; [exact F0|apply in_map, Hx]|]. rewrite V.
    apply Rmult_le_compat_l; lra. }
  assert (S0 : 0 < sqrt (variance r + e)) by (apply sqrt_lt_R0; lra).
  unfold Rdiv. rewrite Rabs_mult, (Rabs_right (/ _)) by (apply Rle_ge, Rlt_le, Rinv_0_lt_compat, S0).
  apply (Rmult_le_reg_r (sqrt (variance r + e))); [exact S0|].
  rewrite Rmult_assoc, Rinv_l, Rmult_1_r by lra.
  rewrite <- sqrt_mult by lra. rewrite <- (sqrt_Rsqr_abs (x - mean r)). apply sqrt_le_1_alt. exact X.
Qed.

Lemma tanh_inside x : -1 < (exp x - exp (- x)) / (exp x + exp (- x)) < 1.
Proof.
  pose proof (exp_pos x). pose proof (exp_pos (- x)).
  assert (S : 0 < exp x + exp (- x)) by lra.
  split; (apply (Rmult_lt_reg_r (exp x + exp (- x))); [exact S|]); unfold Rdiv; rewrite Rmult_assoc, Rinv_l by lra; lra.
Qed.

(** ** One layer, row by row *)
Section Rows.
Context {V : Type} (P : prim V).

Definition dense_row (w : matrix V) (b r : list V) : list V := zip_with (p_add P) (map (fun wr => p_dot P wr r) w) b.
Definition norm_row (e : N) (w b r : list V) : list V := zip_with (p_add P) (zip_with (p_mul P) w (p_norm P e r)) b.

Definition context_row (heads d : nat) (y : s_block V) (x : matrix V) (r : list V) : list V :=
  concat (map (fun h => s_attend P d (s_head d h (s_dense P (sk_w y) (sk_b y) x)) (s_head d h (s_dense P (sv_w y) (sv_b y) x))
                          (firstn d (skipn (h * d) (dense_row (sq_w y) (sq_b y) r)))) (seq 0 heads)).

Definition finish_row (e : N) (y : s_block V) (r ctx : list V) : list V :=
  let r1 := norm_row e (sln_ff_w y) (sln_ff_b y) (zip_with (p_add P) r (dense_row (sff_w y) (sff_b y) ctx)) in
  norm_row e (sln_out_w y) (sln_out_b y)
    (zip_with (p_add P) r1 (dense_row (so_w y) (so_b y) (map (p_gelu P) (dense_row (si_w y) (si_b y) r1)))).

Definition layer_row (e : N) (heads d : nat) (y : s_block V) (x : matrix V) (r : list V) : list V :=
  finish_row e y r (context_row heads d y x r).

Lemma combine_map {A C D} (f : A -> C) (g : A -> D) l : combine (map f l) (map g l) = map (fun a => (f a, g a)) l.
Proof. induction l as [|a l IH]; [reflexivity|]. cbn. rewrite IH. reflexivity. Qed.

Lemma combine_map_r {A D} (g : A -> D) l : combine l (map g l) = map (fun a => (a, g a)) l.
Proof. induction l as [|a l IH]; [reflexivity|]. cbn. rewrite IH. reflexivity. Qed.

Lemma s_attention_rows heads d q k v x (f : list V -> list V) : q = map f x ->
  s_attention P heads d q k v =
  map (fun r => concat (map (fun h => s_attend P d (s_head d h k) (s_head d h v) (firstn d (skipn (h * d) (f r)))) (seq 0 heads))) x.
Proof.
  intros ->. unfold s_attention. rewrite map_length.
  set (F := fun r : list V => concat _).
  transitivity (map (fun i => F (nth i x [])) (seq 0 (length x))).
  - apply map_ext_in. intros i Hi. apply in_seq in Hi. unfold F. f_equal. apply map_ext. intros h. f_equal.
    unfold s_head. rewrite map_map.
    rewrite (nth_indep _ [] (firstn d (skipn (h * d) (f [])))) by (rewrite map_length; lia).
    rewrite (map_nth (fun r => firstn d (skipn (h * d) (f r)))). reflexivity.
  - rewrite <- (map_map (fun i => nth i x []) F). f_equal.
    clear. induction x as [|r x IH]; [reflexivity|]. cbn [length seq map nth]. f_equal. rewrite <- seq_shift, map_map. exact IH.
Qed.

Lemma s_layer_rows e heads d y x : s_layer P e heads d y x = map (layer_row e heads d y x) x.
Proof.
  unfold s_layer. cbv zeta.
  rewrite (s_attention_rows heads d (s_dense P (sq_w y) (sq_b y) x) (s_dense P (sk_w y) (sk_b y) x) (s_dense P (sv_w y) (sv_b y) x) x (dense_row (sq_w y) (sq_b y)) eq_refl).
  fold (context_row heads d y x).
  change (map (fun r => concat _) x) with (map (context_row heads d y x) x).
  set (c := context_row heads d y x).
  assert (E1 : s_layer_norm P e (sln_ff_w y) (sln_ff_b y) (s_add P x (s_dense P (sff_w y) (sff_b y) (map c x))) =
    map (fun r => norm_row e (sln_ff_w y) (sln_ff_b y) (zip_with (p_add P) r (dense_row (sff_w y) (sff_b y) (c r)))) x).
  { unfold s_layer_norm, s_add, s_dense. rewrite !map_map.
    rewrite combine_map_r, !map_map. reflexivity. }
  rewrite E1. set (g := fun r => norm_row e (sln_ff_w y) (sln_ff_b y) _).
  unfold s_layer_norm, s_add, s_dense. rewrite !map_map, combine_map, !map_map. reflexivity.
Qed.

(** The embedding of one token. *)
Definition embed_row (e : N) (s : s_model V) (t : Z * (Z * Z)) : list V :=
  norm_row e (sm_lw s) (sm_lb s)
    (zip_with (p_add P) (nth (Z.to_nat (snd (snd t))) (sm_segments s) [])
      (zip_with (p_add P) (nth (Z.to_nat (fst t)) (sm_positions s) []) (nth (Z.to_nat (fst (snd t))) (sm_words s) []))).

Lemma s_embed_rows e s pos tok seg : length pos = length tok -> length seg = length tok ->
  s_embed P e (sm_words s) (sm_positions s) (sm_segments s) (sm_lw s) (sm_lb s) pos tok seg =
  map (embed_row e s) (combine pos (combine tok seg)).
Proof.
  unfold s_embed, s_layer_norm, s_add, Encoder_spec.s_rows. revert pos seg.
  induction tok as [|t tok IH]; intros [|p pos] [|g seg] H1 H2; try discriminate; [reflexivity|].
  cbn [map combine]. f_equal. apply IH; cbn in *; congruence.
Qed.
End Rows.

(** ** A layer does not see the order of the rows *)
Section Exact.
Context (eps : N -> R) (P : prim R) (EX : exact eps P).

Lemma exact_rows : row_ops_ok P.
Proof.
  constructor; intros; rewrite ?(ex_norm _ _ EX), ?(ex_soft _ _ EX), ?(ex_soft_scaled _ _ EX), ?softmax_length, ?map_length; reflexivity.
Qed.

Lemma attend_perm {A} d (kf vf : A -> list R) x x' query : Permutation x x' ->
  s_attend P d (map kf x) (map vf x) query = s_attend P d (map kf x') (map vf x') query.
Proof.
  intros HP. unfold s_attend. apply map_ext. intros c.
  rewrite !(ex_dot _ _ EX), !(ex_soft_scaled _ _ EX). unfold column, softmax. rewrite !map_map.
  set (g := fun a => exp (p_dot P (kf a) query * / sqrt (INR d))).
  assert (ES : rsum (map g x) = rsum (map g x')) by (apply rsum_perm, Permutation_map, HP).
  unfold zip_with. rewrite !combine_map, !map_map. cbn [fst snd].
  fold g. change (map (fun a => exp (p_dot P (kf a) query * / sqrt (INR d))) x) with (map g x).
  change (map (fun a => exp (p_dot P (kf a) query * / sqrt (INR d))) x') with (map g x').
  rewrite ES. apply rsum_perm, Permutation_map, HP.
Qed.

Lemma layer_row_perm e heads d y x x' r : Permutation x x' ->
  layer_row P e heads d y x r = layer_row P e heads d y x' r.
Proof.
  intros HP. unfold layer_row. f_equal. unfold context_row. f_equal. apply map_ext. intros h.
  unfold s_head, s_dense. rewrite !map_map. apply attend_perm, HP.
Qed.

Lemma layers_perm {A} e heads d ys : forall (f : A -> list R) x x', Permutation x x' ->
  exists g, fold_left (fun x y => s_layer P e heads d y x) ys (map f x) = map g x /\
            fold_left (fun x y => s_layer P e heads d y x) ys (map f x') = map g x'.
Proof.
  induction ys as [|y ys IH]; intros f x x' HP; [exists f; split; reflexivity|].
  cbn [fold_left]. rewrite !s_layer_rows, !map_map.
  rewrite (map_ext (fun a => layer_row P e heads d y (map f x') (f a)) (fun a => layer_row P e heads d y (map f x) (f a)))
    by (intros a; apply layer_row_perm, Permutation_map, Permutation_sym, HP).
  apply IH, HP.
Qed.

(** Mean and maximum of a column do not see it either. *)
Lemma avg_perm r r' : Permutation r r' -> p_avg P r = p_avg P r'.
Proof.
  intros HP. rewrite !(ex_avg _ _ EX). unfold mean. rewrite (rsum_perm _ _ HP), (Permutation_length HP). reflexivity.
Qed.
Lemma max_perm r r' : r <> [] -> Permutation r r' -> p_max P r = p_max P r'.
Proof.
  intros Hn HP. assert (Hn' : r' <> []) by (intros ->; apply Permutation_sym, Permutation_nil in HP; congruence).
  destruct (ex_max _ _ EX r Hn) as (I1 & F1), (ex_max _ _ EX r' Hn') as (I2 & F2).
  rewrite Forall_forall in F1, F2.
  apply Rle_antisym.
  - apply F2. eapply Permutation_in; [exact HP|exact I1].
  - apply F1. eapply Permutation_in; [apply Permutation_sym, HP|exact I2].
Qed.

(** ** Bounds of the rows that come out of a layer norm *)
Lemma zip_length (f : R -> R -> R) a b : length (zip_with f a b) = Nat.min (length a) (length b).
Proof. unfold zip_with. rewrite map_length, combine_length. reflexivity. Qed.

Lemma zip_nth (f : R -> R -> R) a b c : (c < length a)%nat -> (c < length b)%nat ->
  nth c (zip_with f a b) 0 = f (nth c a 0) (nth c b 0).
Proof.
  revert b c. induction a as [|x a IH]; intros [|y b] c Ha Hb; try (cbn in *; lia).
  destruct c as [|c]; [reflexivity|]. cbn in Ha, Hb. cbn. apply IH; lia.
Qed.

Lemma norm_row_bounded e w b r c : 0 < eps e ->
  Rabs (nth c (norm_row P e w b r) 0) <= Rabs (nth c w 0) * sqrt (INR (length r)) + Rabs (nth c b 0).
Proof.
  intros He. unfold norm_row. set (v := p_norm P e r).
  assert (LV : length v = length r) by (unfold v; apply (norm_length P exact_rows)).
  assert (B0 : 0 <= Rabs (nth c w 0) * sqrt (INR (length r)) + Rabs (nth c b 0)).
  { apply Rplus_le_le_0_compat; [apply Rmult_le_pos; [apply Rabs_pos|apply sqrt_pos]|apply Rabs_pos]. }
  destruct (Nat.lt_ge_cases c (length (zip_with (p_add P) (zip_with (p_mul P) w v) b))) as [H|H].
  2:{ rewrite nth_overflow by exact H. rewrite Rabs_R0. exact B0. }
  rewrite !zip_length in H. rewrite zip_nth by (rewrite ?zip_length; lia). rewrite zip_nth by lia.
  rewrite (ex_add _ _ EX), (ex_mul _ _ EX).
  apply Rle_trans with (Rabs (nth c w 0 * nth c v 0) + Rabs (nth c b 0)); [apply Rabs_triang|].
  apply Rplus_le_compat_r. rewrite Rabs_mult. apply Rmult_le_compat_l; [apply Rabs_pos|].
  assert (HI : In (nth c v 0) v) by (apply nth_In; lia).
  unfold v in HI. rewrite (ex_norm _ _ EX) in HI. apply in_map_iff in HI as (a & Ea & Ha).
  unfold v. rewrite (ex_norm _ _ EX). rewrite <- Ea. apply norm_bounded; assumption.
Qed.
End Exact.

(** ** Positions of RoBERTa tokens *)
Section Positions.
Local Open Scope nat_scope.
Local Open Scope Z_scope.

Fixpoint placed (pad : N) (k : nat) (l : list (N * N)) : list (Z * (Z * Z)) :=
  match l with
  | [] => []
  | (t, g) :: l' => if (t =? pad)%N then (0%Z, (Z.of_N t, Z.of_N g)) :: placed pad k l'
                    else (Z.of_N pad + Z.of_nat (S k), (Z.of_N t, Z.of_N g)) :: placed pad (S k) l'
  end.

Lemma placed_from pad : forall tokens segments k, length segments = length tokens ->
  combine (map (fun i => if (nth i tokens 0%N =? pad)%N then 0 else Z.of_N pad + Z.of_nat (k + ordinary pad tokens i)) (seq 0 (length tokens)))
          (combine (map Z.of_N tokens) (map Z.of_N segments)) =
  placed pad k (combine tokens segments).
Proof.
  induction tokens as [|t tokens IH]; intros [|g segments] k H; try discriminate; [reflexivity|].
  injection H as H. cbn [length seq map combine placed nth]. rewrite <- seq_shift, map_map. rewrite ordinary_first.
  destruct (t =? pad)%N eqn:E.
  - f_equal. rewrite <- (IH segments k H). f_equal. apply map_ext. intros i. cbn [nth]. rewrite ordinary_cons, E. reflexivity.
  - f_equal; [do 2 f_equal; lia|]. rewrite <- (IH segments (S k) H). f_equal. apply map_ext. intros i. cbn [nth].
    rewrite ordinary_cons, E. destruct (nth i tokens 0%N =? pad)%N; [reflexivity|lia].
Qed.

Lemma roberta_placed pad tokens segments : length segments = length tokens ->
  combine (position_ids (Roberta pad) tokens) (combine (map Z.of_N tokens) (map Z.of_N segments)) =
  placed pad 0 (combine tokens segments).
Proof. intros H. exact (placed_from pad tokens segments 0 H). Qed.

Lemma placed_split pad : forall l k, Permutation (placed pad k l)
  (placed pad k (filter (ordinary_pair pad) l) ++ placed pad k (filter (fun p => negb (ordinary_pair pad p)) l)).
Proof.
  induction l as [|(t, g) l IH]; intros k; [apply Permutation_refl|].
  cbn [placed filter]. change (ordinary_pair pad (t, g)) with (negb (t =? pad)%N).
  destruct (t =? pad)%N eqn:E; cbn [negb placed]; rewrite E.
  - apply Permutation_cons_app. apply IH.
  - cbn [app]. apply perm_skip. eapply perm_trans; [apply IH|]. apply Permutation_app_head.
    assert (forall l', Forall (fun p => (fst p =? pad)%N = true) l' -> placed pad (S k) l' = placed pad k l') as ->; [|apply Permutation_refl|].
    + induction 1 as [|(t', g') l' E' F IH']; [reflexivity|]. cbn [placed fst] in *. rewrite E', IH'. reflexivity.
    + apply Forall_forall. intros p Hp. apply filter_In in Hp as (_ & Hp). unfold ordinary_pair in Hp. rewrite Bool.negb_involutive in Hp. exact Hp.
Qed.

Lemma perm_filter {A} (f : A -> bool) l l' : Permutation l l' -> Permutation (filter f l) (filter f l').
Proof.
  induction 1 as [|x l l' H IH|x y l|l l' l'' H1 IH1 H2 IH2]; cbn [filter]; try apply Permutation_refl.
  - destruct (f x); [apply perm_skip, IH|exact IH].
  - destruct (f x), (f y); try apply Permutation_refl. apply perm_swap.
  - eapply perm_trans; eassumption.
Qed.

Lemma placed_padding pad k l : Forall (fun p => ordinary_pair pad p = false) l ->
  placed pad k l = map (fun p => (0, (Z.of_N (fst p), Z.of_N (snd p)))) l.
Proof.
  induction 1 as [|(t, g) l H F IH]; [reflexivity|]. unfold ordinary_pair in H. cbn [fst] in H. apply Bool.negb_false_iff in H.
  cbn [placed map fst snd]. rewrite H, IH. reflexivity.
Qed.

Lemma padding_only pad l : Forall (fun p => ordinary_pair pad p = false) (filter (fun p => negb (ordinary_pair pad p)) l).
Proof. apply Forall_forall. intros p Hp. apply filter_In in Hp as (_ & Hp). apply Bool.negb_true_iff, Hp. Qed.

Lemma placed_perm pad l l' : padded_alike pad l l' -> Permutation (placed pad 0 l) (placed pad 0 l').
Proof.
  intros (HF & HP). eapply perm_trans; [apply placed_split|]. eapply perm_trans; [|apply Permutation_sym, placed_split].
  rewrite HF. apply Permutation_app_head. rewrite !placed_padding by apply padding_only.
  apply Permutation_map, perm_filter, HP.
Qed.

(** What stands at one place. *)
Lemma placed_nth pad d : forall tokens segments k i, length segments = length tokens -> (i < length tokens)%nat ->
  nth i (placed pad k (combine tokens segments)) d =
  ((if (nth i tokens 0%N =? pad)%N then 0 else Z.of_N pad + Z.of_nat (k + ordinary pad tokens i)),
   (Z.of_N (nth i tokens 0%N), Z.of_N (nth i segments 0%N))).
Proof.
  induction tokens as [|t tokens IH]; intros [|g segments] k i H Hi; try discriminate; [cbn in Hi; lia|].
  injection H as H. cbn [combine placed]. cbn [length] in Hi.
  destruct i as [|i].
  - cbn [nth]. rewrite ordinary_first. destruct (t =? pad)%N eqn:E; [reflexivity|]. cbn [nth]. do 2 f_equal. lia.
  - cbn [nth]. rewrite ordinary_cons. destruct (t =? pad)%N eqn:E; cbn [nth]; rewrite IH by (assumption || lia);
      destruct (nth i tokens 0%N =? pad)%N; try reflexivity. do 2 f_equal. lia.
Qed.

Lemma placed_length pad : forall l k, length (placed pad k l) = length l.
Proof. induction l as [|(t, g) l IH]; intros k; [reflexivity|]. cbn [placed]. destruct (t =? pad)%N; cbn [length]; rewrite IH; reflexivity. Qed.
End Positions.
