(** Proofs about parameters without influence. *)
From Coq Require Import Reals Lra.
From Verif Require Import Base Ggml_model Encoder_model Encoder_spec Encoder_proofs Eval_model Eval_spec Real_spec Real_proofs Symmetry_spec.
Local Open Scope R_scope.

Lemma rsum_shift c l : rsum (map (fun x => x + c) l) = rsum l + INR (length l) * c.
Proof. induction l as [|x l IH]; [cbn; lra|]. cbn [map length]. rewrite !rsum_cons, IH, S_INR. lra. Qed.

Lemma rsum_scale c l : rsum (map (fun x => x * c) l) = rsum l * c.
Proof. induction l as [|x l IH]; [cbn; lra|]. cbn [map]. rewrite !rsum_cons, IH. lra. Qed.

Lemma softmax_shift c l : softmax (map (fun x => x + c) l) = softmax l.
Proof.
  destruct l as [|a l']; [reflexivity|]. set (l := a :: l').
  unfold softmax. rewrite !map_map.
  assert (E : rsum (map (fun x => exp (x + c)) l) = rsum (map exp l) * exp c).
  { rewrite <- rsum_scale, map_map. f_equal. apply map_ext. intros x. apply exp_plus. }
  rewrite E. apply map_ext. intros x. rewrite exp_plus.
  assert (0 < rsum (map exp l)) by (apply exp_sum_pos; discriminate).
  pose proof (exp_pos c). field. split; lra.
Qed.

Lemma mean_shift c l : l <> [] -> mean (map (fun x => x + c) l) = mean l + c.
Proof.
  intros H. unfold mean. rewrite rsum_shift, map_length.
  assert (0 < INR (length l)) by (apply lt_0_INR; destruct l; [congruence|cbn; lia]). field. lra.
Qed.

Lemma variance_shift c l : variance (map (fun x => x + c) l) = variance l.
Proof.
  destruct l as [|a l']; [reflexivity|]. set (l := a :: l').
  unfold variance. rewrite map_map, mean_shift by discriminate. f_equal. apply map_ext. intros x.
  replace (x + c - (mean l + c)) with (x - mean l) by lra. reflexivity.
Qed.

Lemma zip_shift_r c (a b : list R) : zip_with Rplus a (map (fun x => x + c) b) = map (fun x => x + c) (zip_with Rplus a b).
Proof.
  unfold zip_with. revert b. induction a as [|x a IH]; intros [|y b]; try reflexivity. cbn. f_equal; [lra|apply IH].
Qed.
Lemma zip_shift_l c (a b : list R) : zip_with Rplus (map (fun x => x + c) a) b = map (fun x => x + c) (zip_with Rplus a b).
Proof.
  unfold zip_with. revert b. induction a as [|x a IH]; intros [|y b]; try reflexivity. cbn. f_equal; [lra|apply IH].
Qed.

Lemma dot_zip (a b q : list R) : length a = length b ->
  rsum (zip_with Rmult (zip_with Rplus a b) q) = rsum (zip_with Rmult a q) + rsum (zip_with Rmult b q).
Proof.
  unfold zip_with. revert b q. induction a as [|x a IH]; intros [|y b] q H; try discriminate; [cbn; lra|].
  destruct q as [|z q]; [cbn; lra|]. cbn [combine map fst snd]. rewrite !rsum_cons, IH by (cbn in H; congruence). lra.
Qed.

Lemma firstn_zip (f : R -> R -> R) n : forall a b, firstn n (zip_with f a b) = zip_with f (firstn n a) (firstn n b).
Proof.
  unfold zip_with. induction n as [|n IH]; intros [|x a] [|y b]; try reflexivity. cbn. f_equal. apply IH.
Qed.
Lemma skipn_zip (f : R -> R -> R) n : forall a b, skipn n (zip_with f a b) = zip_with f (skipn n a) (skipn n b).
Proof.
  unfold zip_with. induction n as [|n IH]; intros [|x a] [|y b]; try reflexivity; cbn; [|apply IH].
  rewrite combine_nil. reflexivity.
Qed.

Lemma shifted_refl r : shifted r r.
Proof. exists 0. rewrite <- (map_id r) at 1. apply map_ext. intros x. lra. Qed.

Lemma shifted_nth i : forall M M', Forall2 shifted M M' -> shifted (nth i M []) (nth i M' []).
Proof.
  induction i as [|i IH]; intros M M' H; inversion H; subst; try apply shifted_refl; cbn; auto.
Qed.

Section Exact.
Context (eps : N -> R) (P : prim R) (EX : exact eps P).

Lemma zip_add a b : zip_with (p_add P) a b = zip_with Rplus a b.
Proof. unfold zip_with. apply map_ext. intros p. apply (ex_add _ _ EX). Qed.

Lemma norm_shift e r r' : shifted r r' -> p_norm P e r' = p_norm P e r.
Proof.
  intros (c & ->). rewrite !(ex_norm _ _ EX). destruct r as [|a r0]; [reflexivity|]. set (r := a :: r0).
  rewrite map_map, variance_shift, mean_shift by discriminate. apply map_ext. intros x. f_equal. lra.
Qed.

Lemma add_shift a a' b b' : shifted a a' -> shifted b b' -> shifted (zip_with (p_add P) a b) (zip_with (p_add P) a' b').
Proof.
  intros (c & ->) (d & ->). exists (c + d). rewrite !zip_add, zip_shift_l, zip_shift_r, map_map. apply map_ext. intros x. lra.
Qed.

Lemma dense_shift w b b' r : shifted b b' -> shifted (dense_row P w b r) (dense_row P w b' r).
Proof. intros H. unfold dense_row. apply add_shift; [apply shifted_refl|exact H]. Qed.

(** The key bias adds the same number to the scores of all keys. *)
Lemma attend_bias {A} d (key : A -> list R) (l : list A) b v query :
  Forall (fun a => length (key a) = length b) l ->
  s_attend P d (map (fun a => zip_with (p_add P) (key a) b) l) v query = s_attend P d (map key l) v query.
Proof.
  intros H. unfold s_attend. f_equal. cbv zeta.
  assert (E : p_soft_scaled P d (map (fun k => p_dot P k query) (map (fun a => zip_with (p_add P) (key a) b) l)) =
              p_soft_scaled P d (map (fun k => p_dot P k query) (map key l))).
  { rewrite !(ex_soft_scaled _ _ EX), !map_map.
    rewrite <- (softmax_shift (rsum (zip_with Rmult b query) * / sqrt (INR d)) (map (fun a => p_dot P (key a) query * / sqrt (INR d)) l)).
    f_equal. rewrite map_map. apply map_ext_in. intros a Ha. rewrite Forall_forall in H.
    rewrite !(ex_dot _ _ EX), zip_add, dot_zip by (apply H, Ha). lra. }
  rewrite E. reflexivity.
Qed.

Lemma context_bias heads d y b x r : length (sk_b y) = length (sk_w y) -> length b = length (sk_w y) ->
  context_row P heads d (mksb (sq_w y) (sq_b y) (sk_w y) b (sv_w y) (sv_b y) (sff_w y) (sff_b y)
    (sln_ff_w y) (sln_ff_b y) (si_w y) (si_b y) (so_w y) (so_b y) (sln_out_w y) (sln_out_b y)) x r =
  context_row P heads d y x r.
Proof.
  intros H1 H2. unfold context_row. cbn [sq_w sq_b sk_w sk_b sv_w sv_b]. f_equal. apply map_ext. intros h.
  assert (E : forall c, length c = length (sk_w y) -> forall v q,
    s_attend P d (s_head d h (s_dense P (sk_w y) c x)) v q =
    s_attend P d (map (fun r => firstn d (skipn (h * d) (map (fun w => p_dot P w r) (sk_w y)))) x) v q).
  { intros c Hc v q. unfold s_head, s_dense. rewrite map_map.
    rewrite <- (attend_bias d (fun r => firstn d (skipn (h * d) (map (fun w => p_dot P w r) (sk_w y)))) x (firstn d (skipn (h * d) c))).
    - f_equal. apply map_ext. intros a. rewrite !zip_add, skipn_zip, firstn_zip. reflexivity.
    - apply Forall_forall. intros a _. rewrite !firstn_length, !skipn_length, map_length, Hc. reflexivity. }
  unfold s_dense in E.
  rewrite (E b H2), (E (sk_b y) H1). reflexivity.
Qed.

(** ** Layers and models *)
Lemma layer_key_bias e heads d y y' x : other_key_bias y y' ->
  length (sk_b y) = length (sk_w y) -> length (sk_b y') = length (sk_w y') ->
  s_layer P e heads d y' x = s_layer P e heads d y x.
Proof.
  intros (b & ->) H1 H2. cbn [sk_b sk_w] in H2. rewrite !s_layer_rows. apply map_ext. intros r. unfold layer_row.
  rewrite (context_bias heads d y b x r H1 H2). reflexivity.
Qed.

Lemma layer_constants e heads d y y' x : other_constants y y' -> s_layer P e heads d y' x = s_layer P e heads d y x.
Proof.
  intros (f & o & Hf & Ho & ->). rewrite !s_layer_rows. apply map_ext. intros r. unfold layer_row.
  change (context_row P heads d _ x r) with (context_row P heads d y x r) at 1. set (ctx := context_row P heads d y x r).
  unfold finish_row. cbn [sff_w sff_b sln_ff_w sln_ff_b si_w si_b so_w so_b sln_out_w sln_out_b]. cbv zeta. unfold norm_row.
  assert (E1 : p_norm P e (zip_with (p_add P) r (dense_row P (sff_w y) f ctx)) =
               p_norm P e (zip_with (p_add P) r (dense_row P (sff_w y) (sff_b y) ctx)))
    by (apply norm_shift, add_shift; [apply shifted_refl|apply dense_shift, Hf]).
  rewrite E1.
  set (r1 := zip_with (p_add P) (zip_with (p_mul P) (sln_ff_w y) _) (sln_ff_b y)).
  set (mid := map (p_gelu P) (dense_row P (si_w y) (si_b y) r1)).
  assert (E2 : p_norm P e (zip_with (p_add P) r1 (dense_row P (so_w y) o mid)) =
               p_norm P e (zip_with (p_add P) r1 (dense_row P (so_w y) (so_b y) mid)))
    by (apply norm_shift, add_shift; [apply shifted_refl|apply dense_shift, Ho]).
  rewrite E2.
  reflexivity.
Qed.

Lemma layers_same (Q : s_block R -> s_block R -> Prop) e heads d :
  (forall y y' x, Q y y' -> s_layer P e heads d y' x = s_layer P e heads d y x) ->
  forall last ys ys' x, Forall2 Q ys ys' ->
  fold_left (fun x y => s_layer P e heads d y x) (firstn last ys') x =
  fold_left (fun x y => s_layer P e heads d y x) (firstn last ys) x.
Proof.
  intros HQ. induction last as [|last IH]; intros ys ys' x H; [reflexivity|].
  destruct H as [|y y' ys ys' Hy H]; [reflexivity|]. cbn [firstn fold_left]. rewrite (HQ _ _ _ Hy). apply IH, H.
Qed.

Lemma embed_shift e ws ps ss ws' ps' ss' lw lb pos tok seg :
  Forall2 shifted ws ws' -> Forall2 shifted ps ps' -> Forall2 shifted ss ss' ->
  s_embed P e ws' ps' ss' lw lb pos tok seg = s_embed P e ws ps ss lw lb pos tok seg.
Proof.
  intros Hw Hp Hs. unfold s_embed, s_layer_norm, s_add, Encoder_spec.s_rows. revert pos tok.
  induction seg as [|g seg IH]; intros [|i pos] [|t tok]; try reflexivity.
  cbn [map combine fst snd]. f_equal; [|apply IH].
  rewrite (norm_shift e (zip_with (p_add P) (nth (Z.to_nat g) ss []) (zip_with (p_add P) (nth (Z.to_nat i) ps []) (nth (Z.to_nat t) ws [])))).
  - reflexivity.
  - apply add_shift; [apply shifted_nth, Hs|]. apply add_shift; apply shifted_nth; assumption.
Qed.

(** ** The head *)
Lemma lm_probs_shift e act sh sh' h n hidden : decoder_shifted sh sh' ->
  lm_probs P e act sh' h n hidden = lm_probs P e act sh h n hidden.
Proof.
  intros (b & (c & ->) & ->). unfold lm_probs, s_lm. cbn [sl_dw sl_db sl_lw sl_lb sl_cw sl_cb].
  unfold s_dense at 1 3. rewrite !map_map. apply map_ext. intros r.
  rewrite !(ex_soft _ _ EX), !zip_add, zip_shift_r. apply softmax_shift.
Qed.
End Exact.

(** ** Order of scores and order of probabilities *)
Lemma softmax_nth r i : (i < length r)%nat -> nth i (softmax r) 0 = exp (nth i r 0) / rsum (map exp r).
Proof.
  intros H. unfold softmax. rewrite (nth_indep _ 0 (exp 0 / rsum (map exp r))) by (rewrite map_length; exact H).
  apply (map_nth (fun x => exp x / rsum (map exp r))).
Qed.

Lemma softmax_order r i j : (i < length r)%nat -> (j < length r)%nat ->
  nth i (softmax r) 0 <= nth j (softmax r) 0 <-> nth i r 0 <= nth j r 0.
Proof.
  intros Hi Hj. rewrite !softmax_nth by assumption.
  assert (HS : 0 < rsum (map exp r)) by (apply exp_sum_pos; destruct r; [cbn in Hi; lia|discriminate]).
  split; intros H.
  - destruct (Rle_or_lt (nth i r 0) (nth j r 0)) as [G|G]; [exact G|]. exfalso. apply exp_increasing in G.
    apply (Rmult_lt_compat_r (/ rsum (map exp r))) in G; [|apply Rinv_0_lt_compat, HS]. unfold Rdiv in H. lra.
  - apply Rmult_le_compat_r; [left; apply Rinv_0_lt_compat, HS|].
    destruct H as [H|H]; [left; apply exp_increasing, H|rewrite H; lra].
Qed.

Lemma best_scores k r ids ps : best Rle 0 k (softmax r) ids ps ->
  best Rle 0 k r ids (map (fun i => nth i r 0) ids).
Proof.
  intros H. pose proof (best_exist _ _ _ _ _ _ H) as HE. rewrite softmax_length in HE.
  pose proof (best_length _ _ _ _ _ _ H) as HL. rewrite Forall_forall in HE.
  assert (N1 : forall i, (i < k)%nat -> nth i ps 0 = nth (nth i ids 0%nat) (softmax r) 0).
  { intros i Hi. rewrite (best_probs _ _ _ _ _ _ H). apply (nth_map_lt (fun i => nth i (softmax r) 0) ids i 0%R 0%nat). lia. }
  assert (N2 : forall i, (i < k)%nat -> nth i (map (fun i => nth i r 0) ids) 0 = nth (nth i ids 0%nat) r 0).
  { intros i Hi. apply (nth_map_lt (fun i => nth i r 0) ids i 0%R 0%nat). lia. }
  assert (HB : forall i, (i < k)%nat -> (nth i ids 0%nat < length r)%nat) by (intros i Hi; apply HE, nth_In; lia).
  constructor; try reflexivity.
  - exact HL.
  - exact (best_distinct _ _ _ _ _ _ H).
  - apply Forall_forall, HE.
  - intros i j Hij Hj. rewrite !N2 by lia. apply softmax_order; try (apply HB; lia).
    rewrite <- !N1 by lia. apply (best_order _ _ _ _ _ _ H); assumption.
  - intros o i Ho Hn Hi. rewrite N2 by lia. apply softmax_order; [exact Ho|apply HB; lia|].
    rewrite <- N1 by lia. apply (best_rest _ _ _ _ _ _ H); [rewrite softmax_length|..]; assumption.
Qed.
