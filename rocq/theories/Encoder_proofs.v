(** The graph builders compute the functions of Encoder_spec, with an exact account of
    memory, nodes and look-ups. *)
From Verif Require Import Base Ggml_model Encoder_model Encoder_spec.

(** ** Accounting *)

(** On every arena that is not overfull, [m] behaves as one step of the given cost. *)
Definition does {A} (m : B A) (c : N) (k : nat) (l : list (nat * list Z)) (Q : A -> Prop) : Prop :=
  exists a, (forall s, (used s <= capacity s)%N -> m s = step c k l a s) /\ Q a.

Lemma step_inv {A} c k l (a : A) s r s' :
  step c k l a s = Ok (r, s') ->
  r = a /\ (used s + c <= capacity s)%N /\
  s' = mkarena (capacity s) (used s + c) (nodes s + k) (lookups s ++ l).
Proof.
  unfold step. destruct (capacity s <? used s + c)%N eqn:E; [discriminate|].
  intros H. injection H as <- <-. repeat split. lia.
Qed.

Lemma does_bind {A C} (m : B A) (f : A -> B C) c1 k1 l1 Q c2 k2 l2 R :
  does m c1 k1 l1 Q ->
  (forall a, Q a -> does (f a) c2 k2 l2 R) ->
  does (bbind m f) (c1 + c2) (k1 + k2) (l1 ++ l2) R.
Proof.
  intros (a & Hm & Qa) Hf. destruct (Hf a Qa) as (b & Hb & Rb).
  exists b. split; [|exact Rb].
  intros s Hs. unfold bbind. rewrite (Hm s Hs). unfold step at 1.
  destruct (capacity s <? used s + c1)%N eqn:E1; cbn [obind].
  - unfold step. destruct (capacity s <? used s + (c1 + c2))%N eqn:E2; [reflexivity|lia].
  - rewrite Hb by (cbn; lia). unfold step. cbn [capacity used nodes lookups fst snd].
    replace (used s + (c1 + c2))%N with (used s + c1 + c2)%N by lia.
    destruct (capacity s <? used s + c1 + c2)%N; [reflexivity|].
    rewrite Nat.add_assoc, app_assoc. reflexivity.
Qed.

Lemma does_bind2 {A C D} (m : B A) (f : A -> B C) (g : C -> B D) c1 k1 l1 Q c2 k2 l2 R :
  does (bbind m f) c1 k1 l1 Q ->
  (forall a, Q a -> does (g a) c2 k2 l2 R) ->
  does (bbind m (fun x => bbind (f x) g)) (c1 + c2) (k1 + k2) (l1 ++ l2) R.
Proof.
  intros H1 H2. destruct (does_bind _ _ _ _ _ _ _ _ _ _ H1 H2) as (a & Ha & HR).
  exists a. split; [|exact HR]. intros s Hs. rewrite <- (Ha s Hs).
  unfold bbind. destruct (m s); reflexivity.
Qed.

Lemma does_conv {A} (m : B A) c k l (Q : A -> Prop) c' k' l' (R : A -> Prop) :
  does m c k l Q -> c = c' -> k = k' -> l = l' -> (forall a, Q a -> R a) -> does m c' k' l' R.
Proof. intros (a & H & HQ) <- <- <- HR. exists a. split; auto. Qed.

Lemma does_ret {A} (a : A) (Q : A -> Prop) : Q a -> does (bret a) 0 0 [] Q.
Proof.
  intros H. exists a. split; [|exact H]. intros s Hs. unfold bret, step.
  destruct (capacity s <? used s + 0)%N eqn:E; [lia|].
  rewrite N.add_0_r, Nat.add_0_r, app_nil_r. destruct s; reflexivity.
Qed.

Lemma does_assert c : c = true -> does (bassert c) 0 0 [] (fun _ => True).
Proof. intros ->. exact (does_ret tt (fun _ => True) I). Qed.

Lemma does_step {A} c k l (a : A) (Q : A -> Prop) : Q a -> does (step c k l a) c k l Q.
Proof. intros H. exists a. auto. Qed.

Lemma does_step_eq {A} c k l (a : A) : does (step c k l a) c k l (fun y => y = a).
Proof. apply does_step. reflexivity. Qed.

Lemma does_guard {A} c (m : B A) x k l Q :
  c = true -> does m x k l Q -> does (_ <- bassert c ;; m) x k l Q.
Proof.
  intros Hc Hm.
  eapply does_conv; [eapply does_bind; [apply does_assert, Hc|intros; exact Hm]|..]; auto.
Qed.

Lemma does_multiples {A} ps (m : B A) x k l Q :
  Forall (fun p => 0 < fst p /\ snd p mod fst p = 0) ps -> does m x k l Q ->
  does (_ <- bmultiples ps ;; m) x k l Q.
Proof.
  intros Hp Hm.
  assert (H : does (bmultiples ps) 0 0 [] (fun _ => True)).
  { induction Hp as [|(a, b) ps (Ha & Hab) _ IH]; [exact (does_ret tt (fun _ => True) I)|].
    cbn [bmultiples fst snd] in *.
    replace (a =? 0) with false by (symmetry; apply Nat.eqb_neq; lia).
    apply does_guard; [rewrite Hab; reflexivity|exact IH]. }
  eapply does_conv; [eapply does_bind; [exact H|intros; exact Hm]|..]; auto.
Qed.

(** [tensor_cost] and [get_tensor_size] agree. *)
Lemma cost_size L t a b c d : tensor_cost L t a b c d = get_tensor_size L t a b c d.
Proof.
  unfold tensor_cost, get_tensor_size, object_cost, get_data_size.
  rewrite N.add_comm. f_equal. f_equal. apply N.add_comm.
Qed.

Lemma view_size L : view_cost L = get_tensor_size L F32 0 1 1 1.
Proof.
  unfold view_cost, get_tensor_size, object_cost, get_data_size.
  rewrite N.add_comm. f_equal.
Qed.

(** ** Lists *)

Lemma nth_zip_with {V} (P : prim V) f (a b : list V) i d :
  i < length a -> i < length b -> nth i (zip_with f a b) d = f (nth i a d) (nth i b d).
Proof.
  unfold zip_with. revert b i. induction a as [|x a IH]; intros [|y b] [|i] Ha Hb; simpl in *; try lia.
  - reflexivity.
  - apply IH; lia.
Qed.

Lemma length_zip_with {V} f (a b : list V) : length (zip_with f a b) = min (length a) (length b).
Proof. unfold zip_with. rewrite map_length, combine_length. reflexivity. Qed.

Lemma nth_map_lt {A C} (f : A -> C) l i d d' :
  i < length l -> nth i (map f l) d = f (nth i l d').
Proof.
  intros H. rewrite nth_indep with (d' := f d') by (rewrite map_length; exact H).
  apply map_nth.
Qed.

Lemma map_nth_seq {A} (l : list A) n d : length l = n -> map (fun i => nth i l d) (seq 0 n) = l.
Proof.
  intros <-. induction l as [|x l IH]; [reflexivity|].
  simpl. f_equal. rewrite <- seq_shift, map_map. exact IH.
Qed.

Lemma Forall_nth_lt {A} (Q : A -> Prop) l i d : Forall Q l -> i < length l -> Q (nth i l d).
Proof. intros H Hi. rewrite Forall_nth in H. apply H, Hi. Qed.

Lemma nth_concat_uniform {A} (ls : list (list A)) d i x :
  0 < d -> Forall (fun l => length l = d) ls -> i < length ls * d ->
  nth i (concat ls) x = nth (i mod d) (nth (i / d) ls []) x.
Proof.
  intros Hd. revert i. induction ls as [|l ls IH]; intros i HF Hi; simpl in Hi; [lia|].
  inversion HF as [|? ? Hl Hls]; subst. simpl concat.
  destruct (Nat.lt_ge_cases i (length l)) as [Hlt|Hge].
  - rewrite app_nth1 by exact Hlt. rewrite Nat.mod_small, Nat.div_small by exact Hlt. reflexivity.
  - rewrite app_nth2 by exact Hge. rewrite IH by (auto; lia).
    replace i with (length l + (i - length l)) at 3 4 by lia.
    replace (length l + (i - length l)) with (i - length l + 1 * length l) by lia.
    rewrite Nat.mod_add, Nat.div_add by lia.
    rewrite (Nat.add_comm _ 1). reflexivity.
Qed.

Lemma length_concat_uniform {A} (ls : list (list A)) d :
  Forall (fun l => length l = d) ls -> length (concat ls) = length ls * d.
Proof.
  induction 1 as [|l ls Hl _ IH]; simpl; [reflexivity|].
  rewrite app_length, Hl, IH. reflexivity.
Qed.

(** ** Matrices as tensors *)
Section Proofs.
Context {V : Type} (P : prim V) (L : lib).
Hypothesis OK : row_ops_ok P.

Notation z := (p_zero P).
Notation TC := (get_tensor_size L).

(** A packed F32 matrix. *)
Definition mat (t : tensor V) (n d : nat) (m : matrix V) : Prop :=
  t = packed F32 d n 1 1 (el t) /\ length m = n /\ Forall (fun r => length r = d) m /\
  forall i j, i < d -> j < n -> el t i j 0 0 = nth i (nth j m []) z.

(** A packed F32 tensor of three dimensions. *)
Definition cube (t : tensor V) (a b c : nat) (f : nat -> nat -> nat -> V) : Prop :=
  t = packed F32 a b c 1 (el t) /\
  forall i j k, i < a -> j < b -> k < c -> el t i j k 0 = f i j k.

Lemma packed_contiguous t a b c d (f : nat -> nat -> nat -> nat -> V) :
  contiguous (packed t a b c d f) = true.
Proof. unfold contiguous, packed; cbn. rewrite !Nat.eqb_refl. reflexivity. Qed.

Lemma mat_row t n d m j : mat t n d m -> j < n -> row t j 0 0 = nth j m [].
Proof.
  intros (Ht & Hn & Hd & He) Hj. unfold row.
  replace (ne0 t) with d by (rewrite Ht; reflexivity).
  rewrite <- (map_nth_seq (nth j m []) d z).
  - apply map_ext_in. intros i Hi. apply in_seq in Hi. apply He; lia.
  - apply (Forall_nth_lt (fun r => length r = d)); [exact Hd|lia].
Qed.

Lemma matrix_row t n d m j : is_matrix P t n d m -> j < n -> row t j 0 0 = nth j m [].
Proof.
  intros (H0 & H1 & _ & _ & Hn & Hd & _ & He) Hj. unfold row. rewrite H0.
  rewrite <- (map_nth_seq (nth j m []) d z).
  - apply map_ext_in. intros i Hi. apply in_seq in Hi. apply He; lia.
  - apply (Forall_nth_lt (fun r => length r = d)); [exact Hd|lia].
Qed.

Lemma cube_row t a b c f j k : cube t a b c f -> j < b -> k < c ->
  row t j k 0 = map (fun i => f i j k) (seq 0 a).
Proof.
  intros (Ht & He) Hj Hk. unfold row.
  replace (ne0 t) with a by (rewrite Ht; reflexivity).
  apply map_ext_in. intros i Hi. apply in_seq in Hi. apply He; lia.
Qed.

Lemma mod_self a : a mod a = 0.
Proof. destruct a; [reflexivity|apply Nat.mod_same; discriminate]. Qed.

Lemma mod_1 a : a mod 1 = 0.
Proof. apply Nat.mod_1_r. Qed.

Lemma div_self_1 k a : k < a -> k / (a / a) = k.
Proof. intros H. rewrite Nat.div_same by lia. apply Nat.div_1_r. Qed.

Ltac cbnt := cbn [packed ty ne0 ne1 ne2 ne3 st0 st1 st2 st3 el] in *.

(** *** Dense *)
Lemma does_mul_mat_mat w x n a b W X :
  is_matrix P w b a W -> mat x n a X ->
  does (g_mul_mat P L w x) (TC F32 b n 1 1) 1 []
    (fun t => mat t n b (map (fun r => map (fun wr => p_dot P wr r) W) X)).
Proof.
  intros Hw Hx. pose proof Hw as (W0 & W1 & W2 & W3 & WL & WF & WT & WE).
  pose proof Hx as (Ht & XL & XF & XE).
  unfold g_mul_mat. rewrite W0, W1, W2, W3, WT.
  replace (ne0 x) with a by (rewrite Ht; reflexivity).
  replace (ne1 x) with n by (rewrite Ht; reflexivity).
  replace (ne2 x) with 1 by (rewrite Ht; reflexivity).
  replace (ne3 x) with 1 by (rewrite Ht; reflexivity).
  apply does_guard; [apply Nat.eqb_refl|].
  apply does_multiples; [repeat constructor; cbn; lia|].
  apply does_guard; [reflexivity|].
  unfold fresh_op. rewrite cost_size. apply does_step.
  split; [reflexivity|]. split; [rewrite map_length; exact XL|].
  split.
  - apply Forall_forall. intros r Hr. apply in_map_iff in Hr as (r' & <- & _).
    rewrite map_length. exact WL.
  - intros i j Hi Hj. cbnt.
    change (0 / (1 / 1)) with 0.
    rewrite (matrix_row w b a W i Hw Hi), (mat_row x n a X j Hx Hj).
    rewrite (nth_map_lt _ X j [] []) by lia.
    rewrite (nth_map_lt _ W i z []) by lia. reflexivity.
Qed.

(** Adding a repeated vector: the bias of a dense layer. *)
Lemma does_repeat_vector b x n d v X :
  is_vector P b d v -> mat x n d X -> 0 < d ->
  does (g_repeat L b x) (TC F32 d n 1 1) 1 [] (fun t => mat t n d (map (fun _ => v) X)).
Proof.
  intros (B0 & B1 & B2 & B3 & B4 & BL & BE) (Ht & XL & XF & XE) Pd.
  unfold g_repeat, extents. rewrite B0, B1, B2, B3, B4.
  replace (ne0 x) with d by (rewrite Ht; reflexivity).
  replace (ne1 x) with n by (rewrite Ht; reflexivity).
  replace (ne2 x) with 1 by (rewrite Ht; reflexivity).
  replace (ne3 x) with 1 by (rewrite Ht; reflexivity).
  apply does_multiples; [repeat constructor; cbn [fst snd]; try apply mod_self; try apply mod_1; lia|].
  unfold fresh_op. rewrite cost_size. apply does_step.
  split; [reflexivity|]. split; [rewrite map_length; exact XL|]. split.
  - apply Forall_forall. intros r Hr. apply in_map_iff in Hr as (r' & <- & _). exact BL.
  - intros i j Hi Hj. cbnt. unfold tiled. rewrite B1, B2, B3, B4.
    rewrite Nat.mod_small, !mod_1 by exact Hi. rewrite BE by exact Hi.
    rewrite (nth_map_lt _ X j [] []) by lia. reflexivity.
Qed.

Lemma does_add_mat x y n d X Y :
  mat x n d X -> mat y n d Y -> 0 < n -> 0 < d ->
  does (g_add P L x y) (TC F32 d n 1 1) 1 [] (fun t => mat t n d (s_add P X Y)).
Proof.
  intros (Hx & XL & XF & XE) (Hy & YL & YF & YE) Pn Pd.
  unfold g_add, extents, dup_op.
  replace (ty x) with F32 by (rewrite Hx; reflexivity).
  replace (ne0 x) with d by (rewrite Hx; reflexivity).
  replace (ne1 x) with n by (rewrite Hx; reflexivity).
  replace (ne2 x) with 1 by (rewrite Hx; reflexivity).
  replace (ne3 x) with 1 by (rewrite Hx; reflexivity).
  replace (ne0 y) with d by (rewrite Hy; reflexivity).
  replace (ne1 y) with n by (rewrite Hy; reflexivity).
  replace (ne2 y) with 1 by (rewrite Hy; reflexivity).
  replace (ne3 y) with 1 by (rewrite Hy; reflexivity).
  apply does_guard; [apply Nat.eqb_refl|].
  apply does_multiples; [repeat constructor; cbn [fst snd]; try apply mod_self; lia|].
  unfold fresh_op. rewrite cost_size. apply does_step.
  assert (CL : length (combine X Y) = n) by (rewrite combine_length; lia).
  split; [reflexivity|]. split; [unfold s_add; rewrite map_length; exact CL|]. split.
  - apply Forall_forall. intros r Hr. apply in_map_iff in Hr as ((r1 & r2) & <- & Hin).
    rewrite Forall_forall in XF, YF.
    pose proof (XF _ (in_combine_l _ _ _ _ Hin)). pose proof (YF _ (in_combine_r _ _ _ _ Hin)).
    rewrite length_zip_with. cbn [fst snd]. lia.
  - intros i j Hi Hj. cbnt. unfold tiled.
    replace (ne0 y) with d by (rewrite Hy; reflexivity).
    replace (ne1 y) with n by (rewrite Hy; reflexivity).
    replace (ne2 y) with 1 by (rewrite Hy; reflexivity).
    replace (ne3 y) with 1 by (rewrite Hy; reflexivity).
    rewrite (Nat.mod_small i), (Nat.mod_small j), !mod_1 by assumption.
    rewrite XE, YE by assumption.
    unfold s_add. rewrite (nth_map_lt _ (combine X Y) j [] ([], [])) by lia.
    rewrite combine_nth by lia. cbn [fst snd].
    assert (length (nth j X []) = d) by (apply (Forall_nth_lt (fun r => length r = d)); [exact XF|lia]).
    assert (length (nth j Y []) = d) by (apply (Forall_nth_lt (fun r => length r = d)); [exact YF|lia]).
    symmetry. apply nth_zip_with; [exact P|lia|lia].
Qed.

Lemma does_mul_mat_pointwise x y n d X Y :
  mat x n d X -> mat y n d Y -> 0 < n -> 0 < d ->
  does (g_mul P L x y) (TC F32 d n 1 1) 1 []
    (fun t => mat t n d (map (fun p => zip_with (p_mul P) (fst p) (snd p)) (combine X Y))).
Proof.
  intros (Hx & XL & XF & XE) (Hy & YL & YF & YE) Pn Pd.
  unfold g_mul, extents, dup_op.
  replace (ty x) with F32 by (rewrite Hx; reflexivity).
  replace (ne0 x) with d by (rewrite Hx; reflexivity).
  replace (ne1 x) with n by (rewrite Hx; reflexivity).
  replace (ne2 x) with 1 by (rewrite Hx; reflexivity).
  replace (ne3 x) with 1 by (rewrite Hx; reflexivity).
  replace (ne0 y) with d by (rewrite Hy; reflexivity).
  replace (ne1 y) with n by (rewrite Hy; reflexivity).
  replace (ne2 y) with 1 by (rewrite Hy; reflexivity).
  replace (ne3 y) with 1 by (rewrite Hy; reflexivity).
  apply does_multiples; [repeat constructor; cbn [fst snd]; try apply mod_self; lia|].
  unfold fresh_op. rewrite cost_size. apply does_step.
  assert (CL : length (combine X Y) = n) by (rewrite combine_length; lia).
  split; [reflexivity|]. split; [rewrite map_length; exact CL|]. split.
  - apply Forall_forall. intros r Hr. apply in_map_iff in Hr as ((r1 & r2) & <- & Hin).
    rewrite Forall_forall in XF, YF.
    pose proof (XF _ (in_combine_l _ _ _ _ Hin)). pose proof (YF _ (in_combine_r _ _ _ _ Hin)).
    rewrite length_zip_with. cbn [fst snd]. lia.
  - intros i j Hi Hj. cbnt. unfold tiled.
    replace (ne0 y) with d by (rewrite Hy; reflexivity).
    replace (ne1 y) with n by (rewrite Hy; reflexivity).
    replace (ne2 y) with 1 by (rewrite Hy; reflexivity).
    replace (ne3 y) with 1 by (rewrite Hy; reflexivity).
    rewrite (Nat.mod_small i), (Nat.mod_small j), !mod_1 by assumption.
    rewrite XE, YE by assumption.
    rewrite (nth_map_lt _ (combine X Y) j [] ([], [])) by lia.
    rewrite combine_nth by lia. cbn [fst snd].
    assert (length (nth j X []) = d) by (apply (Forall_nth_lt (fun r => length r = d)); [exact XF|lia]).
    assert (length (nth j Y []) = d) by (apply (Forall_nth_lt (fun r => length r = d)); [exact YF|lia]).
    symmetry. apply nth_zip_with; [exact P|lia|lia].
Qed.

Lemma combine_map_self {A C D} (f : A -> C) (g : A -> D) l :
  combine (map f l) (map g l) = map (fun x => (f x, g x)) l.
Proof. induction l; simpl; congruence. Qed.

Lemma does_dense x w b n a d X W bv :
  mat x n a X -> is_matrix P w d a W -> is_vector P b d bv -> 0 < n -> 0 < d ->
  does (bert_dense P L x w b) (3 * TC F32 d n 1 1) 3 [] (fun t => mat t n d (s_dense P W bv X)).
Proof.
  intros Hx Hw Hb Pn Pd. unfold bert_dense.
  eapply does_conv.
  { eapply does_bind; [exact (does_mul_mat_mat w x n a d W X Hw Hx)|]. intros y Hy.
    eapply does_bind; [exact (does_repeat_vector b y n d bv _ Hb Hy Pd)|]. intros r Hr.
    exact (does_add_mat y r n d _ _ Hy Hr Pn Pd). }
  - lia.
  - reflexivity.
  - reflexivity.
  - intros t Ht. unfold s_add in Ht. rewrite map_map, combine_map_self, map_map in Ht. exact Ht.
Qed.

Lemma does_norm e x n d X :
  mat x n d X -> does (g_norm P L x e) (TC F32 d n 1 1) 1 [] (fun t => mat t n d (map (p_norm P e) X)).
Proof.
  intros Hm. pose proof Hm as (Hx & XL & XF & XE). unfold g_norm, dup_op.
  replace (ty x) with F32 by (rewrite Hx; reflexivity).
  replace (ne0 x) with d by (rewrite Hx; reflexivity).
  replace (ne1 x) with n by (rewrite Hx; reflexivity).
  replace (ne2 x) with 1 by (rewrite Hx; reflexivity).
  replace (ne3 x) with 1 by (rewrite Hx; reflexivity).
  unfold fresh_op. rewrite cost_size. apply does_step.
  split; [reflexivity|]. split; [rewrite map_length; exact XL|]. split.
  - apply Forall_forall. intros r Hr. apply in_map_iff in Hr as (r' & <- & Hin).
    rewrite (norm_length P OK). rewrite Forall_forall in XF. auto.
  - intros i j Hi Hj. cbnt. rewrite (mat_row x n d X j Hm Hj).
    rewrite (nth_map_lt _ X j [] []) by lia. reflexivity.
Qed.

Lemma does_layer_norm e x w b n d X wv bv :
  mat x n d X -> is_vector P w d wv -> is_vector P b d bv -> 0 < n -> 0 < d ->
  does (bert_layer_norm P L x w b e) (5 * TC F32 d n 1 1) 5 [] (fun t => mat t n d (s_layer_norm P e wv bv X)).
Proof.
  intros Hx Hw Hb Pn Pd. unfold bert_layer_norm.
  eapply does_conv.
  { eapply does_bind; [exact (does_norm e x n d X Hx)|]. intros y Hy.
    eapply does_bind; [exact (does_repeat_vector w y n d wv _ Hw Hy Pd)|]. intros r Hr.
    eapply does_bind; [exact (does_mul_mat_pointwise r y n d _ _ Hr Hy Pn Pd)|]. intros m Hm.
    eapply does_bind; [exact (does_repeat_vector b y n d bv _ Hb Hy Pd)|]. intros c Hc.
    exact (does_add_mat m c n d _ _ Hm Hc Pn Pd). }
  - lia.
  - reflexivity.
  - reflexivity.
  - intros t Ht. unfold s_add in Ht.
    rewrite !map_map, combine_map_self, map_map, combine_map_self, map_map in Ht. exact Ht.
Qed.

Lemma does_unary f x n d X :
  mat x n d X -> does (g_unary L f x) (TC F32 d n 1 1) 1 [] (fun t => mat t n d (map (map f) X)).
Proof.
  intros (Hx & XL & XF & XE). unfold g_unary, dup_op.
  replace (contiguous x) with true by (rewrite Hx, packed_contiguous; reflexivity).
  replace (ty x) with F32 by (rewrite Hx; reflexivity).
  replace (ne0 x) with d by (rewrite Hx; reflexivity).
  replace (ne1 x) with n by (rewrite Hx; reflexivity).
  replace (ne2 x) with 1 by (rewrite Hx; reflexivity).
  replace (ne3 x) with 1 by (rewrite Hx; reflexivity).
  apply does_guard; [reflexivity|].
  unfold fresh_op. rewrite cost_size. apply does_step.
  split; [reflexivity|]. split; [rewrite map_length; exact XL|]. split.
  - apply Forall_forall. intros r Hr. apply in_map_iff in Hr as (r' & <- & Hin).
    rewrite map_length. rewrite Forall_forall in XF. auto.
  - intros i j Hi Hj. cbnt. rewrite XE by assumption.
    assert (length (nth j X []) = d) by (apply (Forall_nth_lt (fun r => length r = d)); [exact XF|lia]).
    rewrite (nth_map_lt _ X j [] []) by lia.
    rewrite (nth_map_lt _ (nth j X []) i z z) by lia. reflexivity.
Qed.

(** *** Reshape, permute, attention *)
Lemma flat_mat x n d X i j : mat x n d X -> i < d -> j < n -> flat x (i + d * j) = nth i (nth j X []) z.
Proof.
  intros (Hx & XL & XF & XE) Hi Hj. unfold flat.
  replace (ne0 x) with d by (rewrite Hx; reflexivity).
  replace (ne1 x) with n by (rewrite Hx; reflexivity).
  replace (ne2 x) with 1 by (rewrite Hx; reflexivity).
  rewrite (Nat.mul_comm d j), Nat.mod_add, Nat.div_add by lia.
  rewrite (Nat.mod_small i d), (Nat.div_small i d), Nat.add_0_l by lia.
  rewrite (Nat.mod_small j n) by lia.
  rewrite Nat.mul_1_r, (Nat.div_small (i + j * d) (d * n)) by nia.
  change (0 mod 1) with 0. apply XE; assumption.
Qed.

Lemma does_reshape x n d heads X :
  mat x n (d * heads) X -> 0 < d ->
  does (g_reshape L x d heads n 1) (TC F32 0 1 1 1) 1 []
    (fun t => cube t d heads n (fun i j k => nth (j * d + i) (nth k X []) z)).
Proof.
  intros Hm Hd. pose proof Hm as (Hx & XL & XF & XE). unfold g_reshape.
  replace (contiguous x) with true by (rewrite Hx, packed_contiguous; reflexivity).
  apply does_guard; [reflexivity|].
  apply does_guard.
  { apply Nat.eqb_eq. unfold numel. rewrite Hx. cbnt. nia. }
  rewrite view_size. apply does_step. split.
  { unfold reshaped. replace (ty x) with F32 by (rewrite Hx; reflexivity). reflexivity. }
  intros i j k Hi Hj Hk. unfold reshaped; cbnt.
  replace (i + d * (j + heads * (k + n * 0))) with ((j * d + i) + (d * heads) * k) by nia.
  rewrite (flat_mat x n (d * heads) X) by (auto; nia). reflexivity.
Qed.

(** permute(0,2,1,3) then cont *)
Lemma does_swap12 x a b c f :
  cube x a b c f ->
  does (bbind (g_permute L x 0 2 1 3) (g_cont L)) (TC F32 0 1 1 1 + TC F32 a c b 1) 2 []
    (fun t => cube t a c b (fun i j k => f i k j)).
Proof.
  intros (Hx & XE).
  assert (E0 : ne0 x = a) by (rewrite Hx; reflexivity).
  assert (E1 : ne1 x = b) by (rewrite Hx; reflexivity).
  assert (E2 : ne2 x = c) by (rewrite Hx; reflexivity).
  assert (E3 : ne3 x = 1) by (rewrite Hx; reflexivity).
  assert (ET : ty x = F32) by (rewrite Hx; reflexivity).
  eapply does_conv.
  { eapply does_bind.
    - unfold g_permute. rewrite view_size. apply does_step_eq.
    - intros y ->. unfold g_cont, dup_op, fresh_op.
      cbn [ty ne0 ne1 ne2 ne3 axis Nat.eqb]. rewrite cost_size.
      rewrite ET, E0, E1, E2, E3.
      apply does_step with (Q := fun y => cube y a c b (fun i j k => f i k j)).
      split; [reflexivity|].
      intros i j k Hi Hj Hk. cbn [packed el coord]. apply XE; assumption. }
  - reflexivity.
  - reflexivity.
  - reflexivity.
  - auto.
Qed.

(** permute(1,2,0,3) then cont *)
Lemma does_rotate x a b c f :
  cube x a b c f ->
  does (bbind (g_permute L x 1 2 0 3) (g_cont L)) (TC F32 0 1 1 1 + TC F32 c a b 1) 2 []
    (fun t => cube t c a b (fun i j k => f j k i)).
Proof.
  intros (Hx & XE).
  assert (E0 : ne0 x = a) by (rewrite Hx; reflexivity).
  assert (E1 : ne1 x = b) by (rewrite Hx; reflexivity).
  assert (E2 : ne2 x = c) by (rewrite Hx; reflexivity).
  assert (E3 : ne3 x = 1) by (rewrite Hx; reflexivity).
  assert (ET : ty x = F32) by (rewrite Hx; reflexivity).
  eapply does_conv.
  { eapply does_bind.
    - unfold g_permute. rewrite view_size. apply does_step_eq.
    - intros y ->. unfold g_cont, dup_op, fresh_op.
      cbn [ty ne0 ne1 ne2 ne3 axis Nat.eqb]. rewrite cost_size.
      rewrite ET, E0, E1, E2, E3.
      apply does_step with (Q := fun y => cube y c a b (fun i j k => f j k i)).
      split; [reflexivity|].
      intros i j k Hi Hj Hk. cbn [packed el coord]. apply XE; assumption. }
  - reflexivity.
  - reflexivity.
  - reflexivity.
  - auto.
Qed.

Lemma does_mul_mat_cube x y a b1 b2 c f g :
  cube x a b1 c f -> cube y a b2 c g -> 0 < a -> 0 < c ->
  does (g_mul_mat P L x y) (TC F32 b1 b2 c 1) 1 []
    (fun t => cube t b1 b2 c (fun i j k =>
       p_dot P (map (fun u => f u i k) (seq 0 a)) (map (fun u => g u j k) (seq 0 a)))).
Proof.
  intros Hx Hy Ha Hc. pose proof Hx as (Ex & XE). pose proof Hy as (Ey & YE).
  unfold g_mul_mat, transposed.
  replace (ne0 x) with a by (rewrite Ex; reflexivity).
  replace (ne1 x) with b1 by (rewrite Ex; reflexivity).
  replace (ne2 x) with c by (rewrite Ex; reflexivity).
  replace (ne3 x) with 1 by (rewrite Ex; reflexivity).
  replace (st0 x) with 1 by (rewrite Ex; reflexivity).
  replace (st1 x) with a by (rewrite Ex; reflexivity).
  replace (ne0 y) with a by (rewrite Ey; reflexivity).
  replace (ne1 y) with b2 by (rewrite Ey; reflexivity).
  replace (ne2 y) with c by (rewrite Ey; reflexivity).
  replace (ne3 y) with 1 by (rewrite Ey; reflexivity).
  apply does_guard; [apply Nat.eqb_refl|].
  apply does_multiples; [repeat constructor; cbn [fst snd]; try apply mod_self; lia|].
  apply does_guard; [apply negb_true_iff, Nat.ltb_ge; lia|].
  unfold fresh_op. rewrite cost_size. apply does_step.
  split; [reflexivity|]. intros i j k Hi Hj Hk. cbnt.
  rewrite div_self_1 by exact Hk. change (0 / (1 / 1)) with 0.
  rewrite (cube_row x a b1 c f i k Hx), (cube_row y a b2 c g j k Hy) by assumption.
  reflexivity.
Qed.

Lemma does_soft_ext x a b c f d :
  cube x a b c f ->
  does (g_soft_max_ext P L x d) (TC F32 a b c 1) 1 []
    (fun t => cube t a b c (fun i j k => nth i (p_soft_scaled P d (map (fun u => f u j k) (seq 0 a))) z)).
Proof.
  intros Hm. pose proof Hm as (Hx & XE). unfold g_soft_max_ext, dup_op.
  replace (contiguous x) with true by (rewrite Hx, packed_contiguous; reflexivity).
  replace (ty x) with F32 by (rewrite Hx; reflexivity).
  replace (ne0 x) with a by (rewrite Hx; reflexivity).
  replace (ne1 x) with b by (rewrite Hx; reflexivity).
  replace (ne2 x) with c by (rewrite Hx; reflexivity).
  replace (ne3 x) with 1 by (rewrite Hx; reflexivity).
  apply does_guard; [reflexivity|].
  unfold fresh_op. rewrite cost_size. apply does_step.
  split; [reflexivity|]. intros i j k Hi Hj Hk. cbnt.
  rewrite (cube_row x a b c f j k Hm) by assumption. reflexivity.
Qed.

(** The result of attention written back as a matrix. *)
Lemma does_merge x d heads n f :
  cube x d heads n f -> 0 < d -> 0 < heads ->
  does (dst <- new_tensor L F32 (d * heads) n 1 1 (fun _ _ _ _ => z) ;; g_cpy L x dst)
       (TC F32 (d * heads) n 1 1 + TC F32 0 1 1 1) 1 []
    (fun t => mat t n (d * heads)
       (map (fun j => concat (map (fun h => map (fun c => f c h j) (seq 0 d)) (seq 0 heads))) (seq 0 n))).
Proof.
  intros (Hx & XE) Hd Hh.
  eapply does_conv.
  { eapply does_bind.
    - unfold new_tensor. rewrite cost_size. apply does_step_eq.
    - intros y ->. unfold g_cpy.
      apply does_guard.
      { apply Nat.eqb_eq. unfold numel. rewrite Hx. cbnt. nia. }
      rewrite view_size. cbn [packed ty ne0 ne1 ne2 ne3 st0 st1 st2 st3].
      apply does_step with (Q := fun t => mat t n (d * heads)
       (map (fun j => concat (map (fun h => map (fun c => f c h j) (seq 0 d)) (seq 0 heads))) (seq 0 n))).
      assert (HF : forall j, Forall (fun l => length l = d)
                (map (fun h => map (fun c => f c h j) (seq 0 d)) (seq 0 heads))).
      { intros j. apply Forall_forall. intros l Hl. apply in_map_iff in Hl as (h & <- & _).
        rewrite map_length. apply seq_length. }
      split; [reflexivity|]. split; [rewrite map_length; apply seq_length|]. split.
      + apply Forall_forall. intros l Hl. apply in_map_iff in Hl as (j & <- & _).
        rewrite (length_concat_uniform _ d) by apply HF.
        rewrite map_length, seq_length. lia.
      + intros i j Hi Hj. cbnt.
        rewrite (nth_map_lt _ (seq 0 n) j [] 0) by (rewrite seq_length; exact Hj).
        rewrite seq_nth by exact Hj. cbn [Nat.add].
        assert (Hq : i / d < heads) by (apply Nat.div_lt_upper_bound; lia).
        rewrite (nth_concat_uniform _ d i z Hd (HF j))
          by (rewrite map_length, seq_length; lia).
        rewrite (nth_map_lt _ (seq 0 heads) (i / d) [] 0) by (rewrite seq_length; exact Hq).
        rewrite seq_nth by exact Hq. cbn [Nat.add].
        rewrite (nth_map_lt _ (seq 0 d) (i mod d) z 0)
          by (rewrite seq_length; apply Nat.mod_upper_bound; lia).
        rewrite seq_nth by (apply Nat.mod_upper_bound; lia). cbn [Nat.add].
        unfold flat. 
        replace (ne0 x) with d by (rewrite Hx; reflexivity).
        replace (ne1 x) with heads by (rewrite Hx; reflexivity).
        replace (ne2 x) with n by (rewrite Hx; reflexivity).
        replace (i + d * heads * (j + n * (1 * 0))) with (i + (heads * j) * d) by nia.
        rewrite Nat.mod_add by lia.
        rewrite <- Nat.div_div by lia.
        replace ((i + heads * j * d) / d) with (i / d + j * heads)
          by (rewrite Nat.div_add by lia; lia).
        rewrite Nat.mod_add, Nat.div_add by lia.
        rewrite (Nat.mod_small (i / d) heads), (Nat.div_small (i / d) heads) by exact Hq.
        rewrite Nat.add_0_l, (Nat.mod_small j n) by exact Hj.
        replace ((i + heads * j * d) / (d * heads * n)) with 0
          by (symmetry; apply Nat.div_small; nia).
        apply XE; [apply Nat.mod_upper_bound; lia|exact Hq|exact Hj]. }
  - reflexivity.
  - reflexivity.
  - reflexivity.
  - auto.
Qed.

Lemma slice (r : list V) a d : a + d <= length r ->
  map (fun u => nth (a + u) r z) (seq 0 d) = firstn d (skipn a r).
Proof.
  intros H. rewrite <- (map_nth_seq (firstn d (skipn a r)) d z)
    by (rewrite firstn_length, skipn_length; lia).
  apply map_ext_in. intros u Hu. apply in_seq in Hu.
  rewrite <- (firstn_skipn a r) at 1.
  rewrite app_nth2 by (rewrite firstn_length; lia).
  rewrite firstn_length, Nat.min_l by lia.
  replace (a + u - a) with u by lia.
  rewrite <- (firstn_skipn d (skipn a r)) at 1.
  apply app_nth1. rewrite firstn_length, skipn_length. lia.
Qed.

Lemma map_seq_nth {A C} (f : A -> C) (l : list A) n d : length l = n ->
  map (fun u => f (nth u l d)) (seq 0 n) = map f l.
Proof. intros H. rewrite <- (map_nth_seq l n d H) at 1. rewrite map_map. reflexivity. Qed.

Definition mat_rows (n d : nat) (m : matrix V) : Prop :=
  length m = n /\ Forall (fun r => length r = d) m.

Lemma mat_shape t n d m : mat t n d m -> mat_rows n d m.
Proof. intros (_ & H1 & H2 & _). split; assumption. Qed.

(** The element of the attention tensor at head [h], position [j], column [c]. *)
Lemma attend_element n d heads Q K W h j c :
  mat_rows n (d * heads) Q -> mat_rows n (d * heads) K -> mat_rows n (d * heads) W ->
  h < heads -> j < n -> c < d ->
  p_dot P (map (fun u => nth (h * d + c) (nth u W []) z) (seq 0 n))
          (map (fun u => nth u (p_soft_scaled P d (map (fun u0 =>
              p_dot P (map (fun u1 => nth (h * d + u1) (nth u0 K []) z) (seq 0 d))
                      (map (fun u1 => nth (h * d + u1) (nth j Q []) z) (seq 0 d))) (seq 0 n))) z) (seq 0 n)) =
  p_dot P (column P (s_head d h W) c)
    (p_soft_scaled P d (map (fun key => p_dot P key (nth j (s_head d h Q) [])) (s_head d h K))).
Proof.
  intros (QL & QF) (KL & KF) (WL & WF) Hh Hj Hc.
  assert (QR : length (nth j Q []) = d * heads)
    by (apply (Forall_nth_lt (fun r => length r = d * heads)); [exact QF|lia]).
  assert (HQ : map (fun u1 => nth (h * d + u1) (nth j Q []) z) (seq 0 d) = nth j (s_head d h Q) []).
  { rewrite slice by nia. unfold s_head. rewrite (nth_map_lt _ Q j [] []) by lia. reflexivity. }
  rewrite HQ.
  assert (HK : map (fun u0 => p_dot P (map (fun u1 => nth (h * d + u1) (nth u0 K []) z) (seq 0 d))
                  (nth j (s_head d h Q) [])) (seq 0 n)
             = map (fun key => p_dot P key (nth j (s_head d h Q) [])) (s_head d h K)).
  { generalize (nth j (s_head d h Q) []). intros query.
    unfold s_head. rewrite map_map. rewrite <- (map_seq_nth _ K n [] KL).
    apply map_ext_in. intros u Hu. apply in_seq in Hu.
    assert (length (nth u K []) = d * heads)
      by (apply (Forall_nth_lt (fun r => length r = d * heads)); [exact KF|lia]).
    rewrite slice by nia. reflexivity. }
  rewrite HK.
  rewrite map_nth_seq
    by (rewrite (soft_scaled_length P OK), map_length; unfold s_head; rewrite map_length; exact KL).
  f_equal.
  unfold column, s_head. rewrite map_map. rewrite <- (map_seq_nth _ W n [] WL).
  apply map_ext_in. intros u Hu. apply in_seq in Hu.
  assert (length (nth u W []) = d * heads)
    by (apply (Forall_nth_lt (fun r => length r = d * heads)); [exact WF|lia]).
  rewrite <- slice by nia.
  rewrite (nth_map_lt _ (seq 0 d) c z 0) by (rewrite seq_length; exact Hc).
  rewrite seq_nth by exact Hc. reflexivity.
Qed.

Lemma attention_rows n d heads Q K W f :
  mat_rows n (d * heads) Q ->
  (forall c h j, c < d -> h < heads -> j < n ->
     f c h j = p_dot P (column P (s_head d h W) c)
       (p_soft_scaled P d (map (fun key => p_dot P key (nth j (s_head d h Q) [])) (s_head d h K)))) ->
  map (fun j => concat (map (fun h => map (fun c => f c h j) (seq 0 d)) (seq 0 heads))) (seq 0 n)
  = s_attention P heads d Q K W.
Proof.
  intros (QL & _) H. unfold s_attention. rewrite QL.
  apply map_ext_in. intros j Hj. apply in_seq in Hj. f_equal.
  apply map_ext_in. intros h Hh. apply in_seq in Hh. unfold s_attend.
  apply map_ext_in. intros c Hc. apply in_seq in Hc. apply H; lia.
Qed.

Lemma cube_ext t a b c f g : cube t a b c f ->
  (forall i j k, i < a -> j < b -> k < c -> f i j k = g i j k) -> cube t a b c g.
Proof. intros (H1 & H2) H. split; [exact H1|]. intros. rewrite H2 by assumption. auto. Qed.

(** Bytes and nodes of one layer. *)
Definition attention_bytes (h heads n : nat) : N :=
  (9 * TC F32 h n 1 1 + 3 * TC F32 0 1 1 1 + 3 * (TC F32 0 1 1 1 + TC F32 (h / heads) n heads 1)
   + 2 * TC F32 n n heads 1 + TC F32 (h / heads) n heads 1
   + (TC F32 0 1 1 1 + TC F32 (h / heads) n heads 1) + (TC F32 h n 1 1 + TC F32 0 1 1 1)
   + 9 * TC F32 h n 1 1)%N.

(** The same bytes whatever the order of the extents. *)
Lemma size_perm t a b c d a' b' c' d' :
  blck_size t = 1%N -> a * b * c * d = a' * b' * c' * d' ->
  TC t a b c d = TC t a' b' c' d'.
Proof.
  intros Hb H. unfold get_tensor_size, get_data_size. rewrite Hb, !N.div_1_r.
  do 3 f_equal.
  rewrite <- !N.mul_assoc. f_equal. rewrite !N.mul_assoc, <- !Nat2N.inj_mul. congruence.
Qed.

Lemma does_attention hp y s n x X :
  block_is P (hidden_dim hp) (intermediate_dim hp) y s ->
  hidden_dim hp = (hidden_dim hp / attn_heads hp) * attn_heads hp ->
  0 < hidden_dim hp -> 0 < n ->
  mat x n (hidden_dim hp) X ->
  does (self_attention P L hp y n x) (attention_bytes (hidden_dim hp) (attn_heads hp) n) 33 []
    (fun t => mat t n (hidden_dim hp)
      (s_layer_norm P (ln_eps hp) (sln_ff_w s) (sln_ff_b s) (s_add P X (s_dense P (sff_w s) (sff_b s)
        (s_attention P (attn_heads hp) (hidden_dim hp / attn_heads hp)
          (s_dense P (sq_w s) (sq_b s) X) (s_dense P (sk_w s) (sk_b s) X) (s_dense P (sv_w s) (sv_b s) X)))))).
Proof.
  intros Hb Hdiv Hh Hn Hx.
  set (h := hidden_dim hp) in *. set (heads := attn_heads hp) in *.
  unfold self_attention. fold h heads. set (d := h / heads) in *.
  assert (Hd : 0 < d) by nia. assert (Hhd : 0 < heads) by nia.
  eapply does_conv.
  { eapply does_bind; [exact (does_dense x _ _ n h h X _ _ Hx (b_qw _ _ _ _ _ Hb) (b_qb _ _ _ _ _ Hb) Hn Hh)|].
    intros q Hq. pose proof (mat_shape _ _ _ _ Hq) as SQ. rewrite Hdiv in Hq, SQ.
    eapply does_bind; [exact (does_reshape q n d heads _ Hq Hd)|]. clear q Hq. intros q Hq.
    eapply does_bind; [exact (does_dense x _ _ n h h X _ _ Hx (b_kw _ _ _ _ _ Hb) (b_kb _ _ _ _ _ Hb) Hn Hh)|].
    intros k Hk. pose proof (mat_shape _ _ _ _ Hk) as SK. rewrite Hdiv in Hk, SK.
    eapply does_bind; [exact (does_reshape k n d heads _ Hk Hd)|]. clear k Hk. intros k Hk.
    eapply does_bind; [exact (does_dense x _ _ n h h X _ _ Hx (b_vw _ _ _ _ _ Hb) (b_vb _ _ _ _ _ Hb) Hn Hh)|].
    intros v Hv. pose proof (mat_shape _ _ _ _ Hv) as SV. rewrite Hdiv in Hv, SV.
    eapply does_bind; [exact (does_reshape v n d heads _ Hv Hd)|]. clear v Hv. intros v Hv.
    eapply does_bind2; [exact (does_swap12 q _ _ _ _ Hq)|]. clear q Hq. intros q Hq.
    eapply does_bind2; [exact (does_swap12 k _ _ _ _ Hk)|]. clear k Hk. intros k Hk.
    eapply does_bind2; [exact (does_rotate v _ _ _ _ Hv)|]. clear v Hv. intros v Hv.
    eapply does_bind; [exact (does_mul_mat_cube k q _ _ _ _ _ _ Hk Hq Hd Hhd)|]. intros kq Hkq.
    eapply does_bind; [exact (does_soft_ext kq _ _ _ _ d Hkq)|]. intros sim Hsim.
    eapply does_bind; [exact (does_mul_mat_cube v sim _ _ _ _ _ _ Hv Hsim Hn Hhd)|]. intros res Hres.
    eapply does_bind2; [exact (does_swap12 res _ _ _ _ Hres)|]. clear res Hres. intros res Hres.
    eapply does_bind2.
    { rewrite Hdiv. exact (does_merge res d heads n _ Hres Hd Hhd). }
    clear res Hres. intros res Hres. cbv beta in Hres.
    rewrite (attention_rows n d heads _ _ _ _ SQ
      (fun c h0 j Hc Hh0 Hj => attend_element n d heads _ _ _ h0 j c SQ SK SV Hh0 Hj Hc)) in Hres.
    rewrite <- Hdiv in Hres.
    eapply does_bind; [exact (does_dense res _ _ n h h _ _ _ Hres (b_fw _ _ _ _ _ Hb) (b_fb _ _ _ _ _ Hb) Hn Hh)|].
    clear res Hres. intros res Hres.
    eapply does_bind; [exact (does_add_mat x res n h _ _ Hx Hres Hn Hh)|]. intros x1 Hx1.
    exact (does_layer_norm _ x1 _ _ n h _ _ _ Hx1 (b_lfw _ _ _ _ _ Hb) (b_lfb _ _ _ _ _ Hb) Hn Hh). }
  - unfold attention_bytes. fold d. rewrite <- Hdiv.
    rewrite (size_perm F32 n d heads 1 d n heads 1) by (cbn; lia).
    rewrite (size_perm F32 d heads n 1 d n heads 1) by (cbn; lia).
    lia.
  - reflexivity.
  - reflexivity.
  - auto.
Qed.

Definition intermediate_bytes (h m n : nat) : N :=
  (4 * TC F32 m n 1 1 + 9 * TC F32 h n 1 1)%N.

Lemma does_intermediate hp y s n x X :
  block_is P (hidden_dim hp) (intermediate_dim hp) y s -> hidden_act hp = Gelu ->
  0 < hidden_dim hp -> 0 < intermediate_dim hp -> 0 < n ->
  mat x n (hidden_dim hp) X ->
  does (intermediate P L hp y x) (intermediate_bytes (hidden_dim hp) (intermediate_dim hp) n) 13 []
    (fun t => mat t n (hidden_dim hp)
      (s_layer_norm P (ln_eps hp) (sln_out_w s) (sln_out_b s) (s_add P X (s_dense P (so_w s) (so_b s)
        (map (map (p_gelu P)) (s_dense P (si_w s) (si_b s) X)))))).
Proof.
  intros Hb Ha Hh Hi Hn Hx. unfold intermediate. rewrite Ha.
  eapply does_conv.
  { eapply does_bind; [exact (does_dense x _ _ n _ _ X _ _ Hx (b_iw _ _ _ _ _ Hb) (b_ib _ _ _ _ _ Hb) Hn Hi)|].
    intros r Hr.
    eapply does_bind; [exact (does_unary (p_gelu P) r n _ _ Hr)|]. clear r Hr. intros r Hr.
    eapply does_bind; [exact (does_dense r _ _ n _ _ _ _ _ Hr (b_ow _ _ _ _ _ Hb) (b_ob _ _ _ _ _ Hb) Hn Hh)|].
    clear r Hr. intros r Hr.
    eapply does_bind; [exact (does_add_mat x r n _ _ _ Hx Hr Hn Hh)|]. intros x1 Hx1.
    exact (does_layer_norm _ x1 _ _ n _ _ _ _ Hx1 (b_low _ _ _ _ _ Hb) (b_lob _ _ _ _ _ Hb) Hn Hh). }
  - unfold intermediate_bytes. lia.
  - reflexivity.
  - reflexivity.
  - auto.
Qed.

Definition layer_bytes (hp : hparams) (n : nat) : N :=
  (attention_bytes (hidden_dim hp) (attn_heads hp) n
   + intermediate_bytes (hidden_dim hp) (intermediate_dim hp) n)%N.

Lemma does_encode hp n : 
  hidden_dim hp = (hidden_dim hp / attn_heads hp) * attn_heads hp ->
  0 < hidden_dim hp -> 0 < intermediate_dim hp -> 0 < n -> hidden_act hp = Gelu ->
  forall last ys ss x X,
  Forall2 (block_is P (hidden_dim hp) (intermediate_dim hp)) ys ss ->
  mat x n (hidden_dim hp) X ->
  does (encode P L hp last ys n x)
    (N.of_nat (min last (length ys)) * layer_bytes hp n) (min last (length ys) * 46) []
    (fun t => mat t n (hidden_dim hp)
      (fold_left (fun x y => s_layer P (ln_eps hp) (attn_heads hp) (hidden_dim hp / attn_heads hp) y x) (firstn last ss) X)).
Proof.
  intros Hdiv Hh Hi Hn Ha. induction last as [|last IH]; intros ys ss x X Hys Hx.
  - simpl. apply does_ret. exact Hx.
  - destruct Hys as [|y s0 ys ss Hy Hys]; [simpl; apply does_ret; exact Hx|].
    cbn [encode length Nat.min firstn fold_left].
    eapply does_conv.
    { eapply does_bind; [exact (does_attention hp y s0 n x X Hy Hdiv Hh Hn Hx)|]. intros x1 Hx1.
      eapply does_bind; [exact (does_intermediate hp y s0 n x1 _ Hy Ha Hh Hi Hn Hx1)|]. intros x2 Hx2.
      exact (IH ys ss x2 _ Hys Hx2). }
    + unfold layer_bytes. lia.
    + lia.
    + reflexivity.
    + auto.
Qed.

Lemma does_get_rows t n d M ids :
  is_matrix P t n d M -> Forall (fun i => (0 <= i < Z.of_nat n)%Z) ids ->
  does (g_get_rows L t ids) (TC F32 d (length ids) 1 1) 1 [(n, ids)]
    (fun x => mat x (length ids) d (s_rows M ids)).
Proof.
  intros Hm Hids. pose proof Hm as (H0 & H1 & H2 & H3 & ML & MF & MT & ME).
  unfold g_get_rows. rewrite H0, H1, H2.
  apply does_guard; [reflexivity|]. rewrite cost_size. apply does_step.
  split; [reflexivity|]. split; [unfold s_rows; apply map_length|]. split.
  - apply Forall_forall. intros r Hr. apply in_map_iff in Hr as (i & <- & Hi).
    rewrite Forall_forall in Hids. apply Hids in Hi.
    apply (Forall_nth_lt (fun r => length r = d)); [exact MF|lia].
  - intros i j Hi Hj. cbnt.
    assert (Hb := Forall_nth_lt _ ids j 0%Z Hids Hj). cbv beta in Hb.
    unfold s_rows. rewrite (nth_map_lt _ ids j [] 0%Z) by exact Hj.
    apply ME; lia.
Qed.

(** Without the look-ups being in range nothing is known about the values, but the
    shapes and the accounting are the same. *)
Definition mat_any (t : tensor V) (n d : nat) : Prop := t = packed F32 d n 1 1 (el t).

Lemma mat_any_mat t n d : mat_any t n d -> exists M, mat t n d M.
Proof.
  intros H. exists (map (fun j => map (fun i => el t i j 0 0) (seq 0 d)) (seq 0 n)).
  split; [exact H|]. split; [rewrite map_length; apply seq_length|]. split.
  - apply Forall_forall. intros r Hr. apply in_map_iff in Hr as (j & <- & _).
    rewrite map_length. apply seq_length.
  - intros i j Hi Hj.
    rewrite (nth_map_lt _ (seq 0 n) j [] 0) by (rewrite seq_length; exact Hj).
    rewrite seq_nth by exact Hj.
    rewrite (nth_map_lt _ (seq 0 d) i z 0) by (rewrite seq_length; exact Hi).
    rewrite seq_nth by exact Hi. reflexivity.
Qed.

Lemma does_new_indices v : does (new_indices L v) (TC I32 (length v) 1 1 1) 0 [] (fun r => r = v).
Proof. unfold new_indices. rewrite cost_size. apply does_step_eq. Qed.

Definition embed_bytes (h n : nat) : N := (3 * TC I32 n 1 1 1 + 10 * TC F32 h n 1 1)%N.

Definition in_table (n : nat) (ids : list Z) : Prop := Forall (fun i => (0 <= i < Z.of_nat n)%Z) ids.

Lemma does_embed hp words rows w s pos tokens segments :
  weights_are P hp words rows w s ->
  0 < hidden_dim hp -> 0 < length tokens ->
  length pos = length tokens -> length segments = length tokens ->
  in_table words (map to_i32 tokens) -> in_table (segment_count hp) (map to_i32 segments) ->
  in_table rows pos ->
  does (embed P L hp w pos tokens segments) (embed_bytes (hidden_dim hp) (length tokens)) 10
    [(words, map to_i32 tokens); (rows, pos); (segment_count hp, map to_i32 segments)]
    (fun t => mat t (length tokens) (hidden_dim hp)
      (s_embed P (ln_eps hp) (sm_words s) (sm_positions s) (sm_segments s) (sm_lw s) (sm_lb s)
         pos (map to_i32 tokens) (map to_i32 segments))).
Proof.
  intros Hw Hh Hn Hp Hs It Is Ip. unfold embed.
  set (n := length tokens) in *. set (h := hidden_dim hp) in *.
  assert (Lt : length (map to_i32 tokens) = n) by apply map_length.
  assert (Ls : length (map to_i32 segments) = n) by (rewrite map_length; exact Hs).
  eapply does_conv.
  { eapply does_bind; [apply does_new_indices|]. intros ? ->.
    eapply does_bind; [apply does_new_indices|]. intros ? ->.
    eapply does_bind; [apply does_new_indices|]. intros ? ->.
    eapply does_bind; [exact (does_get_rows _ _ _ _ _ (w_words _ _ _ _ _ _ Hw) It)|]. intros x Hx.
    rewrite Lt in Hx.
    eapply does_bind; [exact (does_get_rows _ _ _ _ _ (w_pos _ _ _ _ _ _ Hw) Ip)|]. intros p Hp1.
    rewrite Hp in Hp1.
    eapply does_bind; [exact (does_add_mat p x n h _ _ Hp1 Hx Hn Hh)|]. clear x Hx. intros x Hx.
    eapply does_bind; [exact (does_get_rows _ _ _ _ _ (w_segs _ _ _ _ _ _ Hw) Is)|]. intros g Hg.
    rewrite Ls in Hg.
    eapply does_bind; [exact (does_add_mat g x n h _ _ Hg Hx Hn Hh)|]. clear x Hx. intros x Hx.
    eapply does_bind.
    { exact (does_layer_norm _ x _ _ n h _ _ _ Hx (w_lw _ _ _ _ _ _ Hw) (w_lb _ _ _ _ _ _ Hw) Hn Hh). }
    clear x Hx. intros x Hx. pose proof Hx as (Ex & _).
    apply does_guard; [rewrite Ex; reflexivity|].
    apply does_guard; [rewrite Ex; apply Nat.eqb_refl|].
    apply does_guard; [rewrite Ex; apply Nat.eqb_refl|].
    apply does_ret. exact Hx. }
  - rewrite Lt, Ls, Hp. unfold embed_bytes. fold h. lia.
  - reflexivity.
  - reflexivity.
  - auto.
Qed.

Definition pool_bytes (p : pooling) (h : nat) : N :=
  match p with
  | PoolNone | PoolOther => 0
  | PoolCls => TC F32 0 1 1 1 + 4 * TC F32 h 1 1 1
  | PoolAvg | PoolMax => 5 * TC F32 h 1 1 1
  end%N.

Definition pool_nodes (p : pooling) : nat := match p with PoolNone | PoolOther => 0 | _ => 5 end.

Definition out_rows (p : pooling) (n : nat) : nat := match p with PoolNone => n | _ => 1 end.

Lemma does_pool2d f x n d X :
  mat x n d X -> 0 < n ->
  does (g_pool_2d L f x n) (TC F32 d 1 1 1) 1 []
    (fun t => mat t 1 d [map (fun c => f (column P X c)) (seq 0 d)]).
Proof.
  intros (Hx & XL & XF & XE) Hn. unfold g_pool_2d.
  replace (n =? 0) with false by (symmetry; apply Nat.eqb_neq; lia).
  replace (ne0 x) with d by (rewrite Hx; reflexivity).
  replace (ne1 x) with n by (rewrite Hx; reflexivity).
  replace (ne2 x) with 1 by (rewrite Hx; reflexivity).
  rewrite Nat.sub_diag, Nat.div_0_l, Nat.add_0_l by lia.
  unfold fresh_op. rewrite cost_size. apply does_step.
  split; [reflexivity|]. split; [reflexivity|]. split.
  - repeat constructor. rewrite map_length. apply seq_length.
  - intros i j Hi Hj. assert (j = 0) as -> by lia. cbnt. cbn [nth Nat.mul Nat.add].
    rewrite (nth_map_lt _ (seq 0 d) i z 0) by (rewrite seq_length; exact Hi).
    rewrite seq_nth by exact Hi. cbn [Nat.add]. f_equal.
    unfold column. rewrite <- (map_seq_nth _ X n [] XL).
    apply map_ext_in. intros u Hu. apply in_seq in Hu. apply XE; lia.
Qed.

Lemma does_view x n d X :
  mat x n d X -> 0 < n ->
  does (g_view_1d L x (ne0 x)) (TC F32 0 1 1 1) 1 [] (fun t => mat t 1 d [nth 0 X []]).
Proof.
  intros Hm Hn. pose proof Hm as (Hx & XL & XF & XE). unfold g_view_1d.
  replace (ne0 x) with d by (rewrite Hx; reflexivity).
  replace (ty x) with F32 by (rewrite Hx; reflexivity).
  apply does_guard.
  { apply Nat.leb_le. unfold numel. rewrite Hx. cbnt. nia. }
  rewrite view_size. apply does_step.
  split; [reflexivity|]. split; [reflexivity|]. split.
  - repeat constructor. apply (Forall_nth_lt (fun r => length r = d)); [exact XF|lia].
  - intros i j Hi Hj. assert (j = 0) as -> by lia. cbnt. cbn [nth].
    replace i with (i + d * 0) at 1 by lia. apply (flat_mat x n d X); assumption.
Qed.

Lemma does_pool hp words rows w s p n x X :
  weights_are P hp words rows w s -> p <> PoolOther -> 0 < n -> 0 < hidden_dim hp ->
  mat x n (hidden_dim hp) X ->
  does (pool P L hp w p n x) (pool_bytes p (hidden_dim hp)) (pool_nodes p) []
    (fun t => mat t (out_rows p n) (hidden_dim hp) (s_output P p (sm_pw s) (sm_pb s) X)).
Proof.
  intros Hw Hp Hn Hh Hx. set (h := hidden_dim hp) in *.
  assert (HR : length (nth 0 X []) = h).
  { destruct Hx as (_ & XL & XF & _).
    apply (Forall_nth_lt (fun r => length r = h)); [exact XF|lia]. }
  assert (FIN : forall y Y, mat y 1 h [Y] ->
    does (_ <- bassert ((ne0 y =? h) && (ne1 y =? 1) && (ne2 y =? 1) && (ne3 y =? 1)) ;;
          y <- bert_dense P L y (pool_w w) (pool_b w) ;;
          g_unary L (p_tanh P) y) (4 * TC F32 h 1 1 1) 4 []
      (fun t => mat t 1 h (map (map (p_tanh P)) (s_dense P (sm_pw s) (sm_pb s) [Y])))).
  { intros y Y Hy. pose proof Hy as (Ey & _).
    apply does_guard; [rewrite Ey; cbnt; rewrite Nat.eqb_refl; reflexivity|].
    eapply does_conv.
    { eapply does_bind.
      - exact (does_dense y _ _ 1 h h _ _ _ Hy (w_pw _ _ _ _ _ _ Hw) (w_pb _ _ _ _ _ _ Hw) Nat.lt_0_1 Hh).
      - intros t Ht. exact (does_unary (p_tanh P) t 1 h _ Ht). }
    - lia.
    - reflexivity.
    - reflexivity.
    - auto. }
  destruct p; cbn [pool pool_bytes pool_nodes out_rows s_output s_pooled]; fold h.
  - apply does_ret. exact Hx.
  - eapply does_conv.
    { eapply does_bind; [exact (does_view x n h X Hx Hn)|]. intros y Hy. exact (FIN y _ Hy). }
    all: try reflexivity; auto.
  - eapply does_conv.
    { eapply does_bind; [exact (does_pool2d (p_avg P) x n h X Hx Hn)|]. intros y Hy. exact (FIN y _ Hy). }
    1: lia. 1,2: reflexivity. rewrite HR. auto.
  - eapply does_conv.
    { eapply does_bind; [exact (does_pool2d (p_max P) x n h X Hx Hn)|]. intros y Hy. exact (FIN y _ Hy). }
    1: lia. 1,2: reflexivity. rewrite HR. auto.
  - congruence.
Qed.

(** *** The whole encoder *)
Definition graph_cost (hp : hparams) (p : pooling) (last n : nat) : N :=
  (embed_bytes (hidden_dim hp) n + N.of_nat last * layer_bytes hp n + pool_bytes p (hidden_dim hp))%N.

Lemma positions_length f tokens : length (positions f tokens) = length tokens.
Proof.
  destruct f as [|pad]; cbn [positions].
  - unfold bert_positions. rewrite map_length. apply seq_length.
  - unfold roberta_positions. generalize (pad + 1)%N.
    induction tokens as [|t ts IH]; intros v; [reflexivity|].
    simpl. destruct (t =? pad)%N; simpl; rewrite IH; reflexivity.
Qed.

(** The graph after the embedding. *)
Lemma does_after_embed hp words rows w s last p n x X :
  weights_are P hp words rows w s ->
  hidden_dim hp = (hidden_dim hp / attn_heads hp) * attn_heads hp -> 0 < hidden_dim hp ->
  (last = 0 \/ (hidden_act hp = Gelu /\ 0 < intermediate_dim hp)) -> p <> PoolOther -> last <= n_layers hp -> 0 < n ->
  mat x n (hidden_dim hp) X ->
  does (if attn_heads hp =? 0 then bub
        else y <- encode P L hp last (layers w) n x ;; pool P L hp w p n y)
    (N.of_nat last * layer_bytes hp n + pool_bytes p (hidden_dim hp)) (last * 46 + pool_nodes p) []
    (fun t => mat t (out_rows p n) (hidden_dim hp)
      (s_output P p (sm_pw s) (sm_pb s) (s_encode P hp s last X))).
Proof.
  intros Hw Hdiv Hh Ha Hp Hl Hn Hx.
  replace (attn_heads hp =? 0) with false by (symmetry; apply Nat.eqb_neq; nia).
  eapply does_conv.
  { eapply does_bind.
    - assert (E : does (encode P L hp last (layers w) n x)
        (N.of_nat last * layer_bytes hp n) (last * 46) []
        (fun t => mat t n (hidden_dim hp) (s_encode P hp s last X))).
      { destruct Ha as [->|(Ha & Hi)]; [simpl; apply does_ret; exact Hx|].
        eapply does_conv; [exact (does_encode hp _ Hdiv Hh Hi Hn Ha last _ _ x _ (w_layers _ _ _ _ _ _ Hw) Hx)|..].
        - rewrite (w_count _ _ _ _ _ _ Hw), Nat.min_l by exact Hl. reflexivity.
        - rewrite (w_count _ _ _ _ _ _ Hw), Nat.min_l by exact Hl. reflexivity.
        - reflexivity.
        - auto. }
      exact E.
    - intros y Hy. exact (does_pool hp words rows w s p _ y _ Hw Hp Hn Hh Hy). }
  - reflexivity.
  - reflexivity.
  - reflexivity.
  - auto.
Qed.

Lemma does_build_graph f hp words rows w s last p tokens segments :
  weights_are P hp words rows w s ->
  hidden_dim hp = (hidden_dim hp / attn_heads hp) * attn_heads hp -> 0 < hidden_dim hp ->
  (last = 0 \/ (hidden_act hp = Gelu /\ 0 < intermediate_dim hp)) -> p <> PoolOther -> last <= n_layers hp ->
  0 < length tokens -> length segments = length tokens ->
  in_table words (map to_i32 tokens) -> in_table (segment_count hp) (map to_i32 segments) ->
  in_table rows (positions f tokens) ->
  does (build_graph P L f hp w last p tokens segments)
    (graph_cost hp p last (length tokens)) (10 + last * 46 + pool_nodes p)
    [(words, map to_i32 tokens); (rows, positions f tokens); (segment_count hp, map to_i32 segments)]
    (fun t => mat t (out_rows p (length tokens)) (hidden_dim hp)
      (s_output P p (sm_pw s) (sm_pb s) (s_encode P hp s last
        (s_embed P (ln_eps hp) (sm_words s) (sm_positions s) (sm_segments s) (sm_lw s) (sm_lb s)
          (positions f tokens) (map to_i32 tokens) (map to_i32 segments))))).
Proof.
  intros Hw Hdiv Hh Ha Hp Hl Hn Hs It Is Ip. unfold build_graph.
  eapply does_conv.
  { eapply does_bind.
    - exact (does_embed hp words rows w s _ tokens segments Hw Hh Hn (positions_length f tokens) Hs It Is Ip).
    - intros x Hx. exact (does_after_embed hp words rows w s last p _ x _ Hw Hdiv Hh Ha Hp Hl Hn Hx). }
  - unfold graph_cost. lia.
  - lia.
  - reflexivity.
  - auto.
Qed.

(** Shapes, memory and nodes do not depend on the ids. *)
Lemma does_get_rows_any t n d M ids :
  is_matrix P t n d M ->
  does (g_get_rows L t ids) (TC F32 d (length ids) 1 1) 1 [(n, ids)]
    (fun x => exists X, mat x (length ids) d X).
Proof.
  intros (H0 & H1 & H2 & H3 & ML & MF & MT & ME).
  unfold g_get_rows. rewrite H0, H1, H2.
  apply does_guard; [reflexivity|]. rewrite cost_size. apply does_step.
  apply mat_any_mat. reflexivity.
Qed.

Lemma does_embed_any hp words rows w s pos tokens segments :
  weights_are P hp words rows w s ->
  0 < hidden_dim hp -> 0 < length tokens ->
  length pos = length tokens -> length segments = length tokens ->
  does (embed P L hp w pos tokens segments) (embed_bytes (hidden_dim hp) (length tokens)) 10
    [(words, map to_i32 tokens); (rows, pos); (segment_count hp, map to_i32 segments)]
    (fun t => exists X, mat t (length tokens) (hidden_dim hp) X).
Proof.
  intros Hw Hh Hn Hp Hs. unfold embed.
  set (n := length tokens) in *. set (h := hidden_dim hp) in *.
  assert (Lt : length (map to_i32 tokens) = n) by apply map_length.
  assert (Ls : length (map to_i32 segments) = n) by (rewrite map_length; exact Hs).
  eapply does_conv.
  { eapply does_bind; [apply does_new_indices|]. intros ? ->.
    eapply does_bind; [apply does_new_indices|]. intros ? ->.
    eapply does_bind; [apply does_new_indices|]. intros ? ->.
    eapply does_bind; [exact (does_get_rows_any _ _ _ _ _ (w_words _ _ _ _ _ _ Hw))|]. intros x (X & Hx).
    rewrite Lt in Hx.
    eapply does_bind; [exact (does_get_rows_any _ _ _ _ _ (w_pos _ _ _ _ _ _ Hw))|]. intros p (Y & Hp1).
    rewrite Hp in Hp1.
    eapply does_bind.
    { apply (does_conv _ _ _ _ _ _ _ _ (fun t => exists X, mat t n h X)
        (does_add_mat p x n h _ _ Hp1 Hx Hn Hh) eq_refl eq_refl eq_refl). intros a Ha. eexists. exact Ha. }
    clear x X Hx. intros x (X & Hx).
    eapply does_bind; [exact (does_get_rows_any _ _ _ _ _ (w_segs _ _ _ _ _ _ Hw))|]. intros g (G & Hg).
    rewrite Ls in Hg.
    eapply does_bind.
    { apply (does_conv _ _ _ _ _ _ _ _ (fun t => exists X, mat t n h X)
        (does_add_mat g x n h _ _ Hg Hx Hn Hh) eq_refl eq_refl eq_refl). intros a Ha. eexists. exact Ha. }
    clear x X Hx. intros x (X & Hx).
    eapply does_bind.
    { apply (does_conv _ _ _ _ _ _ _ _ (fun t => exists X, mat t n h X)
        (does_layer_norm _ x _ _ n h _ _ _ Hx (w_lw _ _ _ _ _ _ Hw) (w_lb _ _ _ _ _ _ Hw) Hn Hh)
        eq_refl eq_refl eq_refl). intros a Ha. eexists. exact Ha. }
    clear x X Hx. intros x (X & Hx). pose proof Hx as (Ex & _).
    apply does_guard; [rewrite Ex; reflexivity|].
    apply does_guard; [rewrite Ex; apply Nat.eqb_refl|].
    apply does_guard; [rewrite Ex; apply Nat.eqb_refl|].
    apply does_ret with (Q := fun t => exists X, mat t n h X). exists X. exact Hx. }
  - rewrite Lt, Ls, Hp. unfold embed_bytes. fold h. lia.
  - reflexivity.
  - reflexivity.
  - auto.
Qed.

Lemma does_build_graph_any f hp words rows w s last p tokens segments :
  weights_are P hp words rows w s ->
  hidden_dim hp = (hidden_dim hp / attn_heads hp) * attn_heads hp -> 0 < hidden_dim hp ->
  (last = 0 \/ (hidden_act hp = Gelu /\ 0 < intermediate_dim hp)) -> p <> PoolOther -> last <= n_layers hp ->
  0 < length tokens -> length segments = length tokens ->
  does (build_graph P L f hp w last p tokens segments)
    (graph_cost hp p last (length tokens)) (10 + last * 46 + pool_nodes p)
    [(words, map to_i32 tokens); (rows, positions f tokens); (segment_count hp, map to_i32 segments)]
    (fun t => exists X, mat t (out_rows p (length tokens)) (hidden_dim hp) X).
Proof.
  intros Hw Hdiv Hh Ha Hp Hl Hn Hs. unfold build_graph.
  eapply does_conv.
  { eapply does_bind.
    - exact (does_embed_any hp words rows w s _ tokens segments Hw Hh Hn (positions_length f tokens) Hs).
    - intros x (X & Hx).
      apply (does_conv _ _ _ _ _ _ _ _ (fun t => exists X, mat t (out_rows p (length tokens)) (hidden_dim hp) X)
        (does_after_embed hp words rows w s last p _ x _ Hw Hdiv Hh Ha Hp Hl Hn Hx) eq_refl eq_refl eq_refl).
      intros a H. eexists. exact H. }
  - unfold graph_cost. lia.
  - lia.
  - reflexivity.
  - auto.
Qed.

(** The estimate is the exact cost. *)
Lemma sum_exact hp p last n :
  hidden_dim hp = (hidden_dim hp / attn_heads hp) * attn_heads hp ->
  p <> PoolOther -> last <= n_layers hp ->
  (let z := get_context_buffer_size L n hp p in
   z_emb z + z_layer z * N.of_nat last + z_pooler z + z_graph z)%N =
  (graph_cost hp p last n + graph_overhead L)%N.
Proof.
  intros Hdiv Hp Hl.
  unfold get_context_buffer_size, graph_cost. cbn [z_emb z_layer z_pooler z_graph].
  assert (HL : ((if (n_layers hp =? 0)%nat then 0 else
      (TC F32 (hidden_dim hp) n 1 1 + TC F32 (hidden_dim hp) n 1 1 + TC F32 (hidden_dim hp) n 1 1
        + TC F32 0 1 1 1 + TC F32 (hidden_dim hp) n 1 1 + TC F32 0 1 1 1) * 3
       + TC F32 n n (attn_heads hp) 1 * 2
       + TC F32 (hidden_dim hp) n 1 1
       + (TC F32 0 1 1 1 + TC F32 (hidden_dim hp) n 1 1)
       + (TC F32 0 1 1 1 + TC F32 (hidden_dim hp) n 1 1)
       + (TC F32 (hidden_dim hp) n 1 1 + TC F32 (hidden_dim hp) n 1 1 + TC F32 (hidden_dim hp) n 1 1)
       + TC F32 (hidden_dim hp) n 1 1
       + TC F32 (hidden_dim hp) n 1 1 * 5
       + (TC F32 (intermediate_dim hp) n 1 1 + TC F32 (intermediate_dim hp) n 1 1 + TC F32 (intermediate_dim hp) n 1 1)
       + TC F32 (intermediate_dim hp) n 1 1
       + (TC F32 (hidden_dim hp) n 1 1 + TC F32 (hidden_dim hp) n 1 1 + TC F32 (hidden_dim hp) n 1 1)
       + TC F32 (hidden_dim hp) n 1 1
       + TC F32 (hidden_dim hp) n 1 1 * 5) * N.of_nat last = N.of_nat last * layer_bytes hp n)%N).
  { destruct (n_layers hp =? 0) eqn:E.
    - apply Nat.eqb_eq in E. assert (last = 0) as -> by lia. reflexivity.
    - rewrite N.mul_comm. f_equal. unfold layer_bytes, attention_bytes, intermediate_bytes.
      rewrite (size_perm F32 (hidden_dim hp / attn_heads hp) n (attn_heads hp) 1 (hidden_dim hp) n 1 1)
        by (cbn; nia).
      lia. }
  rewrite HL. unfold embed_bytes.
  destruct p; cbn [pool_bytes]; try lia. congruence.
Qed.

(** *** Language-model head *)
Definition lm_cost (h words n : nat) : N :=
  (TC F32 (h * n) 1 1 1 + TC F32 0 1 1 1 + 9 * TC F32 h n 1 1 + 4 * TC F32 words n 1 1
   + TC I32 words n 1 1)%N.

Lemma does_lm_activation f a act x n d X :
  s_activation P f a = Some act -> mat x n d X ->
  does (lm_activation P L f a x) (TC F32 d n 1 1) 1 [] (fun t => mat t n d (map (map act) X)).
Proof.
  intros Ha Hx. destruct f; [destruct a|]; simpl in Ha; try discriminate; injection Ha as <-;
    exact (does_unary _ x n d X Hx).
Qed.

Lemma does_soft x n d X :
  mat x n d X -> does (g_soft_max P L x) (TC F32 d n 1 1) 1 [] (fun t => mat t n d (map (p_soft P) X)).
Proof.
  intros Hm. pose proof Hm as (Hx & XL & XF & XE). unfold g_soft_max, dup_op.
  replace (contiguous x) with true by (rewrite Hx, packed_contiguous; reflexivity).
  replace (ty x) with F32 by (rewrite Hx; reflexivity).
  replace (ne0 x) with d by (rewrite Hx; reflexivity).
  replace (ne1 x) with n by (rewrite Hx; reflexivity).
  replace (ne2 x) with 1 by (rewrite Hx; reflexivity).
  replace (ne3 x) with 1 by (rewrite Hx; reflexivity).
  apply does_guard; [reflexivity|].
  unfold fresh_op. rewrite cost_size. apply does_step.
  split; [reflexivity|]. split; [rewrite map_length; exact XL|]. split.
  - apply Forall_forall. intros r Hr. apply in_map_iff in Hr as (r' & <- & Hin).
    rewrite (soft_length P OK). rewrite Forall_forall in XF. auto.
  - intros i j Hi Hj. cbnt. rewrite (mat_row x n d X j Hm Hj).
    rewrite (nth_map_lt _ X j [] []) by lia. reflexivity.
Qed.

Lemma does_argsort x n d X :
  mat x n d X -> does (g_argsort P L x) (TC I32 d n 1 1) 1 [] (fun r => r = map (p_argsort P) X).
Proof.
  intros Hm. pose proof Hm as (Hx & XL & XF & XE). unfold g_argsort.
  replace (ne0 x) with d by (rewrite Hx; reflexivity).
  replace (ne1 x) with n by (rewrite Hx; reflexivity).
  replace (ne2 x) with 1 by (rewrite Hx; reflexivity).
  replace (ne3 x) with 1 by (rewrite Hx; reflexivity).
  rewrite cost_size. apply does_step.
  rewrite <- (map_seq_nth _ X n [] XL). apply map_ext_in.
  intros j Hj. apply in_seq in Hj. rewrite (mat_row x n d X j Hm) by lia. reflexivity.
Qed.

Lemma does_cut hs h n :
  length hs = h * n -> 0 < h ->
  does (x <- new_tensor L F32 (h * n) 1 1 1 (fun i _ _ _ => nth i hs z) ;; g_reshape L x h n 1 1)
    (TC F32 (h * n) 1 1 1 + TC F32 0 1 1 1) 1 [] (fun t => mat t n h (s_cut h n hs)).
Proof.
  intros HL Hh. eapply does_conv.
  { eapply does_bind.
    - unfold new_tensor. rewrite cost_size. apply does_step_eq.
    - intros y ->. unfold g_reshape.
      apply does_guard; [apply packed_contiguous|].
      apply does_guard.
      { apply Nat.eqb_eq. unfold numel. cbnt. nia. }
      rewrite view_size. apply does_step with (Q := fun t => mat t n h (s_cut h n hs)).
      split; [reflexivity|]. split; [unfold s_cut; rewrite map_length; apply seq_length|]. split.
      + apply Forall_forall. intros r Hr. apply in_map_iff in Hr as (j & <- & Hj).
        apply in_seq in Hj. rewrite firstn_length, skipn_length. nia.
      + intros i j Hi Hj. unfold reshaped. cbnt. unfold flat. cbnt.
        replace (i + h * (j + n * (1 * 0))) with (j * h + i) by nia.
        rewrite Nat.mod_small by nia.
        unfold s_cut. rewrite (nth_map_lt _ (seq 0 n) j [] 0) by (rewrite seq_length; exact Hj).
        rewrite seq_nth by exact Hj. cbn [Nat.add].
        rewrite <- slice by nia.
        rewrite (nth_map_lt _ (seq 0 h) i z 0) by (rewrite seq_length; exact Hi).
        rewrite seq_nth by exact Hi. f_equal. nia. }
  - reflexivity.
  - reflexivity.
  - reflexivity.
  - auto.
Qed.

Lemma does_build_lm f hp w hd sh words act hs n :
  lm w = Some hd -> head_is P (hidden_dim hp) words hd sh ->
  s_activation P f (hidden_act hp) = Some act ->
  length hs = hidden_dim hp * n -> 0 < hidden_dim hp -> 0 < n -> 0 < words ->
  does (build_lm_graph P L f hp w words hs) (lm_cost (hidden_dim hp) words n) 15 []
    (fun r => let probs := s_lm P (ln_eps hp) act (sl_dw sh) (sl_db sh) (sl_lw sh) (sl_lb sh) (sl_cw sh) (sl_cb sh)
                             (s_cut (hidden_dim hp) n hs) in
       mat (fst r) n words probs /\ snd r = map (p_argsort P) probs).
Proof.
  intros Hlm Hd Ha HL Hh Hn Hwd. unfold build_lm_graph. rewrite Hlm.
  set (h := hidden_dim hp) in *.
  replace (length hs / h) with n by (rewrite HL, Nat.mul_comm, Nat.div_mul; lia).
  rewrite HL.
  eapply does_conv.
  { eapply does_bind2; [exact (does_cut hs h n HL Hh)|]. intros x Hx.
    eapply does_bind; [exact (does_dense x _ _ n h h _ _ _ Hx (h_dw _ _ _ _ _ Hd) (h_db _ _ _ _ _ Hd) Hn Hh)|].
    clear x Hx. intros x Hx.
    eapply does_bind; [exact (does_lm_activation f _ act x n h _ Ha Hx)|]. clear x Hx. intros x Hx.
    eapply does_bind; [exact (does_layer_norm _ x _ _ n h _ _ _ Hx (h_lw _ _ _ _ _ Hd) (h_lb _ _ _ _ _ Hd) Hn Hh)|].
    clear x Hx. intros x Hx. pose proof Hx as (Ex & _).
    apply does_guard; [rewrite Ex; apply Nat.eqb_refl|].
    apply does_guard; [rewrite Ex; apply Nat.eqb_refl|]. clear Ex.
    eapply does_bind; [exact (does_dense x _ _ n h words _ _ _ Hx (h_cw _ _ _ _ _ Hd) (h_cb _ _ _ _ _ Hd) Hn Hwd)|].
    clear x Hx. intros x Hx. pose proof Hx as (Ex & _).
    apply does_guard; [rewrite Ex; apply Nat.eqb_refl|].
    apply does_guard; [rewrite Ex; apply Nat.eqb_refl|]. clear Ex.
    eapply does_bind; [exact (does_soft x n words _ Hx)|]. intros p Hp.
    eapply does_bind; [exact (does_argsort p n words _ Hp)|]. intros ids ->.
    apply does_ret with (Q := fun r =>
      let probs := s_lm P (ln_eps hp) act (sl_dw sh) (sl_db sh) (sl_lw sh) (sl_lb sh) (sl_cw sh) (sl_cb sh) (s_cut h n hs) in
      mat (fst r) n words probs /\ snd r = map (p_argsort P) probs).
    split; [exact Hp|reflexivity]. }
  - unfold lm_cost. lia.
  - reflexivity.
  - reflexivity.
  - auto.
Qed.

Lemma lm_sum_exact hp words n :
  (let z := get_context_buffer_size_for_lm L n hp words in
   z_emb z + z_layer z * N.of_nat 0 + z_pooler z + z_graph z)%N =
  (lm_cost (hidden_dim hp) words n + graph_overhead L)%N.
Proof.
  unfold get_context_buffer_size_for_lm, lm_cost.
  cbn [z_emb z_layer z_pooler z_graph].
  rewrite (Nat.mul_comm n (hidden_dim hp)). lia.
Qed.
End Proofs.
