(** Quantizing a converted checkpoint. *)
From Coq Require Import Permutation.
From Verif Require Import Base Assoc Bert_model Vocab_model Vocab_spec Vocab_proofs Bpe_model Roberta_model
  Loader_model Loader_spec Loader_proofs Quantize_model Quantize_spec Quantize_proofs Gguf_model Gguf_spec Gguf_proofs
  Convert_model Convert_spec Convert_proofs Convert_arrays Convert_load Qck_spec.
From Verif Require Ggml_model Encoder_model Encoder_spec Eval_model Eval_spec P_Loader P_Quantize P_Gguf P_Convert.
Local Open Scope nat_scope.

(** Names of weights: ".weight" after a text without line breaks. *)
Definition plain_key (k : list N) : Prop := exists p, k = p ++ u ".weight" /\ ~ In 10%N p /\ ~ In 13%N p.
Ltac pk := match goal with |- plain_key ?k => let l := constr:(length k - 7) in exists (firstn l k); split; [vm_compute; reflexivity|split; vm_compute; intuition discriminate] end.

Lemma plain_layer n s : plain_key s -> plain_key (layer_key n s).
Proof.
  intros (p & -> & P1 & P2). exists (u "encoder.layer." ++ decimal (N.of_nat n) ++ u "." ++ p). unfold layer_key. rewrite <- !app_assoc.
  split; [reflexivity|].
  assert (D : forall x, In x (decimal (N.of_nat n)) -> (48 <= x)%N).
  { intros x Hx. unfold decimal in Hx. eapply Forall_forall in Hx; [|apply Loader_proofs.digits_ascii]. cbv beta in Hx. lia. }
  split; intros Q; apply in_app_iff in Q as [Q|Q]; try (vm_compute in Q; intuition discriminate);
    apply in_app_iff in Q as [Q|Q]; try (apply D in Q; lia); apply in_app_iff in Q as [Q|Q]; try (vm_compute in Q; intuition discriminate); auto.
Qed.

(** Parameters, read one by one. *)
Section Read.
Context {E V : Type} (c : checkpoint E) (value : gty -> list N -> nat -> V) (f : file).
Context (matrix : list (list N * ptensor E) -> list N -> list (list V)) (vector : list (list N * ptensor E) -> list N -> list V).
Hypothesis HS : storable c.
Hypothesis EO : encoder_ok c.
Hypothesis HM : forall d key name t r n, NoDup (map fst d) -> In (key, t) d -> written_as c key name t -> p_shape t = [r; n] -> plain_key key -> plain_key name ->
  2 <= n -> rows_of value f (bert_name name) = matrix d key.
Hypothesis HV : forall d key name t n, NoDup (map fst d) -> In (key, t) d -> written_as c key name t -> p_shape t = [n] ->
  row_of value f (bert_name name) = vector d key.

Lemma sm key r n : has_matrix (ck_state c) r n key -> plain_key key -> 2 <= n -> rows_of value f (bert_name key) = matrix (ck_state c) key.
Proof. intros (t & Ht & Sh) K Hn. apply (HM (ck_state c) key key t r n); auto; [apply (so_distinct _ HS)|constructor; exact Ht]. Qed.
Lemma sv key n : has_vector (ck_state c) n key -> row_of value f (bert_name key) = vector (ck_state c) key.
Proof. intros (t & Ht & Sh). apply (HV (ck_state c) key key t n); auto; [apply (so_distinct _ HS)|constructor; exact Ht]. Qed.
Lemma hm key name r n : has_matrix (ck_lm c) r n key -> head_key (ck_class c) key name -> name <> u "predictions.bias" -> plain_key key -> plain_key name -> 2 <= n ->
  rows_of value f (bert_name name) = matrix (ck_lm c) key.
Proof. intros (t & Ht & Sh) Hk Hp K Kn Hn. apply (HM (ck_lm c) key name t r n); auto; [apply (so_distinct _ HS)|apply wa_head; assumption]. Qed.
Lemma hv key name n : has_vector (ck_lm c) n key -> head_key (ck_class c) key name -> name <> u "predictions.bias" ->
  row_of value f (bert_name name) = vector (ck_lm c) key.
Proof. intros (t & Ht & Sh) Hk Hp. apply (HV (ck_lm c) key name t n); auto; [apply (so_distinct _ HS)|apply wa_head; assumption]. Qed.

Lemma block_read n : n < N.to_nat (ck_layers c) -> file_block value f n = block_of c matrix vector n.
Proof.
  intros Hn. destruct (eo_layers _ EO n Hn) as [Sq Up Ub Dn Ve]. assert (H2 := eo_h _ EO). assert (M2 := eo_m _ EO).
  assert (SM : forall s r k, has_matrix (ck_state c) r k (layer_key n s) -> plain_key s -> 2 <= k ->
    rows_of value f (layer_name n s) = matrix (ck_state c) (layer_key n s)).
  { intros s r k A K Hk. apply (sm _ r k); [exact A|apply plain_layer, K|exact Hk]. }
  assert (SV : forall s k, has_vector (ck_state c) k (layer_key n s) -> row_of value f (layer_name n s) = vector (ck_state c) (layer_key n s)).
  { intros s k A. apply (sv _ k), A. }
  apply Forall_cons_iff in Sq as (Q & Sq). apply Forall_cons_iff in Sq as (K & Sq). apply Forall_cons_iff in Sq as (W & Sq).
  apply Forall_cons_iff in Sq as (O & _).
  apply Forall_cons_iff in Ve as (Qb & Ve). apply Forall_cons_iff in Ve as (Kb & Ve). apply Forall_cons_iff in Ve as (Wb & Ve).
  apply Forall_cons_iff in Ve as (Ob & Ve). apply Forall_cons_iff in Ve as (Lw & Ve). apply Forall_cons_iff in Ve as (Lb & Ve).
  apply Forall_cons_iff in Ve as (Db & Ve). apply Forall_cons_iff in Ve as (Mw & Ve). apply Forall_cons_iff in Ve as (Mb & _).
  assert (h2 : 2 <= N.to_nat (ck_hidden c)) by lia. assert (m2 : 2 <= N.to_nat (ck_inter c)) by lia.
  unfold file_block, block_of. cbv zeta. apply mksb_eq;
    first [eapply SV; eassumption | eapply SM; [eassumption|pk|eassumption]].
Qed.

Lemma params_read : file_params value f (N.to_nat (ck_layers c)) = params_of c matrix vector.
Proof.
  destruct EO as [E1 E2 W P S Ln Ly Po Pb]. assert (h2 : 2 <= N.to_nat (ck_hidden c)) by lia.
  apply Forall_cons_iff in Ln as (Lw & Ln). apply Forall_cons_iff in Ln as (Lb & _).
  unfold file_params, params_of. cbv zeta. apply mksm_eq;
    [eapply sm; [eassumption|pk|eassumption]|eapply sm; [eassumption|pk|eassumption]|eapply sm; [eassumption|pk|eassumption]
    |eapply sv; eassumption|eapply sv; eassumption| |eapply sm; [eassumption|pk|eassumption]|eapply sv; eassumption].
  apply map_ext_in. intros n Hn. apply in_seq in Hn. apply block_read. lia.
Qed.

Lemma heads_read : head_fits c -> file_head value f = head_of c matrix vector.
Proof.
  intros [D Db Nw Nb De Deb]. assert (H2 := eo_h _ EO). assert (h2 : 2 <= N.to_nat (ck_hidden c)) by lia.
  assert (K : forall b r, (ck_class c = RobertaModel -> head_key RobertaModel r b) -> head_key (ck_class c) (hd (ck_class c) b r) b).
  { intros b r Hr. destruct (so_class _ HS) as [Ec|Ec]; rewrite Ec in *; [constructor; reflexivity|apply Hr; reflexivity]. }
  assert (Kw : forall b r, plain_key b -> plain_key r -> plain_key (hd (ck_class c) b r)) by (intros b r Hb Hr; unfold hd; destruct (ck_class c); assumption).
  unfold file_head, head_of. cbv zeta. apply mksl_eq.
  - eapply hm; [exact D|apply K; intros _; exact (hk_dense RobertaModel (u "weight") eq_refl (or_introl eq_refl))
      |intros Q; vm_compute in Q; discriminate Q|apply Kw; pk|pk|exact h2].
  - eapply hv; [exact Db|apply K; intros _; exact (hk_dense RobertaModel (u "bias") eq_refl (or_intror (or_introl eq_refl)))
      |intros Q; vm_compute in Q; discriminate Q].
  - eapply hv; [exact Nw|apply K; intros _; exact (hk_norm RobertaModel (u "weight") eq_refl (or_introl eq_refl))
      |intros Q; vm_compute in Q; discriminate Q].
  - eapply hv; [exact Nb|apply K; intros _; exact (hk_norm RobertaModel (u "bias") eq_refl (or_intror (or_introl eq_refl)))
      |intros Q; vm_compute in Q; discriminate Q].
  - eapply hm; [exact De|apply K; intros _; exact (hk_decoder RobertaModel (u "weight") eq_refl (or_introl eq_refl))
      |intros Q; vm_compute in Q; discriminate Q|apply Kw; pk|pk|exact h2].
  - eapply hv; [exact Deb|apply K; intros _; exact (hk_decoder RobertaModel (u "bias") eq_refl (or_intror (or_introl eq_refl)))
      |intros Q; vm_compute in Q; discriminate Q].
Qed.
End Read.

(** The file of a converted checkpoint can be quantized. *)
Section Conv.
Context {E : Type} (single half : E -> list N) (c : checkpoint E) (f32 : bool) (qt : gty).
Hypothesis (HS : storable c) (HQ : quantizable qt c).
Variables (bytes : list N) (a : N) (kvs : list kv) (ts : list wtensor).
Hypothesis (CV : conversion single half c f32 bytes a kvs ts).
Let f := file_read kvs ts.

Lemma pieces_keys_nodup l : NoDup (map (fun p => cstr (fst p)) l) -> NoDup (map (fun x => cstr (k_key x)) (flat_map piece l)).
Proof.
  assert (I : forall l k, In k (map (fun x => cstr (k_key x)) (flat_map piece l)) -> In k (map (fun p => cstr (fst p)) l)).
  { clear. intros l k H. apply in_map_iff in H as (x & <- & Hx). apply in_flat_map in Hx as (p & Hp & Hx). unfold piece in Hx.
    destruct (snd p); [|destruct Hx]. destruct Hx as [<-|[]]. cbn [k_key]. apply (in_map (fun p => cstr (fst p)) _ _ Hp). }
  induction l as [|p l IH]; intros ND; [constructor|]. cbn [flat_map map] in *. inversion ND as [|? ? N1 N2]; subst.
  unfold piece at 1. destruct (snd p); cbn [app map k_key]; [constructor; [|apply IH, N2]|apply IH, N2]. intros Q. apply N1, I, Q.
Qed.
Lemma cv_distinct_keys : distinct_keys kvs.
Proof. unfold distinct_keys. rewrite (cv_kvs _ _ _ _ _ _ _ _ CV). apply pieces_keys_nodup, pieces_nodup. Qed.

Lemma cv_known : known_types kvs.
Proof.
  unfold known_types. rewrite (cv_kvs _ _ _ _ _ _ _ _ CV). apply Forall_forall. intros x Hx. apply in_flat_map in Hx as (p & Hp & Hx).
  assert (K : forall v, snd p = Some v -> known v = true).
  { unfold pieces in Hp. cbn [In] in Hp.
    repeat (destruct Hp as [<-|Hp]; [cbn [snd]; intros v Q;
      first [apply some_inj in Q; subst v; reflexivity
            |destruct (ck_repo c); [discriminate Q|apply some_inj in Q; subst v; reflexivity]
            |destruct (ck_ids c _); cbn [option_map] in Q; [apply some_inj in Q; subst v; reflexivity|discriminate Q]
            |destruct (ck_class c); try discriminate Q; destruct (ck_ids c _); cbn [option_map] in Q; [apply some_inj in Q; subst v; reflexivity|discriminate Q| apply some_inj in Q; subst v; reflexivity|discriminate Q]
            |destruct (ck_class c); try discriminate Q; destruct (ck_flags c _); cbn [option_map] in Q; [apply some_inj in Q; subst v; reflexivity|discriminate Q]]|]).
    destruct Hp. }
  unfold piece in Hx. destruct (snd p) as [v|]; [|destruct Hx]. destruct Hx as [<-|[]]. cbn [k_val]. apply K. reflexivity.
Qed.

Lemma cv_distinct : distinct_names f.
Proof. apply distinct_read; apply CV. Qed.

Lemma cv_align32 : align_of f = 32%N.
Proof. unfold align_of, f. assert (S := cv_settings single half c f32 HS bytes a kvs ts CV). destruct (sf_general _ _ _ S) as (_ & -> & _). reflexivity. Qed.

(** The descriptions, by name. *)
Lemma cv_tensor key name t : written_as c key name t ->
  exists i, named f (bert_name name) = Some i /\ contained f i /\ ti_dims i = N.of_nat (length (squeezed (p_shape t))) /\
    [ti_ne0 i; ti_ne1 i; ti_ne2 i; ti_ne3 i] = firstn 4 (rev (squeezed (p_shape t)) ++ [1; 1; 1; 1]) /\
    (rounded f32 key t -> ti_type i = TF16 /\ region f i = concat (map half (p_elems t))) /\
    (~ rounded f32 key t -> ti_type i = TF32 /\ region f i = concat (map single (p_elems t))).
Proof.
  intros W. destruct (cv_stored single half c f32 bytes a kvs ts CV _ (array_in single half c f32 HS bytes a kvs ts CV _ _ _ W)) as (i & E1 & E2 & E3 & E4 & E5 & E6).
  rewrite array_name in E1. exists i. split; [exact E1|]. split; [exact E2|]. rewrite <- to_half_iff. unfold array in *.
  destruct (to_half f32 key t); cbn [o_type o_shape o_bytes] in *; unfold squeeze in *; (split; [exact E4|]; split; [exact E5|]);
    (split; intros Q; [try discriminate Q|try (contradiction Q; reflexivity)]); auto.
Qed.

Lemma in_named t : In t (f_tensors f) -> named f (ti_name t) = Some t.
Proof. intros Ht. apply (named_in f t cv_distinct Ht). Qed.

Lemma weight_names n p : n = p ++ u "weight" -> has f n -> exists key name t, written_as c key name t /\ n = u "berts.bert." ++ name.
Proof.
  intros -> Hh. destruct (stored_only single half c f32 HS bytes a kvs ts CV _ Hh) as [Q|[Q|[(Q & _)|Q]]]; [exfalso| exfalso|exfalso|exact Q].
  all: apply (f_equal (@rev N)) in Q; rewrite rev_app_distr in Q; vm_compute in Q; discriminate Q.
Qed.

Lemma cv_wanted junk s : In s (tensors_of junk f) -> wanted s ->
  float_type (ti_type (st_info s)) /\ (N.of_nat (ti_ne0 (st_info s)) mod blck_size qt = 0)%N.
Proof.
  intros Hs (Hd & p & Hn & _). unfold tensors_of in Hs. apply in_map_iff in Hs as (t & <- & Ht). cbn [st_info st_name] in *.
  destruct (weight_names (ti_name t) p Hn) as (key & name & x & W & En); [exists t; auto|].
  destruct (cv_tensor key name x W) as (i & I1 & _ & I3 & I4 & I5 & I6). assert (Q := in_named t Ht). rewrite En in Q. unfold bert_name in I1.
  assert (i = t) by congruence. subst i. split.
  - destruct (to_half f32 key x) eqn:R; [right; apply I5, to_half_iff, R|left; apply I6]. rewrite <- to_half_iff. congruence.
  - rewrite Hd in I3. destruct (squeezed (p_shape x)) as [|r [|n [|? l]]] eqn:Sq; cbn [length] in I3; try lia.
    cbn [rev app firstn] in I4. injection I4 as -> _ _ _. apply (qz_blocks _ _ HQ key name x p r n W); [rewrite <- En; exact Hn|exact Sq].
Qed.

Lemma cv_norms : norms_flat f.
Proof.
  intros t p Ht Hn Hd. assert (Hn' : ti_name t = (p ++ u "LayerNorm.") ++ u "weight") by (rewrite <- app_assoc; exact Hn).
  destruct (weight_names (ti_name t) _ Hn') as (key & name & x & W & En); [exists t; auto|].
  destruct (cv_tensor key name x W) as (i & I1 & _ & I3 & _). assert (Q := in_named t Ht). rewrite En in Q. unfold bert_name in I1.
  assert (i = t) by congruence. subst i. apply (qz_norms _ _ HQ key name x p W); [rewrite <- En; exact Hn|lia].
Qed.

(** The parameters of the quantized file. *)
Section Rows.
Context {V : Type} (value : gty -> list N -> nat -> V) (r32 r16 : E -> V) (chunk : gty -> list N -> nat -> list N) (widen : list N -> list N).
Hypothesis (RF : readable_floats value single half r32 r16).
Context (f' : file).
Hypothesis HR : forall n t, named f n = Some t -> contained f t ->
  let s := mkst t (ti_name t) (region f t) in
  (wanted s -> rows_of value f' n = converted_rows value chunk widen qt f t) /\
  (~ wanted s -> rows_of value f' n = rows_of value f n).

Lemma name_of n t : named f n = Some t -> ti_name t = n.
Proof. intros H. apply (named_some f n t H). Qed.

Lemma q_matrix d key name t r n : NoDup (map fst d) -> In (key, t) d -> written_as c key name t -> p_shape t = [r; n] ->
  plain_key key -> plain_key name -> 2 <= n ->
  rows_of value f' (bert_name name) = quantized_matrix value chunk widen qt single half r32 f32 d key.
Proof.
  intros ND Hd W Sh (p & K & _) (q & Kn & Q1 & Q2) Hn. assert (WK : weight_key key) by (exists p; exact K).
  destruct (cv_tensor key name t W) as (i & I1 & I2 & I3 & I4 & I5 & I6). destruct (HR _ _ I1 I2) as (RW & RN).
  destruct (whole_of c HS _ _ _ W) as (W1 & W2). rewrite Sh in W1, W2. cbn [fold_right] in W2. rewrite Nat.mul_1_r in W2.
  apply Forall_cons_iff in W1 as (Hr & _).
  rewrite Sh in I3, I4. unfold squeezed in I3, I4. cbn [filter] in I3, I4. rewrite (proj2 (Nat.eqb_neq n 1)) in I3, I4 by lia. cbn [negb] in I3, I4.
  assert (F := found d key t ND Hd).
  unfold quantized_matrix. rewrite F. destruct t as [sh es]. cbn [p_shape p_elems] in *. rewrite Sh in *. clear Sh sh.
  rewrite (proj2 (Nat.leb_le 2 n)) by exact Hn. rewrite andb_true_r.
  destruct (Nat.leb_spec 2 r) as [H2|H2].
  - rewrite (proj2 (Nat.eqb_neq r 1)) in I3, I4 by lia. cbn [negb length rev app firstn] in I3, I4. injection I4 as X0 X1 X2 X3.
    rewrite RW.
    2:{ split; [exact I3|]. cbn [st_name]. rewrite (name_of _ _ I1). exists (u "berts.bert." ++ q ++ u "."). unfold bert_name. rewrite Kn.
        split; [rewrite <- !app_assoc; reflexivity|].
        split; intros Q; apply in_app_iff in Q as [Q|Q]; try (vm_compute in Q; intuition discriminate);
          apply in_app_iff in Q as [Q|Q]; try (vm_compute in Q; intuition discriminate); auto. }
    unfold converted_rows. rewrite X0, X1. unfold elements. rewrite X0, X1, X2, X3. replace (n * r * 1 * 1) with (length es) by lia. cbv zeta.
    assert (Rd : rounded f32 key (mkpt [r; n] es) <-> f32 = false).
    { unfold rounded. cbn [p_shape filter]. rewrite (proj2 (Nat.eqb_neq n 1)), (proj2 (Nat.eqb_neq r 1)) by lia. cbn [negb length].
      split; [tauto|]. intros Q. split; [exact Q|]. split; [reflexivity|exact WK]. }
    destruct f32 eqn:F32.
    + destruct I6 as (-> & ->); [rewrite Rd; discriminate|]. reflexivity.
    + destruct I5 as (-> & ->); [rewrite Rd; reflexivity|]. reflexivity.
  - assert (r = 1) by lia. subst r. rewrite RN.
    + destruct (matrix_read single half c f32 HS bytes a kvs ts CV value r32 r16 RF d key name (mkpt [1; n] es) 1 n ND Hd W WK eq_refl Hn) as (_ & R).
      unfold f. rewrite R. unfold matrix_of. rewrite F. cbn [Nat.leb]. rewrite andb_false_r. reflexivity.
    + intros (Q & _). cbn [st_info] in Q. rewrite I3 in Q. discriminate Q.
Qed.

Lemma q_vector d key name t n : NoDup (map fst d) -> In (key, t) d -> written_as c key name t -> p_shape t = [n] ->
  row_of value f' (bert_name name) = vector_of r32 d key.
Proof.
  intros ND Hd W Sh. destruct (cv_tensor key name t W) as (i & I1 & I2 & I3 & _). destruct (HR _ _ I1 I2) as (_ & RN).
  destruct (vector_read single half c f32 HS bytes a kvs ts CV value r32 r16 RF d key name t n ND Hd W Sh) as (_ & R).
  rewrite <- R. unfold row_of. rewrite RN; [reflexivity|]. intros (Q & _). cbn [st_info] in Q. rewrite I3, Sh in Q. unfold squeezed in Q. cbn [filter] in Q.
  destruct (negb (n =? 1)); discriminate Q.
Qed.
End Rows.
End Conv.
