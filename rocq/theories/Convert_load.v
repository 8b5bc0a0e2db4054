(** Reading, loading and evaluating a converted checkpoint. *)
From Verif Require Import Base Assoc Bert_model Vocab_model Vocab_spec Vocab_proofs Bpe_model Roberta_model
  Loader_model Loader_spec Loader_proofs Quantize_model Quantize_spec Quantize_proofs Gguf_model Gguf_spec Gguf_proofs
  Convert_model Convert_spec Convert_proofs Convert_arrays.
From Verif Require Ggml_model Encoder_model Encoder_spec.
Local Open Scope nat_scope.

Lemma mksb_eq {V} x0 x1 x2 x3 x4 x5 x6 x7 x8 x9 x10 x11 x12 x13 x14 x15 y0 y1 y2 y3 y4 y5 y6 y7 y8 y9 y10 y11 y12 y13 y14 y15 : x0 = y0 -> x1 = y1 -> x2 = y2 -> x3 = y3 -> x4 = y4 -> x5 = y5 -> x6 = y6 -> x7 = y7 -> x8 = y8 -> x9 = y9 -> x10 = y10 -> x11 = y11 -> x12 = y12 -> x13 = y13 -> x14 = y14 -> x15 = y15 -> @Encoder_spec.mksb V x0 x1 x2 x3 x4 x5 x6 x7 x8 x9 x10 x11 x12 x13 x14 x15 = @Encoder_spec.mksb V y0 y1 y2 y3 y4 y5 y6 y7 y8 y9 y10 y11 y12 y13 y14 y15.
Proof. intros; subst; reflexivity. Qed.
Lemma mksm_eq {V} x0 x1 x2 x3 x4 x5 x6 x7 y0 y1 y2 y3 y4 y5 y6 y7 : x0 = y0 -> x1 = y1 -> x2 = y2 -> x3 = y3 -> x4 = y4 -> x5 = y5 -> x6 = y6 -> x7 = y7 -> @Encoder_spec.mksm V x0 x1 x2 x3 x4 x5 x6 x7 = @Encoder_spec.mksm V y0 y1 y2 y3 y4 y5 y6 y7.
Proof. intros; subst; reflexivity. Qed.
Lemma mksl_eq {V} x0 x1 x2 x3 x4 x5 y0 y1 y2 y3 y4 y5 : x0 = y0 -> x1 = y1 -> x2 = y2 -> x3 = y3 -> x4 = y4 -> x5 = y5 -> @Encoder_spec.mksl V x0 x1 x2 x3 x4 x5 = @Encoder_spec.mksl V y0 y1 y2 y3 y4 y5.
Proof. intros; subst; reflexivity. Qed.

Section File.
Context {E : Type} (single half : E -> list N).
Hypothesis (H32 : forall e, length (single e) = 4) (H16 : forall e, length (half e) = 2).
Context (c : checkpoint E) (f32 : bool).
Hypothesis (HS : storable c).

(** What conversion comes to. *)
Record conversion (bytes : list N) (a : N) (kvs : list kv) (ts : list wtensor) : Prop := {
  cv_facts : pairs_facts c a;
  cv_kvs : kvs = flat_map piece (pieces c f32 a);
  cv_arrays : arrays single half c f32 = Some ts;
  cv_fine : Forall array_ok ts; cv_names : NoDup (map o_name ts);
  cv_wf : Forall wf_kv kvs; cv_align : alignment kvs = Ok 32%N;
  cv_bytes : bytes = put_file kvs ts
}.

Lemma converted bytes : convert single half c f32 = Some bytes -> exists a kvs ts, conversion bytes a kvs ts.
Proof.
  unfold convert. intros H.
  assert (H' : match pairs c f32, arrays single half c f32 with Some kvs, Some ts => Some (put_file kvs ts) | _, _ => None end = Some bytes).
  { destruct (ck_class c); [exact H|exact H|discriminate H]. }
  clear H. destruct (pairs c f32) as [kvs|] eqn:Ep; [|discriminate H']. destruct (arrays single half c f32) as [ts|] eqn:Ea; [|discriminate H'].
  apply some_inj in H'. apply pairs_inv in Ep as (a & Fa & ->). exists a, (flat_map piece (pieces c f32 a)), ts.
  destruct (arrays_fine single half H32 H16 c f32 ts HS Ea) as (F1 & F2).
  constructor; auto; [apply wf_pairs; apply so_repo; exact HS|apply aligned_pairs].
Qed.

Section Conv.
Variables (bytes : list N) (a : N) (kvs : list kv) (ts : list wtensor).
Hypothesis (CV : conversion bytes a kvs ts) (Hf : fits64 (N.of_nat (length bytes))).
Let f := file_read kvs ts.

Lemma cv_fits : fits64 (N.of_nat (length (put_file kvs ts))).
Proof. rewrite <- (cv_bytes _ _ _ _ CV). exact Hf. Qed.

Lemma cv_read : read_gguf bytes = Ok (kvs, f).
Proof. rewrite (cv_bytes _ _ _ _ CV). apply read_converted; [apply CV..|exact cv_fits]. Qed.

Lemma cv_settings : settings_of c f32 f.
Proof. unfold f. rewrite (cv_kvs _ _ _ _ CV). apply settings_read; [apply CV|apply so_eps, HS|apply so_range, HS]. Qed.

Lemma cv_stored t : In t ts -> exists i, named f (o_name t) = Some i /\ contained f i /\ ti_type i = o_type t /\
  ti_dims i = N.of_nat (length (o_shape t)) /\
  [ti_ne0 i; ti_ne1 i; ti_ne2 i; ti_ne3 i] = firstn 4 (rev (o_shape t) ++ [1; 1; 1; 1]) /\ region f i = o_bytes t.
Proof. apply tensor_stored; first [exact (cv_fine _ _ _ _ CV) | exact (cv_names _ _ _ _ CV) | exact cv_fits]. Qed.

(** Parameters *)
Lemma kept_head key name t : In (key, t) (ck_lm c) -> head_key (ck_class c) key name -> name <> u "predictions.bias" ->
  In (key, t) (filter (head_kept (ck_class c)) (ck_lm c)).
Proof.
  intros Hin Hk Hn. apply filter_In. split; [exact Hin|]. unfold head_kept. cbn [fst]. apply negb_true_iff, list_N_eqb_neq. intros Q.
  destruct (so_class _ HS) as [Ec|Ec]; rewrite Ec in *.
  - assert (R := head_key_name _ _ _ (or_introl eq_refl) Hk). cbn [head_name] in R. congruence.
  - subst key. inversion Hk as [k Q|s Q Hs Q2|s Q Hs Q2|s Q Hs Q2]; try discriminate.
Qed.

Lemma array_in key name t : written_as c key name t -> In (array single half f32 key name t) ts.
Proof.
  intros W. assert (A := cv_arrays _ _ _ _ CV). unfold arrays in A.
  destruct (vocab_arrays c) as [v|]; [|discriminate A]. destruct (merge_arrays c) as [m|]; [|discriminate A]. apply some_inj in A. subst ts.
  apply in_app_iff; right. apply in_app_iff; right. apply in_app_iff.
  destruct W as [key t Hin|key name t Hin Hk Hn]; [left|right].
  - unfold state_arrays. apply (in_map (fun x => array single half f32 (fst x) (fst x) (snd x)) _ (key, t)), Hin.
  - rewrite lm_arrays_eq by exact HS. apply in_map_iff. exists (key, t). cbn [fst snd].
    rewrite (head_key_name _ _ _ (so_class _ HS) Hk). split; [reflexivity|]. exact (kept_head key name t Hin Hk Hn).
Qed.

Lemma last7_iff key : last7 key = u ".weight" <-> exists p, key = p ++ u ".weight".
Proof.
  unfold last7. split.
  - intros H. exists (firstn (length key - 7) key). rewrite <- H. symmetry. apply firstn_skipn.
  - intros (p & ->). rewrite app_length. change (length (u ".weight")) with 7. rewrite Nat.add_sub, skipn_app, Nat.sub_diag, skipn_all. reflexivity.
Qed.

Lemma to_half_iff key (t : ptensor E) : to_half f32 key t = true <-> rounded f32 key t.
Proof.
  unfold to_half, rounded. rewrite !andb_true_iff, negb_true_iff, Nat.eqb_eq, list_N_eqb_eq, last7_iff. unfold squeeze. tauto.
Qed.

Lemma stores_array key name t : written_as c key name t ->
  (rounded f32 key t -> stores f (u "berts.bert." ++ name) TF16 (p_shape t) (concat (map half (p_elems t)))) /\
  (~ rounded f32 key t -> stores f (u "berts.bert." ++ name) TF32 (p_shape t) (concat (map single (p_elems t)))).
Proof.
  intros W. destruct (cv_stored _ (array_in _ _ _ W)) as (i & E1 & E2 & E3 & _ & E4 & E5).
  rewrite array_name in E1. rewrite <- to_half_iff. unfold array in E3, E4, E5. unfold stores, extents.
  split; intros Q.
  - rewrite Q in E3, E4, E5. exists i. auto.
  - apply not_true_is_false in Q. rewrite Q in E3, E4, E5. exists i. auto.
Qed.

(** Nothing else. *)
Lemma stored_only n : has f n -> n = u "berts.vocab.size" \/ n = u "berts.vocab.data" \/
  (n = u "berts.merge.data" /\ ck_merges c <> None) \/ exists key name t, written_as c key name t /\ n = u "berts.bert." ++ name.
Proof.
  unfold f. rewrite (has_read kvs ts n). assert (A := cv_arrays _ _ _ _ CV). unfold arrays in A.
  destruct (vocab_arrays c) as [v|] eqn:Ev; [|discriminate A]. destruct (merge_arrays c) as [m|] eqn:Em; [|discriminate A]. apply some_inj in A.
  rewrite <- A. rewrite !map_app, !in_app_iff. apply vocab_fine in Ev as (_ & V2). rewrite V2.
  intros [H|[H|[H|H]]].
  - cbn [In] in H. destruct H as [<-|[<-|[]]]; auto.
  - right; right; left. split.
    + apply merge_fine in Em as (_ & M & _). apply M in H. destruct H as [<-|[]]. reflexivity.
    + intros Q. unfold merge_arrays in Em. rewrite Q in Em. apply some_inj in Em. subst m. exact H.
  - right; right; right. apply in_map_iff in H as (t & <- & Ht). unfold state_arrays in Ht. apply in_map_iff in Ht as ([key t'] & <- & Ht).
    exists key, key, t'. split; [constructor; exact Ht|apply array_name].
  - right; right; right. rewrite lm_arrays_eq in H by exact HS. apply in_map_iff in H as (t & <- & Ht). apply in_map_iff in Ht as ([key t'] & <- & Ht).
    assert (SH := so_head_names _ HS). rewrite Forall_forall in SH. destruct (SH _ Ht) as (name & K1 & _). cbn [fst snd] in *.
    rewrite (head_key_name _ _ _ (so_class _ HS) K1). exists key, name, t'. split; [|apply array_name].
    apply filter_In in Ht as (Ht & Hk). apply wa_head; [exact Ht|exact K1|]. intros ->.
    assert (Q := head_key_plain _ _ K1). assert (R := head_key_name _ _ _ (so_class _ HS) K1). rewrite Q in R. cbn [head_name] in R.
    unfold head_kept in Hk. rewrite Q in Hk. cbn [fst] in Hk. rewrite R in Hk. discriminate Hk.
Qed.

(** ** Rows *)
Context {V : Type} (value : gty -> list N -> nat -> V) (r32 r16 : E -> V).
Hypothesis (RF : readable_floats value single half r32 r16).

Lemma map_seq_nth {A} (g : nat -> V) (round : A -> V) l : (forall i e, nth_error l i = Some e -> g i = round e) ->
  map g (seq 0 (length l)) = map round l.
Proof.
  revert g. induction l as [|e l IH]; intros g H; [reflexivity|]. cbn [length seq map]. f_equal; [apply H; reflexivity|].
  rewrite <- seq_shift, map_map. apply IH. intros i x Hx. apply H. exact Hx.
Qed.

Lemma nth_error_skipn {A} (l : list A) b i : nth_error (skipn b l) i = nth_error l (b + i).
Proof. revert l. induction b as [|b IH]; intros l; [reflexivity|]. destruct l as [|x l]; [destruct i; reflexivity|]. apply IH. Qed.
Lemma nth_error_firstn {A} (l : list A) n i e : nth_error (firstn n l) i = Some e -> nth_error l i = Some e.
Proof. revert n i. induction l as [|x l IH]; intros [|n] [|i] H; try discriminate; [exact H|]. apply (IH n). exact H. Qed.

Lemma cut_row {A} (g : nat -> V) (round : A -> V) es n r j : length es = r * n -> j < r ->
  (forall i e, nth_error es i = Some e -> g i = round e) ->
  map (fun i => g (i + n * j)) (seq 0 n) = map round (cut n es j).
Proof.
  intros Hl Hj H. assert (L : length (cut n es j) = n).
  { unfold cut. rewrite firstn_length, skipn_length, Hl. assert (n * S j <= r * n) by nia. nia. }
  assert (M := fun g' => map_seq_nth g' round (cut n es j)). rewrite L in M. apply M. intros i e Hi. apply H. unfold cut in Hi. apply nth_error_firstn in Hi.
  rewrite nth_error_skipn in Hi. rewrite Nat.add_comm. exact Hi.
Qed.

Definition weight_key (k : list N) : Prop := exists p, k = p ++ u ".weight".

Lemma found d key (t : ptensor E) : NoDup (map fst d) -> In (key, t) d -> ck_find d key = Some t.
Proof.
  unfold ck_find. induction d as [|x d IH]; intros ND Hin; [destruct Hin|]. cbn [map find] in *. inversion ND as [|? ? N1 N2]; subst.
  destruct Hin as [->|Hin]; cbn [fst]; [rewrite list_N_eqb_refl; reflexivity|].
  rewrite (proj2 (list_N_eqb_neq (fst x) key)); [apply IH; assumption|]. intros Q. apply N1. rewrite Q. apply (in_map fst _ _ Hin).
Qed.

Lemma whole_of key name t : written_as c key name t -> whole t.
Proof.
  intros W. assert (A := so_whole _ HS). rewrite Forall_forall in A. destruct W as [key t H|key name t H _ _]; apply (A (key, t)), in_app_iff; auto.
Qed.

(** A matrix of the checkpoint is one of the file. *)
Lemma matrix_read d key name t r n : NoDup (map fst d) -> In (key, t) d -> written_as c key name t -> weight_key key -> p_shape t = [r; n] ->
  2 <= n -> matrix_at f r n (bert_name name) /\ rows_of value f (bert_name name) = matrix_of r32 r16 f32 d key.
Proof.
  intros ND Hd W K Sh Hn. destruct (whole_of _ _ _ W) as (W1 & W2). rewrite Sh in W1, W2. cbn [fold_right] in W2. rewrite Nat.mul_1_r in W2.
  apply Forall_cons_iff in W1 as (Hr & _).
  assert (Rd : rounded f32 key t <-> f32 = false /\ 2 <= r).
  { unfold rounded. rewrite Sh. cbn [filter]. rewrite (proj2 (Nat.eqb_neq n 1)) by lia. cbn [negb].
    destruct (Nat.eqb_spec r 1) as [->|Hr1]; cbn [negb length]; split.
    - intros (_ & Q & _). discriminate Q.
    - intros (_ & Q). lia.
    - intros (Q & _). split; [exact Q|lia].
    - intros (Q & _). auto. }
  assert (Ex : forall i, extents (p_shape t) i -> ti_ne0 i = n /\ ti_ne1 i = r /\ ti_ne2 i = 1 /\ ti_ne3 i = 1).
  { intros i. unfold extents. rewrite Sh. cbn [filter]. rewrite (proj2 (Nat.eqb_neq n 1)) by lia. cbn [negb].
    destruct (Nat.eqb_spec r 1) as [->|Hr1]; cbn [negb rev app firstn]; intros Q; injection Q as -> -> -> ->; auto. }
  destruct (stores_array _ _ _ W) as (S16 & S32).
  assert (B : forall ty g round, stores f (u "berts.bert." ++ name) ty (p_shape t) (concat (map g (p_elems t))) ->
    (forall i e, nth_error (p_elems t) i = Some e -> value ty (concat (map g (p_elems t))) i = round e) ->
    matrix_at f r n (bert_name name) /\
    rows_of value f (bert_name name) = map (fun j => map round (cut n (p_elems t) j)) (seq 0 r)).
  { intros ty g round (i & E1 & E2 & E3 & E4 & E5) Hv. apply Ex in E4 as (X0 & X1 & X2 & X3). split.
    - exists i. unfold bert_name. auto 10.
    - unfold rows_of, bert_name. rewrite E1, E3, E5, X0, X1. apply map_ext_in. intros j Hj. apply in_seq in Hj.
      apply (cut_row (value ty (concat (map g (p_elems t)))) round (p_elems t) n r j W2); [lia|exact Hv]. }
  assert (Mo : matrix_of r32 r16 f32 d key = map (fun j => map (if negb f32 && (2 <=? r) && (2 <=? n) then r16 else r32) (cut n (p_elems t) j)) (seq 0 r)).
  { unfold matrix_of. rewrite (found d key t ND Hd). destruct t as [sh es]. cbn [p_shape p_elems] in *. rewrite Sh. reflexivity. }
  rewrite Mo. rewrite (proj2 (Nat.leb_le 2 n)) by exact Hn. rewrite andb_true_r.
  destruct (Nat.leb_spec 2 r) as [H2|H2]; [destruct f32 eqn:F|]; cbn [negb andb].
  - apply (B TF32 single r32); [apply S32; rewrite Rd; intros (Q & _); discriminate Q|]. intros i e. apply (rf_value32 _ _ _ _ _ RF).
  - apply (B TF16 half r16); [apply S16; rewrite Rd; auto|]. intros i e. apply (rf_value16 _ _ _ _ _ RF).
  - rewrite andb_false_r. apply (B TF32 single r32); [apply S32; rewrite Rd; intros (_ & Q); lia|]. intros i e. apply (rf_value32 _ _ _ _ _ RF).
Qed.

Lemma vector_read d key name t n : NoDup (map fst d) -> In (key, t) d -> written_as c key name t -> p_shape t = [n] ->
  vector_at f n (bert_name name) /\ row_of value f (bert_name name) = vector_of r32 d key.
Proof.
  intros ND Hd W Sh. destruct (whole_of _ _ _ W) as (W1 & W2). rewrite Sh in W1, W2. cbn [fold_right] in W2. rewrite Nat.mul_1_r in W2.
  apply Forall_cons_iff in W1 as (Hn & _). destruct (stores_array _ _ _ W) as (_ & S32).
  destruct S32 as (i & E1 & E2 & E3 & E4 & E5).
  { unfold rounded. rewrite Sh. cbn [filter]. destruct (n =? 1); cbn [negb length]; intros (_ & Q & _); discriminate Q. }
  assert (X : ti_ne0 i = n /\ ti_ne1 i = 1 /\ ti_ne2 i = 1 /\ ti_ne3 i = 1).
  { revert E4. unfold extents. rewrite Sh. cbn [filter]. destruct (Nat.eqb_spec n 1) as [->|]; cbn [negb rev app firstn]; intros Q; injection Q as -> -> -> ->; auto. }
  destruct X as (X0 & X1 & X2 & X3). split; [exists i; unfold bert_name; auto 10|].
  unfold row_of, rows_of, bert_name. rewrite E1, E3, E5, X0, X1. cbn [seq map nth]. unfold vector_of. rewrite (found d key t ND Hd), <- W2.
  rewrite <- (map_seq_nth (fun i => value TF32 (concat (map single (p_elems t))) i) r32 (p_elems t)).
  - apply map_ext. intros k. f_equal. lia.
  - intros k e. apply (rf_value32 _ _ _ _ _ RF).
Qed.

Lemma state_matrix key r n : has_matrix (ck_state c) r n key -> weight_key key -> 2 <= n ->
  matrix_at f r n (bert_name key) /\ rows_of value f (bert_name key) = matrix_of r32 r16 f32 (ck_state c) key.
Proof.
  intros (t & Ht & Sh) K Hn. apply (matrix_read (ck_state c) key key t r n); auto; [apply (so_distinct _ HS)|constructor; exact Ht].
Qed.
Lemma state_vector key n : has_vector (ck_state c) n key ->
  vector_at f n (bert_name key) /\ row_of value f (bert_name key) = vector_of r32 (ck_state c) key.
Proof. intros (t & Ht & Sh). apply (vector_read (ck_state c) key key t n); auto; [apply (so_distinct _ HS)|constructor; exact Ht]. Qed.

Lemma head_matrix key name r n : has_matrix (ck_lm c) r n key -> head_key (ck_class c) key name -> name <> u "predictions.bias" -> weight_key key -> 2 <= n ->
  matrix_at f r n (bert_name name) /\ rows_of value f (bert_name name) = matrix_of r32 r16 f32 (ck_lm c) key.
Proof.
  intros (t & Ht & Sh) Hk Hp K Hn. apply (matrix_read (ck_lm c) key name t r n); auto; [apply (so_distinct _ HS)|apply wa_head; assumption].
Qed.
Lemma head_vector key name n : has_vector (ck_lm c) n key -> head_key (ck_class c) key name -> name <> u "predictions.bias" ->
  vector_at f n (bert_name name) /\ row_of value f (bert_name name) = vector_of r32 (ck_lm c) key.
Proof. intros (t & Ht & Sh) Hk Hp. apply (vector_read (ck_lm c) key name t n); auto; [apply (so_distinct _ HS)|apply wa_head; assumption]. Qed.

Lemma layer_names n s : layer_name n s = bert_name (layer_key n s).
Proof. reflexivity. Qed.
Lemma layer_weight n s : weight_key s -> weight_key (layer_key n s).
Proof. intros (p & ->). exists (u "encoder.layer." ++ decimal (N.of_nat n) ++ u "." ++ p). unfold layer_key. rewrite <- !app_assoc. reflexivity. Qed.
Ltac wk := match goal with |- weight_key ?k => let l := constr:(length k - 7) in exists (firstn l k); vm_compute; reflexivity end.

Section Encoder.
Hypothesis (EO : encoder_ok c).
Let h := N.to_nat (ck_hidden c).
Let m := N.to_nat (ck_inter c).
Lemma h_two : 2 <= h. Proof. assert (H := eo_h _ EO). unfold h. lia. Qed.
Lemma m_two : 2 <= m. Proof. assert (H := eo_m _ EO). unfold m. lia. Qed.

Lemma layer_read n : n < N.to_nat (ck_layers c) -> layer_shaped f h m n /\ file_block value f n = ck_block r32 r16 f32 c n.
Proof.
  intros Hn. destruct (eo_layers _ EO n Hn) as [Sq Up Ub Dn Ve]. fold h m in Sq, Up, Ub, Dn, Ve. assert (H2 := h_two). assert (M2 := m_two).
  assert (SM : forall s r k, has_matrix (ck_state c) r k (layer_key n s) -> weight_key s -> 2 <= k ->
    matrix_at f r k (layer_name n s) /\ rows_of value f (layer_name n s) = matrix_of r32 r16 f32 (ck_state c) (layer_key n s)).
  { intros s r k A K Hk. rewrite layer_names. apply state_matrix; [exact A|apply layer_weight, K|exact Hk]. }
  assert (SV : forall s k, has_vector (ck_state c) k (layer_key n s) ->
    vector_at f k (layer_name n s) /\ row_of value f (layer_name n s) = vector_of r32 (ck_state c) (layer_key n s)).
  { intros s k A. rewrite layer_names. apply state_vector, A. }
  apply Forall_cons_iff in Sq as (Q & Sq). apply Forall_cons_iff in Sq as (K & Sq). apply Forall_cons_iff in Sq as (W & Sq).
  apply Forall_cons_iff in Sq as (O & _).
  apply Forall_cons_iff in Ve as (Qb & Ve). apply Forall_cons_iff in Ve as (Kb & Ve). apply Forall_cons_iff in Ve as (Wb & Ve).
  apply Forall_cons_iff in Ve as (Ob & Ve). apply Forall_cons_iff in Ve as (Lw & Ve). apply Forall_cons_iff in Ve as (Lb & Ve).
  apply Forall_cons_iff in Ve as (Db & Ve). apply Forall_cons_iff in Ve as (Mw & Ve). apply Forall_cons_iff in Ve as (Mb & _).
  assert (Q' := SM _ _ _ Q ltac:(wk) H2). assert (K' := SM _ _ _ K ltac:(wk) H2). assert (W' := SM _ _ _ W ltac:(wk) H2).
  assert (O' := SM _ _ _ O ltac:(wk) H2). assert (Up' := SM _ _ _ Up ltac:(wk) H2). assert (Dn' := SM _ _ _ Dn ltac:(wk) M2).
  apply SV in Qb, Kb, Wb, Ob, Lw, Lb, Db, Mw, Mb, Ub. clear Q K W O Up Dn SM SV.
  split.
  - constructor.
    + apply Forall_cons; [exact (proj1 Q')|]. apply Forall_cons; [exact (proj1 K')|]. apply Forall_cons; [exact (proj1 W')|].
      apply Forall_cons; [exact (proj1 O')|constructor].
    + exact (proj1 Up').
    + exact (proj1 Ub).
    + exact (proj1 Dn').
    + apply Forall_cons; [exact (proj1 Qb)|]. apply Forall_cons; [exact (proj1 Kb)|]. apply Forall_cons; [exact (proj1 Wb)|].
      apply Forall_cons; [exact (proj1 Ob)|]. apply Forall_cons; [exact (proj1 Lw)|]. apply Forall_cons; [exact (proj1 Lb)|].
      apply Forall_cons; [exact (proj1 Db)|]. apply Forall_cons; [exact (proj1 Mw)|]. apply Forall_cons; [exact (proj1 Mb)|constructor].
  - unfold file_block, ck_block. cbv zeta. apply mksb_eq;
      [exact (proj2 Q')|exact (proj2 Qb)|exact (proj2 K')|exact (proj2 Kb)|exact (proj2 W')|exact (proj2 Wb)|exact (proj2 O')|exact (proj2 Ob)
      |exact (proj2 Lw)|exact (proj2 Lb)|exact (proj2 Up')|exact (proj2 Ub)|exact (proj2 Dn')|exact (proj2 Db)|exact (proj2 Mw)|exact (proj2 Mb)].
Qed.

Lemma encoder_read :
  well_shaped f h m (N.to_nat (ck_layers c)) (N.to_nat (ck_segments c)) (N.to_nat (ck_vocab_size c)) (N.to_nat (ck_positions c)) /\
  file_params value f (N.to_nat (ck_layers c)) = ck_params r32 r16 f32 c.
Proof.
  destruct EO as [E1 E2 W P S Ln Ly Po Pb]. fold h in W, P, S, Ln, Po, Pb. assert (H2 := h_two).
  apply Forall_cons_iff in Ln as (Lw & Ln). apply Forall_cons_iff in Ln as (Lb & _).
  assert (W' := state_matrix _ _ _ W ltac:(wk) H2). assert (P' := state_matrix _ _ _ P ltac:(wk) H2).
  assert (S' := state_matrix _ _ _ S ltac:(wk) H2). assert (Po' := state_matrix _ _ _ Po ltac:(wk) H2).
  apply state_vector in Lw, Lb, Pb. clear W P S Po. split.
  - constructor; [exact (proj1 W')|exact (proj1 P')|exact (proj1 S')| | |exact (proj1 Po')|exact (proj1 Pb)].
    + apply Forall_cons; [exact (proj1 Lw)|]. apply Forall_cons; [exact (proj1 Lb)|constructor].
    + intros n Hn. apply layer_read, Hn.
  - unfold file_params, ck_params. cbv zeta. apply mksm_eq;
      [exact (proj2 W')|exact (proj2 P')|exact (proj2 S')|exact (proj2 Lw)|exact (proj2 Lb)| |exact (proj2 Po')|exact (proj2 Pb)].
    apply map_ext_in. intros n Hn. apply in_seq in Hn. apply layer_read. lia.
Qed.

Lemma head_read : head_fits c ->
  head_shaped f h (N.to_nat (ck_vocab_size c)) /\ file_head value f = ck_head r32 r16 f32 c.
Proof.
  intros [D Db Nw Nb De Deb]. fold h in D, Db, Nw, Nb, De. assert (H2 := h_two).
  assert (K : forall b r, (ck_class c = RobertaModel -> head_key RobertaModel r b) -> head_key (ck_class c) (hd (ck_class c) b r) b).
  { intros b r Hr. destruct (so_class _ HS) as [Ec|Ec]; rewrite Ec in *; [constructor; reflexivity|apply Hr; reflexivity]. }
  assert (Kw : forall b r, weight_key b -> weight_key r -> weight_key (hd (ck_class c) b r)) by (intros b r Hb Hr; unfold hd; destruct (ck_class c); assumption).
  assert (KD := K (u "predictions.transform.dense.weight") (u "dense.weight") (fun _ => hk_dense RobertaModel (u "weight") eq_refl (or_introl eq_refl))).
  assert (PD : u "predictions.transform.dense.weight" <> u "predictions.bias") by (intros Q; vm_compute in Q; discriminate Q).
  assert (WD : weight_key (hd (ck_class c) (u "predictions.transform.dense.weight") (u "dense.weight"))) by (apply Kw; wk).
  assert (D' := head_matrix _ _ _ _ D KD PD WD H2). clear D KD PD WD.
  assert (KDe := K (u "predictions.decoder.weight") (u "decoder.weight") (fun _ => hk_decoder RobertaModel (u "weight") eq_refl (or_introl eq_refl))).
  assert (PDe : u "predictions.decoder.weight" <> u "predictions.bias") by (intros Q; vm_compute in Q; discriminate Q).
  assert (WDe : weight_key (hd (ck_class c) (u "predictions.decoder.weight") (u "decoder.weight"))) by (apply Kw; wk).
  assert (De' := head_matrix _ _ _ _ De KDe PDe WDe H2). clear De KDe PDe WDe.
  assert (KDb := K (u "predictions.transform.dense.bias") (u "dense.bias") (fun _ => hk_dense RobertaModel (u "bias") eq_refl (or_intror (or_introl eq_refl)))).
  assert (PDb : u "predictions.transform.dense.bias" <> u "predictions.bias") by (intros Q; vm_compute in Q; discriminate Q).
  assert (Db' := head_vector _ _ _ Db KDb PDb). clear Db KDb PDb.
  assert (KNw := K (u "predictions.transform.LayerNorm.weight") (u "layer_norm.weight") (fun _ => hk_norm RobertaModel (u "weight") eq_refl (or_introl eq_refl))).
  assert (PNw : u "predictions.transform.LayerNorm.weight" <> u "predictions.bias") by (intros Q; vm_compute in Q; discriminate Q).
  assert (Nw' := head_vector _ _ _ Nw KNw PNw). clear Nw KNw PNw.
  assert (KNb := K (u "predictions.transform.LayerNorm.bias") (u "layer_norm.bias") (fun _ => hk_norm RobertaModel (u "bias") eq_refl (or_intror (or_introl eq_refl)))).
  assert (PNb : u "predictions.transform.LayerNorm.bias" <> u "predictions.bias") by (intros Q; vm_compute in Q; discriminate Q).
  assert (Nb' := head_vector _ _ _ Nb KNb PNb). clear Nb KNb PNb.
  assert (KDeb := K (u "predictions.decoder.bias") (u "decoder.bias") (fun _ => hk_decoder RobertaModel (u "bias") eq_refl (or_intror (or_introl eq_refl)))).
  assert (PDeb : u "predictions.decoder.bias" <> u "predictions.bias") by (intros Q; vm_compute in Q; discriminate Q).
  assert (Deb' := head_vector _ _ _ Deb KDeb PDeb). clear Deb KDeb PDeb.
  split.
  - constructor; [exact (proj1 D')|exact (proj1 De')| |exact (proj1 Deb')].
    apply Forall_cons; [exact (proj1 Db')|]. apply Forall_cons; [exact (proj1 Nw')|]. apply Forall_cons; [exact (proj1 Nb')|constructor].
  - unfold file_head, ck_head. cbv zeta. apply mksl_eq; [exact (proj2 D')|exact (proj2 Db')|exact (proj2 Nw')|exact (proj2 Nb')|exact (proj2 De')|exact (proj2 Deb')].
Qed.
End Encoder.
End Conv.
End File.
