(** Loading does not look at the extents of the weights. *)
From Verif Require Import Base Bert_model Vocab_model Bpe_model Roberta_model Loader_model Loader_spec Loader_proofs Quantize_model Quantize_proofs.
From Verif Require Ggml_model Encoder_model Eval_model P_Loader.
Local Open Scope nat_scope.

(** ** Specification *)

(** The same tensor with the same number of elements in rows of another length. *)
Definition reshaped (t t' : tinfo) : Prop :=
  ti_name t' = ti_name t /\ ti_type t' = ti_type t /\ ti_dims t' = ti_dims t /\ ti_offset t' = ti_offset t /\
  whole_rows t /\ whole_rows t' /\
  ti_ne0 t' * ti_ne1 t' * ti_ne2 t' * ti_ne3 t' = ti_ne0 t * ti_ne1 t * ti_ne2 t * ti_ne3 t.

(** Files that differ in the extents of tensors only. *)
Definition reshaped_file (f f' : file) : Prop :=
  f_set f' = f_set f /\ f_tok f' = f_tok f /\ f_data f' = f_data f /\ f_bytes f' = f_bytes f /\
  Forall2 reshaped (f_tensors f) (f_tensors f').

(** ** Proofs *)

Lemma reshaped_nbytes t t' : reshaped t t' -> nbytes t' = nbytes t.
Proof.
  intros (_ & T & _ & _ & W & W' & E). rewrite (whole_size t W), (whole_size t' W'), T. unfold elements. rewrite E. reflexivity.
Qed.
Lemma reshaped_cost L t t' : reshaped t t' -> dup_cost L t' = dup_cost L t.
Proof.
  intros R. pose proof (reshaped_nbytes t t' R) as B. destruct R as (_ & T & _ & _ & W & W' & _).
  rewrite !nbytes_data, (excess_whole t W), (excess_whole t' W'), !N.add_0_r in B.
  unfold dup_cost, Ggml_model.tensor_cost. unfold data_size, type_size, blck_size in B. rewrite <- B, T. reflexivity.
Qed.

(** Both or neither. *)
Definition pairs {A B} (R : A -> B -> Prop) (x : option A) (y : option B) : Prop :=
  match x, y with Some a, Some b => R a b | None, None => True | _, _ => False end.

Lemma found {A B} (R : A -> B -> Prop) (na : A -> list N) (nb : B -> list N) n : (forall a b, R a b -> nb b = na a) ->
  forall l l', Forall2 R l l' -> pairs R (get_tensor na l n) (get_tensor nb l' n).
Proof.
  intros H l l' F. unfold get_tensor. induction F as [|a b l l' Rab F IH]; [exact Logic.I|]. cbn [find]. rewrite (H a b Rab).
  destruct (list_N_eqb (firstn (MAX_NAME - 1) (na a)) n); [exact Rab|exact IH].
Qed.

Lemma same_size L m m' : Forall2 reshaped m m' -> forall l l', Forall2 reshaped l l' -> ctx_size L m' l' = ctx_size L m l.
Proof.
  intros FM l l' F. induction F as [|t t' l l' R F IH]; [reflexivity|]. cbn [ctx_size].
  pose proof (found reshaped ti_name ti_name (ti_name t) (fun a b H => proj1 H) m m' FM) as Q. rewrite (proj1 R).
  destruct (get_tensor ti_name m (ti_name t)) as [x|], (get_tensor ti_name m' (ti_name t)) as [y|]; try contradiction; [|reflexivity].
  rewrite IH, (reshaped_nbytes x y Q). reflexivity.
Qed.

Definition kept (s s' : stored) : Prop := st_name s' = st_name s /\ st_bytes s' = st_bytes s /\ reshaped (st_info s) (st_info s').
Definition outcomes {A B} (R : A -> B -> Prop) (x : outcome A) (y : outcome B) : Prop :=
  match x, y with Ok a, Ok b => R a b | Fail, Fail | UB, UB | Abort, Abort => True | _, _ => False end.

Lemma same_read L junk f f' size : reshaped_file f f' -> forall l l', Forall2 reshaped l l' -> forall used failed,
  outcomes (Forall2 kept) (read_tensors L junk f size used failed l) (read_tensors L junk f' size used failed l').
Proof.
  intros (_ & _ & HD & HB & FM) l l' F. induction F as [|t t' l l' R F IH]; intros used failed; [constructor|]. cbn [read_tensors].
  pose proof (found reshaped ti_name ti_name (ti_name t) (fun a b H => proj1 H) _ _ FM) as Q. rewrite (proj1 R).
  destruct (get_tensor ti_name (f_tensors f) (ti_name t)) as [x|], (get_tensor ti_name (f_tensors f') (ti_name t)) as [y|]; try contradiction; [|exact Logic.I].
  rewrite (reshaped_cost L x y Q). destruct (size <? used + dup_cost L x)%N; [exact Logic.I|]. destruct failed; [exact Logic.I|].
  assert (E : read_bytes junk f' (ti_offset t') (nbytes y) = read_bytes junk f (ti_offset t) (nbytes x)).
  { unfold read_bytes. destruct R as (_ & _ & _ & -> & _). rewrite HD, HB, (reshaped_nbytes x y Q). reflexivity. }
  rewrite E. destruct (read_bytes junk f (ti_offset t) (nbytes x)) as [bytes failed']. specialize (IH (used + dup_cost L x)%N failed').
  destruct (read_tensors L junk f size (used + dup_cost L x)%N failed' l) as [ts| | |], (read_tensors L junk f' size (used + dup_cost L x)%N failed' l') as [ts'| | |];
    try contradiction; cbn [obind outcomes] in *; try exact Logic.I. constructor; [|exact IH]. repeat split; try reflexivity; apply Q.
Qed.

Lemma same_vocab ts ts' key : Forall2 kept ts ts' -> vocab_tensor ts' key = vocab_tensor ts key.
Proof.
  intros F. unfold vocab_tensor. pose proof (found kept st_name st_name key (fun a b H => proj1 H) ts ts' F) as Q.
  destruct (get_tensor st_name ts key) as [s|], (get_tensor st_name ts' key) as [s'|]; try contradiction; [|reflexivity].
  cbn [option_map]. f_equal. destruct Q as (_ & B & (_ & T & D & _)). unfold as_vocab. rewrite B, T, D. reflexivity.
Qed.

Section Weights.
Context {V : Type} (value : gty -> list N -> nat -> V) (ts ts' : list stored) (F : Forall2 kept ts ts').
Definition both {A B : Type} : option A -> option B -> Prop := pairs (fun _ _ => True).

Lemma both_bind {A B C D : Type} (x : option A) (y : option B) (f : A -> option C) (g : B -> option D) :
  both x y -> (forall a b, both (f a) (g b)) -> both (bind x f) (bind y g).
Proof. intros H K. destruct x, y; try contradiction; [apply K|exact Logic.I]. Qed.
Lemma both_weight key : both (weight value ts key) (weight value ts' key).
Proof.
  unfold weight. pose proof (found kept st_name st_name key (fun a b H => proj1 H) ts ts' F) as Q.
  destruct (get_tensor st_name ts key), (get_tensor st_name ts' key); try contradiction; exact Logic.I.
Qed.
Lemma both_layer n : both (layer_init value ts n) (layer_init value ts' n).
Proof. unfold layer_init. repeat (apply both_bind; [apply both_weight|intros ? ?]). exact Logic.I. Qed.
Lemma both_layers : forall l, both (layers_init value ts l) (layers_init value ts' l).
Proof.
  induction l as [|n l IH]; [exact Logic.I|]. cbn [layers_init]. apply both_bind; [apply both_layer|intros ? ?].
  apply both_bind; [exact IH|intros ? ?]. exact Logic.I.
Qed.
Lemma both_weights n : both (weights_init value ts n) (weights_init value ts' n).
Proof.
  unfold weights_init. repeat (apply both_bind; [first [apply both_weight|apply both_layers]|intros ? ?]). exact Logic.I.
Qed.
End Weights.

(** Two results of loading that differ in the weights only. *)
Definition loads_alike {V : Type} (r r' : load_result (V := V)) : Prop :=
  match r, r' with
  | Loaded m, Loaded m' => lo_vocab m' = lo_vocab m /\ lo_settings m' = lo_settings m
  | Null b, Null b' => b' = b
  | _, _ => False
  end.

(** C217: the extents of tensors have no influence on whether a file loads, nor on the
    vocabulary and settings loaded. *)
Theorem C217_shapes_ignored : forall (V : Type) L junk (value : gty -> list N -> nat -> V) order f f' reopen,
  reshaped_file f f' ->
  outcomes loads_alike (load_from_file L junk value order (Some f) reopen) (load_from_file L junk value order (Some f') reopen).
Proof.
  intros V L junk value order f f' reopen R. pose proof R as (HS & HT & HD & HB & F). unfold load_from_file.
  assert (EM : read_metadata f' = read_metadata f) by (unfold read_metadata, opt_str, opt_u32, need_u32; rewrite HS; reflexivity).
  assert (ES : read_settings f' = read_settings f) by (unfold read_settings, opt_u32, opt_f64, need_u32; rewrite HS; reflexivity).
  assert (EF : need_u32 f' S_file_type = need_u32 f S_file_type) by (unfold need_u32; rewrite HS; reflexivity).
  rewrite EM, ES, EF, (same_size L _ _ F _ _ F). clear EM ES EF.
  destruct (read_metadata f) as [x| | |]; cbn [obind]; try exact Logic.I.
  destruct (ctx_size L (f_tensors f) (f_tensors f)) as [size| | |]; cbn [obind]; try exact Logic.I.
  destruct reopen; cbn [negb]; [|reflexivity].
  pose proof (same_read L junk f f' size R _ _ F 0%N false) as Q.
  destruct (read_tensors L junk f size 0 false (f_tensors f)) as [ts| | |], (read_tensors L junk f' size 0 false (f_tensors f')) as [ts'| | |];
    try contradiction; try exact Logic.I; [|reflexivity].
  cbn [outcomes] in Q. destruct (read_settings f) as [s| | |]; cbn [obind]; try exact Logic.I.
  destruct (need_u32 f S_file_type) as [ft| | |]; cbn [obind]; try exact Logic.I. destruct (ftype ft) as [nm| | |]; cbn [obind]; try exact Logic.I.
  destruct (negb (se_act s =? 0)%N); [reflexivity|]. destruct (negb _); [reflexivity|]. unfold new_context.
  assert (EV : init_vocab order (se_arch s) f' ts' = init_vocab order (se_arch s) f ts).
  { unfold init_vocab. rewrite HT, !(same_vocab ts ts' _ Q). reflexivity. }
  rewrite EV. destruct (init_vocab order (se_arch s) f ts) as [v| | |]; try exact Logic.I; [|reflexivity].
  pose proof (both_weights value ts ts' Q (Encoder_model.n_layers (se_hp s))) as B.
  destruct (weights_init value ts (Encoder_model.n_layers (se_hp s))), (weights_init value ts' (Encoder_model.n_layers (se_hp s)));
    try contradiction; [split; reflexivity|reflexivity].
Qed.
Print Assumptions C217_shapes_ignored.

(** ** Example: the table of words with its two extents exchanged *)
Definition turned (t : tinfo) : tinfo :=
  if list_N_eqb (ti_name t) (u "berts.bert.embeddings.word_embeddings.weight")
  then mkti (ti_name t) (ti_type t) (ti_dims t) (ti_ne1 t) (ti_ne0 t) (ti_ne2 t) (ti_ne3 t) (ti_offset t) else t.
Definition turned_file : file :=
  mkfile (f_set P_Loader.d_file) (f_tok P_Loader.d_file) (map turned (f_tensors P_Loader.d_file)) (f_data P_Loader.d_file) (f_bytes P_Loader.d_file).

Example C217_example : reshaped_file P_Loader.d_file turned_file /\
  map (fun t => (ti_ne0 t, ti_ne1 t)) (f_tensors turned_file) <> map (fun t => (ti_ne0 t, ti_ne1 t)) (f_tensors P_Loader.d_file) /\
  exists m m', P_Loader.d_load P_Loader.d_file = Ok (Loaded m) /\ P_Loader.d_load turned_file = Ok (Loaded m').
Proof.
  split; [|split].
  - repeat split. cbn [turned_file f_tensors]. 
    assert (W : Forall whole_rows (f_tensors P_Loader.d_file)).
    { apply Forall_forall. intros t Ht. unfold whole_rows. apply N.eqb_eq. revert t Ht. apply forallb_forall. vm_compute. reflexivity. }
    assert (W' : Forall whole_rows (map turned (f_tensors P_Loader.d_file))).
    { apply Forall_forall. intros t Ht. unfold whole_rows. apply N.eqb_eq. revert t Ht. apply forallb_forall. vm_compute. reflexivity. }
    revert W W'. generalize (f_tensors P_Loader.d_file). clear. intros l W W'. induction l as [|t l IH]; [constructor|].
    cbn [map] in *. apply Forall_cons_iff in W as (W1 & W), W' as (W1' & W'). constructor; [|apply IH; assumption].
    assert (E : ti_name (turned t) = ti_name t /\ ti_type (turned t) = ti_type t /\ ti_dims (turned t) = ti_dims t /\ ti_offset (turned t) = ti_offset t /\
      ti_ne0 (turned t) * ti_ne1 (turned t) * ti_ne2 (turned t) * ti_ne3 (turned t) = ti_ne0 t * ti_ne1 t * ti_ne2 t * ti_ne3 t).
    { unfold turned. destruct (list_N_eqb _ _); repeat split. cbn. rewrite (Nat.mul_comm (ti_ne1 t)). reflexivity. }
    destruct E as (E1 & E2 & E3 & E4 & E5). repeat split; assumption.
  - vm_compute. discriminate.
  - do 2 eexists. split; vm_compute; reflexivity.
Qed.
