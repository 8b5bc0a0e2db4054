(** Theorems about loading a model file. *)
From Verif Require Import Base Bert_model Vocab_model Bpe_model Roberta_model Loader_model Loader_spec Loader_proofs.
From Verif Require Ggml_model Encoder_model Encoder_spec Eval_model Eval_spec P_Eval Handle_model P_Handle.
Local Open Scope nat_scope.

(** ** A file for the examples: five tokens, hidden size 2, one layer *)

Record piece := mkpiece { p_name : list N; p_type : gty; p_0 : nat; p_1 : nat; p_bytes : list N }.

(** Pieces one after the other, each at the next multiple of 32. *)
Fixpoint lay (pos : N) (l : list piece) : list tinfo * list N :=
  match l with
  | [] => ([], [])
  | p :: l' =>
      let size := N.of_nat (length (p_bytes p)) in
      let gap := ((32 - size mod 32) mod 32)%N in
      let '(ts, bs) := lay (pos + size + gap)%N l' in
      (mkti (p_name p) (p_type p) (if (p_1 p =? 1)%nat then 1 else 2)%N (p_0 p) (p_1 p) 1 1 pos :: ts,
       p_bytes p ++ repeat 0%N (match l' with [] => 0 | _ => N.to_nat gap end) ++ bs)
  end.

Definition f32 (l : list N) : list N := flat_map (fun x => [x; 0; 0; 0]%N) l.
Definition mat (n : list N) (r c : nat) (l : list N) : piece := mkpiece n TF32 c r (f32 l).
Definition vec (n : list N) (l : list N) : piece := mkpiece n TF32 (length l) 1 (f32 l).

Definition d_tokens : list (list N) := [u "[CLS]"; u "[SEP]"; u "[MASK]"; u "[PAD]"; u "[UNK]"].
Definition d_vocab : list piece :=
  [mkpiece (u "berts.vocab.size") TI8 5 1 [5; 5; 6; 5; 5]%N;
   mkpiece (u "berts.vocab.data") TI8 26 1 (concat d_tokens)].
Definition lay0 (s : list N) : list N := u "berts.bert.encoder.layer.0." ++ s.
Definition d_layer : list piece :=
  ([mat (lay0 (u "attention.self.query.weight")) 2 2 [1;0;0;1]; vec (lay0 (u "attention.self.query.bias")) [0;0];
    mat (lay0 (u "attention.self.key.weight")) 2 2 [1;0;0;1]; vec (lay0 (u "attention.self.key.bias")) [0;0];
    mat (lay0 (u "attention.self.value.weight")) 2 2 [1;0;0;1]; vec (lay0 (u "attention.self.value.bias")) [0;0];
    mat (lay0 (u "attention.output.dense.weight")) 2 2 [1;0;0;1]; vec (lay0 (u "attention.output.dense.bias")) [0;0];
    vec (lay0 (u "attention.output.LayerNorm.weight")) [1;1]; vec (lay0 (u "attention.output.LayerNorm.bias")) [0;0];
    mat (lay0 (u "intermediate.dense.weight")) 2 2 [1;0;0;1]; vec (lay0 (u "intermediate.dense.bias")) [0;0];
    mat (lay0 (u "output.dense.weight")) 2 2 [1;0;0;1]; vec (lay0 (u "output.dense.bias")) [0;0];
    vec (lay0 (u "output.LayerNorm.weight")) [1;1]; vec (lay0 (u "output.LayerNorm.bias")) [0;0]])%N.
Definition d_words : piece := mat (u "berts.bert.embeddings.word_embeddings.weight") 5 2 [1;2;3;4;5;6;7;8;9;10]%N.
Definition d_rest : list piece :=
  ([mat (u "berts.bert.embeddings.token_type_embeddings.weight") 2 2 [0;100;0;200];
    mat (u "berts.bert.embeddings.position_embeddings.weight") 4 2 [10;0;20;0;30;0;40;0];
    vec (u "berts.bert.embeddings.LayerNorm.weight") [1;1]; vec (u "berts.bert.embeddings.LayerNorm.bias") [0;0]])%N.
Definition d_pooler : list piece :=
  ([mat (u "berts.bert.pooler.dense.weight") 2 2 [1;0;0;1]; vec (u "berts.bert.pooler.dense.bias") [7;8]])%N.
Definition d_head : list piece :=
  ([mat (u "berts.bert.predictions.transform.dense.weight") 2 2 [1;0;0;1];
    vec (u "berts.bert.predictions.transform.dense.bias") [0;0];
    vec (u "berts.bert.predictions.transform.LayerNorm.weight") [1;1];
    vec (u "berts.bert.predictions.transform.LayerNorm.bias") [0;0];
    mat (u "berts.bert.predictions.decoder.weight") 5 2 [1;0;0;1;1;1;0;0;2;0];
    vec (u "berts.bert.predictions.decoder.bias") [0;0;0;0;3]])%N.

Definition d_set (act arch : N) (k : skey) : option sval :=
  match k with
  | S_file_type => Some (SU32 0) | S_bert_type => Some (SU32 arch) | S_vocab_size => Some (SU32 5)
  | S_hidden_dim => Some (SU32 2) | S_n_layers => Some (SU32 1) | S_attn_heads => Some (SU32 1)
  | S_max_tokens => Some (SU32 4) | S_intermediate_dim => Some (SU32 2) | S_hidden_act => Some (SU32 act)
  | _ => None
  end.
Definition no_tok : Vocab_model.gguf := fun _ => None.
Definition a_file (act arch : N) (l : list piece) : file :=
  let '(ts, bs) := lay 0 l in mkfile (d_set act arch) no_tok ts 64 (repeat 0%N 64 ++ bs).
Definition d_pieces : list piece := d_vocab ++ d_words :: d_rest ++ d_layer ++ d_pooler ++ d_head.
Definition d_file : file := a_file 0 0 d_pieces.

(** Bytes read as small numbers, rows of two. *)
Definition d_value (t : gty) (bytes : list N) (i : nat) : Z := Z.of_N (nth (4 * i) bytes 0%N).
Definition d_junk (i : nat) : N := 99.
Definition d_load (f : file) : outcome (load_result (V := Z)) :=
  load_from_file P_Eval.lib64 d_junk d_value (fun l => l) (Some f) true.

Lemma lib64_ok : lib_ok P_Eval.lib64.
Proof. split; reflexivity. Qed.

Definition is_loaded {V} (o : outcome (load_result (V := V))) : bool :=
  match o with Ok (Loaded _) => true | _ => false end.

Lemma forallb_Forall {A} (g : A -> bool) l : forallb g l = true -> Forall (fun x => g x = true) l.
Proof. intros H. apply Forall_forall. apply forallb_forall. exact H. Qed.

(** ** C55: the pool *)

(** The pool computed beforehand holds every tensor that is made. *)
Theorem C55_pool_enough : forall L f made,
  lib_ok L -> short_names f -> copies f made ->
  exists size, ctx_size L (f_tensors f) (f_tensors f) = Ok size /\ (total (dup_cost L) made <= size)%N.
Proof.
  intros L f made HL Hs Hm. destruct (pool_size L HL f made Hs Hm) as (E & H). eauto.
Qed.
Print Assumptions C55_pool_enough.

(** Nothing is wasted when rows are whole blocks. *)
Theorem C55_pool_exact : forall L f made,
  lib_ok L -> short_names f -> copies f made -> Forall whole_rows made ->
  ctx_size L (f_tensors f) (f_tensors f) = Ok (total (dup_cost L) made).
Proof.
  intros L f made HL Hs Hm Hw. destruct (pool_size L HL f made Hs Hm) as (E & _). rewrite E. f_equal. clear E Hm Hs.
  induction Hw as [|t made Ht Hw IH]; [reflexivity|]. cbn [total fold_right].
  fold (total (counted L) made) (total (dup_cost L) made). rewrite IH, (counted_exact L HL t Ht). reflexivity.
Qed.
Print Assumptions C55_pool_exact.

(** So creating and reading the tensors is never undefined. *)
Theorem C55_reading_defined : forall L junk f size,
  lib_ok L -> short_names f -> ctx_size L (f_tensors f) (f_tensors f) = Ok size ->
  read_tensors L junk f size 0 false (f_tensors f) <> UB /\
  read_tensors L junk f size 0 false (f_tensors f) <> Abort.
Proof.
  intros L junk f size HL Hs E. destruct (found_all f) as (made & Hm).
  destruct (pool_size L HL f made Hs Hm) as (E' & HP). rewrite E in E'. injection E' as ->.
  rewrite (read_tensors_spec L junk f (f_tensors f) made _ 0 false Hs Hm) by lia.
  destruct (_ || _); split; discriminate.
Qed.
Print Assumptions C55_reading_defined.

(** One byte less would not do. *)
Theorem C55_pool_tight : forall L junk f made size,
  lib_ok L -> (0 < Ggml_model.tensor_bytes L)%N ->
  short_names f -> copies f made -> Forall whole_rows made -> f_tensors f <> [] -> readable f ->
  ctx_size L (f_tensors f) (f_tensors f) = Ok size ->
  read_tensors L junk f (size - 1) 0 false (f_tensors f) = UB.
Proof.
  intros L junk f made size HL Htb Hs Hm Hw Hne Hr E.
  rewrite (C55_pool_exact L f made HL Hs Hm Hw) in E. injection E as <-.
  assert (Hpos : forall t, (0 < Ggml_model.tensor_bytes L -> 0 < dup_cost L t)%N).
  { intros t H. rewrite dup_cost_eq by exact HL. lia. }
  assert (G : forall todo mk used failed, Forall2 (fun d t => first_named (ti_name d) (f_tensors f) t) todo mk -> todo <> [] ->
    failed = false ->
    Forall (fun p => (f_data f + ti_offset (fst p) + nbytes (snd p) <= N.of_nat (length (f_bytes f)))%N \/ nbytes (snd p) = 0%N)
      (removelast (combine todo mk)) ->
    forall size, (size < used + total (dup_cost L) mk)%N -> read_tensors L junk f size used failed todo = UB).
  { intros todo. induction todo as [|ti todo IH]; intros mk used failed HF Hn Hf HR size Hsz; [congruence|].
    inversion HF as [|? t ? mk' Ht HF']; subst. cbn [read_tensors].
    rewrite (get_first ti_name (f_tensors f) (ti_name ti) Hs), (proj2 (find_first _ _ _) Ht).
    destruct (size <? used + dup_cost L t)%N eqn:El; [reflexivity|].
    cbn [total fold_right] in Hsz. fold (total (dup_cost L) mk') in Hsz.
    destruct todo as [|ti' todo].
    - inversion HF'; subst. cbn [total fold_right] in Hsz. lia.
    - inversion HF' as [|? t' ? mk'' Ht' HF'']; subst.
      change (removelast (combine (ti :: ti' :: todo) (t :: t' :: mk'')))
        with ((ti, t) :: removelast (combine (ti' :: todo) (t' :: mk''))) in HR.
      inversion HR as [|? ? Hh HR']; subst. cbn [fst snd] in Hh.
      destruct (read_bytes junk f (ti_offset ti) (nbytes t)) as [bs fl] eqn:Er.
      assert (Efl : fl = false).
      { change fl with (snd (bs, fl)). rewrite <- Er. apply read_state. exact Hh. }
      rewrite (IH (t' :: mk'') (used + dup_cost L t)%N fl HF' ltac:(discriminate) Efl HR' size) by lia. reflexivity. }
  apply (G _ made 0%N false Hm Hne eq_refl (Hr made Hm)).
  assert (0 < total (dup_cost L) made)%N; [|lia].
  inversion Hm as [E1 E2|d t ds mk Hd HF E1 E2]; subst; [congruence|].
  cbn [total fold_right]. specialize (Hpos t). lia.
Qed.
Print Assumptions C55_pool_tight.

Example C55_example : exists size, ctx_size P_Eval.lib64 (f_tensors d_file) (f_tensors d_file) = Ok size /\
  length (f_tensors d_file) = 31%nat /\
  is_loaded (d_load d_file) = true /\
  read_tensors P_Eval.lib64 d_junk d_file (size - 1) 0 false (f_tensors d_file) = UB.
Proof. eexists. split; [vm_compute; reflexivity|]. repeat split; vm_compute; reflexivity. Qed.

(** ** C56: which files load *)

Theorem C56_loaded_iff : forall L junk V (value : gty -> list N -> nat -> V) order f,
  lib_ok L ->
  ((exists m, load_from_file L junk value order (Some f) true = Ok (Loaded m)) <->
   (exists arch layers, loadable junk order f arch layers)).
Proof.
  intros L junk V value order f HL. split.
  - intros (m & H). destruct (loaded_inv L HL junk value order f true m H) as (_ & made & arch & layers & _ & H' & _). eauto.
  - intros (arch & layers & H). eapply loadable_loads; eassumption.
Qed.
Print Assumptions C56_loaded_iff.

(** General information missing or of another type, or a file type without a name: the
    process stops. *)
Theorem C56_bad_general_aborts : forall L junk V (value : gty -> list N -> nat -> V) order f reopen,
  ~ general_ok f -> load_from_file L junk value order (Some f) reopen = Abort.
Proof. intros. apply load_general. assumption. Qed.
Print Assumptions C56_bad_general_aborts.

(** A setting missing or of another type: the process stops. *)
Theorem C56_bad_settings_abort : forall L junk V (value : gty -> list N -> nat -> V) order f,
  lib_ok L -> general_ok f -> short_names f -> readable f -> ~ settings_ok f ->
  load_from_file L junk value order (Some f) true = Abort.
Proof.
  intros L junk V value order f HL Hg Hs Hr Hn. destruct (found_all f) as (made & Hm).
  rewrite (load_readable L HL junk value order f made Hg Hs Hr Hm).
  destruct (read_settings_cases f) as [(s & E)|E]; rewrite E; [|reflexivity].
  apply read_settings_ok in E as (E & _). contradiction.
Qed.
Print Assumptions C56_bad_settings_abort.

(** Another activation or architecture: null. *)
Theorem C56_unsupported_null : forall L junk V (value : gty -> list N -> nat -> V) order f act arch,
  lib_ok L -> general_ok f -> short_names f -> readable f -> settings_ok f ->
  f_set f S_hidden_act = Some (SU32 act) -> f_set f S_bert_type = Some (SU32 arch) ->
  act <> 0%N \/ ~ supported_arch arch ->
  load_from_file L junk value order (Some f) true = Ok (Null false).
Proof.
  intros L junk V value order f act arch HL Hg Hs Hr Hset Ha Har H. destruct (found_all f) as (made & Hm).
  rewrite (load_readable L HL junk value order f made Hg Hs Hr Hm).
  destruct (read_settings_iff f Hset) as (s & Es). rewrite Es. cbn [obind].
  destruct (read_settings_ok f s Es) as (_ & arch' & vocab & h & layers & heads & max & inter & segs & act' & eps &
    E1 & _ & _ & _ & _ & _ & _ & _ & E9 & _ & E10).
  rewrite Ha in E9. injection E9 as <-. rewrite Har in E1. injection E1 as <-.
  subst s. cbn [se_act se_arch]. destruct (act =? 0)%N eqn:Ea; [|reflexivity]. cbn [negb].
  destruct H as [H|H]; [lia|]. unfold supported_arch in H.
  replace ((arch =? 0) || (arch =? 1))%N with false; [reflexivity|]. lia.
Qed.
Print Assumptions C56_unsupported_null.

(** The file cannot be read, or opened a second time: null. *)
Theorem C56_unreadable_null : forall L junk V (value : gty -> list N -> nat -> V) order f,
  lib_ok L -> general_ok f -> short_names f ->
  load_from_file L junk value order None true = Ok (Null false) /\
  load_from_file L junk value order (Some f) false = Ok (Null false) /\
  (~ readable f -> load_from_file L junk value order (Some f) true = Ok (Null false)).
Proof.
  intros L junk V value order f HL Hg Hs. split; [reflexivity|]. split.
  - destruct (found_all f) as (made & Hm). cbn [load_from_file]. rewrite (proj2 (read_metadata_iff f) Hg). cbn [obind].
    destruct (pool_size L HL f made Hs Hm) as (E & _). rewrite E. reflexivity.
  - apply (load_unreadable L HL); assumption.
Qed.
Print Assumptions C56_unreadable_null.

(** Everything else in order, but the vocabulary or a weight is not: null, with the file
    context and the pool already handed over. *)
Theorem C56_incomplete_null : forall L junk V (value : gty -> list N -> nat -> V) order f arch layers,
  lib_ok L -> general_ok f -> short_names f -> readable f -> settings_ok f ->
  f_set f S_hidden_act = Some (SU32 0) -> f_set f S_bert_type = Some (SU32 arch) -> supported_arch arch ->
  f_set f S_n_layers = Some (SU32 layers) ->
  vocabulary junk order f arch = Fail \/
  (exists v, vocabulary junk order f arch = Ok v) /\ ~ Forall (has f) (required_names (N.to_nat layers)) ->
  load_from_file L junk value order (Some f) true = Ok (Null true).
Proof.
  intros L junk V value order f arch layers HL Hg Hs Hr Hset Ha Har Hsup Hl H. destruct (found_all f) as (made & Hm).
  rewrite (load_readable L HL junk value order f made Hg Hs Hr Hm).
  destruct (read_settings_iff f Hset) as (s & Es). rewrite Es. cbn [obind].
  destruct (read_settings_ok f s Es) as (_ & arch' & vocab & h & layers' & heads & max & inter & segs & act' & eps &
    E1 & _ & _ & E4 & _ & _ & _ & _ & E9 & _ & E10).
  rewrite Ha in E9. injection E9 as <-. rewrite Har in E1. injection E1 as <-. rewrite Hl in E4. injection E4 as <-.
  subst s. cbn [se_act se_arch]. cbn [N.eqb negb].
  replace ((arch =? 0) || (arch =? 1))%N with true by (destruct Hsup; subst; reflexivity). cbn [negb].
  unfold new_context. cbn [se_arch se_hp Encoder_model.n_layers].
  rewrite (vocabulary_kept junk order f made _ Hs Hm Hsup).
  destruct H as [->|((v & ->) & Hn)]; [reflexivity|].
  destruct (weights_init value (kept junk f made) (N.to_nat layers)) as [w|] eqn:Ew; [|reflexivity].
  exfalso. apply Hn. apply Forall_forall. intros x Hx. apply (weight_has junk value f made x Hs Hm).
  eapply weights_init_required; eassumption.
Qed.
Print Assumptions C56_incomplete_null.

Example C56_example :
  is_loaded (d_load d_file) = true /\
  d_load (a_file 1 0 d_pieces) = Ok (Null false) /\ d_load (a_file 0 2 d_pieces) = Ok (Null false) /\
  d_load (a_file 0 0 (d_vocab ++ d_rest ++ d_layer ++ d_pooler)) = Ok (Null true) /\
  d_load (a_file 0 0 (d_words :: d_rest ++ d_layer ++ d_pooler)) = Ok (Null true) /\
  d_load (mkfile (fun k => match k with S_max_tokens => None | _ => d_set 0 0 k end) no_tok (f_tensors d_file) 64 (f_bytes d_file)) = Abort /\
  d_load (mkfile (fun k => match k with S_file_type => Some (SU32 19) | _ => d_set 0 0 k end) no_tok (f_tensors d_file) 64 (f_bytes d_file)) = Abort /\
  d_load (mkfile (d_set 0 0) no_tok (f_tensors d_file) 64 (firstn 200 (f_bytes d_file))) = Ok (Null false).
Proof. repeat split; vm_compute; reflexivity. Qed.

(** ** C98: names of 64 bytes or more *)

Theorem C98_long_name_undefined : forall L junk V (value : gty -> list N -> nat -> V) order f reopen t,
  general_ok f -> In t (f_tensors f) -> 64 <= length (ti_name t) ->
  load_from_file L junk value order (Some f) reopen = UB.
Proof.
  intros L junk V value order f reopen t Hg Hin Hl. apply load_long; [exact Hg|].
  unfold short_names. rewrite Forall_forall. intros H. specialize (H t Hin). lia.
Qed.
Print Assumptions C98_long_name_undefined.

Theorem C98_load_safe_refuted : exists f, general_ok f /\ settings_ok f /\
  Forall (contained f) (f_tensors f) /\ d_load f = UB.
Proof.
  exists (a_file 0 0 [mkpiece (repeat 97%N 64) TI8 0 1 []]).
  assert (G : general_ok (a_file 0 0 [mkpiece (repeat 97%N 64) TI8 0 1 []])).
  { split; [repeat constructor|]. split; [exact I|]. split; [exact I|]. exists 0%N. split; reflexivity. }
  split; [exact G|]. split.
  - split; [intros k Hk; simpl in Hk; intuition subst; eexists; reflexivity|]. split; [exact I|repeat constructor].
  - split; [|vm_compute; reflexivity]. repeat constructor. vm_compute. discriminate.
Qed.
Print Assumptions C98_load_safe_refuted.

(** With shorter names, loading is undefined only if making the vocabulary is. *)
Theorem C98_load_safe_partial : forall L junk V (value : gty -> list N -> nat -> V) order f reopen,
  lib_ok L -> short_names f ->
  (forall arch, f_set f S_bert_type = Some (SU32 arch) -> vocabulary junk order f arch <> UB) ->
  load_from_file L junk value order (Some f) reopen <> UB.
Proof.
  intros L junk V value order f reopen HL Hs Hv.
  destruct (read_metadata_cases f) as [Hg|Hg]; [apply read_metadata_iff in Hg|cbn [load_from_file]; rewrite Hg; discriminate].
  destruct reopen.
  2:{ destruct (C56_unreadable_null L junk V value order f HL Hg Hs) as (_ & E & _). rewrite E. discriminate. }
  destruct (found_all f) as (made & Hm).
  destruct (forallb (fun p => negb (snd (read_bytes junk f (ti_offset (fst p)) (nbytes (snd p)))))
     (removelast (combine (f_tensors f) made))) eqn:ER.
  2:{ rewrite (load_unreadable L HL junk value order f Hg Hs); [discriminate|].
      intros R. apply (readable_iff junk f made Hm) in R. congruence. }
  apply (readable_iff junk f made Hm) in ER.
  rewrite (load_readable L HL junk value order f made Hg Hs ER Hm).
  destruct (read_settings_cases f) as [(s & E)|E]; rewrite E; [|discriminate]. cbn [obind].
  destruct (se_act s =? 0)%N; [|discriminate]. cbn [negb].
  destruct ((se_arch s =? 0) || (se_arch s =? 1))%N eqn:Ea; [|discriminate]. cbn [negb].
  assert (Hsup : supported_arch (se_arch s)) by (unfold supported_arch; lia).
  unfold new_context. rewrite (vocabulary_kept junk order f made _ Hs Hm Hsup).
  apply read_settings_ok in E as (_ & arch & vocab & h & layers & heads & max & inter & segs & act & eps & E1 & _ & _ & _ & _ & _ & _ & _ & _ & _ & E10).
  assert (se_arch s = arch) by (rewrite E10; reflexivity). rewrite H.
  destruct (vocabulary junk order f arch) eqn:Ev; try discriminate.
  - destruct (weights_init _ _ _); discriminate.
  - exfalso. apply (Hv arch E1). exact Ev.
Qed.
Print Assumptions C98_load_safe_partial.

(** Exactly: of the files the library accepts, those with a long name, and those that can be
    read to the end, have all settings and a vocabulary whose making is undefined. *)
Theorem C98_undefined_iff : forall L junk V (value : gty -> list N -> nat -> V) order f reopen,
  lib_ok L ->
  (load_from_file L junk value order (Some f) reopen = UB <->
   general_ok f /\
   (~ short_names f \/
    reopen = true /\ readable f /\ settings_ok f /\ f_set f S_hidden_act = Some (SU32 0) /\
    exists arch, f_set f S_bert_type = Some (SU32 arch) /\ supported_arch arch /\ vocabulary junk order f arch = UB)).
Proof.
  intros L junk V value order f reopen HL.
  assert (D : short_names f \/ ~ short_names f).
  { unfold short_names. destruct (Forall_dec (fun t => length (ti_name t) < 64) (fun t => lt_dec _ _) (f_tensors f)); tauto. }
  destruct (read_metadata_cases f) as [Hg|Hg].
  2:{ split; [cbn [load_from_file]; rewrite Hg; discriminate|]. intros (G & _). apply read_metadata_iff in G. congruence. }
  apply read_metadata_iff in Hg. destruct D as [Hs|Hs].
  2:{ split; [intros _; split; [exact Hg|left; exact Hs]|]. intros _. apply load_long; assumption. }
  destruct reopen.
  2:{ destruct (C56_unreadable_null L junk V value order f HL Hg Hs) as (_ & E & _). rewrite E.
      split; [discriminate|]. intros (_ & [H|(H & _)]); [contradiction|discriminate]. }
  destruct (found_all f) as (made & Hm).
  destruct (forallb (fun p => negb (snd (read_bytes junk f (ti_offset (fst p)) (nbytes (snd p)))))
     (removelast (combine (f_tensors f) made))) eqn:ER.
  2:{ assert (NR : ~ readable f) by (intros R; apply (readable_iff junk f made Hm) in R; congruence).
      rewrite (load_unreadable L HL junk value order f Hg Hs NR). split; [discriminate|]. tauto. }
  apply (readable_iff junk f made Hm) in ER.
  rewrite (load_readable L HL junk value order f made Hg Hs ER Hm).
  destruct (read_settings_cases f) as [(s & E)|E]; rewrite E.
  2:{ split; [discriminate|]. intros (_ & [H|(_ & _ & H & _)]); [contradiction|]. apply read_settings_iff in H as (s & H). congruence. }
  cbn [obind]. apply read_settings_ok in E as (St & arch & vocab & h & layers & heads & max & inter & segs & act & eps &
    E1 & E2 & E3 & E4 & E5 & E6 & E7 & E8 & E9 & E9' & E10).
  assert (Ar : se_arch s = arch) by (rewrite E10; reflexivity). assert (Ac : se_act s = act) by (rewrite E10; reflexivity).
  assert (Act : f_set f S_hidden_act = Some (SU32 act)) by assumption.
  rewrite Ac, Ar. destruct (N.eqb_spec act 0) as [->|Na].
  2:{ split; [discriminate|]. intros (_ & [H|(_ & _ & _ & H & _)]); [contradiction|]. congruence. }
  cbn [negb]. destruct ((arch =? 0) || (arch =? 1))%N eqn:Ea.
  2:{ split; [discriminate|]. intros (_ & [H|(_ & _ & _ & _ & a & H & [Q|Q] & _)]); [contradiction| |]; rewrite E1 in H; assert (X : arch = a) by congruence; rewrite X, Q in Ea; vm_compute in Ea; discriminate Ea. }
  assert (Hsup : supported_arch arch) by (unfold supported_arch; lia). cbn [negb].
  unfold new_context. rewrite Ar, (vocabulary_kept junk order f made _ Hs Hm Hsup).
  split.
  - intros H. split; [exact Hg|]. right. do 4 (split; [assumption || reflexivity|]). exists arch. split; [exact E1|]. split; [exact Hsup|].
    destruct (vocabulary junk order f arch); [destruct (weights_init _ _ _); discriminate|discriminate|reflexivity|discriminate].
  - intros (_ & [H|(_ & _ & _ & _ & a & H & _ & Q)]); [contradiction|]. rewrite E1 in H. assert (X : arch = a) by congruence. rewrite X, Q. reflexivity.
Qed.
Print Assumptions C98_undefined_iff.

(** ** C57: all required tensors or nothing *)

Theorem C57_required_tensors : forall L junk V (value : gty -> list N -> nat -> V) order f reopen m,
  lib_ok L -> load_from_file L junk value order (Some f) reopen = Ok (Loaded m) ->
  let layers := Encoder_model.n_layers (se_hp (lo_settings m)) in
  Forall (has f) (required_names layers) /\ NoDup (required_names layers) /\
  length (required_names layers) = 7 + 16 * layers /\
  length (Encoder_model.layers (lo_weights m)) = layers.
Proof.
  intros L junk V value order f reopen m HL H layers.
  destruct (loaded_inv L HL junk value order f reopen m H) as (_ & made & arch & layers' & Hm & HLd & Es & _ & _ & Hw).
  assert (El : layers = N.to_nat layers').
  { apply read_settings_ok in Es as (_ & a & vocab & h & l & heads & max & inter & segs & act & eps & _ & _ & _ & E4 & _ & _ & _ & _ & _ & _ & E10).
    rewrite (l_layers _ _ _ _ _ HLd) in E4. injection E4 as <-. unfold layers. rewrite E10. reflexivity. }
  rewrite El. split; [exact (l_weights _ _ _ _ _ HLd)|]. split; [apply required_nodup|]. split.
  - unfold required_names. rewrite !app_length.
    assert (F : forall l, length (flat_map layer_names l) = 16 * length l).
    { induction l as [|n l IH]; [reflexivity|]. cbn [flat_map length]. rewrite app_length, IH. unfold layer_names.
      rewrite map_length. cbn [layer_parts length]. lia. }
    rewrite F, seq_length. cbn [embedding_names pooler_names length]. lia.
  - apply weights_init_inv in Hw. cbv zeta in Hw. destruct Hw as (_ & _ & _ & _ & _ & Hw & _).
    apply layers_init_inv in Hw. apply Forall2_len in Hw. rewrite seq_length in Hw. symmetry. exact Hw.
Qed.
Print Assumptions C57_required_tensors.

(** One missing tensor and there is no model. *)
Theorem C57_missing_tensor : forall L junk V (value : gty -> list N -> nat -> V) order f reopen layers n m,
  lib_ok L -> f_set f S_n_layers = Some (SU32 layers) -> In n (required_names (N.to_nat layers)) -> ~ has f n ->
  load_from_file L junk value order (Some f) reopen <> Ok (Loaded m).
Proof.
  intros L junk V value order f reopen layers n m HL Hl Hn Hh H.
  destruct (loaded_inv L HL junk value order f reopen m H) as (_ & made & arch & layers' & _ & HLd & _).
  apply Hh. assert (E := l_layers _ _ _ _ _ HLd). rewrite Hl in E. injection E as <-.
  assert (W := l_weights _ _ _ _ _ HLd). rewrite Forall_forall in W. apply W, Hn.
Qed.
Print Assumptions C57_missing_tensor.

(** The head is there iff its six tensors are. *)
Theorem C57_head_optional : forall L junk V (value : gty -> list N -> nat -> V) order f reopen m,
  lib_ok L -> load_from_file L junk value order (Some f) reopen = Ok (Loaded m) ->
  (Encoder_model.lm (lo_weights m) <> None <-> Forall (has f) head_names) /\ length head_names = 6.
Proof.
  intros L junk V value order f reopen m HL H. split; [|reflexivity].
  destruct (loaded_inv L HL junk value order f reopen m H) as (_ & made & arch & layers & Hm & HLd & _ & _ & _ & Hw).
  assert (Hs := l_names _ _ _ _ _ HLd).
  apply weights_init_inv in Hw. cbv zeta in Hw. destruct Hw as (_ & _ & _ & _ & _ & _ & _ & _ & Hh). rewrite Hh. split.
  - intros Hn. destruct (head_init value (kept junk f made)) as [hd|] eqn:E; [|congruence].
    apply head_init_inv in E. cbv zeta in E. destruct E as (H1 & H2 & H3 & H4 & H5 & H6).
    apply Forall_forall. intros x Hx. apply (weight_has junk value f made x Hs Hm).
    unfold head_names in Hx. cbn [In] in Hx. unfold key in *. cbn [app u] in *.
    intuition subst; congruence.
  - intros Hf. destruct (head_init_all value (kept junk f made)) as (hd & E); [|rewrite E; discriminate].
    intros x Hx. apply (weight_has junk value f made x Hs Hm). rewrite Forall_forall in Hf. apply Hf, Hx.
Qed.
Print Assumptions C57_head_optional.

(** No model of more than 10000 layers loads: the longest tensor name of layer 10000 has
    64 bytes. *)
Theorem C57_layer_limit : forall L junk V (value : gty -> list N -> nat -> V) order f reopen m,
  lib_ok L -> load_from_file L junk value order (Some f) reopen = Ok (Loaded m) ->
  (N.of_nat (Encoder_model.n_layers (se_hp (lo_settings m))) <= 10000)%N.
Proof.
  intros L junk V value order f reopen m HL H.
  destruct (C57_required_tensors L junk V value order f reopen m HL H) as (Hf & _).
  destruct (loaded_inv L HL junk value order f reopen m H) as (_ & made & arch & layers & Hm & HLd & _).
  set (n := Encoder_model.n_layers (se_hp (lo_settings m))) in *.
  destruct (N.le_gt_cases (N.of_nat n) 10000) as [|Hgt]; [assumption|exfalso].
  rewrite Forall_forall in Hf.
  assert (Hin : In (layer_name (N.to_nat 10000) (u "attention.output.LayerNorm.weight")) (required_names n)).
  { unfold required_names. rewrite !in_app_iff. right. left. apply in_flat_map. exists (N.to_nat 10000). split; [apply in_seq; lia|].
    unfold layer_names. apply (in_map (fun p => u "berts.bert.encoder.layer." ++ decimal (N.of_nat (N.to_nat 10000)) ++ u "." ++ p)).
    unfold layer_parts. do 8 right. left. reflexivity. }
  destruct (Hf _ Hin) as (t & Ht & En). assert (S := l_names _ _ _ _ _ HLd). unfold short_names in S.
  rewrite Forall_forall in S. specialize (S t Ht). rewrite En in S.
  assert (EL : (N.of_nat (length (layer_name (N.to_nat 10000) (u "attention.output.LayerNorm.weight"))) = 64)%N).
  { unfold layer_name. rewrite N2Nat.id. vm_compute. reflexivity. }
  lia.
Qed.
Print Assumptions C57_layer_limit.

Example C57_example :
  match d_load d_file, d_load (a_file 0 0 (d_vocab ++ d_words :: d_rest ++ d_layer ++ d_pooler ++ tl d_head)) with
  | Ok (Loaded m), Ok (Loaded m') =>
      Encoder_model.lm (lo_weights m) <> None /\ Encoder_model.lm (lo_weights m') = None
  | _, _ => False
  end.
Proof. vm_compute. split; [discriminate|reflexivity]. Qed.

(** ** C97: a file cut short *)

(** The last tensor of the file is not checked: it may reach beyond the end. *)
Theorem C97_truncation_detected_refuted : exists f t, is_loaded (d_load f) = true /\ In t (f_tensors f) /\ ~ contained f t.
Proof.
  exists (mkfile (d_set 0 0) no_tok (f_tensors d_file) 64 (firstn (length (f_bytes d_file) - 1) (f_bytes d_file))).
  exists (last (f_tensors d_file) (mkti [] TF32 0 0 0 0 0 0)).
  split; [vm_compute; reflexivity|]. split.
  - cbn [f_tensors]. rewrite (app_removelast_last (mkti [] TF32 0 0 0 0 0 0)) at 2; [apply in_app_iff; right; left; reflexivity|].
    vm_compute. discriminate.
  - unfold contained. vm_compute. intros H. apply H. reflexivity.
Qed.
Print Assumptions C97_truncation_detected_refuted.

(** Every other tensor of a loaded file, its names distinct, lies inside it. *)
Theorem C97_others_inside_partial : forall L junk V (value : gty -> list N -> nat -> V) order f reopen m,
  lib_ok L -> load_from_file L junk value order (Some f) reopen = Ok (Loaded m) -> distinct_names f ->
  Forall (fun t => contained f t \/ nbytes t = 0%N) (removelast (f_tensors f)).
Proof.
  intros L junk V value order f reopen m HL H Hd.
  destruct (loaded_inv L HL junk value order f reopen m H) as (_ & made & arch & layers & Hm & HLd & _).
  assert (E : copies f (f_tensors f)).
  { unfold copies, distinct_names in *. clear - Hd.
    assert (G : forall pre ts, NoDup (map ti_name (pre ++ ts)) ->
      Forall2 (fun d t => first_named (ti_name d) (pre ++ ts) t) ts ts).
    { intros pre ts. revert pre. induction ts as [|t ts IH]; intros pre HN; constructor.
      - clear IH. induction pre as [|x pre IH]; [constructor; reflexivity|]. cbn [app] in *.
        cbn [map] in HN. inversion HN as [|? ? Hx HN']; subst. apply first_later; [|apply IH, HN'].
        intros Eq. apply Hx. rewrite Eq. apply in_map. apply in_app_iff. right. left. reflexivity.
      - replace (pre ++ t :: ts) with ((pre ++ [t]) ++ ts) by (rewrite <- app_assoc; reflexivity). apply IH.
        rewrite <- app_assoc. exact HN. }
    apply (G []). exact Hd. }
  assert (R := l_readable _ _ _ _ _ HLd _ E). clear - R. unfold contained.
  induction (f_tensors f) as [|t ts IH]; [constructor|]. destruct ts as [|t' ts]; [constructor|].
  change (removelast (combine (t :: t' :: ts) (t :: t' :: ts))) with ((t, t) :: removelast (combine (t' :: ts) (t' :: ts))) in R.
  change (removelast (t :: t' :: ts)) with (t :: removelast (t' :: ts)).
  inversion R as [|? ? R1 R2]; subst. constructor; [exact R1|apply IH, R2].
Qed.
Print Assumptions C97_others_inside_partial.

(** What is missing comes from fresh memory: the same file gives different weights. *)
Theorem C97_undetermined : exists f junk junk' m m',
  load_from_file P_Eval.lib64 junk d_value (fun l => l) (Some f) true = Ok (Loaded m) /\
  load_from_file P_Eval.lib64 junk' d_value (fun l => l) (Some f) true = Ok (Loaded m') /\
  Encoder_model.lm (lo_weights m) <> Encoder_model.lm (lo_weights m').
Proof.
  exists (mkfile (d_set 0 0) no_tok (f_tensors d_file) 64 (firstn (length (f_bytes d_file) - 4) (f_bytes d_file))), (fun _ => 1%N), (fun _ => 2%N).
  eexists. eexists. split; [vm_compute; reflexivity|]. split; [vm_compute; reflexivity|].
  cbn [lo_weights Encoder_model.lm]. intros H.
  assert (E := f_equal (fun o => match o with Some hd => Ggml_model.el (Encoder_model.lm_decoder_b hd) 4 0 0 0 | None => 0%Z end) H).
  vm_compute in E. discriminate.
Qed.
Print Assumptions C97_undetermined.

(** ** C101: what the settings become *)

Theorem C101_settings : forall L junk V (value : gty -> list N -> nat -> V) order f reopen m,
  lib_ok L -> load_from_file L junk value order (Some f) reopen = Ok (Loaded m) ->
  let hp := Eval_model.em_hp (evaluator m) in
  file_settings f (Encoder_model.hidden_dim hp) (Encoder_model.n_layers hp) (Encoder_model.attn_heads hp)
    (Encoder_model.max_tokens hp) (Encoder_model.intermediate_dim hp) (Encoder_model.segment_count hp) /\
  Encoder_model.hidden_act hp = Encoder_model.Gelu /\ eps_is f (Encoder_model.ln_eps hp) /\
  (Eval_model.em_kind (evaluator m) = Encoder_model.Bert <-> f_set f S_bert_type = Some (SU32 0)).
Proof.
  intros L junk V value order f reopen m HL H hp.
  destruct (loaded_inv L HL junk value order f reopen m H) as (_ & made & arch & layers & Hm & HLd & Es & _ & Hv & _).
  assert (Ehp : hp = se_hp (lo_settings m)) by (unfold hp, evaluator; destruct (lo_vocab m); reflexivity).
  destruct (read_settings_ok f _ Es) as (_ & arch' & vocab & h & layers' & heads & max & inter & segs & act & eps &
    E1 & E2 & E3 & E4 & E5 & E6 & E7 & E8 & E9 & Ee & E10).
  rewrite Ehp, E10. cbn [se_hp]. rewrite (l_act _ _ _ _ _ HLd) in E9. injection E9 as <-.
  split; [|split; [reflexivity|split; [exact Ee|]]].
  - constructor; cbn [Encoder_model.hidden_dim Encoder_model.n_layers Encoder_model.attn_heads
      Encoder_model.max_tokens Encoder_model.intermediate_dim Encoder_model.segment_count]; rewrite ?N2Nat.id; try assumption.
    destruct E8 as [E8|(E8 & ->)]; [left; exact E8|right; split; [exact E8|reflexivity]].
  - rewrite (l_arch _ _ _ _ _ HLd). unfold vocabulary in Hv. unfold evaluator.
    destruct (l_supported _ _ _ _ _ HLd) as [->| ->]; cbn [N.eqb] in Hv.
    + destruct (bert_init_vocab _ _ _); try discriminate. injection Hv as <-. split; reflexivity.
    + destruct (roberta_init_vocab _ _ _ _ _); try discriminate. injection Hv as <-. cbn. split; intros; discriminate.
Qed.
Print Assumptions C101_settings.

Example C101_example :
  match d_load d_file with
  | Ok (Loaded m) => Eval_model.em_hp (evaluator m) = Encoder_model.mkhp 2 1 1 4 2 2 Encoder_model.Gelu 4427486594234968593 /\
                     Eval_model.em_kind (evaluator m) = Encoder_model.Bert /\ Eval_model.em_vocab_count (evaluator m) = 5
  | _ => False
  end.
Proof. vm_compute. repeat split. Qed.

(** ** C100: shapes are not checked *)

(** A word table whose rows are too long loads; evaluation then stops the process. *)
Theorem C100_shapes_checked_refuted : exists f m,
  Forall (contained f) (f_tensors f) /\ d_load f = Ok (Loaded m) /\
  Eval_model.berts_eval P_Eval.zprim P_Eval.lib64 (Eval_model.ELoaded (evaluator m)) [0; 1]%N None 2
    (Some (Eval_model.mkei 1 Encoder_model.PoolNone)) (Some [0; 0; 0; 0]%Z) (Some 4%N) = Abort.
Proof.
  exists (a_file 0 0 (d_vocab ++ mat (u "berts.bert.embeddings.word_embeddings.weight") 2 5 [1;2;3;4;5;6;7;8;9;10]%N ::
    d_rest ++ d_layer ++ d_pooler)).
  eexists. split; [|split; [vm_compute; reflexivity|vm_compute; reflexivity]].
  apply Forall_forall. intros t Ht. unfold contained. apply N.leb_le. revert t Ht. apply Forall_forall.
  apply forallb_Forall. vm_compute. reflexivity.
Qed.
Print Assumptions C100_shapes_checked_refuted.

(** ** C102: from the file to the result *)

(** A loaded file with the declared shapes is a sound model whose parameters are the rows
    of the file. *)
Theorem C102_sound : forall L junk V (value : gty -> list N -> nat -> V) P order f reopen m words rows,
  lib_ok L -> load_from_file L junk value order (Some f) reopen = Ok (Loaded m) ->
  let hp := Eval_model.em_hp (evaluator m) in
  let h := Encoder_model.hidden_dim hp in
  well_shaped f h (Encoder_model.intermediate_dim hp) (Encoder_model.n_layers hp) (Encoder_model.segment_count hp) words rows ->
  h = h / Encoder_model.attn_heads hp * Encoder_model.attn_heads hp -> 0 < h -> 0 < Encoder_model.intermediate_dim hp ->
  Encoder_spec.row_ops_ok P ->
  (N.of_nat h < 4294967296)%N -> (N.of_nat (Encoder_model.max_tokens hp) < 2147483648)%N ->
  (N.of_nat (Encoder_model.segment_count hp) < 2147483648)%N ->
  (N.of_nat words <= 2147483648)%N -> (N.of_nat rows <= 2147483648)%N ->
  (match Eval_model.em_kind (evaluator m) with
   | Encoder_model.Bert => True
   | Encoder_model.Roberta pad => (pad + N.of_nat (Encoder_model.max_tokens hp) < 2147483648)%N
   end) ->
  Eval_spec.sound P (evaluator m) words rows (file_params value f (Encoder_model.n_layers hp)).
Proof.
  intros L junk V value P order f reopen m words rows HL H hp h Hw Hh Hpos Hi HP B1 B2 B3 B4 B5 Hpad.
  destruct (loaded_inv L HL junk value order f reopen m H) as (_ & made & arch & layers & Hm & HLd & Es & _ & Hv & Hw').
  destruct (C101_settings L junk V value order f reopen m HL H) as (_ & Hact & _). fold hp in Hact.
  assert (Hn := C57_layer_limit L junk V value order f reopen m HL H).
  assert (Ehp : hp = se_hp (lo_settings m)) by (unfold hp, evaluator; destruct (lo_vocab m); reflexivity).
  assert (Ew : Eval_model.em_weights (evaluator m) = lo_weights m) by (unfold evaluator; destruct (lo_vocab m); reflexivity).
  assert (El : Encoder_model.n_layers hp = N.to_nat layers).
  { rewrite Ehp. apply read_settings_ok in Es as (_ & a & vocab & h' & l & heads & max & inter & segs & act & eps & _ & _ & _ & E4 & _ & _ & _ & _ & _ & _ & E10).
    rewrite (l_layers _ _ _ _ _ HLd) in E4. injection E4 as <-. rewrite E10. reflexivity. }
  constructor; fold hp; try assumption.
  - rewrite Ew. apply (params_ok junk value P f made (l_names _ _ _ _ _ HLd) Hm hp); try assumption.
    rewrite El. exact Hw'.
  - rewrite <- Ehp in Hn. lia.
Qed.
Print Assumptions C102_sound.

(** berts_eval of a loaded file computes the encoder of the file's rows. *)
Theorem C102_eval_of_file : forall L junk V (value : gty -> list N -> nat -> V) P order f reopen m words rows
    toks segs count c last cells,
  lib_ok L -> load_from_file L junk value order (Some f) reopen = Ok (Loaded m) ->
  let hp := Eval_model.em_hp (evaluator m) in
  let params := file_params value f (Encoder_model.n_layers hp) in
  Eval_spec.runnable P L (evaluator m) words rows params (firstn count toks) (Eval_spec.given_segments segs count) c last ->
  Eval_spec.arrays_ok toks segs count -> Forall (fun t => (t < 4294967296)%N) toks ->
  Eval_spec.known_tokens words (firstn count toks) ->
  Eval_spec.enough_rows (Eval_model.em_kind (evaluator m)) rows (firstn count toks) ->
  length cells = Eval_spec.values hp (Eval_model.pool_type c) count ->
  let tokens := firstn count toks in
  let embedding :=
    Encoder_spec.s_embed P (Encoder_model.ln_eps hp) (rows_of value f (u "berts.bert.embeddings.word_embeddings.weight"))
      (rows_of value f (u "berts.bert.embeddings.position_embeddings.weight"))
      (rows_of value f (u "berts.bert.embeddings.token_type_embeddings.weight"))
      (row_of value f (u "berts.bert.embeddings.LayerNorm.weight")) (row_of value f (u "berts.bert.embeddings.LayerNorm.bias"))
      (Eval_spec.position_ids (Eval_model.em_kind (evaluator m)) tokens)
      (map Z.of_N tokens) (map Z.of_N (Eval_spec.given_segments segs count)) in
  let states := fold_left (fun x y => Encoder_spec.s_layer P (Encoder_model.ln_eps hp) (Encoder_model.attn_heads hp)
                     (Encoder_model.hidden_dim hp / Encoder_model.attn_heads hp) y x)
                  (map (file_block value f) (seq 0 last)) embedding in
  let result :=
    match Eval_model.pool_type c with
    | Encoder_model.PoolNone => concat states
    | p => concat (map (map (Ggml_model.p_tanh P))
             (Encoder_spec.s_dense P (rows_of value f (u "berts.bert.pooler.dense.weight"))
                (row_of value f (u "berts.bert.pooler.dense.bias")) [Encoder_spec.s_pooled P p states]))
    end in
  Eval_model.berts_eval P L (Eval_model.ELoaded (evaluator m)) toks segs count (Some c) (Some cells) (Some (N.of_nat (length cells))) =
  Ok (Eval_model.mkev true (Some result) (Some (N.of_nat (length result)))).
Proof.
  intros L junk V value P order f reopen m words rows toks segs count c last cells HL H hp params HR HA HT HK HE Hc tokens embedding states result.
  rewrite (P_Eval.C91_encoder_values P L (evaluator m) words rows params toks segs count c last cells HA HT HR HK HE Hc).
  assert (Hl : last <= Encoder_model.n_layers hp).
  { assert (HN := Eval_spec.r_layer _ _ _ _ _ _ _ _ _ _ HR). fold hp in HN. inversion HN; lia. }
  assert (EB : firstn last (Encoder_spec.sm_blocks params) = map (file_block value f) (seq 0 last)).
  { unfold params, file_params. cbn [Encoder_spec.sm_blocks]. rewrite firstn_map.
    replace (Encoder_model.n_layers hp) with (last + (Encoder_model.n_layers hp - last)) by lia.
    rewrite seq_app, firstn_app, seq_length, Nat.sub_diag, firstn_O, app_nil_r, firstn_all2; [reflexivity|rewrite seq_length; lia]. }
  rewrite EB. reflexivity.
Qed.
Print Assumptions C102_eval_of_file.

(** The head of a loaded file is that of the file's rows. *)
Theorem C102_lm_sound : forall L junk V (value : gty -> list N -> nat -> V) P order f reopen m,
  lib_ok L -> load_from_file L junk value order (Some f) reopen = Ok (Loaded m) ->
  let hp := Eval_model.em_hp (evaluator m) in
  let words := Eval_model.em_vocab_count (evaluator m) in
  head_shaped f (Encoder_model.hidden_dim hp) words ->
  0 < Encoder_model.hidden_dim hp -> 0 < words -> (N.of_nat words < 4294967296)%N -> Encoder_spec.row_ops_ok P ->
  Eval_spec.lm_sound P (evaluator m) (file_head value f) (Ggml_model.p_gelu P).
Proof.
  intros L junk V value P order f reopen m HL H hp words Hs Hh Hw Hb HP.
  destruct (loaded_inv L HL junk value order f reopen m H) as (_ & made & arch & layers & Hm & HLd & Es & _ & Hv & Hw').
  destruct (C101_settings L junk V value order f reopen m HL H) as (_ & Hact & _). fold hp in Hact.
  assert (Ew : Eval_model.em_weights (evaluator m) = lo_weights m) by (unfold evaluator; destruct (lo_vocab m); reflexivity).
  constructor; try assumption.
  - rewrite Ew. apply (head_ok junk value P f made (l_names _ _ _ _ _ HLd) Hm _ _ _ (N.to_nat layers)); assumption.
  - fold hp. rewrite Hact. destruct (Eval_model.em_kind (evaluator m)); reflexivity.
Qed.
Print Assumptions C102_lm_sound.

Lemma d_matrix n r c t : named d_file n = Some t -> ti_ne0 t = c /\ ti_ne1 t = r /\ ti_ne2 t = 1 /\ ti_ne3 t = 1 ->
  (f_data d_file + ti_offset t + nbytes t <=? N.of_nat (length (f_bytes d_file)))%N = true -> matrix_at d_file r c n.
Proof. intros H1 (H2 & H3 & H4 & H5) H6. exists t. unfold contained. apply N.leb_le in H6. auto 10. Qed.
Lemma d_vector n c t : named d_file n = Some t -> ti_type t = TF32 -> ti_ne0 t = c /\ ti_ne1 t = 1 /\ ti_ne2 t = 1 /\ ti_ne3 t = 1 ->
  (f_data d_file + ti_offset t + nbytes t <=? N.of_nat (length (f_bytes d_file)))%N = true -> vector_at d_file c n.
Proof. intros H1 H0 (H2 & H3 & H4 & H5) H6. exists t. unfold contained. apply N.leb_le in H6. auto 10. Qed.
Ltac d_mat := eapply d_matrix; [vm_compute; reflexivity|vm_compute; repeat split|vm_compute; reflexivity].
Ltac d_vec := eapply d_vector; [vm_compute; reflexivity|reflexivity|vm_compute; repeat split|vm_compute; reflexivity].

Lemma d_shaped : well_shaped d_file 2 2 1 2 5 4.
Proof.
  constructor; try d_mat; try d_vec; [repeat constructor; d_vec|].
  intros n Hn. replace n with 0 by lia. constructor; try d_mat; try d_vec; repeat constructor; first [d_mat|d_vec].
Qed.
Lemma d_head_shaped : head_shaped d_file 2 5.
Proof. constructor; try d_mat; try d_vec; repeat constructor; d_vec. Qed.

(** The example file meets every condition, and evaluates. *)
Example C102_example :
  match d_load d_file with
  | Ok (Loaded m) =>
      Eval_spec.sound P_Eval.zprim (evaluator m) 5 4 (file_params d_value d_file 1) /\
      Eval_spec.lm_sound P_Eval.zprim (evaluator m) (file_head d_value d_file) (fun x => x) /\
      Eval_model.berts_eval P_Eval.zprim P_Eval.lib64 (Eval_model.ELoaded (evaluator m)) [0; 2; 1]%N (Some [0; 0; 1]%N) 3
        (Some (Eval_model.mkei 0 Encoder_model.PoolNone)) (Some (repeat 0%Z 6)) (Some 6%N) =
        Ok (Eval_model.mkev true (Some [11; 102; 25; 106; 33; 204]%Z) (Some 6%N))
  | _ => False
  end.
Proof.
  destruct (d_load d_file) as [[m|]| | |] eqn:E; try (vm_compute in E; discriminate).
  assert (X : Eval_model.em_hp (evaluator m) = Encoder_model.mkhp 2 1 1 4 2 2 Encoder_model.Gelu 4427486594234968593 /\
    Eval_model.em_kind (evaluator m) = Encoder_model.Bert /\ Eval_model.em_vocab_count (evaluator m) = 5).
  { assert (C := C101_example). rewrite E in C. exact C. }
  destruct X as (X1 & X2 & X3). split; [|split].
  - assert (S := C102_sound P_Eval.lib64 d_junk Z d_value P_Eval.zprim (fun l => l) d_file true m 5 4 lib64_ok E).
    rewrite X1, X2 in S. cbv zeta in S.
    exact (S d_shaped eq_refl (le_S _ _ (le_n _)) (le_S _ _ (le_n _)) P_Eval.zprim_rows eq_refl eq_refl eq_refl
             ltac:(cbn; lia) ltac:(cbn; lia) I).
  - assert (S := C102_lm_sound P_Eval.lib64 d_junk Z d_value P_Eval.zprim (fun l => l) d_file true m lib64_ok E).
    rewrite X1, X3 in S. cbv zeta in S.
    exact (S d_head_shaped (le_S _ _ (le_n _)) ltac:(lia) eq_refl P_Eval.zprim_rows).
  - vm_compute in E. injection E as <-. vm_compute. reflexivity.
Qed.

(** ** C59: what stays allocated *)

(** Freeing a loaded context leaves the file context and the pool. *)
Theorem C59_free_releases_all_refuted : exists f m, d_load f = Ok (Loaded m) /\
  berts_free (live (Loaded m)) = [FileContext; Pool].
Proof. exists d_file. eexists. split; [vm_compute; reflexivity|reflexivity]. Qed.
Print Assumptions C59_free_releases_all_refuted.

(** So does a load that fails after new_context has taken them. *)
Theorem C59_failed_load_refuted : exists f, d_load f = Ok (Null true) /\ live (V := Z) (Null true) = [FileContext; Pool].
Proof.
  exists (a_file 0 0 (d_vocab ++ d_rest ++ d_layer ++ d_pooler)). split; [vm_compute; reflexivity|reflexivity].
Qed.
Print Assumptions C59_failed_load_refuted.

(** The context itself and the model are always released, and an earlier failure leaves
    nothing. *)
Theorem C59_partial : forall V (r : load_result (V := V)),
  ~ In Context (berts_free (live r)) /\ ~ In Model (berts_free (live r)) /\ (r = Null false -> live r = []).
Proof.
  intros V [m|[|]]; cbn; repeat split; try tauto; try (intros [H|[H|[]]]; discriminate); discriminate.
Qed.
Print Assumptions C59_partial.

(** Over any sequence of loads, each context freed: one file context and one pool stay for
    each load that got as far as new_context, nothing else. *)
Theorem C59_leak : forall V (loads : list (load_result (V := V))),
  let left := flat_map (fun r => berts_free (live r)) loads in
  let taken := length (filter (fun r => match r with Null false => false | _ => true end) loads) in
  length (filter (fun r => match r with Pool => true | _ => false end) left) = taken /\
  length (filter (fun r => match r with FileContext => true | _ => false end) left) = taken /\
  length left = 2 * taken.
Proof.
  intros V loads. cbv zeta. induction loads as [|r loads (IH1 & IH2 & IH3)]; [repeat split|].
  cbn [flat_map]. rewrite !filter_app, !app_length.
  destruct r as [m|[|]]; cbn [filter]; cbn; rewrite ?IH1, ?IH2, ?IH3; repeat split; lia.
Qed.
Print Assumptions C59_leak.

(** The same with the handles of load_from_file: 0 holds the description of the tensors,
    1 the file context, 3 the pool (gguf.cpp:161-287). *)
Definition loading (handed : bool) : list Handle_model.op :=
  P_Handle.open_file ++ [Handle_model.Construct true] ++
  (if handed then [Handle_model.Release 1; Handle_model.Release 3] else []) ++
  [Handle_model.Destroy 3; Handle_model.Destroy 1; Handle_model.Destroy 0].
Theorem C59_handles : forall handed, exists w,
  Handle_model.steps Handle_model.world0 (loading handed) = Ok w /\
  Handle_model.next w = 3 /\ P_Handle.owned w = [] /\
  length (Handle_model.released w) = length (live (V := Z) (Null handed)) /\
  length (Handle_model.freed w) = 3 - length (live (V := Z) (Null handed)).
Proof. intros [|]; eexists; (split; [vm_compute; reflexivity|]); repeat split. Qed.
Print Assumptions C59_handles.
