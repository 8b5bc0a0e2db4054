(** Lemmas about the log of loading a file. *)
From Verif Require Import Base Utf_model Bert_model Vocab_model Bpe_model Roberta_model Log_model Loader_model.
From Verif Require Import Says_model Says_eval_model Says_load_model.
From Verif Require Import Log_spec Vocab_spec Says_spec P_Log Says_proofs Says_eval_proofs Vocab_proofs P_Says_vocab.
From Verif Require Ggml_model Encoder_model.
Local Open Scope N_scope.

(** ** The results are those of loading without a log *)

Definition result {A} (r : outcome (option A * list log_call)) : outcome A :=
  match r with
  | Ok (Some a, _) => Ok a
  | Ok (None, _) => Fail
  | Fail => Fail
  | UB => UB
  | Abort => Abort
  end.

Lemma vocab_result g lens data :
  result (vocab_logged g lens data) = bert_init_vocab g (Some (mkt 1 T_I8 lens)) (Some (mkt 1 T_I8 data)).
Proof.
  unfold vocab_logged, bert_init_vocab, read_vocab. cbn [t_dims t_type t_data N.eqb Pos.eqb negb orb].
  destruct (read_tokens lens data 0 voc0) as [[p v]| | |]; try reflexivity.
  destruct (p =? N.of_nat (length data)); [|reflexivity]. cbn [negb obind].
  destruct (bert_vocab_init g v); reflexivity.
Qed.

Lemma r_vocab_result order g lens data m :
  result (r_vocab_logged order g lens data m) =
    roberta_init_vocab order g (Some (mkt 1 T_I8 lens)) (Some (mkt 1 T_I8 data)) (option_map as_vocab m).
Proof.
  unfold r_vocab_logged, roberta_init_vocab, read_vocab. cbn [t_dims t_type t_data N.eqb Pos.eqb negb orb].
  destruct (read_tokens lens data 0 voc0) as [[p v]| | |]; try reflexivity.
  destruct (p =? N.of_nat (length data)); [|reflexivity]. cbn [negb obind].
  destruct (roberta_vocab_init order g (option_map as_vocab m) v); reflexivity.
Qed.

(** The two tensors are fit, or a refusal nobody is told about. *)
Inductive fit : option Loader_model.stored -> option Loader_model.stored -> list N -> list N -> Prop :=
| fits s d : ti_dims (st_info s) = 1 -> ti_dims (st_info d) = 1 -> ti_type (st_info s) = TI8 -> ti_type (st_info d) = TI8 ->
    fit (Some s) (Some d) (st_bytes s) (st_bytes d).

Lemma tensors_cases s d :
  (tensors_says s d = [] /\ exists lens data, fit s d lens data) \/
  (exists m, tensors_says s d = [Formatted Error m] /\
             read_vocab (option_map as_vocab s) (option_map as_vocab d) = Fail).
Proof.
  destruct s as [s|]; [|right; eexists; split; reflexivity].
  destruct d as [d|]; [|right; eexists; split; reflexivity].
  unfold tensors_says, read_vocab. cbn [option_map]. unfold as_vocab.
  assert (D : forall x : Loader_model.stored, t_dims match ti_type (st_info x) with
            | TI8 => mkt (ti_dims (st_info x)) T_I8 (st_bytes x)
            | TI32 => mkt (ti_dims (st_info x)) T_I32 (words32 (st_bytes x))
            | _ => mkt (ti_dims (st_info x)) T_other []
            end = ti_dims (st_info x)) by (intros x; destruct (ti_type (st_info x)); reflexivity).
  rewrite !D.
  destruct (negb (ti_dims (st_info s) =? 1) || negb (ti_dims (st_info d) =? 1)) eqn:E.
  - right. eexists; split; reflexivity.
  - apply Bool.orb_false_iff in E as (E1 & E2). apply Bool.negb_false_iff, N.eqb_eq in E1, E2.
    destruct (ti_type (st_info s)) eqn:T1; cbn [t_type];
      try (right; eexists; split; reflexivity);
      destruct (ti_type (st_info d)) eqn:T2; cbn [t_type]; try (right; eexists; split; reflexivity).
    left. split; [reflexivity|]. eexists _, _. constructor; assumption.
Qed.

Lemma fit_vocab s d lens data : fit s d lens data ->
  option_map as_vocab s = Some (mkt 1 T_I8 lens) /\ option_map as_vocab d = Some (mkt 1 T_I8 data).
Proof.
  intros [s' d' H1 H2 H3 H4]. cbn [option_map]. unfold as_vocab. rewrite H3, H4, H1, H2. auto.
Qed.

Section Load.
Context (L : Ggml_model.lib) (junk : nat -> N) {V : Type} (value : gty -> list N -> nat -> V).
Context (order : list (ustring * N) -> list (ustring * N)).
Context (path : list N) (text : skey -> list N) (double : N -> list N) (n_kv : N).

Lemma init_vocab_result arch f ts :
  result (init_vocab_logged order arch f ts) = init_vocab order arch f ts.
Proof.
  unfold init_vocab_logged, init_vocab, vocab_tensor.
  destruct (tensors_cases (get_tensor st_name ts key_vocab_size) (get_tensor st_name ts key_vocab_data))
    as [(E & lens & data & F)|(m & E & R)]; rewrite E.
  - destruct (fit_vocab _ _ _ _ F) as (Es & Ed). rewrite Es, Ed.
    destruct F. cbn [option_map] in *. destruct (arch =? 0).
    + rewrite <- vocab_result. destruct (vocab_logged _ _ _) as [[[b|] tr]| | |]; reflexivity.
    + rewrite <- r_vocab_result. destruct (r_vocab_logged _ _ _ _ _) as [[[b|] tr]| | |]; reflexivity.
  - assert (X : forall A (x y z : A), match get_tensor st_name ts key_vocab_size, get_tensor st_name ts key_vocab_data with _, _ => x end = x)
      by (intros; destruct (get_tensor st_name ts key_vocab_size), (get_tensor st_name ts key_vocab_data); reflexivity).
    assert (Y : result (A := lvocab) (Ok (None, Plain Info (u "loading vocab") :: [Formatted Error m])) = Fail) by reflexivity.
    unfold bert_init_vocab, roberta_init_vocab. rewrite R. cbn [obind].
    destruct (arch =? 0); destruct (get_tensor st_name ts key_vocab_size), (get_tensor st_name ts key_vocab_data); exact Y.
Qed.

Lemma init_vocab_answers arch f ts : init_vocab_logged order arch f ts <> Fail.
Proof.
  unfold init_vocab_logged.
  assert (A : forall g lens data, vocab_logged g lens data <> Fail).
  { intros. unfold vocab_logged. destruct (read_tokens _ _ _ _) as [[p v]| | |]; try discriminate.
    destruct (negb _); [discriminate|]. destruct (bert_vocab_init _ _); discriminate. }
  assert (B : forall g lens data m, r_vocab_logged order g lens data m <> Fail).
  { intros. unfold r_vocab_logged. destruct (read_tokens _ _ _ _) as [[p v]| | |]; try discriminate.
    destruct (negb _); [discriminate|]. destruct (roberta_vocab_init _ _ _ _); discriminate. }
  destruct (tensors_says _ _), (get_tensor st_name ts key_vocab_size) as [s|], (get_tensor st_name ts key_vocab_data) as [d|]; try discriminate.
  destruct (arch =? 0).
  - specialize (A (f_tok f) (st_bytes s) (st_bytes d)). destruct (vocab_logged _ _ _) as [[b t]| | |]; cbn [obind]; congruence.
  - specialize (B (f_tok f) (st_bytes s) (st_bytes d) (get_tensor st_name ts key_merge_data)). destruct (r_vocab_logged _ _ _ _ _) as [[b t]| | |]; cbn [obind]; congruence.
Qed.

Lemma new_context_result f s ts :
  obind (new_context_logged value order f s ts) (fun p => Ok (fst p)) = new_context value order f s ts.
Proof.
  unfold new_context_logged, new_context. rewrite <- init_vocab_result. pose proof (init_vocab_answers (se_arch s) f ts) as NF.
  destruct (init_vocab_logged order (se_arch s) f ts) as [[[v|] tr]| | |]; try reflexivity; [|congruence].
  cbn [obind fst snd result]. destruct (weights_init value ts _); reflexivity.
Qed.

Lemma load_result_same file reopen :
  obind (load_logged L junk value order path text double n_kv file reopen) (fun p => Ok (fst p)) =
  load_from_file L junk value order file reopen.
Proof.
  destruct file as [f|]; [|reflexivity]. cbn [load_logged load_from_file].
  destruct (read_metadata f); try reflexivity. cbn [obind].
  destruct (ctx_size L (f_tensors f) (f_tensors f)) as [size| | |]; try reflexivity. cbn [obind].
  destruct (negb reopen); [reflexivity|].
  destruct (read_tensors L junk f size 0 false (f_tensors f)) as [ts| | |]; try reflexivity.
  destruct (read_settings f) as [s| | |]; try reflexivity. cbn [obind].
  destruct (need_u32 f S_file_type) as [t| | |]; try reflexivity. cbn [obind].
  destruct (ftype t) as [n| | |]; try reflexivity. cbn [obind].
  destruct (negb (se_act s =? 0)); [reflexivity|].
  destruct (negb ((se_arch s =? 0) || (se_arch s =? 1))); [reflexivity|].
  rewrite <- new_context_result. destruct (new_context_logged value order f s ts) as [[r tr]| | |]; reflexivity.
Qed.

(** ** Every call is one of a message *)

Lemma says_read_tokens : forall lens data p v, Forall says (read_tokens_says lens data p v).
Proof.
  induction lens as [|b lens IH]; intros data p v; [constructor|]. cbn [read_tokens_says].
  destruct (add_token _ _); [apply IH|repeat constructor].
Qed.

Lemma says_get_id g v k name alts : Forall says (get_token_id_says g v k name alts).
Proof.
  unfold get_token_id_says. destruct (gguf_u32 g k INVALID) as [i| | |]; try constructor.
  destruct (i =? INVALID); [apply says_alternates|constructor].
Qed.

Lemma says_vocab g lens data b tr : vocab_logged g lens data = Ok (b, tr) -> Forall says tr.
Proof.
  unfold vocab_logged. destruct (read_tokens lens data 0 voc0) as [[p v]| | |]; try discriminate.
  - destruct (negb _).
    + intros E. injection E as _ <-. repeat first [apply says_read_tokens|apply Forall_app; split|apply Forall_cons; [exact Logic.I|]|apply Forall_nil].
    + destruct (bert_vocab_init g v) as [b'| | |]; try discriminate; intros E; injection E as _ <-;
        repeat first [apply says_read_tokens|apply says_init|apply Forall_app; split|apply Forall_cons; [exact Logic.I|]|apply Forall_nil].
  - intros E. injection E as _ <-. repeat first [apply says_read_tokens|apply Forall_app; split|apply Forall_cons; [exact Logic.I|]|apply Forall_nil].
Qed.

Lemma says_load_merges : forall ms rank b, Forall says (load_merges_says rank ms b).
Proof.
  induction ms as [|[x y] ms IH]; intros rank b; [constructor|]. cbn [load_merges_says].
  destruct (bpe_id_to_token b x); [|repeat constructor]. destruct (bpe_id_to_token b y); [|repeat constructor].
  destruct (bpe_token_to_id b _); [apply IH|repeat constructor].
Qed.

Lemma says_merges m : Forall says (merges_says m).
Proof.
  unfold merges_says. destruct m as [s|]; [|repeat constructor]. destruct (negb _); [repeat constructor|].
  destruct (ti_type (st_info s)); try (destruct (_ =? _)%nat); repeat constructor.
Qed.

Lemma says_id_to_token tokens i : Forall says (id_to_token_says tokens i).
Proof. unfold id_to_token_says. destruct (_ <=? _); repeat constructor. Qed.

Lemma says_r_init g m v : Forall says (r_init_says order g m v).
Proof.
  unfold r_init_says. apply Forall_app; split; [|apply Forall_app; split; [|apply Forall_app; split]].
  - apply Forall_flat_map. intros w. apply says_get_id.
  - apply Forall_flat_map. intros w. apply says_id_to_token.
  - apply Forall_forall. intros c H. apply in_map_iff in H as (x & <- & _). exact Logic.I.
  - unfold r_bpe_says. destruct (roberta_specials g (r_find v)) as [sp| | |]; try constructor. apply Forall_app; split; [apply says_id_to_token|].
    destruct (r_id_to_token v (r_unk sp)) as [unk| | |]; try constructor.
    pose proof (says_merges m) as SM. destruct (dec8 unk); [|exact SM]. destruct (bpe_words v); [|exact SM].
    destruct (merges_says m) as [|c cs]; [|exact SM]. destruct (read_merges _); try constructor.
    apply Forall_app; split; [apply says_load_merges|]. destruct (fst _); repeat constructor.
Qed.

Lemma says_r_vocab g lens data m b tr : r_vocab_logged order g lens data m = Ok (b, tr) -> Forall says tr.
Proof.
  unfold r_vocab_logged. destruct (read_tokens lens data 0 voc0) as [[p v]| | |]; try discriminate.
  - destruct (negb _).
    + intros E. injection E as _ <-. repeat first [apply says_read_tokens|apply Forall_app; split|apply Forall_cons; [exact Logic.I|]|apply Forall_nil].
    + destruct (roberta_vocab_init order g _ v) as [b'| | |]; try discriminate; intros E; injection E as _ <-;
        repeat first [apply says_read_tokens|apply says_r_init|apply Forall_app; split|apply Forall_cons; [exact Logic.I|]|apply Forall_nil].
  - intros E. injection E as _ <-. repeat first [apply says_read_tokens|apply Forall_app; split|apply Forall_cons; [exact Logic.I|]|apply Forall_nil].
Qed.

Lemma says_init_vocab arch f ts v tr : init_vocab_logged order arch f ts = Ok (v, tr) -> Forall says tr.
Proof.
  unfold init_vocab_logged.
  destruct (tensors_cases (get_tensor st_name ts key_vocab_size) (get_tensor st_name ts key_vocab_data))
    as [(E & lens & data & F)|(m & E & R)]; rewrite E.
  - destruct F. destruct (arch =? 0).
    + destruct (vocab_logged _ _ _) as [[b t]| | |] eqn:Q; try discriminate. cbn [obind fst snd].
      intros K. injection K as _ <-. eapply says_vocab; eauto.
    + destruct (r_vocab_logged _ _ _ _ _) as [[b t]| | |] eqn:Q; try discriminate. cbn [obind fst snd].
      intros K. injection K as _ <-. eapply says_r_vocab; eauto.
  - intros K. assert (tr = [Plain Info (u "loading vocab"); Formatted Error m]) as ->.
    { destruct (get_tensor st_name ts key_vocab_size), (get_tensor st_name ts key_vocab_data); congruence. }
    repeat constructor.
Qed.

Lemma says_required ts : forall ks, Forall says (fst (required_says ts ks)).
Proof.
  induction ks as [|k ks IH]; [constructor|]. cbn [required_says]. destruct (present ts k) eqn:E; [exact IH|].
  cbn [fst]. unfold tensor_says. rewrite E. repeat constructor.
Qed.

Lemma says_listed label which : forall infos n, Forall says (listed label which n infos).
Proof.
  induction infos as [|t infos IH]; intros n; [constructor|]. cbn [listed]. apply Forall_app. split; [|apply IH].
  destruct (which _); repeat constructor.
Qed.

Lemma says_weights f ts layers : Forall says (weights_says f ts layers).
Proof.
  unfold weights_says. pose proof (says_required ts (keys layers)) as H. destruct (required_says ts (keys layers)) as [c ok].
  cbn [fst] in H. destruct ok; [|exact H]. apply Forall_app; split; [exact H|]. apply Forall_app; split; [|apply Forall_app; split; apply says_listed].
  apply Forall_flat_map. intros k. unfold tensor_says. destruct (present ts k); repeat constructor.
Qed.

Lemma says_new_context f s ts r tr : new_context_logged value order f s ts = Ok (r, tr) -> Forall says tr.
Proof.
  unfold new_context_logged. destruct (init_vocab_logged order (se_arch s) f ts) as [[v t]| | |] eqn:E; try discriminate.
  cbn [obind fst snd]. apply says_init_vocab in E. destruct v as [v|].
  - destruct (weights_init value ts _); intros K; injection K as _ <-;
      repeat first [apply says_weights|exact E|apply Forall_app; split|apply Forall_cons; [exact Logic.I|]|apply Forall_nil].
  - intros K. injection K as _ <-. apply Forall_app; split; [exact E|repeat constructor].
Qed.

Lemma says_load file reopen r tr :
  load_logged L junk value order path text double n_kv file reopen = Ok (r, tr) -> Forall says tr.
Proof.
  destruct file as [f|]; cbn [load_logged].
  2: { intros K. injection K as _ <-. repeat constructor. }
  destruct (read_metadata f); try discriminate. cbn [obind].
  destruct (ctx_size L (f_tensors f) (f_tensors f)) as [size| | |]; try discriminate. cbn [obind].
  destruct (negb reopen); [intros K; injection K as _ <-; repeat constructor|].
  destruct (read_tensors L junk f size 0 false (f_tensors f)) as [ts| | |]; try discriminate.
  2: { intros K. injection K as _ <-. repeat constructor. }
  destruct (read_settings f) as [s| | |]; try discriminate. cbn [obind].
  destruct (need_u32 f S_file_type) as [t| | |]; try discriminate. cbn [obind].
  destruct (ftype t) as [n| | |]; try discriminate. cbn [obind].
  destruct (negb (se_act s =? 0)); [intros K; injection K as _ <-; repeat constructor|].
  destruct (negb ((se_arch s =? 0) || (se_arch s =? 1))); [intros K; injection K as _ <-; repeat constructor|].
  destruct (new_context_logged value order f s ts) as [[r' tr']| | |] eqn:E; try discriminate. cbn [obind fst snd].
  intros K. injection K as _ <-. do 5 (apply Forall_cons; [exact Logic.I|]). eapply says_new_context; eauto.
Qed.

End Load.
