(** Theorems about converted checkpoints. *)
From Coq Require Import Permutation.
From Verif Require Import Base Assoc Utf_model Utf_spec Utf_proofs Bert_model Vocab_model Vocab_spec Vocab_proofs Bpe_model
  Roberta_model Roberta_spec Roberta_proofs
  Loader_model Loader_spec Loader_proofs Quantize_model Quantize_spec Quantize_proofs Gguf_model Gguf_spec Gguf_proofs
  Convert_model Convert_spec Convert_proofs Convert_arrays Convert_load Convert_vocab.
From Verif Require Ggml_model Encoder_model Encoder_spec Eval_model Eval_spec P_Eval P_Loader P_Gguf P_Bert.
From Verif Require Fill_model Fill_spec P_Fill P_FillFile Tool_proofs.
Local Open Scope nat_scope.

(** * Example checkpoints *)

(** Numbers below 256; rounding makes them even. *)
Definition x_single (e : N) : list N := [e; 0; 0; 0]%N.
Definition x_half (e : N) : list N := [(e / 2 * 2)%N; 0%N].
Definition x_value (t : gty) (bs : list N) (i : nat) : Z := Z.of_N (nth (match t with TF16 => 2 | _ => 4 end * i) bs 0%N).
Definition x_r32 (e : N) : Z := Z.of_N e.
Definition x_r16 (e : N) : Z := Z.of_N (e / 2 * 2).

Lemma x_floats : readable_floats x_value x_single x_half x_r32 x_r16.
Proof.
  constructor; [reflexivity|reflexivity| |].
  - induction es as [|x es IH]; intros [|i] e H; try discriminate H; cbn [nth_error] in H; [injection H as ->; reflexivity|].
    rewrite <- (IH i e H). unfold x_value. cbn [map concat]. f_equal.
    replace (4 * S i) with (4 + 4 * i) by lia. reflexivity.
  - induction es as [|x es IH]; intros [|i] e H; try discriminate H; cbn [nth_error] in H; [injection H as ->; reflexivity|].
    rewrite <- (IH i e H). unfold x_value. cbn [map concat]. f_equal.
    replace (2 * S i) with (2 + 2 * i) by lia. reflexivity.
Qed.

Definition x_mat (key : list N) (r n : nat) (es : list N) : list N * ptensor N := (key, mkpt [r; n] es).
Definition x_vec (key : list N) (es : list N) : list N * ptensor N := (key, mkpt [length es] es).
Definition x_layer : list (list N * ptensor N) :=
  let mat s := x_mat (u "encoder.layer.0." ++ s) in
  let vec s := x_vec (u "encoder.layer.0." ++ s) in
  [mat (u "attention.self.query.weight") 2 2 [1;0;0;1]%N; vec (u "attention.self.query.bias") [0;0]%N;
   mat (u "attention.self.key.weight") 2 2 [2;0;0;2]%N; vec (u "attention.self.key.bias") [0;0]%N;
   mat (u "attention.self.value.weight") 2 2 [3;0;0;3]%N; vec (u "attention.self.value.bias") [0;0]%N;
   mat (u "attention.output.dense.weight") 2 2 [2;0;0;1]%N; vec (u "attention.output.dense.bias") [0;0]%N;
   vec (u "attention.output.LayerNorm.weight") [1;1]%N; vec (u "attention.output.LayerNorm.bias") [0;0]%N;
   mat (u "intermediate.dense.weight") 2 2 [2;0;0;2]%N; vec (u "intermediate.dense.bias") [0;0]%N;
   mat (u "output.dense.weight") 2 2 [2;0;0;2]%N; vec (u "output.dense.bias") [0;0]%N;
   vec (u "output.LayerNorm.weight") [1;1]%N; vec (u "output.LayerNorm.bias") [0;0]%N].
Definition x_state (segs words : nat) : list (list N * ptensor N) :=
  [x_mat (u "embeddings.word_embeddings.weight") words 2 (map N.of_nat (seq 1 (2 * words)));
   x_mat (u "embeddings.position_embeddings.weight") 4 2 [10;20;30;40;50;60;70;80]%N;
   x_mat (u "embeddings.token_type_embeddings.weight") segs 2 (map N.of_nat (seq 1 (2 * segs)));
   x_vec (u "embeddings.LayerNorm.weight") [1;1]%N; x_vec (u "embeddings.LayerNorm.bias") [0;1]%N] ++ x_layer ++
  [x_mat (u "pooler.dense.weight") 2 2 [1;2;3;4]%N; x_vec (u "pooler.dense.bias") [5;6]%N].
Definition x_lm : list (list N * ptensor N) :=
  [x_vec (u "predictions.bias") [0;0;0;0;3;0;1]%N;
   x_mat (u "predictions.transform.dense.weight") 2 2 [2;0;0;2]%N; x_vec (u "predictions.transform.dense.bias") [0;0]%N;
   x_vec (u "predictions.transform.LayerNorm.weight") [1;1]%N; x_vec (u "predictions.transform.LayerNorm.bias") [0;0]%N;
   x_mat (u "predictions.decoder.weight") 7 2 [1;0;0;1;1;1;0;0;2;0;0;3;2;2]%N; x_vec (u "predictions.decoder.bias") [0;0;0;0;3;0;1]%N].

(** A BERT checkpoint: no token for the id 4, which is named [[unused0]]. *)
Definition x_bert : checkpoint N :=
  mkck N BertModel (u "demo/bert") 7 2 1 1 4 2 2 (u "gelu") 4427486594234968593 4581421828931458171
    (fun k => match k with K_cls => Some 0%N | K_unk => Some 5%N | _ => None end)
    (fun k => match k with K_lower => Some false | K_cjk => Some true | _ => None end) 0
    [(u "[CLS]", 0%N); (u "[SEP]", 1%N); (u "[MASK]", 2%N); (u "[PAD]", 3%N); (u "[UNK]", 5%N); (u "##x", 6%N)] None
    (x_state 2 7) x_lm.
(** A RoBERTa checkpoint: byte pairs "a" "b" make "ab"; one segment. *)
Definition x_rlm : list (list N * ptensor N) :=
  [x_vec (u "bias") [0;0;0;0;3;0;0;0]%N;
   x_mat (u "dense.weight") 2 2 [2;0;0;2]%N; x_vec (u "dense.bias") [0;0]%N;
   x_vec (u "layer_norm.weight") [1;1]%N; x_vec (u "layer_norm.bias") [0;0]%N;
   x_mat (u "decoder.weight") 8 2 [1;0;0;1;1;1;0;0;2;0;0;3;1;1;1;1]%N; x_vec (u "decoder.bias") [0;0;0;0;3;0;0;0]%N].
Definition x_roberta : checkpoint N :=
  mkck N RobertaModel (u "demo/roberta") 8 2 1 1 4 2 1 (u "GeLU") 4427486594234968593 4581421828931458171
    (fun k => match k with K_pad => Some 1%N | _ => None end) (fun _ => None) 0
    [(u "<s>", 0%N); (u "<pad>", 1%N); (u "</s>", 2%N); (u "<unk>", 3%N); (u "<mask>", 4%N); (u "a", 5%N); (u "b", 6%N); (u "ab", 7%N)]
    (Some [((u "a", u "b"), 0%N)]) (x_state 1 8) x_rlm.

(** Deciding the conditions. *)
Definition wholeb (t : ptensor N) : bool :=
  forallb (fun n => 0 <? n) (p_shape t) && (length (p_elems t) =? fold_right Nat.mul 1 (p_shape t)).
Lemma wholeb_ok t : wholeb t = true -> whole t.
Proof.
  intros H. apply andb_prop in H as (H1 & H2). split; [|apply Nat.eqb_eq, H2]. apply Forall_forall. intros n Hn.
  rewrite forallb_forall in H1. apply Nat.ltb_lt, H1, Hn.
Qed.
Definition namedb (n : list N) : bool := negb (existsb (N.eqb 0) n) && (length n <? 53).
Lemma namedb_ok n : namedb n = true -> ~ In 0%N n /\ length n < 53.
Proof.
  intros H. apply andb_prop in H as (H1 & H2). split; [|apply Nat.ltb_lt, H2]. intros Q. apply negb_true_iff in H1.
  assert (existsb (N.eqb 0) n = true); [|congruence]. apply existsb_exists. exists 0%N. split; [exact Q|reflexivity].
Qed.
Definition distinctb (l : list (list N)) : bool :=
  (fix nd (l : list (list N)) := match l with [] => true | x :: l' => negb (existsb (list_N_eqb x) l') && nd l' end) l.
Lemma distinctb_ok l : distinctb l = true -> NoDup l.
Proof.
  induction l as [|x l IH]; [constructor|]. intros H. apply andb_true_iff in H as (H1 & H2). constructor; [|apply IH, H2].
  intros Q. apply negb_true_iff in H1. assert (existsb (list_N_eqb x) l = true); [|congruence].
  apply existsb_exists. exists x. split; [exact Q|apply list_N_eqb_refl].
Qed.
Lemma forallb_Forall {A} (p : A -> bool) (P : A -> Prop) l : (forall a, p a = true -> P a) -> forallb p l = true -> Forall P l.
Proof. intros H F. apply Forall_forall. intros a Ha. apply H. rewrite forallb_forall in F. exact (F a Ha). Qed.

Lemma x_bert_storable : storable x_bert.
Proof.
  constructor.
  - left. reflexivity.
  - unfold short, fits64. vm_compute. reflexivity.
  - reflexivity.
  - reflexivity.
  - apply (forallb_Forall (fun x => wholeb (snd x))); [intros x; apply wholeb_ok|vm_compute; reflexivity].
  - apply (forallb_Forall (fun x => length (p_shape (snd x)) <=? 4)); [intros x; apply Nat.leb_le|vm_compute; reflexivity].
  - apply (forallb_Forall (fun x => namedb (fst x))); [intros x; apply namedb_ok|vm_compute; reflexivity].
  - apply (forallb_Forall (fun x => namedb (fst x))); [|vm_compute; reflexivity].
    intros x Hx. exists (fst x). apply namedb_ok in Hx as (H1 & H2). split; [constructor; reflexivity|auto].
  - split; [apply distinctb_ok; vm_compute; reflexivity|]. split; [apply distinctb_ok; vm_compute; reflexivity|].
    intros key name t Hin Hk. inversion Hk; subst; try discriminate. intros Q.
    assert (D : distinctb (map fst (ck_state x_bert) ++ map fst (ck_lm x_bert)) = true) by (vm_compute; reflexivity).
    apply distinctb_ok in D. apply (in_map fst) in Hin. cbn [fst] in Hin. revert D Q Hin. generalize (map fst (ck_state x_bert)), (map fst (ck_lm x_bert)).
    intros l1 l2 D Q1 Q2. induction l1 as [|y l1 IH]; [destruct Q1|]. cbn [app] in D. inversion D as [|? ? N1 N2]; subst.
    destruct Q1 as [<-|Q1]; [apply N1, in_app_iff; right; exact Q2|exact (IH N2 Q1)].
Qed.

Lemma x_roberta_storable : storable x_roberta.
Proof.
  constructor.
  - right. reflexivity.
  - unfold short, fits64. vm_compute. reflexivity.
  - reflexivity.
  - reflexivity.
  - apply (forallb_Forall (fun x => wholeb (snd x))); [intros x; apply wholeb_ok|vm_compute; reflexivity].
  - apply (forallb_Forall (fun x => length (p_shape (snd x)) <=? 4)); [intros x; apply Nat.leb_le|vm_compute; reflexivity].
  - apply (forallb_Forall (fun x => namedb (fst x))); [intros x; apply namedb_ok|vm_compute; reflexivity].
  - repeat constructor; cbn [fst x_vec x_mat];
      (eexists; split; [first [apply hk_dense; [reflexivity|left; reflexivity] | apply hk_dense; [reflexivity|right; left; reflexivity]
         | apply hk_norm; [reflexivity|left; reflexivity] | apply hk_norm; [reflexivity|right; left; reflexivity]
         | apply hk_decoder; [reflexivity|left; reflexivity] | apply hk_decoder; [reflexivity|right; left; reflexivity]]
       |apply namedb_ok; vm_compute; reflexivity]).
  - split; [apply distinctb_ok; vm_compute; reflexivity|]. split; [apply distinctb_ok; vm_compute; reflexivity|].
    intros key name t Hin Hk Q.
    assert (D : forallb (fun n => negb (existsb (list_N_eqb n) (map fst (ck_state x_roberta))))
      (map (fun x => fst x ++ snd x) (flat_map (fun p => [(p, u "weight"); (p, u "bias")])
         [u "predictions.transform.dense."; u "predictions.transform.LayerNorm."; u "predictions.decoder."])) = true) by (vm_compute; reflexivity).
    rewrite forallb_forall in D. assert (X : negb (existsb (list_N_eqb name) (map fst (ck_state x_roberta))) = true).
    { apply D. inversion Hk as [k Q1|s _ Hs Q1 Q2|s _ Hs Q1 Q2|s _ Hs Q1 Q2]; [discriminate Q1|..]; destruct Hs as [<-|[<-|[]]];
        subst; vm_compute; tauto. }
    apply negb_true_iff in X. assert (existsb (list_N_eqb name) (map fst (ck_state x_roberta)) = true); [|congruence].
    apply existsb_exists. exists name. split; [exact Q|apply list_N_eqb_refl].
Qed.

Lemma x_bert_vocab : proper_vocab x_bert.
Proof.
  constructor.
  - apply distinctb_ok. vm_compute. reflexivity.
  - repeat constructor; cbn; intuition discriminate.
  - intros t i H. cbn in H. repeat (destruct H as [Q|H]; [injection Q as <- <-; cbn; split; lia|]). destruct H.
  - intros t i H. cbn in H. repeat (destruct H as [Q|H]; [injection Q as <- <-; apply ascii_valid; repeat constructor|]). destruct H.
  - reflexivity.
Qed.
Lemma x_roberta_vocab : proper_vocab x_roberta.
Proof.
  constructor.
  - apply distinctb_ok. vm_compute. reflexivity.
  - repeat constructor; cbn; intuition discriminate.
  - intros t i H. cbn in H. repeat (destruct H as [Q|H]; [injection Q as <- <-; cbn; split; lia|]). destruct H.
  - intros t i H. cbn in H. repeat (destruct H as [Q|H]; [injection Q as <- <-; apply ascii_valid; repeat constructor|]). destruct H.
  - reflexivity.
Qed.
Lemma x_bert_numbers : numbers_ok x_bert.
Proof. constructor; try reflexivity. intros [] n H; cbn in H; try discriminate H; injection H as <-; reflexivity. Qed.
Lemma x_roberta_numbers : numbers_ok x_roberta.
Proof. constructor; try reflexivity. intros [] n H; cbn in H; try discriminate H; injection H as <-; reflexivity. Qed.
Lemma x_bert_act : act_number x_bert 0.
Proof. split; reflexivity. Qed.
Lemma x_roberta_act : act_number x_roberta 0.
Proof.
  exists (u "gelu"). split; [left; reflexivity|]. change (Forall2 same_letter [71;101;76;85]%N [103;101;108;117]%N).
  repeat constructor; unfold same_letter; lia.
Qed.
Lemma x_bert_specials : specials_ok x_bert.
Proof.
  intros k Hk. cbn in Hk. repeat (destruct Hk as [<-|Hk]; [unfold has_special; cbn [ck_ids x_bert]; first [reflexivity |
    (eexists; split; [left; reflexivity|vm_compute; tauto])]|]). destruct Hk.
Qed.
Lemma x_roberta_specials : specials_ok x_roberta.
Proof.
  intros k Hk. cbn in Hk. repeat (destruct Hk as [<-|Hk]; [unfold has_special; cbn [ck_ids x_roberta]; first [reflexivity |
    (eexists; split; [left; reflexivity|vm_compute; tauto])]|]). destruct Hk.
Qed.
Lemma x_roberta_merges : merges_ok x_roberta /\ proper_merges x_roberta.
Proof.
  split.
  - intros ms H. injection H as <-. constructor; [|constructor]. split; [reflexivity|].
    split; [exists 5%N|exists 6%N]; (split; [cbn; tauto|reflexivity]).
  - constructor; [discriminate| |].
    + intros ms H. injection H as <-. constructor; [|constructor]. vm_compute. tauto.
    + intros n t _ H. cbn in H. repeat (destruct H as [Q|H]; [injection Q as <- <-; repeat constructor|]). destruct H.
Qed.
Ltac x_find := eexists; split; [vm_compute; repeat first [left; reflexivity | right]|reflexivity].
Lemma x_layer_ok segs words : layer_ok (x_state segs words) 2 2 0.
Proof.
  assert (I : forall k t, In (k, t) x_layer -> In (k, t) (x_state segs words)).
  { intros k t H. unfold x_state. apply in_app_iff. right. apply in_app_iff. left. exact H. }
  constructor; try (apply Forall_forall; intros s Hs; cbn [In] in Hs; repeat (destruct Hs as [<-|Hs])); try (destruct Hs);
    (eexists; split; [apply I; unfold x_layer; repeat first [left; reflexivity | right]|reflexivity]).
Qed.
Lemma x_bert_encoder : encoder_ok x_bert.
Proof.
  constructor; cbn [ck_hidden ck_inter ck_state ck_vocab_size ck_positions ck_segments ck_layers x_bert].
  - cbn; lia.
  - cbn; lia.
  - eexists; split; [unfold x_state; cbn [app]; repeat first [left; reflexivity | right]|reflexivity].
  - eexists; split; [unfold x_state; cbn [app]; repeat first [left; reflexivity | right]|reflexivity].
  - eexists; split; [unfold x_state; cbn [app]; repeat first [left; reflexivity | right]|reflexivity].
  - repeat (constructor; [eexists; split; [unfold x_state; cbn [app]; repeat first [left; reflexivity | right]|reflexivity]|]). constructor.
  - intros n Hn. replace n with 0 by lia. apply x_layer_ok.
  - eexists; split; [unfold x_state; repeat (apply in_app_iff; right); repeat first [left; reflexivity | right]|reflexivity].
  - eexists; split; [unfold x_state; repeat (apply in_app_iff; right); repeat first [left; reflexivity | right]|reflexivity].
Qed.
Lemma x_roberta_encoder : encoder_ok x_roberta.
Proof.
  constructor; cbn [ck_hidden ck_inter ck_state ck_vocab_size ck_positions ck_segments ck_layers x_roberta].
  - cbn; lia.
  - cbn; lia.
  - eexists; split; [unfold x_state; cbn [app]; repeat first [left; reflexivity | right]|reflexivity].
  - eexists; split; [unfold x_state; cbn [app]; repeat first [left; reflexivity | right]|reflexivity].
  - eexists; split; [unfold x_state; cbn [app]; repeat first [left; reflexivity | right]|reflexivity].
  - repeat (constructor; [eexists; split; [unfold x_state; cbn [app]; repeat first [left; reflexivity | right]|reflexivity]|]). constructor.
  - intros n Hn. replace n with 0 by lia. apply x_layer_ok.
  - eexists; split; [unfold x_state; repeat (apply in_app_iff; right); repeat first [left; reflexivity | right]|reflexivity].
  - eexists; split; [unfold x_state; repeat (apply in_app_iff; right); repeat first [left; reflexivity | right]|reflexivity].
Qed.
Lemma x_bert_head : head_fits x_bert.
Proof. constructor; (eexists; split; [unfold x_bert, x_lm; cbn [ck_lm ck_class hd]; repeat first [left; reflexivity | right]|reflexivity]). Qed.
Lemma x_roberta_head : head_fits x_roberta.
Proof. constructor; (eexists; split; [unfold x_roberta, x_rlm; cbn [ck_lm ck_class hd]; repeat first [left; reflexivity | right]|reflexivity]). Qed.

(** * C120: a converted file reads back *)

(** Conversion succeeds. *)
Theorem C120_conversion_succeeds : forall E (single half : E -> list N) (c : checkpoint E) f32 a,
  ck_class c <> OtherModel -> proper_vocab c -> numbers_ok c -> merges_ok c -> act_number c a ->
  (ck_class c = BertModel -> ck_never_split c = 0) ->
  exists bytes, convert single half c f32 = Some bytes.
Proof. intros E single half c f32 a. apply conversion_succeeds. Qed.
Print Assumptions C120_conversion_succeeds.

(** The file that was written is read by gguf_init_from_file, with the settings of the
    configuration and of the tokenizer. *)
Theorem C120_settings_kept : forall E (single half : E -> list N) (c : checkpoint E) f32 bytes,
  (forall e, length (single e) = 4) -> (forall e, length (half e) = 2) -> storable c ->
  convert single half c f32 = Some bytes -> fits64 (N.of_nat (length bytes)) ->
  exists kvs f, read_gguf bytes = Ok (kvs, f) /\ settings_of c f32 f /\ distinct_names f /\ short_names f.
Proof.
  intros E single half c f32 bytes H32 H16 HS H Hf.
  destruct (converted single half H32 H16 c f32 HS bytes H) as (a & kvs & ts & CV).
  exists kvs, (file_read kvs ts). split; [exact (cv_read single half c f32 bytes a kvs ts CV Hf)|].
  split; [exact (cv_settings single half c f32 HS bytes a kvs ts CV)|].
  split; [apply distinct_read; apply CV|apply short_read; apply CV].
Qed.
Print Assumptions C120_settings_kept.

Definition x_bytes (c : checkpoint N) (f32 : bool) : list N := match convert x_single x_half c f32 with Some bs => bs | None => [] end.
Definition x_bert_file : list N := Eval vm_compute in x_bytes x_bert false.
Definition x_roberta_file : list N := Eval vm_compute in x_bytes x_roberta false.

Example C120_example :
  storable x_bert /\ proper_vocab x_bert /\ numbers_ok x_bert /\ merges_ok x_bert /\ act_number x_bert 0 /\
  convert x_single x_half x_bert false = Some x_bert_file /\ fits64 (N.of_nat (length x_bert_file)) /\
  storable x_roberta /\ proper_vocab x_roberta /\ numbers_ok x_roberta /\ merges_ok x_roberta /\ act_number x_roberta 0 /\
  convert x_single x_half x_roberta false = Some x_roberta_file /\ fits64 (N.of_nat (length x_roberta_file)).
Proof.
  split; [exact x_bert_storable|]. split; [exact x_bert_vocab|]. split; [exact x_bert_numbers|]. split; [intros ms H; discriminate H|].
  split; [exact x_bert_act|]. split; [vm_compute; reflexivity|]. split; [vm_compute; reflexivity|].
  split; [exact x_roberta_storable|]. split; [exact x_roberta_vocab|]. split; [exact x_roberta_numbers|].
  split; [exact (proj1 x_roberta_merges)|]. split; [exact x_roberta_act|]. split; vm_compute; reflexivity.
Qed.

(** * C121: a converted BERT checkpoint loads *)

Theorem C121_bert_loads : forall E (single half : E -> list N) (c : checkpoint E) f32 bytes L junk V (value : gty -> list N -> nat -> V) order,
  (forall e, length (single e) = 4) -> (forall e, length (half e) = 2) -> storable c -> proper_vocab c -> specials_ok c -> encoder_ok c ->
  ck_class c = BertModel -> convert single half c f32 = Some bytes -> fits64 (N.of_nat (length bytes)) -> lib_ok L ->
  exists m b, load_bytes L junk value order (Some bytes) true = Ok (Loaded m) /\ lo_vocab m = LBert b /\
    tokens_of c (v_tokens b) /\ (forall k, In k (special_keys BertModel) -> special_of c k (bert_special b k)) /\
    cleaned_as c (v_cond b) /\ runs_with c (Eval_model.em_hp (evaluator m)).
Proof.
  intros E single half c f32 bytes L junk V value order H32 H16 HS PV SP EO Ec H Hf HL.
  destruct (converted single half H32 H16 c f32 HS bytes H) as (a & kvs & ts & CV).
  destruct (bert_vocabulary single half c f32 HS PV bytes a kvs ts CV junk Ec SP) as (b & tl & EB & <- & T & S & C).
  assert (HV : vocabulary junk order (file_read kvs ts) 0 = Ok (LBert b)) by (unfold vocabulary; cbn [N.eqb]; rewrite EB; reflexivity).
  assert (HA : act_number c 0).
  { assert (A := pf_act _ _ (cv_facts _ _ _ _ _ _ _ _ CV)). apply act_spec in A. assert (a = 0%N); [|subst a; exact A].
    unfold act_number in A. rewrite Ec in A. exact (proj2 A). }
  assert (CL := converted_loads single half c f32 HS bytes a kvs ts CV Hf L HL junk value order (LBert b)). rewrite Ec in CL.
  destruct (CL EO HA HV) as (m & M1 & _ & M2 & M3). exists m, b. auto 10.
Qed.
Print Assumptions C121_bert_loads.

Example C121_example : specials_ok x_bert /\ encoder_ok x_bert /\
  match load_bytes P_Eval.lib64 P_Loader.d_junk x_value (fun l => l) (Some x_bert_file) true with
  | Ok (Loaded m) => match lo_vocab m with
      | LBert b => v_tokens b = [u "[CLS]"; u "[SEP]"; u "[MASK]"; u "[PAD]"; u "[unused0]"; u "[UNK]"; u "##x"] /\
          (v_cls b, v_sep b, v_mask b, v_pad b, v_unk b) = (0, 1, 2, 3, 5)%N /\ t_lower (v_cond b) = false /\ t_accents (v_cond b) = false
      | _ => False end
  | _ => False end.
Proof. split; [exact x_bert_specials|]. split; [exact x_bert_encoder|]. vm_compute. auto. Qed.

(** * C122: a converted RoBERTa checkpoint loads *)

Theorem C122_roberta_loads : forall E (single half : E -> list N) (c : checkpoint E) f32 bytes L junk V (value : gty -> list N -> nat -> V) order,
  (forall e, length (single e) = 4) -> (forall e, length (half e) = 2) -> storable c -> proper_vocab c -> specials_ok c -> encoder_ok c ->
  ck_class c = RobertaModel -> proper_merges c -> act_number c 0 -> (forall l, Permutation l (order l)) ->
  convert single half c f32 = Some bytes -> fits64 (N.of_nat (length bytes)) -> lib_ok L ->
  exists m rv ts, load_bytes L junk value order (Some bytes) true = Ok (Loaded m) /\ lo_vocab m = LRoberta rv /\
    voc_ok (rv_voc rv) ts /\ tokens_of c ts /\
    (forall k, In k (special_keys RobertaModel) -> special_of c k (roberta_special (rv_sp rv) k)) /\
    Eval_model.em_kind (evaluator m) = Encoder_model.Roberta (roberta_special (rv_sp rv) K_pad) /\
    runs_with c (Eval_model.em_hp (evaluator m)).
Proof.
  intros E single half c f32 bytes L junk V value order H32 H16 HS PV SP EO Ec PM HA HO H Hf HL.
  destruct (converted single half H32 H16 c f32 HS bytes H) as (a & kvs & ts & CV).
  destruct (roberta_vocabulary single half c f32 HS PV bytes a kvs ts CV junk order Ec SP PM HO) as (rv & tl & EB & LD & T & S).
  assert (HV : vocabulary junk order (file_read kvs ts) 1 = Ok (LRoberta rv)) by (unfold vocabulary; cbn [N.eqb]; rewrite EB; reflexivity).
  assert (CL := converted_loads single half c f32 HS bytes a kvs ts CV Hf L HL junk value order (LRoberta rv)). rewrite Ec in CL.
  destruct (CL EO HA HV) as (m & M1 & _ & M2 & M3). exists m, rv, tl. split; [exact M1|]. split; [exact M2|].
  split; [exact (ld_voc _ _ _ LD)|]. split; [exact T|]. split; [exact S|]. split; [|exact M3].
  unfold evaluator. rewrite M2. reflexivity.
Qed.
Print Assumptions C122_roberta_loads.

Example C122_example : specials_ok x_roberta /\ encoder_ok x_roberta /\ proper_merges x_roberta /\
  match load_bytes P_Eval.lib64 P_Loader.d_junk x_value (fun l => l) (Some x_roberta_file) true with
  | Ok (Loaded m) => match lo_vocab m with
      | LRoberta rv => i2t (rv_voc rv) = [u "<s>"; u "<pad>"; u "</s>"; u "<unk>"; u "<mask>"; u "a"; u "b"; u "ab"] /\
          (r_bos (rv_sp rv), r_pad (rv_sp rv), r_eos (rv_sp rv), r_unk (rv_sp rv), r_mask (rv_sp rv)) = (0, 1, 2, 3, 4)%N /\
          bpe_merge (rv_bpe rv) (5, 6)%N = Some (0, 7)%N
      | _ => False end
  | _ => False end.
Proof. split; [exact x_roberta_specials|]. split; [exact x_roberta_encoder|]. split; [exact (proj2 x_roberta_merges)|]. vm_compute. auto. Qed.

(** * C123: which parameters are rounded *)

(** Every parameter is stored under its name: weights that are matrices of at least 2 x 2 in
    half precision, everything else in single; nothing is rounded with --use-f32.  The file
    contains these, the vocabulary and the merges, and no other tensor. *)
Theorem C123_parameters_stored : forall E (single half : E -> list N) (c : checkpoint E) f32 bytes,
  (forall e, length (single e) = 4) -> (forall e, length (half e) = 2) -> storable c ->
  convert single half c f32 = Some bytes -> fits64 (N.of_nat (length bytes)) ->
  exists kvs f, read_gguf bytes = Ok (kvs, f) /\
    (forall key name t, written_as c key name t ->
       (rounded f32 key t -> stores f (u "berts.bert." ++ name) TF16 (p_shape t) (concat (map half (p_elems t)))) /\
       (~ rounded f32 key t -> stores f (u "berts.bert." ++ name) TF32 (p_shape t) (concat (map single (p_elems t))))) /\
    (forall n, has f n -> n = u "berts.vocab.size" \/ n = u "berts.vocab.data" \/
       (n = u "berts.merge.data" /\ ck_merges c <> None) \/ exists key name t, written_as c key name t /\ n = u "berts.bert." ++ name).
Proof.
  intros E single half c f32 bytes H32 H16 HS H Hf.
  destruct (converted single half H32 H16 c f32 HS bytes H) as (a & kvs & ts & CV).
  exists kvs, (file_read kvs ts). split; [exact (cv_read single half c f32 bytes a kvs ts CV Hf)|]. split.
  - intros key name t W. exact (stores_array single half c f32 HS bytes a kvs ts CV key name t W).
  - intros n Hn. exact (stored_only single half c f32 HS bytes a kvs ts CV n Hn).
Qed.
Print Assumptions C123_parameters_stored.

Example C123_example : exists t1 t2 t3,
  written_as x_bert (u "embeddings.word_embeddings.weight") (u "embeddings.word_embeddings.weight") t1 /\
  rounded false (u "embeddings.word_embeddings.weight") t1 /\
  written_as x_bert (u "embeddings.LayerNorm.weight") (u "embeddings.LayerNorm.weight") t2 /\ ~ rounded false (u "embeddings.LayerNorm.weight") t2 /\
  written_as x_roberta (u "layer_norm.weight") (u "predictions.transform.LayerNorm.weight") t3.
Proof.
  eexists _, _, _. split; [apply wa_state; left; reflexivity|]. split.
  { split; [reflexivity|]. split; [reflexivity|]. exists (u "embeddings.word_embeddings"). reflexivity. }
  split; [apply wa_state; right; right; right; left; reflexivity|]. split; [intros (_ & Q & _); discriminate Q|].
  apply wa_head; [cbn [x_roberta ck_lm x_rlm]; right; right; right; left; reflexivity| |discriminate].
  apply hk_norm; [reflexivity|left; reflexivity].
Qed.

(** * C124: from the checkpoint to the result *)

Lemma runs_with_hp {E} (c : checkpoint E) hp : runs_with c hp -> hp = ck_hp c.
Proof.
  intros [R1 R2 R3 R4 R5 R6 R7 R8]. destruct hp. unfold ck_hp. cbn in R1, R2, R3, R4, R5, R6, R7, R8. subst. reflexivity.
Qed.

(** What [ready] gives. *)
Lemma ready_loads {E} (single half : E -> list N) (c : checkpoint E) f32 bytes L junk V (value : gty -> list N -> nat -> V) order r32 r16 P :
  readable_floats value single half r32 r16 -> ready c -> fits_ints c -> convert single half c f32 = Some bytes -> fits64 (N.of_nat (length bytes)) ->
  lib_ok L -> (forall l, Permutation l (order l)) -> Encoder_spec.row_ops_ok P ->
  exists m, load_bytes L junk value order (Some bytes) true = Ok (Loaded m) /\
    Eval_model.em_hp (evaluator m) = ck_hp c /\ flavour_of c (Eval_model.em_kind (evaluator m)) /\
    Eval_model.em_vocab_count (evaluator m) = N.to_nat (ck_vocab_size c) /\
    Eval_spec.sound P (evaluator m) (N.to_nat (ck_vocab_size c)) (N.to_nat (ck_positions c)) (ck_params r32 r16 f32 c) /\
    (head_fits c -> Eval_spec.lm_sound P (evaluator m) (ck_head r32 r16 f32 c) (Ggml_model.p_gelu P)).
Proof.
  intros RF RD FI H Hf HL HO HP. assert (H32 := rf_single _ _ _ _ _ RF). assert (H16 := rf_half _ _ _ _ _ RF).
  destruct RD as [HS PV SP EO HC].
  assert (Q : exists m, load_bytes L junk value order (Some bytes) true = Ok (Loaded m) /\
    Eval_model.em_hp (evaluator m) = ck_hp c /\ flavour_of c (Eval_model.em_kind (evaluator m)) /\
    Eval_model.em_vocab_count (evaluator m) = N.to_nat (ck_vocab_size c)).
  { destruct HC as [Ec|(Ec & PM & HA)].
    - destruct (C121_bert_loads E single half c f32 bytes L junk V value order H32 H16 HS PV SP EO Ec H Hf HL) as (m & b & M & Mv & T & _ & _ & R).
      exists m. split; [exact M|]. split; [exact (runs_with_hp c _ R)|]. unfold flavour_of. rewrite Ec. unfold evaluator. rewrite Mv.
      split; [reflexivity|]. cbn [Eval_model.em_vocab_count]. assert (X := to_length _ _ T). lia.
    - destruct (C122_roberta_loads E single half c f32 bytes L junk V value order H32 H16 HS PV SP EO Ec PM HA HO H Hf HL)
        as (m & rv & ts & M & Mv & VO & T & S & K & R).
      exists m. split; [exact M|]. split; [exact (runs_with_hp c _ R)|]. unfold flavour_of. rewrite Ec. split.
      + rewrite K. eexists. split; [|reflexivity]. apply S. do 4 right. left. reflexivity.
      + unfold evaluator. rewrite Mv. cbn [Eval_model.em_vocab_count]. assert (X := to_length _ _ T). rewrite (proj1 VO). lia. }
  destruct Q as (m & M & Ehp & FL & EC). exists m. split; [exact M|]. split; [exact Ehp|]. split; [exact FL|]. split; [exact EC|].
  destruct (converted single half H32 H16 c f32 HS bytes H) as (a & kvs & ts & CV).
  destruct (encoder_read single half c f32 HS bytes a kvs ts CV value r32 r16 RF EO) as (WS & EP).
  assert (M' := M). unfold load_bytes in M'. rewrite (cv_read single half c f32 bytes a kvs ts CV Hf) in M'. cbn [snd] in M'.
  destruct FI as [[F1 F1'] F2 F3 F4 F5 F6]. assert (h2 := eo_h _ EO). assert (m2 := eo_m _ EO).
  assert (HH : N.to_nat (ck_hidden c) = N.to_nat (ck_hidden c) / N.to_nat (ck_heads c) * N.to_nat (ck_heads c)).
  { rewrite <- N2Nat.inj_div, <- N2Nat.inj_mul. f_equal. assert (D := N.div_mod (ck_hidden c) (ck_heads c) F1'). lia. }
  split.
  - assert (S := P_Loader.C102_sound L junk V value P order _ true m (N.to_nat (ck_vocab_size c)) (N.to_nat (ck_positions c)) HL M').
    cbv zeta in S. rewrite Ehp in S. cbn [ck_hp Encoder_model.hidden_dim Encoder_model.n_layers Encoder_model.attn_heads
      Encoder_model.max_tokens Encoder_model.intermediate_dim Encoder_model.segment_count] in S. rewrite EP in S.
    apply S; try assumption; try lia.
    unfold flavour_of in FL. destruct HC as [Ec|(Ec & _)]; rewrite Ec in FL.
    + rewrite FL. exact I.
    + destruct FL as (pad & Sp & ->). assert (X := F6 Ec pad Sp). lia.
  - intros HF. destruct (head_read single half c f32 HS bytes a kvs ts CV value r32 r16 RF EO HF) as (W2 & EH).
    assert (S := P_Loader.C102_lm_sound L junk V value P order _ true m HL M'). cbv zeta in S. rewrite Ehp, EC in S.
    cbn [ck_hp Encoder_model.hidden_dim] in S. rewrite EH in S.
    assert (vs := pv_some _ PV). apply S; try assumption; lia.
Qed.

(** A converted checkpoint evaluates: the encoder, on the parameters of the checkpoint. *)
Theorem C124_checkpoint_to_values : forall E (single half : E -> list N) (c : checkpoint E) f32 bytes L junk V
    (value : gty -> list N -> nat -> V) order r32 r16 P,
  readable_floats value single half r32 r16 -> ready c -> fits_ints c -> convert single half c f32 = Some bytes -> fits64 (N.of_nat (length bytes)) ->
  lib_ok L -> (forall l, Permutation l (order l)) -> Encoder_spec.row_ops_ok P ->
  exists m fl, load_bytes L junk value order (Some bytes) true = Ok (Loaded m) /\ flavour_of c fl /\
    forall toks segs count req last cells,
      let tokens := firstn count toks in
      let segments := Eval_spec.given_segments segs count in
      Eval_spec.arrays_ok toks segs count -> Forall (fun t => (t < 4294967296)%N) toks ->
      Eval_spec.valid_request (ck_hp c) tokens segments req -> 0 < length tokens ->
      Eval_spec.names_layer (N.to_nat (ck_layers c)) (Eval_model.output_layer req) last ->
      Eval_spec.fits (Encoder_model.get_context_buffer_size L (length tokens) (ck_hp c) (Eval_model.pool_type req)) last ->
      Eval_spec.encoder_nodes (Eval_model.pool_type req) last <= Ggml_model.graph_nodes L ->
      Eval_spec.known_tokens (N.to_nat (ck_vocab_size c)) tokens -> Eval_spec.enough_rows fl (N.to_nat (ck_positions c)) tokens ->
      length cells = Eval_spec.values (ck_hp c) (Eval_model.pool_type req) count ->
      let mat := matrix_of r32 r16 f32 (ck_state c) in
      let vec := vector_of r32 (ck_state c) in
      let embedding := Encoder_spec.s_embed P (ck_eps c)
        (mat (u "embeddings.word_embeddings.weight")) (mat (u "embeddings.position_embeddings.weight"))
        (mat (u "embeddings.token_type_embeddings.weight"))
        (vec (u "embeddings.LayerNorm.weight")) (vec (u "embeddings.LayerNorm.bias"))
        (Eval_spec.position_ids fl tokens) (map Z.of_N tokens) (map Z.of_N segments) in
      let states := fold_left (fun x y => Encoder_spec.s_layer P (ck_eps c) (N.to_nat (ck_heads c)) (N.to_nat (ck_hidden c) / N.to_nat (ck_heads c)) y x)
        (map (ck_block r32 r16 f32 c) (seq 0 last)) embedding in
      let result :=
        match Eval_model.pool_type req with
        | Encoder_model.PoolNone => concat states
        | p => concat (map (map (Ggml_model.p_tanh P))
                 (Encoder_spec.s_dense P (mat (u "pooler.dense.weight")) (vec (u "pooler.dense.bias")) [Encoder_spec.s_pooled P p states]))
        end in
      Eval_model.berts_eval P L (Eval_model.ELoaded (evaluator m)) toks segs count (Some req) (Some cells) (Some (N.of_nat (length cells))) =
      Ok (Eval_model.mkev true (Some result) (Some (N.of_nat (length result)))).
Proof.
  intros E single half c f32 bytes L junk V value order r32 r16 P RF RD FI H Hf HL HO HP.
  destruct (ready_loads single half c f32 bytes L junk V value order r32 r16 P RF RD FI H Hf HL HO HP) as (m & M & Ehp & FL & EC & S & _).
  exists m, (Eval_model.em_kind (evaluator m)). split; [exact M|]. split; [exact FL|].
  intros toks segs count req last cells tokens segments HA HT HV H0 HN HM HG HK HE HC mat vec embedding states result.
  assert (HR : Eval_spec.runnable P L (evaluator m) (N.to_nat (ck_vocab_size c)) (N.to_nat (ck_positions c)) (ck_params r32 r16 f32 c)
    tokens segments req last) by (constructor; rewrite ?Ehp; assumption).
  rewrite (P_Eval.C91_encoder_values P L (evaluator m) _ _ _ toks segs count req last cells HA HT HR HK HE ltac:(rewrite Ehp; exact HC)).
  rewrite Ehp. cbn [ck_hp Encoder_model.attn_heads Encoder_model.hidden_dim].
  assert (Hl : last <= N.to_nat (ck_layers c)) by (inversion HN; lia).
  assert (EB : firstn last (Encoder_spec.sm_blocks (ck_params r32 r16 f32 c)) = map (ck_block r32 r16 f32 c) (seq 0 last)).
  { unfold ck_params. cbn [Encoder_spec.sm_blocks]. rewrite firstn_map.
    replace (N.to_nat (ck_layers c)) with (last + (N.to_nat (ck_layers c) - last)) by lia.
    rewrite seq_app, firstn_app, seq_length, Nat.sub_diag, firstn_O, app_nil_r, firstn_all2; [reflexivity|rewrite seq_length; lia]. }
  rewrite EB. reflexivity.
Qed.
Print Assumptions C124_checkpoint_to_values.

Lemma x_bert_ready : ready x_bert.
Proof. constructor; [exact x_bert_storable|exact x_bert_vocab|exact x_bert_specials|exact x_bert_encoder|left; reflexivity]. Qed.
Lemma x_roberta_ready : ready x_roberta.
Proof.
  constructor; [exact x_roberta_storable|exact x_roberta_vocab|exact x_roberta_specials|exact x_roberta_encoder|right].
  split; [reflexivity|]. split; [exact (proj2 x_roberta_merges)|exact x_roberta_act].
Qed.
Lemma x_bert_ints : fits_ints x_bert.
Proof. constructor; [split; [reflexivity|discriminate]|reflexivity|reflexivity|reflexivity|discriminate|discriminate]. Qed.
Lemma x_roberta_ints : fits_ints x_roberta.
Proof.
  constructor; [split; [reflexivity|discriminate]|reflexivity|reflexivity|reflexivity|discriminate|].
  intros _ pad Hp. change (pad = 1%N) in Hp. subst pad. reflexivity.
Qed.

(** Both example checkpoints meet the conditions, and evaluate. *)
Definition x_eval (bs toks : list N) (p : Encoder_model.pooling) (n : nat) : outcome (Eval_model.evaluated Z) :=
  match load_bytes P_Eval.lib64 P_Loader.d_junk x_value (fun l => l) (Some bs) true with
  | Ok (Loaded m) => Eval_model.berts_eval P_Eval.zprim P_Eval.lib64 (Eval_model.ELoaded (evaluator m)) toks None (length toks)
      (Some (Eval_model.mkei (-1) p)) (Some (repeat 0%Z n)) (Some (N.of_nat n))
  | _ => Fail
  end.
Example C124_example :
  readable_floats x_value x_single x_half x_r32 x_r16 /\ ready x_bert /\ fits_ints x_bert /\ ready x_roberta /\ fits_ints x_roberta /\
  Eval_spec.valid_request (ck_hp x_bert) [0; 2; 1]%N [0; 0; 0]%N (Eval_model.mkei (-1) Encoder_model.PoolNone) /\
  Eval_spec.enough_rows (Encoder_model.Roberta 1) 4 [0; 2]%N /\
  x_eval x_bert_file [0; 2; 1]%N Encoder_model.PoolNone 6 = Ok (Eval_model.mkev true (Some [50; 125; 170; 245; 260; 335]%Z) (Some 6%N)) /\
  x_eval x_roberta_file [0; 2]%N Encoder_model.PoolNone 4 = Ok (Eval_model.mkev true (Some [255; 325; 375; 445]%Z) (Some 4%N)) /\
  x_eval (x_bytes x_bert true) [0; 2; 1]%N Encoder_model.PoolNone 6 =
    Ok (Eval_model.mkev true (Some [11659380; 7681895; 26114220; 17183855; 36955350; 24310325]%Z) (Some 6%N)).
Proof.
  split; [exact x_floats|]. split; [exact x_bert_ready|]. split; [exact x_bert_ints|]. split; [exact x_roberta_ready|].
  split; [exact x_roberta_ints|]. split.
  { constructor; try (cbn; lia); [repeat constructor|discriminate]. }
  split; [split; [lia|intros _; vm_compute; reflexivity]|].
  split; [vm_compute; reflexivity|]. split; vm_compute; reflexivity.
Qed.

(** * C125: from the checkpoint to the lines printed *)

(** The tool that fills masks, on a converted BERT checkpoint with a head: the most probable
    tokens under the checkpoint's own parameters. *)
Theorem C125_checkpoint_to_lines : forall E (single half : E -> list N) (c : checkpoint E) f32 bytes L junk V
    (value : gty -> list N -> nat -> V) order r32 r16 P (le : V -> V -> Prop) k engine ws pick sporder ji jt jv exe path,
  readable_floats value single half r32 r16 -> ready c -> fits_ints c -> head_fits c -> ck_class c = BertModel ->
  (0 < ck_layers c)%N -> (0 < ck_segments c)%N -> (forall s n, In s [K_cls; K_sep; K_unk] -> special_of c s n -> (n < ck_vocab_size c)%N) ->
  convert single half c f32 = Some bytes -> fits64 (N.of_nat (length bytes)) -> byte_string bytes -> (forall i, (junk i < 256)%N) ->
  lib_ok L -> (forall l, Permutation l (order l)) -> Encoder_spec.row_ops_ok P -> Fill_spec.tokens32 ji ->
  Eval_spec.sorts le (Ggml_model.p_zero P) (Ggml_model.p_argsort P) ->
  exists m v, load_bytes L junk value order (Some bytes) true = Ok (Loaded m) /\
    tokens_of c (v_tokens v) /\ special_of c K_mask (v_mask v) /\ cleaned_as c (v_cond v) /\
    forall k_str prompt z ids pos,
      Fill_spec.reads k_str z -> Fill_spec.is_int z -> (1 <= z <= Z.of_N (ck_vocab_size c))%Z ->
      valid_utf8 prompt -> berts_ids k v prompt = Ok ids -> length ids <= length prompt -> Fill_spec.only_at (v_mask v) ids pos ->
      length ids <= N.to_nat (ck_positions c) ->
      Eval_spec.fits (Encoder_model.get_context_buffer_size L (length ids) (ck_hp c) Encoder_model.PoolNone) (N.to_nat (ck_layers c)) ->
      Eval_spec.encoder_nodes Encoder_model.PoolNone (N.to_nat (ck_layers c)) <= Ggml_model.graph_nodes L ->
      Eval_spec.fits (Encoder_model.get_context_buffer_size_for_lm L (length ids) (ck_hp c) (N.to_nat (ck_vocab_size c))) 0 ->
      exists ls,
        Fill_model.fill_mask P L ji jt jv (fun _ => Fill_model.open k engine ws pick sporder (load_bytes L junk value order (Some bytes) true))
          [exe; path; k_str; prompt] = Ok (0%N, ls) /\
        Fill_spec.printed le P (Fill_model.api_of k engine ws pick sporder m) (Z.to_nat z)
          (Fill_spec.mask_row P (evaluator m) (ck_params r32 r16 f32 c) (ck_head r32 r16 f32 c) (Ggml_model.p_gelu P) ids pos) ls.
Proof.
  intros E single half c f32 bytes L junk V value order r32 r16 P le k engine ws pick sporder ji jt jv exe path
    RF RD FI HF Ec HL0 HS0 HSp H Hf Hb Hjk HL HO HP Hji Hso.
  destruct (ready_loads single half c f32 bytes L junk V value order r32 r16 P RF RD FI H Hf HL HO HP) as (m & M & Ehp & FL & EC & S & LS).
  assert (H32 := rf_single _ _ _ _ _ RF). assert (H16 := rf_half _ _ _ _ _ RF). destruct RD as [HS PV SP EO _].
  destruct (C121_bert_loads E single half c f32 bytes L junk V value order H32 H16 HS PV SP EO Ec H Hf HL) as (m' & v & M' & Mv & T & SO & CA & _).
  assert (Q : m' = m) by congruence. subst m'. clear M'.
  destruct (converted single half H32 H16 c f32 HS bytes H) as (a & kvs & ts & CV).
  destruct (encoder_read single half c f32 HS bytes a kvs ts CV value r32 r16 RF EO) as (WS & EP).
  destruct (head_read single half c f32 HS bytes a kvs ts CV value r32 r16 RF EO HF) as (W2 & EH).
  assert (EQ : load_bytes L junk value order (Some bytes) true = load_from_file L junk value order (Some (file_read kvs ts)) true).
  { unfold load_bytes. rewrite (cv_read single half c f32 bytes a kvs ts CV Hf). reflexivity. }
  assert (ET := to_length _ _ T). exists m, v. split; [exact M|]. split; [exact T|]. split; [apply SO; right; left; reflexivity|]. split; [exact CA|].
  intros k_str prompt z ids pos Hr Hi Hz Hu Hids Hlen Hm Hpos HM1 HG HM2.
  assert (BY : P_FillFile.bytes_only (file_read kvs ts) junk).
  { split; [|exact Hjk]. replace (f_bytes (file_read kvs ts)) with bytes; [exact Hb|]. cbn [file_read f_bytes]. exact (cv_bytes _ _ _ _ _ _ _ _ CV). }
  destruct (P_FillFile.C114_file_to_lines L junk V value le P order (file_read kvs ts) true m v (N.to_nat (ck_vocab_size c)) (N.to_nat (ck_positions c))
    k engine ws pick sporder ji jt jv exe path k_str prompt z ids pos HL BY Hji Hso) as (ls & E1 & E2).
  - rewrite <- EQ. exact M.
  - destruct FI as [[F1 F1'] F2 F3 F4 F5 F6]. assert (h2 := eo_h _ EO). assert (m2 := eo_m _ EO). assert (vs := pv_some _ PV).
    assert (EL : length (v_tokens v) = N.to_nat (ck_vocab_size c)) by lia.
    constructor; rewrite ?Ehp, ?EL; cbn [ck_hp Encoder_model.hidden_dim Encoder_model.n_layers Encoder_model.attn_heads
      Encoder_model.max_tokens Encoder_model.intermediate_dim Encoder_model.segment_count]; try assumption; try lia.
    + rewrite <- N2Nat.inj_div, <- N2Nat.inj_mul. f_equal. assert (D := N.div_mod (ck_hidden c) (ck_heads c) F1'). lia.
    + intros Q. rewrite Q in EL. cbn [length] in EL. lia.
    + rewrite N2Nat.id. split; [|split].
      * apply (HSp K_cls); [left; reflexivity|]. apply (SO K_cls). left. reflexivity.
      * apply (HSp K_sep); [right; left; reflexivity|]. apply (SO K_sep). do 3 right. left. reflexivity.
      * apply (HSp K_unk); [do 2 right; left; reflexivity|]. apply (SO K_unk). do 4 right. left. reflexivity.
  - exact Hr.
  - exact Hi.
  - lia.
  - exact Hu.
  - exact Hids.
  - exact Hlen.
  - exact Hm.
  - exists ls. rewrite EQ. split; [exact E1|]. rewrite Ehp, EH in E2. cbn [ck_hp Encoder_model.n_layers] in E2. rewrite EP in E2. exact E2.
Qed.
Print Assumptions C125_checkpoint_to_lines.

Definition x_fill (bs k_str prompt : list N) : outcome (N * list (Fill_model.line (V := Z))) :=
  Fill_model.fill_mask P_Eval.zprim P_Eval.lib64 (fun _ => 7%N) (fun _ => 8) (fun _ => 9%Z)
    (fun _ => Fill_model.open P_Bert.demo_icu (fun _ => []) (fun _ => false) (fun _ => None) (fun l => l)
       (load_bytes P_Eval.lib64 P_Loader.d_junk x_value (fun l => l) (Some bs) true))
    [u "fill_mask"; u "model"; k_str; prompt].
Example C125_example :
  head_fits x_bert /\ (forall s n, In s [K_cls; K_sep; K_unk] -> special_of x_bert s n -> (n < 7)%N) /\ byte_string x_bert_file /\
  Fill_spec.reads (u "2") 2 /\ valid_utf8 (u "[MASK]") /\ Fill_spec.only_at 2 [0; 2; 1]%N 1 /\
  match load_bytes P_Eval.lib64 P_Loader.d_junk x_value (fun l => l) (Some x_bert_file) true with
  | Ok (Loaded m) => match lo_vocab m with LBert v => berts_ids P_Bert.demo_icu v (u "[MASK]") = Ok [0; 2; 1]%N | _ => False end
  | _ => False end /\
  x_fill x_bert_file (u "2") (u "[MASK]") =
    Ok (0%N, [Fill_model.mkline (u "##x  ") 6 1661%Z; Fill_model.mkline (u "[UNK]") 5 980%Z]).
Proof.
  split; [exact x_bert_head|]. split.
  { intros s n [<-|[<-|[<-|[]]]] H.
    - change (n = 0%N) in H. subst n. reflexivity.
    - destruct H as (pre & s & post & _ & Hin & _). cbn [x_bert ck_vocab In] in Hin.
      repeat (destruct Hin as [Hin|Hin]; [apply (f_equal snd) in Hin; cbn [snd] in Hin; subst n; reflexivity|]). destruct Hin.
    - change (n = 5%N) in H. subst n. reflexivity. }
  split.
  { apply (forallb_Forall (fun b => b <? 256)%N); [intros b Hb; apply N.ltb_lt, Hb|vm_compute; reflexivity]. }
  destruct P_FillFile.C114_example as (_ & R & V & _ & O & _).
  split; [exact R|]. split; [exact V|]. split; [exact O|]. split; vm_compute; reflexivity.
Qed.

(** * C126: conversions that fail *)

(** What is converted: a BERT or RoBERTa model, with a known activation, numbers of 32 bits
    and, for BERT, no tokens that are never split. *)
Theorem C126_accepted : forall E (single half : E -> list N) (c : checkpoint E) f32 bytes, convert single half c f32 = Some bytes ->
  ck_class c <> OtherModel /\ (exists a, act_number c a) /\
  Forall (fun n => (n < 4294967296)%N)
    [ck_vocab_size c; ck_hidden c; ck_layers c; ck_heads c; ck_positions c; ck_inter c; ck_segments c] /\
  (ck_class c = BertModel -> ck_never_split c = 0).
Proof.
  intros E single half c f32 bytes H. unfold convert in H.
  assert (Hc : ck_class c <> OtherModel) by (intros Q; rewrite Q in H; discriminate H).
  destruct (pairs c f32) as [kvs|] eqn:Ep; [|destruct (ck_class c); discriminate H].
  destruct (pairs_inv c f32 kvs Ep) as (a & [A1 A2 _ _ A5] & _).
  split; [exact Hc|]. split; [exists a; apply act_spec; exact A1|]. split; [exact A2|exact A5].
Qed.
Print Assumptions C126_accepted.

(** A conversion that fails leaves an empty file, which the loader refuses; one of another
    class leaves what was there; one that succeeds leaves the new file. *)
Theorem C126_output : forall E (single half : E -> list N) (c : checkpoint E) f32 old,
  (ck_class c = OtherModel -> output single half old c f32 = old) /\
  (forall bytes, convert single half c f32 = Some bytes -> output single half old c f32 = Some bytes) /\
  (ck_class c <> OtherModel -> convert single half c f32 = None -> output single half old c f32 = Some [] /\
     forall L junk V (value : gty -> list N -> nat -> V) order reopen,
       load_bytes L junk value order (output single half old c f32) reopen = Ok (Null false)).
Proof.
  intros E single half c f32 old. unfold output. split; [intros ->; reflexivity|]. split.
  - intros bytes H. rewrite H. unfold convert in H. destruct (ck_class c); [reflexivity|reflexivity|discriminate H].
  - intros Hc H. rewrite H. assert (Q : (match ck_class c with OtherModel => old | _ => Some ([] : list N) end) = Some []).
    { destruct (ck_class c); [reflexivity|reflexivity|contradiction Hc; reflexivity]. }
    rewrite Q. split; [reflexivity|]. intros. apply P_Gguf.C116_not_a_model. intros (x & X). discriminate X.
Qed.
Print Assumptions C126_output.

(** A model that was at the output path is lost when the conversion fails. *)
Definition x_split : checkpoint N :=
  mkck N BertModel (u "demo/bert") 7 2 1 1 4 2 2 (u "gelu") 4427486594234968593 4581421828931458171 (ck_ids x_bert) (ck_flags x_bert) 1
    (ck_vocab x_bert) None (x_state 2 7) x_lm.
Theorem C126_old_model_kept_refuted : exists (c : checkpoint N) old m,
  load_bytes P_Eval.lib64 P_Loader.d_junk x_value (fun l => l) (Some old) true = Ok (Loaded m) /\
  convert x_single x_half c false = None /\
  load_bytes P_Eval.lib64 P_Loader.d_junk x_value (fun l => l) (output x_single x_half (Some old) c false) true = Ok (Null false).
Proof.
  exists x_split, x_bert_file. eexists. split; [vm_compute; reflexivity|]. split; [vm_compute; reflexivity|].
  apply C126_output; [discriminate|vm_compute; reflexivity].
Qed.
Print Assumptions C126_old_model_kept_refuted.

(** * C127: activations *)

(** Converted, but never loaded: a RoBERTa model with another activation than GELU. *)
Theorem C127_other_activation : forall E (single half : E -> list N) (c : checkpoint E) f32 bytes L junk V
    (value : gty -> list N -> nat -> V) order a m,
  (forall e, length (single e) = 4) -> (forall e, length (half e) = 2) -> storable c -> act_number c a -> a <> 0%N ->
  convert single half c f32 = Some bytes -> fits64 (N.of_nat (length bytes)) -> lib_ok L ->
  load_bytes L junk value order (Some bytes) true <> Ok (Loaded m).
Proof.
  intros E single half c f32 bytes L junk V value order a m H32 H16 HS HA Ha H Hf HL M.
  destruct (converted single half H32 H16 c f32 HS bytes H) as (b & kvs & ts & CV).
  unfold load_bytes in M. rewrite (cv_read single half c f32 bytes b kvs ts CV Hf) in M. cbn [snd] in M.
  destruct (loaded_inv L HL junk value order _ true m M) as (_ & made & arch & layers & _ & LD & _).
  assert (Q := l_act _ _ _ _ _ LD). destruct (sf_act _ _ _ (cv_settings single half c f32 HS bytes b kvs ts CV)) as (n & Hn & Q2).
  rewrite Q2 in Q. injection Q as ->. exact (Ha (act_one c a 0%N HA Hn)).
Qed.
Print Assumptions C127_other_activation.

(** A RoBERTa checkpoint whose activation is relu is converted; loading gives a null
    pointer. *)
Definition x_with (c : checkpoint N) (act : list N) (inter : N) (flags : Vocab_model.key -> option bool)
    (vocab : list (list N * N)) (state : list (list N * ptensor N)) : checkpoint N :=
  mkck N (ck_class c) (ck_repo c) (ck_vocab_size c) (ck_hidden c) (ck_layers c) (ck_heads c) (ck_positions c) inter (ck_segments c)
    act (ck_eps c) (ck_range c) (ck_ids c) flags (ck_never_split c) vocab (ck_merges c) state (ck_lm c).
Definition x_relu : checkpoint N := x_with x_roberta (u "ReLU") 2 (ck_flags x_roberta) (ck_vocab x_roberta) (ck_state x_roberta).
Theorem C127_activation_refuted : exists (c : checkpoint N) bytes, ck_class c = RobertaModel /\ act_number c 1 /\
  storable c /\ proper_vocab c /\ specials_ok c /\ encoder_ok c /\ proper_merges c /\
  convert x_single x_half c false = Some bytes /\
  forall value : gty -> list N -> nat -> Z, load_bytes P_Eval.lib64 P_Loader.d_junk value (fun l => l) (Some bytes) true = Ok (Null false).
Proof.
  exists x_relu, (x_bytes x_relu false). split; [reflexivity|]. split.
  { exists (u "relu"). split; [right; left; reflexivity|]. apply Forall2_cons; [right; split; [split; discriminate|reflexivity]|].
    apply Forall2_cons; [left; split; [reflexivity|intros (A & B); vm_compute in B; congruence]|].
    apply Forall2_cons; [right; split; [split; discriminate|reflexivity]|].
    apply Forall2_cons; [right; split; [split; discriminate|reflexivity]|]. constructor. }
  split; [destruct x_roberta_storable; constructor; assumption|].
  split; [destruct x_roberta_vocab; constructor; assumption|].
  split; [exact x_roberta_specials|].
  split; [destruct x_roberta_encoder; constructor; assumption|].
  split; [destruct x_roberta_merges as (_ & [M1 M2 M3]); constructor; assumption|].
  split; [vm_compute; reflexivity|]. intros value. vm_compute. reflexivity.
Qed.
Print Assumptions C127_activation_refuted.

(** * C128: extents of 1 *)

(** An intermediate size of 1: every parameter has the shape of the configuration; the
    output matrix of h x 1 loses an extent, and evaluation stops the process. *)
Definition x_thin : list (list N * ptensor N) :=
  map (fun x => if list_N_eqb (fst x) (u "encoder.layer.0.intermediate.dense.weight") then (fst x, mkpt [1; 2] [2; 0]%N)
                else if list_N_eqb (fst x) (u "encoder.layer.0.intermediate.dense.bias") then (fst x, mkpt [1] [0]%N)
                else if list_N_eqb (fst x) (u "encoder.layer.0.output.dense.weight") then (fst x, mkpt [2; 1] [2; 0]%N)
                else x) (x_state 2 7).
Definition x_one : checkpoint N := x_with x_bert (u "gelu") 1 (ck_flags x_bert) (ck_vocab x_bert) x_thin.
Theorem C128_any_extent_refuted : exists (c : checkpoint N) bytes,
  (2 <= ck_hidden c)%N /\ ck_inter c = 1%N /\ layer_ok (ck_state c) 2 1 0 /\ proper_vocab c /\ specials_ok c /\
  convert x_single x_half c false = Some bytes /\ x_eval bytes [0; 2; 1]%N Encoder_model.PoolNone 6 = Abort.
Proof.
  exists x_one, (x_bytes x_one false). split; [discriminate|]. split; [reflexivity|]. split.
  { constructor; try (apply Forall_forall; intros s Hs; cbn [In] in Hs; repeat (destruct Hs as [<-|Hs])); try (destruct Hs);
    (eexists; split; [vm_compute; repeat first [left; reflexivity | right]|reflexivity]). }
  split; [destruct x_bert_vocab; constructor; assumption|]. split; [exact x_bert_specials|].
  split; vm_compute; reflexivity.
Qed.
Print Assumptions C128_any_extent_refuted.

(** * C129: basic tokenization switched off *)

(** transformers leaves words as they are then; the loaded model lower-cases them all the
    same, which (C11) removes them: a word of the vocabulary gives no id. *)
Definition x_plain : checkpoint N :=
  x_with x_bert (u "gelu") 2 (fun k => match k with K_basic => Some false | K_lower => Some true | _ => None end)
    [(u "[CLS]", 0%N); (u "[SEP]", 1%N); (u "[MASK]", 2%N); (u "[PAD]", 3%N); (u "a", 4%N); (u "[UNK]", 5%N); (u "##x", 6%N)] (x_state 2 7).
Theorem C129_letters_kept_refuted : exists (c : checkpoint N) bytes m v,
  ck_class c = BertModel /\ ck_flags c K_basic = Some false /\ In (u "a", 4%N) (ck_vocab c) /\
  convert x_single x_half c false = Some bytes /\
  load_bytes P_Eval.lib64 P_Loader.d_junk x_value (fun l => l) (Some bytes) true = Ok (Loaded m) /\ lo_vocab m = LBert v /\
  berts_ids P_Bert.demo_icu v (u "a") = Ok [0; 1]%N.
Proof.
  exists x_plain, (x_bytes x_plain false). eexists _, _. split; [reflexivity|]. split; [reflexivity|].
  split; [do 4 right; left; reflexivity|].
  split; [vm_compute; reflexivity|]. split; [vm_compute; reflexivity|]. split; [reflexivity|]. vm_compute. reflexivity.
Qed.
Print Assumptions C129_letters_kept_refuted.
