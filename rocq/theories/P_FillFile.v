(** The mask filling tool on model files. *)
From Verif Require Import Base Utf_model Utf_spec Utf_proofs Bert_model Vocab_model Vocab_spec Vocab_proofs Bpe_model Roberta_model Loader_model Loader_spec Loader_proofs.
From Verif Require Ggml_model Encoder_model Encoder_spec Eval_model Eval_spec Api_model P_Eval P_Loader P_Bert Bert_proofs.
From Verif Require Tool_spec Fill_model Fill_spec Fill_proofs P_Fill.
Local Open Scope nat_scope.

(** ** Vocabularies of loaded files *)

(** A file and memory are made of bytes. *)
Definition bytes_only (f : file) (junk : nat -> N) : Prop :=
  Forall (fun b => (b < 256)%N) (f_bytes f) /\ forall i, (junk i < 256)%N.

Lemma memory_bytes f junk t : bytes_only f junk -> Forall (fun b => (b < 256)%N) (memory_of junk f t).
Proof.
  intros (Hf & Hj). unfold memory_of, region. apply Forall_app. split.
  - apply Forall_forall. intros b Hb. rewrite Forall_forall in Hf. apply Hf.
    rewrite <- (firstn_skipn (N.to_nat (f_data f + ti_offset t))). apply in_or_app. right.
    rewrite <- (firstn_skipn (N.to_nat (nbytes t))). apply in_or_app. left. exact Hb.
  - apply Forall_forall. intros b Hb. apply in_map_iff in Hb as (i & <- & _). apply Hj.
Qed.

Lemma read_vocab_tokens junk f v : bytes_only f junk ->
  read_vocab (vocab_at junk f (u "berts.vocab.size")) (vocab_at junk f (u "berts.vocab.data")) = Ok v ->
  Forall (fun t => 1 <= length t <= 256) (i2t v) /\ NoDup (i2t v).
Proof.
  intros Hb H. unfold vocab_at in H.
  destruct (named f (u "berts.vocab.size")) as [ts|]; [|discriminate H].
  destruct (named f (u "berts.vocab.data")) as [td|]; [|destruct (ti_type ts); discriminate H].
  assert (X : exists lens data, Forall (fun b => (b < 256)%N) lens /\ read_vocab (i8 lens) (i8 data) = Ok v).
  { exists (memory_of junk f ts), (memory_of junk f td). split; [apply memory_bytes, Hb|].
    unfold read_vocab in H |- *. unfold i8. cbn [t_dims t_type t_data].
    destruct (ti_type ts), (ti_type td); cbn [t_dims t_type t_data] in H;
      try (destruct (negb (ti_dims ts =? 1)%N || negb (ti_dims td =? 1)%N)%bool; discriminate H).
    destruct (negb (ti_dims ts =? 1)%N || negb (ti_dims td =? 1)%N)%bool; [discriminate H|]. exact H. }
  destruct X as (lens & data & HB & HR). destruct (read_vocab_ok lens data v HB HR) as (l & LY & (-> & ND & _)).
  split; [|exact ND]. clear - LY. induction LY; constructor; assumption.
Qed.

Lemma all_some_each {A} (l : list (option A)) r : all_some l = Some r -> forall x, In x l -> x <> None.
Proof.
  revert r. induction l as [|[a|] l IH]; intros r H x Hx; [destruct Hx| |discriminate H].
  cbn [all_some] in H. destruct (all_some l) as [r'|]; [|discriminate H]. destruct Hx as [<-|Hx]; [discriminate|exact (IH r' eq_refl x Hx)].
Qed.

(** Everything a loaded BERT vocabulary satisfies. *)
Lemma bert_vocab_facts junk order f arch v : bytes_only f junk -> vocabulary junk order f arch = Ok (LBert v) ->
  Forall (fun t => 1 <= length t <= 256) (v_tokens v) /\ NoDup (v_tokens v) /\ Forall valid_utf8 (v_tokens v) /\
  v_cls v <> INVALID /\ v_mask v <> INVALID /\ v_sep v <> INVALID.
Proof.
  intros Hb H. unfold vocabulary in H. destruct (arch =? 0)%N.
  2:{ destruct (roberta_init_vocab _ _ _ _ _); discriminate H. }
  destruct (bert_init_vocab _ _ _) as [b| | |] eqn:E; try discriminate H. injection H as ->.
  unfold bert_init_vocab in E. destruct (read_vocab _ _) as [w| | |] eqn:Ew; try discriminate E. cbn [obind] in E.
  destruct (read_vocab_tokens junk f w Hb Ew) as (HT & HN). unfold bert_vocab_init in E.
  do 5 (match type of E with obind ?o _ = _ => destruct o; try discriminate E end; cbn [obind] in E).
  destruct (_ || _)%bool eqn:Eo in E; [discriminate E|].
  do 4 (match type of E with obind ?o _ = _ => destruct o; try discriminate E end; cbn [obind] in E).
  destruct (all_some (map from_utf8 (i2t w))) as [r|] eqn:Es; [|discriminate E].
  destruct (length (i2t w) =? 0); [discriminate E|]. injection E as <-. cbn [v_tokens v_cls v_mask v_sep].
  split; [exact HT|]. split; [exact HN|]. split.
  - apply Forall_forall. intros t Ht. apply valid_utf8_iff. assert (X := all_some_each _ _ Es (from_utf8 t) (in_map _ _ _ Ht)).
    destruct (from_utf8 t) as [us|]; [exists us; reflexivity|congruence].
  - lia.
Qed.

Lemma roberta_vocab_facts junk order f arch v : bytes_only f junk -> vocabulary junk order f arch = Ok (LRoberta v) ->
  Forall (fun t => 1 <= length t <= 256) (i2t (rv_voc v)) /\ NoDup (i2t (rv_voc v)) /\ Forall valid_utf8 (i2t (rv_voc v)) /\
  r_cls (rv_sp v) <> INVALID /\ r_mask (rv_sp v) <> INVALID /\ r_sep (rv_sp v) <> INVALID.
Proof.
  intros Hb H. unfold vocabulary in H. destruct (arch =? 0)%N.
  { destruct (bert_init_vocab _ _ _); discriminate H. }
  destruct (roberta_init_vocab _ _ _ _ _) as [b| | |] eqn:E; try discriminate H. injection H as ->.
  unfold roberta_init_vocab in E. destruct (read_vocab _ _) as [w| | |] eqn:Ew; try discriminate E. cbn [obind] in E.
  destruct (read_vocab_tokens junk f w Hb Ew) as (HT & HN). unfold roberta_vocab_init in E.
  destruct (roberta_specials _ _) as [sp| | |] eqn:Esp; try discriminate E. cbn [obind] in E.
  destruct (r_id_to_token w (r_unk sp)) as [unk| | |]; try discriminate E. cbn [obind] in E.
  destruct (dec8 unk) as [unk'|]; [|discriminate E]. destruct (bpe_words w) as [ws|] eqn:Ebw; [|discriminate E].
  destruct (read_merges _) as [ms| | |]; try discriminate E. cbn [obind] in E.
  destruct (load_vocab _ _ _) as ([|] & bp); [|discriminate E]. injection E as <-. cbn [rv_voc rv_sp].
  split; [exact HT|]. split; [exact HN|]. split.
  - unfold bpe_words in Ebw. destruct (all_some (map _ (i2t w))) as [r|] eqn:Es; [|discriminate Ebw].
    apply Forall_forall. intros t Ht. apply valid_utf8_iff. assert (X := all_some_each _ _ Es _ (in_map _ _ _ Ht)).
    unfold from_utf8. destruct (dec8 t) as [us|]; [eexists; reflexivity|congruence].
  - unfold roberta_specials in Esp.
    do 7 (match type of Esp with obind ?o _ = _ => destruct o; try discriminate Esp end; cbn [obind] in Esp).
    cbv zeta in Esp. destruct (_ || _)%bool eqn:Eo in Esp; [discriminate Esp|]. injection Esp as <-. cbn [r_cls r_mask r_sep]. lia.
Qed.

Lemma decode_length t : valid_utf8 t -> exists b, decode_token t = Ok b /\ length b <= length t.
Proof.
  intros H. apply valid_utf8_iff in H as (us & E). unfold decode_token. rewrite E. eexists. split; [reflexivity|].
  unfold from_utf8 in E. destruct (dec8 t) as [cs|] eqn:Ed; [|discriminate E]. injection E as <-.
  destruct (dec8_some _ _ Ed) as (<- & Hs). rewrite map_length, codepoints_enc16s by exact Hs. clear Ed.
  induction Hs as [|c cs Hc Hs IH]; [cbn; lia|]. unfold enc8s in *. cbn [flat_map]. rewrite app_length. cbn [length].
  assert (1 <= length (enc8 c)) by (unfold enc8; destruct (c <? 128)%N, (c <? 2048)%N, (c <? 65536)%N; cbn [length]; lia). lia.
Qed.

(** * C113: every id below the vocabulary size has a text of at most 256 bytes *)
Theorem C113_token_texts : forall L junk V (value : gty -> list N -> nat -> V) order f reopen m
    k engine ws pick sporder,
  lib_ok L -> bytes_only f junk -> load_from_file L junk value order (Some f) reopen = Ok (Loaded m) ->
  let a := Fill_model.api_of k engine ws pick sporder m in
  Api_model.m_count a = N.of_nat (Eval_model.em_vocab_count (evaluator m)) /\
  Api_model.m_cls a <> INVALID /\ Api_model.m_mask a <> INVALID /\ Api_model.m_sep a <> INVALID /\
  forall id, (id < Api_model.m_count a)%N -> exists t, Api_model.m_id_to_token a id = Ok t /\ length t <= 256.
Proof.
  intros L junk V value order f reopen m k engine ws pick sporder HL Hb H a.
  destruct (loaded_inv L HL junk value order f reopen m H) as (_ & made & arch & layers & _ & _ & _ & _ & Hv & _).
  unfold a, Fill_model.api_of, evaluator. destruct (lo_vocab m) as [v|v].
  - destruct (bert_vocab_facts junk order f arch v Hb Hv) as (HT & _ & _ & H1 & H2 & H3).
    cbn [Api_model.m_count Api_model.m_cls Api_model.m_mask Api_model.m_sep Api_model.m_id_to_token Eval_model.em_vocab_count].
    repeat (split; [assumption || reflexivity|]). intros id Hid. eexists. split; [reflexivity|]. unfold bv_token.
    rewrite Forall_forall in HT. apply HT. apply nth_In. lia.
  - destruct (roberta_vocab_facts junk order f arch v Hb Hv) as (HT & _ & HU & H1 & H2 & H3).
    cbn [Api_model.m_count Api_model.m_cls Api_model.m_mask Api_model.m_sep Api_model.m_id_to_token Eval_model.em_vocab_count].
    repeat (split; [assumption || reflexivity|]). intros id Hid. unfold r_id_to_token, id_to_token.
    replace (N.of_nat (length (i2t (rv_voc v))) <=? id)%N with false by lia.
    assert (Hin : In (nth (N.to_nat id) (i2t (rv_voc v)) []) (i2t (rv_voc v))) by (apply nth_In; lia).
    rewrite Forall_forall in HT, HU. destruct (decode_length _ (HU _ Hin)) as (b & E & HB). exists b. split; [exact E|].
    specialize (HT _ Hin). cbv beta in HT. lia.
Qed.
Print Assumptions C113_token_texts.

(** * C114: from the file and the prompt to the lines printed *)

(** A BERT file the tool can work with, and limits of the tensor library. *)
Record usable {V} (value : gty -> list N -> nat -> V) (P : Ggml_model.prim V) (L : Ggml_model.lib)
    (f : file) (m : loaded (V := V)) (v : bvocab) (words rows n : nat) : Prop := {
  us_vocab : lo_vocab m = LBert v;
  us_shaped : let hp := Eval_model.em_hp (evaluator m) in
    well_shaped f (Encoder_model.hidden_dim hp) (Encoder_model.intermediate_dim hp) (Encoder_model.n_layers hp)
      (Encoder_model.segment_count hp) words rows;
  us_head : head_shaped f (Encoder_model.hidden_dim (Eval_model.em_hp (evaluator m))) (length (v_tokens v));
  us_heads : let hp := Eval_model.em_hp (evaluator m) in
    Encoder_model.hidden_dim hp = Encoder_model.hidden_dim hp / Encoder_model.attn_heads hp * Encoder_model.attn_heads hp;
  us_hidden : 0 < Encoder_model.hidden_dim (Eval_model.em_hp (evaluator m));
  us_inter : 0 < Encoder_model.intermediate_dim (Eval_model.em_hp (evaluator m));
  us_segs : 0 < Encoder_model.segment_count (Eval_model.em_hp (evaluator m));
  us_layers : 0 < Encoder_model.n_layers (Eval_model.em_hp (evaluator m));
  us_rows : Encoder_spec.row_ops_ok P;
  us_b1 : (N.of_nat (Encoder_model.hidden_dim (Eval_model.em_hp (evaluator m))) < 4294967296)%N;
  us_b2 : (N.of_nat (Encoder_model.max_tokens (Eval_model.em_hp (evaluator m))) < 2147483648)%N;
  us_b3 : (N.of_nat (Encoder_model.segment_count (Eval_model.em_hp (evaluator m))) < 2147483648)%N;
  us_b4 : (N.of_nat words <= 2147483648)%N;
  us_b5 : (N.of_nat rows <= 2147483648)%N;
  us_words : length (v_tokens v) <= words;
  us_some : v_tokens v <> [];
  us_special : (v_cls v < N.of_nat words /\ v_sep v < N.of_nat words /\ v_unk v < N.of_nat words)%N;
  us_max : n <= Encoder_model.max_tokens (Eval_model.em_hp (evaluator m));
  us_positions : n <= rows;
  us_fits : Eval_spec.fits (Encoder_model.get_context_buffer_size L n (Eval_model.em_hp (evaluator m)) Encoder_model.PoolNone)
              (Encoder_model.n_layers (Eval_model.em_hp (evaluator m)));
  us_nodes : Eval_spec.encoder_nodes Encoder_model.PoolNone (Encoder_model.n_layers (Eval_model.em_hp (evaluator m))) <= Ggml_model.graph_nodes L;
  us_lm_fits : Eval_spec.fits (Encoder_model.get_context_buffer_size_for_lm L n (Eval_model.em_hp (evaluator m)) (length (v_tokens v))) 0
}.

Theorem C114_file_to_lines : forall L junk V (value : gty -> list N -> nat -> V) (le : V -> V -> Prop) P order f reopen m v
    words rows k engine ws pick sporder ji jt jv exe path k_str prompt z ids pos,
  lib_ok L -> bytes_only f junk -> Fill_spec.tokens32 ji -> Eval_spec.sorts le (Ggml_model.p_zero P) (Ggml_model.p_argsort P) ->
  load_from_file L junk value order (Some f) reopen = Ok (Loaded m) ->
  usable value P L f m v words rows (length ids) ->
  Fill_spec.reads k_str z -> Fill_spec.is_int z -> (1 <= z <= Z.of_nat (length (v_tokens v)))%Z ->
  valid_utf8 prompt -> berts_ids k v prompt = Ok ids -> length ids <= length prompt -> Fill_spec.only_at (v_mask v) ids pos ->
  exists ls,
    Fill_model.fill_mask P L ji jt jv
      (fun _ => Fill_model.open k engine ws pick sporder (load_from_file L junk value order (Some f) reopen))
      [exe; path; k_str; prompt] = Ok (0%N, ls) /\
    Fill_spec.printed le P (Fill_model.api_of k engine ws pick sporder m) (Z.to_nat z)
      (Fill_spec.mask_row P (evaluator m) (file_params value f (Encoder_model.n_layers (Eval_model.em_hp (evaluator m))))
         (file_head value f) (Ggml_model.p_gelu P) ids pos) ls.
Proof.
  intros L junk V value le P order f reopen m v words rows k engine ws pick sporder ji jt jv exe path k_str prompt z ids pos
    HL Hb Hj Hso H Hu Hz Hi Hk Hp Hids Hroom Hm.
  destruct (loaded_inv L HL junk value order f reopen m H) as (_ & made & arch & layers & _ & _ & _ & _ & Hv & _).
  destruct (C113_token_texts L junk V value order f reopen m k engine ws pick sporder HL Hb H) as (HC & H1 & _ & H3 & HT).
  set (a := Fill_model.api_of k engine ws pick sporder m) in *.
  assert (EV := us_vocab _ _ _ _ _ _ _ _ _ Hu). rewrite EV in Hv.
  assert (EC : Eval_model.em_vocab_count (evaluator m) = length (v_tokens v)) by (unfold evaluator; rewrite EV; reflexivity).
  assert (EK : Eval_model.em_kind (evaluator m) = Encoder_model.Bert) by (unfold evaluator; rewrite EV; reflexivity).
  destruct (bert_vocab_facts junk order f arch v Hb Hv) as (_ & _ & HU & G1 & G2 & G3).
  assert (Ea : Api_model.m_tokenize a = model_tokenize k v /\ Api_model.m_cls a = v_cls v /\ Api_model.m_sep a = v_sep v /\ Api_model.m_mask a = v_mask v).
  { unfold a, Fill_model.api_of. rewrite EV. repeat split. }
  destruct Ea as (E1 & E2 & E3 & E4).
  assert (Hst : Fill_spec.token_ids a prompt = Ok ids).
  { unfold Fill_spec.token_ids. rewrite E1, E2, E3. unfold berts_ids in Hids.
    replace (v_cls v =? INVALID)%N with false in Hids by lia. replace (v_sep v =? INVALID)%N with false in Hids by lia. exact Hids. }
  destruct (us_special _ _ _ _ _ _ _ _ _ Hu) as (S1 & S2 & S3).
  assert (Hwb := us_b4 _ _ _ _ _ _ _ _ _ Hu). assert (Hle := us_words _ _ _ _ _ _ _ _ _ Hu).
  assert (HK : Forall (fun t => (t < N.of_nat words)%N) ids).
  { destruct (P_Bert.C12_bracketed_ids k v prompt HU ltac:(unfold INVALID; lia) G1 G3 Hp) as (inner & E & HI).
    rewrite E in Hids. injection Hids as <-. cbn [app]. constructor; [exact S1|]. apply Forall_app. split.
    - eapply Forall_impl; [|exact HI]. intros i [Hlt| ->]; [lia|exact S3].
    - constructor; [exact S2|constructor]. }
  assert (HN : 0 < length ids). { destruct Hm as (Hm & _). destruct ids; [destruct pos; discriminate Hm|cbn; lia]. }
  set (e := evaluator m) in *. set (hp := Eval_model.em_hp e) in *.
  assert (Hsound : Eval_spec.sound P e words rows (file_params value f (Encoder_model.n_layers hp))).
  { apply (P_Loader.C102_sound L junk V value P order f reopen m words rows HL H); fold e; fold hp.
    - exact (us_shaped _ _ _ _ _ _ _ _ _ Hu).
    - exact (us_heads _ _ _ _ _ _ _ _ _ Hu).
    - exact (us_hidden _ _ _ _ _ _ _ _ _ Hu).
    - exact (us_inter _ _ _ _ _ _ _ _ _ Hu).
    - exact (us_rows _ _ _ _ _ _ _ _ _ Hu).
    - exact (us_b1 _ _ _ _ _ _ _ _ _ Hu).
    - exact (us_b2 _ _ _ _ _ _ _ _ _ Hu).
    - exact (us_b3 _ _ _ _ _ _ _ _ _ Hu).
    - exact Hwb.
    - exact (us_b5 _ _ _ _ _ _ _ _ _ Hu).
    - rewrite EK. exact I. }
  apply (P_Fill.C109_most_probable V le P L ji jt jv _ exe path k_str prompt z (Fill_model.mkopened a e) words rows
    (file_params value f (Encoder_model.n_layers hp)) (file_head value f) (Ggml_model.p_gelu P) ids pos Hz Hi).
  - lia.
  - unfold Fill_model.open. rewrite H. reflexivity.
  - cbn [Fill_model.op_api]. rewrite HC. lia.
  - exact Hj.
  - constructor; cbn [Fill_model.op_api Fill_model.op_eval]; try assumption.
    + rewrite E4. exact Hm.
    + eapply Forall_impl; [|exact HK]. intros t Ht. cbv beta in Ht. lia.
    + constructor; cbn [Eval_model.pool_type Eval_model.output_layer].
      * exact Hsound.
      * constructor; cbn [Eval_model.pool_type Eval_model.output_layer].
        -- exact (us_max _ _ _ _ _ _ _ _ _ Hu).
        -- apply repeat_length.
        -- apply Forall_forall. intros s Hs. apply repeat_spec in Hs. subst s.
           assert (X := us_segs _ _ _ _ _ _ _ _ _ Hu). fold e in X. lia.
        -- discriminate.
        -- assert (X := us_layers _ _ _ _ _ _ _ _ _ Hu). fold e in X. lia.
      * exact HN.
      * fold hp. replace (Encoder_model.n_layers hp) with (Encoder_model.n_layers hp + 1 - 1) at 2 by lia.
        apply (Eval_spec.names_backward (Encoder_model.n_layers hp) 1); [lia|].
        exact (us_layers _ _ _ _ _ _ _ _ _ Hu).
      * exact (us_fits _ _ _ _ _ _ _ _ _ Hu).
      * exact (us_nodes _ _ _ _ _ _ _ _ _ Hu).
    + rewrite EK. exact (us_positions _ _ _ _ _ _ _ _ _ Hu).
  - constructor; cbn [Fill_model.op_api Fill_model.op_eval]; try assumption.
    + apply (P_Loader.C102_lm_sound L junk V value P order f reopen m HL H); fold e; fold hp; rewrite ?EC.
      * exact (us_head _ _ _ _ _ _ _ _ _ Hu).
      * exact (us_hidden _ _ _ _ _ _ _ _ _ Hu).
      * assert (X := us_some _ _ _ _ _ _ _ _ _ Hu). destruct (v_tokens v); [congruence|cbn; lia].
      * lia.
      * exact (us_rows _ _ _ _ _ _ _ _ _ Hu).
    + constructor.
      * exact HN.
      * assert (X := us_max _ _ _ _ _ _ _ _ _ Hu). assert (Y := us_b2 _ _ _ _ _ _ _ _ _ Hu). fold e in X, Y. lia.
      * rewrite EC. exact (us_lm_fits _ _ _ _ _ _ _ _ _ Hu).
      * assert (X := us_nodes _ _ _ _ _ _ _ _ _ Hu). unfold Eval_spec.encoder_nodes in X.
        assert (Y := us_layers _ _ _ _ _ _ _ _ _ Hu). lia.
Qed.
Print Assumptions C114_file_to_lines.

(** ** A file with the token "##x" *)
Definition e_tokens : list (list N) := [u "[CLS]"; u "[SEP]"; u "[MASK]"; u "[PAD]"; u "[UNK]"; u "##x"].
Definition e_pieces : list P_Loader.piece :=
  [P_Loader.mkpiece (u "berts.vocab.size") TI8 6 1 [5; 5; 6; 5; 5; 3]%N;
   P_Loader.mkpiece (u "berts.vocab.data") TI8 29 1 (concat e_tokens)] ++
  P_Loader.mat (u "berts.bert.embeddings.word_embeddings.weight") 6 2 [1;2;3;4;5;6;7;8;9;10;11;12]%N ::
  P_Loader.d_rest ++ P_Loader.d_layer ++ P_Loader.d_pooler ++
  [P_Loader.mat (u "berts.bert.predictions.transform.dense.weight") 2 2 [1;0;0;1]%N;
   P_Loader.vec (u "berts.bert.predictions.transform.dense.bias") [0;0]%N;
   P_Loader.vec (u "berts.bert.predictions.transform.LayerNorm.weight") [1;1]%N;
   P_Loader.vec (u "berts.bert.predictions.transform.LayerNorm.bias") [0;0]%N;
   P_Loader.mat (u "berts.bert.predictions.decoder.weight") 6 2 [1;0;0;1;1;1;0;0;2;0;0;3]%N;
   P_Loader.vec (u "berts.bert.predictions.decoder.bias") [0;0;0;0;3;0]%N].
Definition e_file : file :=
  let '(ts, bs) := P_Loader.lay 0 e_pieces in mkfile (P_Loader.d_set 0 0) P_Loader.no_tok ts 64 (repeat 0%N 64 ++ bs).
Definition e_open (f : file) : outcome (option (Fill_model.opened (V := Z))) :=
  Fill_model.open P_Bert.demo_icu (fun _ => []) (fun _ => false) (fun _ => None) (fun l => l) (P_Loader.d_load f).
Definition e_fill (k_str prompt : list N) : outcome (N * list (Fill_model.line (V := Z))) :=
  Fill_model.fill_mask P_Eval.zprim P_Eval.lib64 (fun _ => 7%N) (fun _ => 8) (fun _ => 9%Z) (fun _ => e_open e_file)
    [u "fill_mask"; u "model"; k_str; prompt].

Lemma e_matrix n r c t : named e_file n = Some t -> ti_ne0 t = c /\ ti_ne1 t = r /\ ti_ne2 t = 1 /\ ti_ne3 t = 1 ->
  (f_data e_file + ti_offset t + nbytes t <=? N.of_nat (length (f_bytes e_file)))%N = true -> matrix_at e_file r c n.
Proof. intros H1 (H2 & H3 & H4 & H5) H6. exists t. unfold contained. apply N.leb_le in H6. auto 10. Qed.
Lemma e_vector n c t : named e_file n = Some t -> ti_type t = TF32 -> ti_ne0 t = c /\ ti_ne1 t = 1 /\ ti_ne2 t = 1 /\ ti_ne3 t = 1 ->
  (f_data e_file + ti_offset t + nbytes t <=? N.of_nat (length (f_bytes e_file)))%N = true -> vector_at e_file c n.
Proof. intros H1 H0 (H2 & H3 & H4 & H5) H6. exists t. unfold contained. apply N.leb_le in H6. auto 10. Qed.
Ltac e_mat := eapply e_matrix; [vm_compute; reflexivity|vm_compute; repeat split|vm_compute; reflexivity].
Ltac e_vec := eapply e_vector; [vm_compute; reflexivity|reflexivity|vm_compute; repeat split|vm_compute; reflexivity].

Lemma e_shaped : well_shaped e_file 2 2 1 2 6 4.
Proof.
  constructor; try e_mat; try e_vec; [repeat constructor; e_vec|].
  intros n Hn. replace n with 0 by lia. constructor; try e_mat; try e_vec; repeat constructor; first [e_mat|e_vec].
Qed.
Lemma e_head_shaped : head_shaped e_file 2 6.
Proof. constructor; try e_mat; try e_vec; repeat constructor; e_vec. Qed.

Definition e_bv : bvocab := mkbv e_tokens 0 2 3 1 4 (make_info true true true true).

Lemma e_facts m : P_Loader.d_load e_file = Ok (Loaded m) ->
  lo_vocab m = LBert e_bv /\ Eval_model.em_hp (evaluator m) = Encoder_model.mkhp 2 1 1 4 2 2 Encoder_model.Gelu 4427486594234968593.
Proof.
  intros E. assert (C : match P_Loader.d_load e_file with
    | Ok (Loaded m) => lo_vocab m = LBert e_bv /\ Eval_model.em_hp (evaluator m) = Encoder_model.mkhp 2 1 1 4 2 2 Encoder_model.Gelu 4427486594234968593
    | _ => True end) by (vm_compute; split; reflexivity).
  rewrite E in C. exact C.
Qed.

Lemma e_bytes : bytes_only e_file P_Loader.d_junk.
Proof.
  split; [|intros i; reflexivity]. apply Forall_forall. intros b Hb. apply N.ltb_lt. revert b Hb. apply Forall_forall.
  apply P_Loader.forallb_Forall. vm_compute. reflexivity.
Qed.

(** The file meets every condition. *)
Example C114_example :
  match P_Loader.d_load e_file with
  | Ok (Loaded m) => usable P_Loader.d_value P_Eval.zprim P_Eval.lib64 e_file m e_bv 6 4 3
  | _ => False
  end /\
  Fill_spec.reads (u "2") 2 /\ valid_utf8 (u "[MASK]") /\ berts_ids P_Bert.demo_icu e_bv (u "[MASK]") = Ok [0; 2; 1]%N /\
  Fill_spec.only_at 2 [0; 2; 1]%N 1 /\
  e_fill (u "2") (u "[MASK]") =
    Ok (0%N, [Fill_model.mkline (u "##x   ") 5 21723252%Z; Fill_model.mkline (u "[MASK]") 2 8860132%Z]).
Proof.
  split.
  { destruct (P_Loader.d_load e_file) as [[m|]| | |] eqn:E; try (vm_compute in E; discriminate E).
    destruct (e_facts m E) as (X1 & X2).
    constructor; rewrite ?X2.
    - exact X1.
    - exact e_shaped.
    - exact e_head_shaped.
    - reflexivity.
    - cbn; lia.
    - cbn; lia.
    - cbn; lia.
    - cbn; lia.
    - exact P_Eval.zprim_rows.
    - reflexivity.
    - reflexivity.
    - reflexivity.
    - cbn; lia.
    - cbn; lia.
    - cbn; lia.
    - discriminate.
    - vm_compute. auto.
    - cbn; lia.
    - cbn; lia.
    - vm_compute. reflexivity.
    - apply Nat.leb_le. vm_compute. reflexivity.
    - vm_compute. reflexivity. }
  split.
  { exists [], [], Z.of_N, [50%N], 2%N, []. split; [reflexivity|]. split; [constructor|]. split; [constructor|].
    split; [apply Tool_proofs.digits_iff; split; [discriminate|split; reflexivity]|]. split; [exact I|reflexivity]. }
  split; [apply valid_utf8_iff; eexists; vm_compute; reflexivity|].
  split; [vm_compute; reflexivity|].
  split; [split; [reflexivity|]; intros [|[|[|[|i]]]] H; try discriminate H; reflexivity|].
  vm_compute. reflexivity.
Qed.

(** * C70, C110, C111, C112 on this file *)

(** The prompt "a" has one byte and two tokens. *)
Theorem C70_buffer_refuted : exists prompt, Forall (fun c => (c < 128)%N) prompt /\ prompt <> [] /\
  berts_ids P_Bert.demo_icu e_bv prompt = Ok [0; 1]%N /\ length prompt = 1 /\
  e_fill (u "1") prompt = UB.
Proof.
  exists (u "a"). split; [repeat constructor|]. split; [discriminate|]. split; [vm_compute; reflexivity|]. split; [reflexivity|].
  vm_compute. reflexivity.
Qed.
Print Assumptions C70_buffer_refuted.

Example C110_example :
  e_fill (u " +2 lines") (u "[MASK]") = e_fill (u "2") (u "[MASK]") /\
  e_fill (u "0") (u "[MASK]") = Ok (1%N, []) /\ e_fill (u "-1") (u "[MASK]") = Ok (1%N, []) /\
  e_fill (u "") (u "[MASK]") = Abort /\ e_fill (u "99999999999") (u "[MASK]") = Abort.
Proof. repeat (split; [vm_compute; reflexivity|]). vm_compute. reflexivity. Qed.

Example C111_example :
  e_fill (u "2") (u "[MASK] [MASK]") = Ok (1%N, []) /\ e_fill (u "2") (u "x    ") = Ok (1%N, []).
Proof. split; vm_compute; reflexivity. Qed.

(** A file that does not load: nothing is printed, status 1. *)
Theorem C112_refused_file : forall L junk V (value : gty -> list N -> nat -> V) P order f reopen h k engine ws pick sporder ji jt jv
    exe path k_str prompt z,
  load_from_file L junk value order f reopen = Ok (Null h) -> Fill_spec.reads k_str z -> Fill_spec.is_int z -> (1 <= z)%Z ->
  Fill_model.fill_mask P L ji jt jv
    (fun _ => Fill_model.open k engine ws pick sporder (load_from_file L junk value order f reopen)) [exe; path; k_str; prompt] = Ok (1%N, []).
Proof.
  intros L junk V value P order f reopen h k engine ws pick sporder ji jt jv exe path k_str prompt z H Hz Hi H1.
  apply (P_Fill.C112_no_model V P L ji jt jv _ exe path k_str prompt z Hz Hi H1). left. rewrite H. reflexivity.
Qed.
Print Assumptions C112_refused_file.

Example C112_example :
  e_fill (u "7") (u "[MASK]") = Ok (1%N, []) /\
  e_fill (u "1") (u "[MASK][MASK][MASK][MASK]") = Ok (1%N, []) /\
  Fill_model.fill_mask P_Eval.zprim P_Eval.lib64 (fun _ => 7%N) (fun _ => 8) (fun _ => 9%Z) (fun _ => e_open e_file) [u "fill_mask"] = Ok (1%N, []).
Proof. repeat (split; [vm_compute; reflexivity|]). vm_compute. reflexivity. Qed.
