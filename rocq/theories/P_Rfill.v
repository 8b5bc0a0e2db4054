(** RoBERTa models from the checkpoint and the text to the lines printed: C108, C134. *)
From Coq Require Import Permutation.
From Verif Require Import Base Assoc Utf_model Utf_spec Utf_proofs Ustr_spec Bert_model Vocab_model Vocab_spec Vocab_proofs Bpe_model Bpe_spec
  Bpe_load_proofs Roberta_model Roberta_spec Roberta_proofs Rtext_spec Rtext_proofs
  Loader_model Loader_spec Loader_proofs Quantize_model Quantize_spec Quantize_proofs Gguf_model Gguf_spec Gguf_proofs
  Convert_model Convert_spec Convert_proofs Convert_arrays Convert_load Convert_vocab.
From Verif Require Ggml_model Encoder_model Encoder_spec Eval_model Eval_spec P_Eval P_Loader P_Gguf P_Bert P_Rtext.
From Verif Require Fill_model Fill_spec P_Fill P_FillFile Tool_proofs P_Convert.
Local Open Scope nat_scope.

(** * C134: the tokenizer of a converted checkpoint *)

(** The special tokens of the tokenizer: tokens of visible 7-bit characters. *)
Definition plain_specials {E} (c : checkpoint E) (keep : list (list N)) : Prop :=
  Forall2 (fun k t => exists n, special_of c k n /\ In (t, n) (ck_vocab c) /\ t <> [] /\ Forall (fun b => (0x21 <= b <= 0x7e)%N) t)
    (special_keys RobertaModel) keep.

(** The merges of the tokenizer, as pairs of ids. *)
Definition merge_ids {E} (c : checkpoint E) (ms : list (N * N)) : Prop :=
  exists given, ck_merges c = Some given /\
    Forall2 (fun g p => In (fst (fst g), fst p) (ck_vocab c) /\ In (snd (fst g), snd p) (ck_vocab c)) given ms.

Lemma special_one {E} (c : checkpoint E) k n n' : ck_class c = RobertaModel -> NoDup (map fst (ck_vocab c)) -> In k (special_keys RobertaModel) ->
  special_of c k n -> special_of c k n' -> n = n'.
Proof.
  intros Ec ND Hk H H'. unfold special_of in *. destruct (ck_ids c k); [congruence|].
  destruct H as (pre & s & post & E1 & I1 & _), H' as (pre' & s' & post' & E2 & I2 & _). rewrite Ec in *.
  assert (Q : s = s').
  { assert (X : exists w, spellings RobertaModel k = [w]) by (destruct k; cbn in Hk; intuition (try discriminate); eexists; reflexivity).
    destruct X as (w & X). rewrite X in *. destruct pre as [|? [|]]; try discriminate E1; destruct pre' as [|? [|]]; try discriminate E2. cbn [app] in E1, E2. congruence. }
  subst s'. clear - ND I1 I2. induction (ck_vocab c) as [|[t i] l IH]; [destruct I1|]. cbn [map fst] in ND. inversion ND as [|? ? N1 N2]; subst.
  destruct I1 as [Q1|I1], I2 as [Q2|I2]; [congruence| | |auto].
  - injection Q1 as -> ->. exfalso. apply N1. apply in_map_iff. exists (s, n'). auto.
  - injection Q2 as -> ->. exfalso. apply N1. apply in_map_iff. exists (s, n). auto.
Qed.

Theorem C134_checkpoint_tokens : forall E (single half : E -> list N) (c : checkpoint E) f32 bytes L junk V (value : gty -> list N -> nat -> V) order keep,
  (forall e, length (single e) = 4) -> (forall e, length (half e) = 2) -> storable c -> proper_vocab c -> specials_ok c -> encoder_ok c ->
  ck_class c = RobertaModel -> proper_merges c -> act_number c 0 -> (forall l, Permutation l (order l)) -> plain_specials c keep ->
  convert single half c f32 = Some bytes -> fits64 (N.of_nat (length bytes)) -> lib_ok L ->
  exists m rv ts ms unk mask_id mask, load_bytes L junk value order (Some bytes) true = Ok (Loaded m) /\ lo_vocab m = LRoberta rv /\
    i2t (rv_voc rv) = ts /\ tokens_of c ts /\ merge_ids c ms /\ special_of c K_unk unk /\ special_of c K_mask mask_id /\ In (mask, mask_id) (ck_vocab c) /\
    forall engine matches ws pick sporder text,
      (forall s, engine s = map Some (matches s) /\ ordered 0 (length s) (matches s)) ->
      removes_maximal Bpe_model.entry_lt pick -> (forall x t, In t (sporder x) <-> In t x) ->
      Forall (fun b => (b < 0x80)%N) text ->
      exists parts ids, Roberta_spec.cut keep text parts /\
        r_tokenize engine ws pick sporder rv text = Some (Ok ids) /\
        text_ids ts ms unk mask ws matches parts ids.
Proof.
  intros E single half c f32 bytes L junk V value order keep H32 H16 HS PV SP EO Ec PM HA HO HK H Hf HL.
  destruct (converted single half H32 H16 c f32 HS bytes H) as (a & kvs & wts & CV).
  destruct (roberta_vocabulary single half c f32 HS PV bytes a kvs wts CV junk order Ec SP PM HO) as (rv & tl & EB & LD & T & S).
  assert (HV : vocabulary junk order (file_read kvs wts) 1 = Ok (LRoberta rv)) by (unfold vocabulary; cbn [N.eqb]; rewrite EB; reflexivity).
  assert (CL := converted_loads single half c f32 HS bytes a kvs wts CV Hf L HL junk value order (LRoberta rv)). rewrite Ec in CL.
  destruct (CL EO HA HV) as (m & M1 & _ & M2 & M3).
  destruct (file_tokens single half c f32 PV bytes a kvs wts CV junk) as (ts & lens & F1 & F2 & LY & T').
  destruct (ck_merges c) as [given|] eqn:Em; [|destruct (pm_some _ PM Em)].
  destruct (file_merges single half c f32 bytes a kvs wts CV junk given Em) as (l & Wl & F3).
  rewrite F1, F2, F3 in EB.
  destruct (write_merges_spec _ _ _ Wl) as (tr & El & _ & FM). rewrite El in EB.
  assert (LD' := roberta_loaded _ _ _ _ _ _ _ HO LY EB).
  assert (Ei : i2t (rv_voc rv) = ts) by apply (ld_voc _ _ _ LD').
  assert (PT : Forall2 (fun k t => plain_token ts (roberta_special (rv_sp rv) k) t) roberta_keys keep).
  { unfold plain_specials in HK. change (special_keys RobertaModel) with roberta_keys in HK.
    assert (X : forall ks ks', (forall k, In k ks -> In k roberta_keys) ->
      Forall2 (fun k t => exists n, special_of c k n /\ In (t, n) (ck_vocab c) /\ t <> [] /\ Forall (fun b => (0x21 <= b <= 0x7e)%N) t) ks ks' ->
      Forall2 (fun k t => plain_token ts (roberta_special (rv_sp rv) k) t) ks ks').
    { intros ks ks' HI F. induction F as [|k t ks ks' (n & Q1 & Q2 & Q3 & Q4) F IH]; constructor.
      - rewrite (special_one c k (roberta_special (rv_sp rv) k) n Ec (pv_tokens _ PV) (HI k (or_introl eq_refl)) (S k (HI k (or_introl eq_refl))) Q1).
        split; [exact (to_given _ _ T' _ _ Q2)|]. split; assumption.
      - apply IH. intros k' Hk'. apply HI. right. exact Hk'. }
    apply X; [auto|exact HK]. }
  assert (MK : exists mask, plain_token ts (r_mask (rv_sp rv)) mask /\ In (mask, r_mask (rv_sp rv)) (ck_vocab c)).
  { assert (HK' := HK). unfold plain_specials, special_keys in HK'. do 3 (inversion HK' as [|? ? ? ? _ HKn]; subst; clear HK'; rename HKn into HK').
    inversion HK' as [|? t ? ? (n & Q1 & Q2 & Q3 & Q4)]; subst. exists t.
    assert (Q := special_one c K_mask (r_mask (rv_sp rv)) n Ec (pv_tokens _ PV) ltac:(cbn; tauto) (S K_mask ltac:(cbn; tauto)) Q1).
    rewrite Q. split; [|exact Q2]. split; [exact (to_given _ _ T' _ _ Q2)|]. split; assumption. }
  destruct MK as (mask & PMk & IMk).
  exists m, rv, ts, (map fst tr), (r_unk (rv_sp rv)), (r_mask (rv_sp rv)), mask.
  split; [exact M1|]. split; [exact M2|]. split; [exact Ei|]. split; [exact T'|]. split.
  { exists given. split; [exact Em|]. clear - FM. induction FM as [|g p given tr (Q1 & Q2) F IH]; constructor; [|exact IH].
    split; apply (lookup_in list_N_eqb list_N_eqb_eq); assumption. }
  split; [exact (S K_unk ltac:(cbn; tauto))|]. split; [exact (S K_mask ltac:(cbn; tauto))|]. split; [exact IMk|].
  intros engine matches ws pick sporder text HE HP HSO HT.
  apply (P_Rtext.C133_byte_pair_encoding engine matches ws pick sporder order (f_tok (file_read kvs wts)) tr lens (concat ts) ts rv keep mask text);
    try assumption.
  - rewrite (to_length _ _ T'). exact (vocab_size_small single half c f32 bytes a kvs wts CV).
  - apply PMk.
Qed.
Print Assumptions C134_checkpoint_tokens.

(** * C108: from a RoBERTa checkpoint and a prompt to the lines printed *)

(** What the tool needs of a model that is loaded. *)
Lemma lines_printed {V} L junk (value : gty -> list N -> nat -> V) (le : V -> V -> Prop) P order f reopen m words rows s sh
    k engine ws pick sporder ji jt jv exe path k_str prompt z ids pos :
  lib_ok L -> P_FillFile.bytes_only f junk -> Fill_spec.tokens32 ji -> Eval_spec.sorts le (Ggml_model.p_zero P) (Ggml_model.p_argsort P) ->
  load_from_file L junk value order (Some f) reopen = Ok (Loaded m) ->
  let a := Fill_model.api_of k engine ws pick sporder m in
  let e := evaluator m in
  let hp := Eval_model.em_hp e in
  Eval_spec.sound P e words rows s -> Eval_spec.lm_sound P e sh (Ggml_model.p_gelu P) ->
  Fill_spec.reads k_str z -> Fill_spec.is_int z -> (1 <= z <= Z.of_nat (Eval_model.em_vocab_count e))%Z ->
  Fill_spec.token_ids a prompt = Ok ids -> length ids <= length prompt -> Fill_spec.only_at (Api_model.m_mask a) ids pos ->
  Forall (fun t => (t < N.of_nat words)%N) ids -> (N.of_nat words <= 2147483648)%N ->
  length ids <= Encoder_model.max_tokens hp -> (N.of_nat (Encoder_model.max_tokens hp) < 2147483648)%N ->
  Eval_spec.enough_rows (Eval_model.em_kind e) rows ids ->
  0 < Encoder_model.segment_count hp -> 0 < Encoder_model.n_layers hp ->
  Eval_spec.fits (Encoder_model.get_context_buffer_size L (length ids) hp Encoder_model.PoolNone) (Encoder_model.n_layers hp) ->
  Eval_spec.encoder_nodes Encoder_model.PoolNone (Encoder_model.n_layers hp) <= Ggml_model.graph_nodes L ->
  Eval_spec.fits (Encoder_model.get_context_buffer_size_for_lm L (length ids) hp (Eval_model.em_vocab_count e)) 0 ->
  exists ls,
    Fill_model.fill_mask P L ji jt jv
      (fun _ => Fill_model.open k engine ws pick sporder (load_from_file L junk value order (Some f) reopen))
      [exe; path; k_str; prompt] = Ok (0%N, ls) /\
    Fill_spec.printed le P a (Z.to_nat z) (Fill_spec.mask_row P e s sh (Ggml_model.p_gelu P) ids pos) ls.
Proof.
  intros HL Hb Hj Hso H a e hp Hsound Hlm Hz Hi Hk Hids Hroom Hm HK Hwb Hmax Hmb Hrows Hseg Hlay Hf1 Hn Hf2.
  destruct (P_FillFile.C113_token_texts L junk V value order f reopen m k engine ws pick sporder HL Hb H) as (HC & H1 & _ & H3 & HT).
  fold a in HC, H1, H3, HT. fold e in HC.
  assert (HN : 0 < length ids). { destruct Hm as (Hm & _). destruct ids; [destruct pos; discriminate Hm|cbn; lia]. }
  apply (P_Fill.C109_most_probable V le P L ji jt jv _ exe path k_str prompt z (Fill_model.mkopened a e) words rows
    s sh (Ggml_model.p_gelu P) ids pos Hz Hi).
  - lia.
  - unfold Fill_model.open. rewrite H. reflexivity.
  - cbn [Fill_model.op_api]. rewrite HC. lia.
  - exact Hj.
  - constructor; cbn [Fill_model.op_api Fill_model.op_eval]; try assumption.
    + eapply Forall_impl; [|exact HK]. intros t Ht. cbv beta in Ht. lia.
    + constructor; cbn [Eval_model.pool_type Eval_model.output_layer].
      * exact Hsound.
      * constructor; cbn [Eval_model.pool_type Eval_model.output_layer].
        -- exact Hmax.
        -- apply repeat_length.
        -- apply Forall_forall. intros x Hx. apply repeat_spec in Hx. subst x. fold hp. lia.
        -- discriminate.
        -- fold hp. lia.
      * exact HN.
      * fold hp. replace (Encoder_model.n_layers hp) with (Encoder_model.n_layers hp + 1 - 1) at 2 by lia.
        apply (Eval_spec.names_backward (Encoder_model.n_layers hp) 1); [lia|exact Hlay].
      * exact Hf1.
      * exact Hn.
  - constructor; cbn [Fill_model.op_api Fill_model.op_eval]; try assumption.
    constructor.
    + exact HN.
    + lia.
    + exact Hf2.
    + unfold Eval_spec.encoder_nodes in Hn. lia.
Qed.

(** The prompt is cut at the special tokens and encoded by byte pairs, between the ids of
    cls and sep; the lines are the k most probable tokens at the mask, by the parameters of
    the checkpoint. *)
Theorem C108_checkpoint_to_lines : forall E (single half : E -> list N) (c : checkpoint E) f32 bytes L junk V
    (value : gty -> list N -> nat -> V) order r32 r16 P (le : V -> V -> Prop) k engine matches ws pick sporder ji jt jv exe path keep,
  readable_floats value single half r32 r16 -> ready c -> fits_ints c -> head_fits c -> ck_class c = RobertaModel ->
  (0 < ck_layers c)%N -> (0 < ck_segments c)%N -> plain_specials c keep ->
  convert single half c f32 = Some bytes -> fits64 (N.of_nat (length bytes)) -> byte_string bytes -> (forall i, (junk i < 256)%N) ->
  lib_ok L -> (forall l, Permutation l (order l)) -> Encoder_spec.row_ops_ok P -> Fill_spec.tokens32 ji ->
  Eval_spec.sorts le (Ggml_model.p_zero P) (Ggml_model.p_argsort P) ->
  (forall s, engine s = map Some (matches s) /\ ordered 0 (length s) (matches s)) ->
  removes_maximal Bpe_model.entry_lt pick -> (forall x t, In t (sporder x) <-> In t x) ->
  exists m ts ms cls sep unk pad mask_id mask, load_bytes L junk value order (Some bytes) true = Ok (Loaded m) /\
    tokens_of c ts /\ merge_ids c ms /\ special_of c K_cls cls /\ special_of c K_sep sep /\ special_of c K_unk unk /\ special_of c K_pad pad /\
    special_of c K_mask mask_id /\ In (mask, mask_id) (ck_vocab c) /\
    forall prompt, Forall (fun b => (b < 0x80)%N) prompt ->
    exists parts inner, Roberta_spec.cut keep prompt parts /\ text_ids ts ms unk mask ws matches parts inner /\
    let ids := cls :: inner ++ [sep] in
    forall k_str z pos,
      Fill_spec.reads k_str z -> Fill_spec.is_int z -> (1 <= z <= Z.of_N (ck_vocab_size c))%Z ->
      length ids <= length prompt -> Fill_spec.only_at mask_id ids pos ->
      length ids <= N.to_nat (ck_positions c) -> Eval_spec.enough_rows (Encoder_model.Roberta pad) (N.to_nat (ck_positions c)) ids ->
      Eval_spec.fits (Encoder_model.get_context_buffer_size L (length ids) (ck_hp c) Encoder_model.PoolNone) (N.to_nat (ck_layers c)) ->
      Eval_spec.encoder_nodes Encoder_model.PoolNone (N.to_nat (ck_layers c)) <= Ggml_model.graph_nodes L ->
      Eval_spec.fits (Encoder_model.get_context_buffer_size_for_lm L (length ids) (ck_hp c) (N.to_nat (ck_vocab_size c))) 0 ->
      exists ls,
        Fill_model.fill_mask P L ji jt jv (fun _ => Fill_model.open k engine ws pick sporder (load_bytes L junk value order (Some bytes) true))
          [exe; path; k_str; prompt] = Ok (0%N, ls) /\
        Fill_spec.printed le P (Fill_model.api_of k engine ws pick sporder m) (Z.to_nat z)
          (Fill_spec.mask_row P (evaluator m) (ck_params r32 r16 f32 c) (ck_head r32 r16 f32 c) (Ggml_model.p_gelu P) ids pos) ls.
Proof.
  intros E single half c f32 bytes L junk V value order r32 r16 P le k engine matches ws pick sporder ji jt jv exe path keep
    RF RD FI HF Ec HL0 HS0 HK H Hf Hb Hjk HL HO HP Hji Hso HE HPk HSO.
  destruct (P_Convert.ready_loads single half c f32 bytes L junk V value order r32 r16 P RF RD FI H Hf HL HO HP) as (m & M & Ehp & FL & EC & S & LS).
  assert (H32 := rf_single _ _ _ _ _ RF). assert (H16 := rf_half _ _ _ _ _ RF). destruct RD as [HS PV SP EO HC].
  assert (HC' : proper_merges c /\ act_number c 0) by (destruct HC as [Q|(_ & Q)]; [congruence|exact Q]). destruct HC' as (PM & HA).
  destruct (P_Convert.C122_roberta_loads E single half c f32 bytes L junk V value order H32 H16 HS PV SP EO Ec PM HA HO H Hf HL)
    as (m' & rv & ts0 & M' & Mv & VO & T0 & SO & EK & _).
  assert (Q : m' = m) by congruence. subst m'. clear M'.
  destruct (C134_checkpoint_tokens E single half c f32 bytes L junk V value order keep H32 H16 HS PV SP EO Ec PM HA HO HK H Hf HL)
    as (m' & rv' & ts & ms & unk & mask_id & mask & M' & Mv' & Ei & T & MS & SU & SM & IM & TOK).
  assert (Q : m' = m) by congruence. subst m'. clear M'. assert (Q : rv' = rv) by congruence. subst rv'. clear Mv'.
  destruct (converted single half H32 H16 c f32 HS bytes H) as (a & kvs & wts & CV).
  assert (EQ : load_bytes L junk value order (Some bytes) true = load_from_file L junk value order (Some (file_read kvs wts)) true).
  { unfold load_bytes. rewrite (cv_read single half c f32 bytes a kvs wts CV Hf). reflexivity. }
  exists m, ts, ms, (r_cls (rv_sp rv)), (r_sep (rv_sp rv)), unk, (r_pad (rv_sp rv)), mask_id, mask.
  split; [exact M|]. split; [exact T|]. split; [exact MS|]. split; [apply (SO K_cls); cbn; tauto|]. split; [apply (SO K_sep); cbn; tauto|].
  split; [exact SU|]. split; [apply (SO K_pad); cbn; tauto|]. split; [exact SM|]. split; [exact IM|].
  intros prompt HT. destruct (TOK engine matches ws pick sporder prompt HE HPk HSO HT) as (parts & inner & C & TK & TI).
  exists parts, inner. split; [exact C|]. split; [exact TI|].
  intros ids k_str z pos Hr Hi Hz Hlen Hm Hpos Hrows HM1 HG HM2.
  assert (BY : P_FillFile.bytes_only (file_read kvs wts) junk).
  { split; [|exact Hjk]. replace (f_bytes (file_read kvs wts)) with bytes; [exact Hb|]. cbn [file_read f_bytes]. exact (cv_bytes _ _ _ _ _ _ _ _ CV). }
  assert (Lt := to_length _ _ T).
  assert (SN : forall q, In q (special_keys RobertaModel) -> exists t, Vocab_spec.entry ts (roberta_special (rv_sp rv) q) t).
  { intros q Hq. unfold plain_specials in HK.
    assert (X : exists t n, special_of c q n /\ In (t, n) (ck_vocab c)).
    { clear - HK Hq. induction HK as [|k t ks ks' (n & Q1 & Q2 & _) F IH]; [destruct Hq|]. destruct Hq as [<-|Hq]; [eauto|exact (IH Hq)]. }
    destruct X as (t & n & X1 & X2). exists t. rewrite (special_one c q _ n Ec (pv_tokens _ PV) Hq (SO q Hq) X1). exact (to_given _ _ T _ _ X2). }
  assert (ENT : forall i t, Vocab_spec.entry ts i t -> (i < N.of_nat (length ts))%N).
  { intros i t En. unfold Vocab_spec.entry in En. assert (N.to_nat i < length ts) by (apply nth_error_Some; congruence). lia. }
  assert (NV : (N.of_nat (length ts) <= 2147483648)%N) by (rewrite Lt; exact (fi_vocab _ FI)).
  assert (SK : forall q, In q (special_keys RobertaModel) -> (roberta_special (rv_sp rv) q < N.of_nat (length ts))%N)
    by (intros q Hq; destruct (SN q Hq) as (t & En); eauto).
  assert (EM : r_mask (rv_sp rv) = mask_id) by exact (special_one c K_mask _ _ Ec (pv_tokens _ PV) ltac:(cbn; tauto) (SO K_mask ltac:(cbn; tauto)) SM).
  assert (EU : r_unk (rv_sp rv) = unk) by exact (special_one c K_unk _ _ Ec (pv_tokens _ PV) ltac:(cbn; tauto) (SO K_unk ltac:(cbn; tauto)) SU).
  assert (EL : Eval_model.em_vocab_count (evaluator m) = N.to_nat (ck_vocab_size c)) by exact EC.
  rewrite EQ.
  apply (lines_printed L junk value le P order (file_read kvs wts) true m (N.to_nat (ck_vocab_size c)) (N.to_nat (ck_positions c))
    (ck_params r32 r16 f32 c) (ck_head r32 r16 f32 c) k engine ws pick sporder ji jt jv exe path k_str prompt z ids pos HL BY Hji Hso);
    rewrite ?Ehp, ?EL; cbn [ck_hp Encoder_model.hidden_dim Encoder_model.n_layers Encoder_model.attn_heads
      Encoder_model.max_tokens Encoder_model.intermediate_dim Encoder_model.segment_count]; try assumption; try lia.
  - rewrite <- EQ. exact M.
  - exact (LS HF).
  - unfold Fill_spec.token_ids, Fill_model.api_of. rewrite Mv. cbn [Api_model.m_tokenize Api_model.m_cls Api_model.m_sep]. rewrite TK. reflexivity.
  - unfold Fill_model.api_of. rewrite Mv. cbn [Api_model.m_mask]. rewrite EM. exact Hm.
  - rewrite N2Nat.id, <- Lt. unfold ids. constructor; [apply (SK K_cls); cbn; tauto|]. apply Forall_app. split.
    + apply (P_Rtext.C133_known_ids ts ms unk mask ws matches parts inner); [|exact TI]. rewrite <- EU. apply (SN K_unk). cbn; tauto.
    + constructor; [apply (SK K_sep); cbn; tauto|constructor].
  - assert (X := fi_positions _ FI). lia.
  - rewrite EK. exact Hrows.
Qed.
Print Assumptions C108_checkpoint_to_lines.

(** ** A checkpoint with five positions *)
Definition x5_state : list (list N * ptensor N) :=
  [P_Convert.x_mat (u "embeddings.word_embeddings.weight") 8 2 (map N.of_nat (seq 1 16));
   P_Convert.x_mat (u "embeddings.position_embeddings.weight") 5 2 [10;20;30;40;50;60;70;80;90;100]%N;
   P_Convert.x_mat (u "embeddings.token_type_embeddings.weight") 1 2 [1;2]%N;
   P_Convert.x_vec (u "embeddings.LayerNorm.weight") [1;1]%N; P_Convert.x_vec (u "embeddings.LayerNorm.bias") [0;1]%N] ++ P_Convert.x_layer ++
  [P_Convert.x_mat (u "pooler.dense.weight") 2 2 [1;2;3;4]%N; P_Convert.x_vec (u "pooler.dense.bias") [5;6]%N].
Definition x5 : checkpoint N :=
  mkck N RobertaModel (u "demo/roberta") 8 2 1 1 5 2 1 (u "GeLU") 4427486594234968593 4581421828931458171
    (fun k => match k with K_pad => Some 1%N | _ => None end) (fun _ => None) 0
    (ck_vocab P_Convert.x_roberta) (ck_merges P_Convert.x_roberta) x5_state P_Convert.x_rlm.
Definition x5_file : list N := Eval vm_compute in P_Convert.x_bytes x5 false.

Lemma x5_storable : storable x5.
Proof.
  destruct P_Convert.x_roberta_storable as [S1 S2 S3 S4 S5 S6 S7 S8 S9]. constructor; try assumption.
  - apply (P_Convert.forallb_Forall (fun x => P_Convert.wholeb (snd x))); [intros x; apply P_Convert.wholeb_ok|vm_compute; reflexivity].
  - apply (P_Convert.forallb_Forall (fun x => length (p_shape (snd x)) <=? 4)); [intros x; apply Nat.leb_le|vm_compute; reflexivity].
  - apply (P_Convert.forallb_Forall (fun x => P_Convert.namedb (fst x))); [intros x; apply P_Convert.namedb_ok|vm_compute; reflexivity].
Qed.
Lemma x5_encoder : encoder_ok x5.
Proof.
  assert (I : forall k t, In (k, t) P_Convert.x_layer -> In (k, t) x5_state).
  { intros k t H. unfold x5_state. apply in_app_iff. right. apply in_app_iff. left. exact H. }
  constructor; cbn [ck_hidden ck_inter ck_state ck_vocab_size ck_positions ck_segments ck_layers x5].
  - cbn; lia.
  - cbn; lia.
  - eexists; split; [unfold x5_state; cbn [app]; repeat first [left; reflexivity | right]|reflexivity].
  - eexists; split; [unfold x5_state; cbn [app]; repeat first [left; reflexivity | right]|reflexivity].
  - eexists; split; [unfold x5_state; cbn [app]; repeat first [left; reflexivity | right]|reflexivity].
  - repeat (constructor; [eexists; split; [unfold x5_state; cbn [app]; repeat first [left; reflexivity | right]|reflexivity]|]). constructor.
  - intros n Hn. replace n with 0 by lia.
    constructor; try (apply Forall_forall; intros s Hs; cbn [In] in Hs; repeat (destruct Hs as [<-|Hs])); try (destruct Hs);
      (eexists; split; [apply I; unfold P_Convert.x_layer; repeat first [left; reflexivity | right]|reflexivity]).
  - eexists; split; [unfold x5_state; repeat (apply in_app_iff; right); repeat first [left; reflexivity | right]|reflexivity].
  - eexists; split; [unfold x5_state; repeat (apply in_app_iff; right); repeat first [left; reflexivity | right]|reflexivity].
Qed.
Lemma x5_ready : ready x5.
Proof.
  destruct P_Convert.x_roberta_vocab as [V1 V2 V3 V4 V5]. destruct (proj2 P_Convert.x_roberta_merges) as [M1 M2 M3].
  constructor; [exact x5_storable|constructor; assumption|exact P_Convert.x_roberta_specials|exact x5_encoder|right].
  split; [reflexivity|]. split; [constructor; assumption|exact P_Convert.x_roberta_act].
Qed.
Lemma x5_ints : fits_ints x5.
Proof.
  constructor; [split; [reflexivity|discriminate]|reflexivity|reflexivity|reflexivity|discriminate|].
  intros _ pad Hp. change (pad = 1%N) in Hp. subst pad. reflexivity.
Qed.
Lemma x5_head : head_fits x5.
Proof. destruct P_Convert.x_roberta_head as [A B C D F G]. constructor; assumption. Qed.

Definition x5_fill (prompt : list N) : outcome (N * list (Fill_model.line (V := Z))) :=
  Fill_model.fill_mask P_Eval.zprim P_Eval.lib64 (fun _ => 7%N) (fun _ => 8) (fun _ => 9%Z)
    (fun _ => Fill_model.open P_Bert.demo_icu P_Roberta.one_match P_Roberta.is_space pick_max (fun l => l)
       (load_bytes P_Eval.lib64 P_Loader.d_junk P_Convert.x_value (fun l => l) (Some x5_file) true))
    [u "fill_mask"; u "model"; u "2"; prompt].

Example C108_example :
  ready x5 /\ fits_ints x5 /\ head_fits x5 /\ plain_specials x5 P_Rtext.demo_keep /\
  convert P_Convert.x_single P_Convert.x_half x5 false = Some x5_file /\
  Eval_spec.enough_rows (Encoder_model.Roberta 1) 5 [0; 4; 2]%N /\ Fill_spec.only_at 4 [0; 4; 2]%N 1 /\
  text_ids [u "<s>"; u "<pad>"; u "</s>"; u "<unk>"; u "<mask>"; u "a"; u "b"; u "ab"] [(5, 6)]%N 3 (u "<mask>") P_Roberta.is_space
    (fun s => [(0, length s)]) [(true, u "<mask>")] [4]%N /\
  match x5_fill (u "<mask>") with Ok (0%N, ls) => length ls = 2 | _ => False end.
Proof.
  split; [exact x5_ready|]. split; [exact x5_ints|]. split; [exact x5_head|]. split.
  { unfold plain_specials, special_keys, P_Rtext.demo_keep.
    assert (V : forall t, forallb (fun b => (0x21 <=? b) && (b <=? 0x7e))%N t = true -> Forall (fun b => (0x21 <= b <= 0x7e)%N) t).
    { intros t F. rewrite forallb_forall in F. apply Forall_forall. intros b Hb. specialize (F b Hb). lia. }
    assert (SP : forall k s n, spellings RobertaModel k = [s] -> ck_ids x5 k = None -> In (s, n) (ck_vocab x5) -> special_of x5 k n).
    { intros k s n E1 E2 E3. unfold special_of. rewrite E2. exists [], s, []. split; [exact E1|]. split; [exact E3|intros x []]. }
    constructor; [exists 0%N|constructor; [exists 2%N|constructor; [exists 0%N|constructor; [exists 4%N|constructor; [exists 1%N|constructor; [exists 2%N|constructor; [exists 3%N|constructor]]]]]]].
    all: split; [first [reflexivity | eapply SP; [reflexivity|reflexivity|cbn; tauto]]|]; split; [cbn; tauto|]; split; [discriminate|apply V; vm_compute; reflexivity]. }
  split; [vm_compute; reflexivity|]. split; [split; [lia|intros _; vm_compute; reflexivity]|].
  split; [split; [reflexivity|intros [|[|[|[|i]]]] Hi; cbn in Hi; try discriminate Hi; reflexivity]|].
  split; [apply tx_special; [reflexivity|constructor]|].
  vm_compute. reflexivity.
Qed.
