(** Checkpoints that are converted, quantized, loaded and evaluated. *)
From Coq Require Import Permutation.
From Verif Require Import Base Assoc Utf_model Utf_spec Utf_proofs Ustr_spec Bert_model Vocab_model Vocab_spec Vocab_proofs Bpe_model Bpe_spec
  Bpe_load_proofs Roberta_model Roberta_spec Roberta_proofs Rtext_spec
  Loader_model Loader_spec Loader_proofs Quantize_model Quantize_spec Quantize_proofs Gguf_model Gguf_spec Gguf_proofs
  Convert_model Convert_spec Convert_proofs Convert_arrays Convert_load Convert_vocab Qck_spec Qck_proofs.
From Verif Require Ggml_model Encoder_model Encoder_spec Eval_model Eval_spec P_Eval P_Loader P_Quantize P_Gguf P_Bert P_Roberta P_Rtext.
From Verif Require Fill_model Fill_spec P_Fill P_FillFile Tool_proofs P_Convert P_Rfill.
Local Open Scope nat_scope.

(** What the file of a quantized checkpoint comes to. *)
Lemma ready_quantizes {E} (single half : E -> list N) (c : checkpoint E) f32 bytes L junk V (value : gty -> list N -> nat -> V) order r32 r16 P
    chunk widen qt :
  readable_floats value single half r32 r16 -> ready c -> fits_ints c -> convert single half c f32 = Some bytes -> fits64 (N.of_nat (length bytes)) ->
  byte_string bytes -> lib_ok L -> (forall l, Permutation l (order l)) -> Encoder_spec.row_ops_ok P ->
  chunk_ok chunk -> convertible qt = true -> quantizable qt c ->
  let mat := quantized_matrix value chunk widen qt single half r32 f32 in
  let vec := vector_of r32 in
  exists m out, load_bytes L junk value order (Some bytes) true = Ok (Loaded m) /\
    (forall dev, (forall i, length out <= dev i) -> quantize_bytes L junk value order chunk widen bytes true true dev qt = Ok (true, Some out)) /\
    (fits64 (N.of_nat (length out)) ->
     exists f' m', load_bytes L junk value order (Some out) true = Ok (Loaded m') /\ load_from_file L junk value order (Some f') true = Ok (Loaded m') /\
       f_bytes f' = out /\ lo_vocab m' = lo_vocab m /\
       Eval_model.em_hp (evaluator m') = ck_hp c /\ flavour_of c (Eval_model.em_kind (evaluator m')) /\
       Eval_model.em_vocab_count (evaluator m') = N.to_nat (ck_vocab_size c) /\
       Eval_spec.sound P (evaluator m') (N.to_nat (ck_vocab_size c)) (N.to_nat (ck_positions c)) (params_of c mat vec) /\
       (head_fits c -> Eval_spec.lm_sound P (evaluator m') (head_of c mat vec) (Ggml_model.p_gelu P)) /\
       well_shaped f' (N.to_nat (ck_hidden c)) (N.to_nat (ck_inter c)) (N.to_nat (ck_layers c)) (N.to_nat (ck_segments c))
         (N.to_nat (ck_vocab_size c)) (N.to_nat (ck_positions c)) /\
       (head_fits c -> head_shaped f' (N.to_nat (ck_hidden c)) (N.to_nat (ck_vocab_size c))) /\
       file_params value f' (N.to_nat (ck_layers c)) = params_of c mat vec /\ (head_fits c -> file_head value f' = head_of c mat vec)).
Proof.
  intros RF RD FI H Hf Hb HL HO HP HCk Hq HQ mat vec.
  destruct (P_Convert.ready_loads single half c f32 bytes L junk V value order r32 r16 P RF RD FI H Hf HL HO HP) as (m & M & Ehp & FL & EC & _ & _).
  assert (H32 := rf_single _ _ _ _ _ RF). assert (H16 := rf_half _ _ _ _ _ RF). destruct RD as [HS PV SP EO HC].
  destruct (converted single half H32 H16 c f32 HS bytes H) as (a & kvs & ts & CV).
  destruct (encoder_read single half c f32 HS bytes a kvs ts CV value r32 r16 RF EO) as (WS & _).
  assert (RD := cv_read single half c f32 bytes a kvs ts CV Hf).
  assert (DK := cv_distinct_keys single half c f32 bytes a kvs ts CV). assert (KT := cv_known single half c f32 bytes a kvs ts CV).
  assert (DN := cv_distinct single half c f32 bytes a kvs ts CV). assert (AL := cv_align32 single half c f32 HS bytes a kvs ts CV).
  assert (WA := cv_wanted single half c f32 qt HS HQ bytes a kvs ts CV junk). assert (NF := cv_norms single half c f32 qt HS HQ bytes a kvs ts CV).
  destruct (P_Gguf.quantized L HL junk value order chunk widen bytes kvs (file_read kvs ts) m qt Hb RD M DN WA) as (outs & ws & Hw & Hqu).
  exists m, (P_Gguf.result kvs qt ws outs). split; [exact M|]. split; [exact Hqu|]. intros Hfit.
  destruct (P_Gguf.result_loads L HL junk value order chunk widen bytes kvs (file_read kvs ts) m qt Hb RD M (distinct_agreeing _ DK) KT DN AL HCk Hq WA outs ws Hw Hfit)
    as (m' & M' & ML & Es & Ev).
  exists (P_Gguf.reread_result kvs (file_read kvs ts) qt ws outs), m'. split; [exact M'|]. split; [exact ML|]. split; [reflexivity|]. split; [exact Ev|].
  assert (Ehp' : Eval_model.em_hp (evaluator m') = ck_hp c) by (rewrite <- Ehp; unfold evaluator; rewrite Ev, Es; destruct (lo_vocab m); reflexivity).
  assert (Ek : Eval_model.em_kind (evaluator m') = Eval_model.em_kind (evaluator m)) by (unfold evaluator; rewrite Ev; destruct (lo_vocab m); reflexivity).
  assert (EC' : Eval_model.em_vocab_count (evaluator m') = N.to_nat (ck_vocab_size c)).
  { rewrite <- EC. unfold evaluator. rewrite Ev. destruct (lo_vocab m); reflexivity. }
  split; [exact Ehp'|]. split; [rewrite Ek; exact FL|]. split; [exact EC'|].
  destruct FI as [[F1 F1'] F2 F3 F4 F5 F6]. assert (h2 := eo_h _ EO). assert (m2 := eo_m _ EO).
  assert (HH : N.to_nat (ck_hidden c) = N.to_nat (ck_hidden c) / N.to_nat (ck_heads c) * N.to_nat (ck_heads c)).
  { rewrite <- N2Nat.inj_div, <- N2Nat.inj_mul. f_equal. assert (D := N.div_mod (ck_hidden c) (ck_heads c) F1'). lia. }
  assert (SHP := fun w r => P_Quantize.C106_shapes junk chunk widen (file_read kvs ts) qt (N.of_nat (length (new_kvs kvs qt))) (put_kvs (new_kvs kvs qt)) ws outs
    (N.to_nat (ck_hidden c)) (N.to_nat (ck_inter c)) (N.to_nat (ck_layers c)) (N.to_nat (ck_segments c)) w r
    DN AL HCk Hq (fun s Hs Hw => proj2 (WA s Hs Hw)) Hw NF).
  cbv zeta in SHP.
  assert (RW := P_Quantize.C106_rows junk V value chunk widen (file_read kvs ts) qt (N.of_nat (length (new_kvs kvs qt))) (put_kvs (new_kvs kvs qt)) ws outs
    DN AL HCk Hq (fun s Hs Hw => proj2 (WA s Hs Hw)) Hw). cbv zeta in RW.
  set (f' := P_Gguf.reread_result kvs (file_read kvs ts) qt ws outs) in *.
  assert (QM := q_matrix single half c f32 qt HS bytes a kvs ts CV value r32 r16 chunk widen RF f' RW).
  assert (QV := q_vector single half c f32 qt HS bytes a kvs ts CV value r32 r16 chunk widen RF f' RW).
  assert (PR := params_read c value f' mat vec HS EO QM QV). assert (HR := heads_read c value f' mat vec HS EO QM QV).
  assert (WS' := proj1 (SHP _ _) WS : well_shaped f' _ _ _ _ _ _).
  assert (W2' : head_fits c -> head_shaped f' (N.to_nat (ck_hidden c)) (N.to_nat (ck_vocab_size c))).
  { intros HF. destruct (head_read single half c f32 HS bytes a kvs ts CV value r32 r16 RF EO HF) as (W2 & _). exact (proj2 (SHP _ 0) W2). }
  split; [|split; [|split; [exact WS'|split; [exact W2'|split; [exact PR|exact HR]]]]].
  - assert (S := P_Loader.C102_sound L junk V value P order f' true m' (N.to_nat (ck_vocab_size c)) (N.to_nat (ck_positions c)) HL ML).
    cbv zeta in S. rewrite Ehp' in S. cbn [ck_hp Encoder_model.hidden_dim Encoder_model.n_layers Encoder_model.attn_heads
      Encoder_model.max_tokens Encoder_model.intermediate_dim Encoder_model.segment_count] in S.
    rewrite PR in S.
    apply S; try assumption; try lia.
    rewrite Ek. unfold flavour_of in FL. destruct HC as [Ec|(Ec & _)]; rewrite Ec in FL.
    + rewrite FL. exact I.
    + destruct FL as (pad & Sp & ->). assert (X := F6 Ec pad Sp). lia.
  - intros HF. assert (W2 := W2' HF).
    assert (S := P_Loader.C102_lm_sound L junk V value P order f' true m' HL ML). cbv zeta in S. rewrite Ehp', EC' in S.
    cbn [ck_hp Encoder_model.hidden_dim] in S. rewrite (HR HF) in S.
    assert (vs := pv_some _ PV). apply S; try assumption; lia.
Qed.

(** * C140: from the checkpoint through quantization to values *)

(** A checkpoint converted and then quantized evaluates: the encoder, on the parameters of
    the checkpoint, those that are matrices of at least 2 x 2 as the blocks made of their
    floats. *)
Theorem C140_quantized_checkpoint_to_values : forall E (single half : E -> list N) (c : checkpoint E) f32 bytes L junk V
    (value : gty -> list N -> nat -> V) order r32 r16 P chunk widen qt,
  readable_floats value single half r32 r16 -> ready c -> fits_ints c -> convert single half c f32 = Some bytes -> fits64 (N.of_nat (length bytes)) ->
  byte_string bytes -> lib_ok L -> (forall l, Permutation l (order l)) -> Encoder_spec.row_ops_ok P ->
  chunk_ok chunk -> convertible qt = true -> quantizable qt c ->
  exists out,
    (forall dev, (forall i, length out <= dev i) -> quantize_bytes L junk value order chunk widen bytes true true dev qt = Ok (true, Some out)) /\
    (fits64 (N.of_nat (length out)) ->
     exists m fl, load_bytes L junk value order (Some out) true = Ok (Loaded m) /\ flavour_of c fl /\
     forall toks segs count req last cells,
      let tokens := firstn count toks in
      let segments := Eval_spec.given_segments segs count in
      Eval_spec.arrays_ok toks segs count -> Forall (fun t => (t < 4294967296)%N) toks ->
      Eval_spec.valid_request (ck_hp c) tokens segments req -> 0 < length tokens ->
      Eval_spec.names_layer (N.to_nat (ck_layers c)) (Eval_model.output_layer req) last ->
      Eval_spec.fits (Encoder_model.get_context_buffer_size L (length tokens) (ck_hp c) (Eval_model.pool_type req)) last ->
      Eval_spec.encoder_nodes (Eval_model.pool_type req) last <= Ggml_model.graph_nodes L ->
      Eval_spec.known_tokens (N.to_nat (ck_vocab_size c)) tokens -> Eval_spec.enough_rows fl (N.to_nat (ck_positions c)) tokens ->
      length cells = Eval_spec.values (ck_hp c) (Eval_model.pool_type req) count ->
      let matrix := quantized_matrix value chunk widen qt single half r32 f32 in
      let mat := matrix (ck_state c) in
      let vec := vector_of r32 (ck_state c) in
      let embedding := Encoder_spec.s_embed P (ck_eps c)
        (mat (u "embeddings.word_embeddings.weight")) (mat (u "embeddings.position_embeddings.weight"))
        (mat (u "embeddings.token_type_embeddings.weight"))
        (vec (u "embeddings.LayerNorm.weight")) (vec (u "embeddings.LayerNorm.bias"))
        (Eval_spec.position_ids fl tokens) (map Z.of_N tokens) (map Z.of_N segments) in
      let states := fold_left (fun x y => Encoder_spec.s_layer P (ck_eps c) (N.to_nat (ck_heads c)) (N.to_nat (ck_hidden c) / N.to_nat (ck_heads c)) y x)
        (map (block_of c matrix (vector_of r32)) (seq 0 last)) embedding in
      let result :=
        match Eval_model.pool_type req with
        | Encoder_model.PoolNone => concat states
        | p => concat (map (map (Ggml_model.p_tanh P))
                 (Encoder_spec.s_dense P (mat (u "pooler.dense.weight")) (vec (u "pooler.dense.bias")) [Encoder_spec.s_pooled P p states]))
        end in
      Eval_model.berts_eval P L (Eval_model.ELoaded (evaluator m)) toks segs count (Some req) (Some cells) (Some (N.of_nat (length cells))) =
      Ok (Eval_model.mkev true (Some result) (Some (N.of_nat (length result))))).
Proof.
  intros E single half c f32 bytes L junk V value order r32 r16 P chunk widen qt RF RD FI H Hf Hb HL HO HP HCk Hq HQ.
  destruct (ready_quantizes single half c f32 bytes L junk V value order r32 r16 P chunk widen qt RF RD FI H Hf Hb HL HO HP HCk Hq HQ)
    as (m0 & out & _ & Hqu & Hout).
  exists out. split; [exact Hqu|]. intros Hfit. destruct (Hout Hfit) as (f' & m & M & _ & _ & _ & Ehp & FL & EC & S & _).
  exists m, (Eval_model.em_kind (evaluator m)). split; [exact M|]. split; [exact FL|].
  intros toks segs count req last cells tokens segments HA HT HV H0 HN HM HG HK HE HC matrix mat vec embedding states result.
  fold matrix in S.
  assert (HR : Eval_spec.runnable P L (evaluator m) (N.to_nat (ck_vocab_size c)) (N.to_nat (ck_positions c)) (params_of c matrix (vector_of r32))
    tokens segments req last) by (constructor; rewrite ?Ehp; assumption).
  rewrite (P_Eval.C91_encoder_values P L (evaluator m) _ _ _ toks segs count req last cells HA HT HR HK HE ltac:(rewrite Ehp; exact HC)).
  rewrite Ehp. cbn [ck_hp Encoder_model.attn_heads Encoder_model.hidden_dim].
  assert (Hl : last <= N.to_nat (ck_layers c)) by (inversion HN; lia).
  assert (EB : firstn last (Encoder_spec.sm_blocks (params_of c matrix (vector_of r32))) = map (block_of c matrix (vector_of r32)) (seq 0 last)).
  { unfold params_of. cbn [Encoder_spec.sm_blocks]. rewrite firstn_map.
    replace (N.to_nat (ck_layers c)) with (last + (N.to_nat (ck_layers c) - last)) by lia.
    rewrite seq_app, firstn_app, seq_length, Nat.sub_diag, firstn_O, app_nil_r, firstn_all2; [reflexivity|rewrite seq_length; lia]. }
  rewrite EB. reflexivity.
Qed.
Print Assumptions C140_quantized_checkpoint_to_values.

(** * C141: filling masks with a quantized checkpoint *)

Theorem C141_quantized_checkpoint_to_lines : forall E (single half : E -> list N) (c : checkpoint E) f32 bytes L junk V
    (value : gty -> list N -> nat -> V) order r32 r16 P chunk widen qt (le : V -> V -> Prop) k engine ws pick sporder ji jt jv exe path,
  readable_floats value single half r32 r16 -> ready c -> fits_ints c -> head_fits c -> ck_class c = BertModel ->
  (0 < ck_layers c)%N -> (0 < ck_segments c)%N -> (forall s n, In s [K_cls; K_sep; K_unk] -> special_of c s n -> (n < ck_vocab_size c)%N) ->
  convert single half c f32 = Some bytes -> fits64 (N.of_nat (length bytes)) -> byte_string bytes -> (forall i, (junk i < 256)%N) ->
  lib_ok L -> (forall l, Permutation l (order l)) -> Encoder_spec.row_ops_ok P -> Fill_spec.tokens32 ji ->
  Eval_spec.sorts le (Ggml_model.p_zero P) (Ggml_model.p_argsort P) ->
  chunk_ok chunk -> convertible qt = true -> quantizable qt c ->
  exists out,
    (forall dev, (forall i, length out <= dev i) -> quantize_bytes L junk value order chunk widen bytes true true dev qt = Ok (true, Some out)) /\
    (fits64 (N.of_nat (length out)) -> byte_string out ->
     exists m v, load_bytes L junk value order (Some out) true = Ok (Loaded m) /\
     tokens_of c (v_tokens v) /\ special_of c K_mask (v_mask v) /\ cleaned_as c (v_cond v) /\
     forall k_str prompt z ids pos,
      Fill_spec.reads k_str z -> Fill_spec.is_int z -> (1 <= z <= Z.of_N (ck_vocab_size c))%Z ->
      valid_utf8 prompt -> berts_ids k v prompt = Ok ids -> length ids <= length prompt -> Fill_spec.only_at (v_mask v) ids pos ->
      length ids <= N.to_nat (ck_positions c) ->
      Eval_spec.fits (Encoder_model.get_context_buffer_size L (length ids) (ck_hp c) Encoder_model.PoolNone) (N.to_nat (ck_layers c)) ->
      Eval_spec.encoder_nodes Encoder_model.PoolNone (N.to_nat (ck_layers c)) <= Ggml_model.graph_nodes L ->
      Eval_spec.fits (Encoder_model.get_context_buffer_size_for_lm L (length ids) (ck_hp c) (N.to_nat (ck_vocab_size c))) 0 ->
      let mat := quantized_matrix value chunk widen qt single half r32 f32 in
      exists ls,
        Fill_model.fill_mask P L ji jt jv (fun _ => Fill_model.open k engine ws pick sporder (load_bytes L junk value order (Some out) true))
          [exe; path; k_str; prompt] = Ok (0%N, ls) /\
        Fill_spec.printed le P (Fill_model.api_of k engine ws pick sporder m) (Z.to_nat z)
          (Fill_spec.mask_row P (evaluator m) (params_of c mat (vector_of r32)) (head_of c mat (vector_of r32)) (Ggml_model.p_gelu P) ids pos) ls).
Proof.
  intros E single half c f32 bytes L junk V value order r32 r16 P chunk widen qt le k engine ws pick sporder ji jt jv exe path
    RF RD FI HF Ec HL0 HS0 HSp H Hf Hb Hjk HL HO HP Hji Hso HCk Hq HQ.
  destruct (ready_quantizes single half c f32 bytes L junk V value order r32 r16 P chunk widen qt RF RD FI H Hf Hb HL HO HP HCk Hq HQ)
    as (m0 & out & M0 & Hqu & Hout).
  exists out. split; [exact Hqu|]. intros Hfit Hby.
  destruct (Hout Hfit) as (f' & m & M & ML & EF & Ev & Ehp & FL & EC & S & LS & WS & W2 & EP & EH). specialize (W2 HF). specialize (EH HF).
  assert (H32 := rf_single _ _ _ _ _ RF). assert (H16 := rf_half _ _ _ _ _ RF). destruct RD as [HS PV SP EO _].
  destruct (P_Convert.C121_bert_loads E single half c f32 bytes L junk V value order H32 H16 HS PV SP EO Ec H Hf HL) as (m' & v & M' & Mv & T & SO & CA & _).
  assert (Q : m' = m0) by congruence. subst m'. clear M'. rewrite <- Ev in Mv.
  assert (EQ : load_bytes L junk value order (Some out) true = load_from_file L junk value order (Some f') true) by congruence.
  assert (ET := to_length _ _ T). exists m, v. split; [exact M|]. split; [exact T|]. split; [apply SO; right; left; reflexivity|]. split; [exact CA|].
  intros k_str prompt z ids pos Hr Hi Hz Hu Hids Hlen Hm Hpos HM1 HG HM2 mat.
  assert (BY : P_FillFile.bytes_only f' junk) by (split; [rewrite EF; exact Hby|exact Hjk]).
  destruct (P_FillFile.C114_file_to_lines L junk V value le P order f' true m v (N.to_nat (ck_vocab_size c)) (N.to_nat (ck_positions c))
    k engine ws pick sporder ji jt jv exe path k_str prompt z ids pos HL BY Hji Hso ML) as (ls & E1 & E2).
  - destruct FI as [[F1 F1'] F2 F3 F4 F5 F6]. assert (h2 := eo_h _ EO). assert (m2 := eo_m _ EO). assert (vs := pv_some _ PV).
    assert (EL : length (v_tokens v) = N.to_nat (ck_vocab_size c)) by lia.
    constructor; rewrite ?Ehp, ?EL; cbn [ck_hp Encoder_model.hidden_dim Encoder_model.n_layers Encoder_model.attn_heads
      Encoder_model.max_tokens Encoder_model.intermediate_dim Encoder_model.segment_count]; try assumption; try lia.
    + rewrite <- N2Nat.inj_div, <- N2Nat.inj_mul. f_equal. assert (D := N.div_mod (ck_hidden c) (ck_heads c) F1'). lia.
    + intros Q. rewrite Q in EL. cbn [length] in EL. lia.
    + rewrite N2Nat.id. split; [|split].
      * apply (HSp K_cls); [left; reflexivity|]. apply (SO K_cls). left. reflexivity.
      * apply (HSp K_sep); [right; left; reflexivity|]. apply (SO K_sep). do 3 right. left. reflexivity.
      * apply (HSp K_unk); [do 2 right; left; reflexivity|]. apply (SO K_unk). do 4 right. left. reflexivity.
  - exact Hr.
  - exact Hi.
  - lia.
  - exact Hu.
  - exact Hids.
  - exact Hlen.
  - exact Hm.
  - exists ls. rewrite EQ. split; [exact E1|]. rewrite Ehp, EH in E2. cbn [ck_hp Encoder_model.n_layers] in E2. rewrite EP in E2. exact E2.
Qed.
Print Assumptions C141_quantized_checkpoint_to_lines.

(** The same for RoBERTa. *)
Theorem C141_quantized_roberta_to_lines : forall E (single half : E -> list N) (c : checkpoint E) f32 bytes L junk V
    (value : gty -> list N -> nat -> V) order r32 r16 P chunk widen qt (le : V -> V -> Prop) k engine matches ws pick sporder ji jt jv exe path keep,
  readable_floats value single half r32 r16 -> ready c -> fits_ints c -> head_fits c -> ck_class c = RobertaModel ->
  (0 < ck_layers c)%N -> (0 < ck_segments c)%N -> P_Rfill.plain_specials c keep ->
  convert single half c f32 = Some bytes -> fits64 (N.of_nat (length bytes)) -> byte_string bytes -> (forall i, (junk i < 256)%N) ->
  lib_ok L -> (forall l, Permutation l (order l)) -> Encoder_spec.row_ops_ok P -> Fill_spec.tokens32 ji ->
  Eval_spec.sorts le (Ggml_model.p_zero P) (Ggml_model.p_argsort P) ->
  (forall s, engine s = map Some (matches s) /\ ordered 0 (length s) (matches s)) ->
  removes_maximal Bpe_model.entry_lt pick -> (forall x t, In t (sporder x) <-> In t x) ->
  chunk_ok chunk -> convertible qt = true -> quantizable qt c ->
  exists out,
    (forall dev, (forall i, length out <= dev i) -> quantize_bytes L junk value order chunk widen bytes true true dev qt = Ok (true, Some out)) /\
    (fits64 (N.of_nat (length out)) -> byte_string out ->
     exists m ts ms cls sep unk pad mask_id mask, load_bytes L junk value order (Some out) true = Ok (Loaded m) /\
     tokens_of c ts /\ P_Rfill.merge_ids c ms /\ special_of c K_cls cls /\ special_of c K_sep sep /\ special_of c K_unk unk /\ special_of c K_pad pad /\
     special_of c K_mask mask_id /\ In (mask, mask_id) (ck_vocab c) /\
     forall prompt, Forall (fun b => (b < 0x80)%N) prompt ->
     exists parts inner, Roberta_spec.cut keep prompt parts /\ text_ids ts ms unk mask ws matches parts inner /\
     let ids := cls :: inner ++ [sep] in
     forall k_str z pos,
      Fill_spec.reads k_str z -> Fill_spec.is_int z -> (1 <= z <= Z.of_N (ck_vocab_size c))%Z ->
      length ids <= length prompt -> Fill_spec.only_at mask_id ids pos ->
      length ids <= N.to_nat (ck_positions c) -> Eval_spec.enough_rows (Encoder_model.Roberta pad) (N.to_nat (ck_positions c)) ids ->
      Eval_spec.fits (Encoder_model.get_context_buffer_size L (length ids) (ck_hp c) Encoder_model.PoolNone) (N.to_nat (ck_layers c)) ->
      Eval_spec.encoder_nodes Encoder_model.PoolNone (N.to_nat (ck_layers c)) <= Ggml_model.graph_nodes L ->
      Eval_spec.fits (Encoder_model.get_context_buffer_size_for_lm L (length ids) (ck_hp c) (N.to_nat (ck_vocab_size c))) 0 ->
      let mat := quantized_matrix value chunk widen qt single half r32 f32 in
      exists ls,
        Fill_model.fill_mask P L ji jt jv (fun _ => Fill_model.open k engine ws pick sporder (load_bytes L junk value order (Some out) true))
          [exe; path; k_str; prompt] = Ok (0%N, ls) /\
        Fill_spec.printed le P (Fill_model.api_of k engine ws pick sporder m) (Z.to_nat z)
          (Fill_spec.mask_row P (evaluator m) (params_of c mat (vector_of r32)) (head_of c mat (vector_of r32)) (Ggml_model.p_gelu P) ids pos) ls).
Proof.
  intros E single half c f32 bytes L junk V value order r32 r16 P chunk widen qt le k engine matches ws pick sporder ji jt jv exe path keep
    RF RD FI HF Ec HL0 HS0 HK H Hf Hb Hjk HL HO HP Hji Hso HE HPk HSO HCk Hq HQ.
  destruct (ready_quantizes single half c f32 bytes L junk V value order r32 r16 P chunk widen qt RF RD FI H Hf Hb HL HO HP HCk Hq HQ)
    as (m0 & out & M0 & Hqu & Hout).
  exists out. split; [exact Hqu|]. intros Hfit Hby.
  destruct (Hout Hfit) as (f' & m & M & ML & EF & Ev & Ehp & FL & EC & S & LS & _). specialize (LS HF).
  assert (H32 := rf_single _ _ _ _ _ RF). assert (H16 := rf_half _ _ _ _ _ RF). destruct RD as [HS PV SP EO HC].
  assert (HC' : proper_merges c /\ act_number c 0) by (destruct HC as [Q|(_ & Q)]; [congruence|exact Q]). destruct HC' as (PM & HA).
  destruct (P_Convert.C122_roberta_loads E single half c f32 bytes L junk V value order H32 H16 HS PV SP EO Ec PM HA HO H Hf HL)
    as (m' & rv & ts0 & M' & Mv & VO & T0 & SO & EK & _).
  assert (Q : m' = m0) by congruence. subst m'. clear M'.
  destruct (P_Rfill.C134_checkpoint_tokens E single half c f32 bytes L junk V value order keep H32 H16 HS PV SP EO Ec PM HA HO HK H Hf HL)
    as (m' & rv' & ts & ms & unk & mask_id & mask & M' & Mv' & Ei & T & MS & SU & SM & IM & TOK).
  assert (Q : m' = m0) by congruence. subst m'. clear M'. assert (Q : rv' = rv) by congruence. subst rv'. clear Mv'.
  assert (Ek : Eval_model.em_kind (evaluator m) = Eval_model.em_kind (evaluator m0)) by (unfold evaluator; rewrite Ev; destruct (lo_vocab m0); reflexivity).
  rewrite <- Ev in Mv.
  assert (EQ : load_bytes L junk value order (Some out) true = load_from_file L junk value order (Some f') true) by congruence.
  exists m, ts, ms, (r_cls (rv_sp rv)), (r_sep (rv_sp rv)), unk, (r_pad (rv_sp rv)), mask_id, mask.
  split; [exact M|]. split; [exact T|]. split; [exact MS|]. split; [apply (SO K_cls); cbn; tauto|]. split; [apply (SO K_sep); cbn; tauto|].
  split; [exact SU|]. split; [apply (SO K_pad); cbn; tauto|]. split; [exact SM|]. split; [exact IM|].
  intros prompt HT. destruct (TOK engine matches ws pick sporder prompt HE HPk HSO HT) as (parts & inner & C & TK & TI).
  exists parts, inner. split; [exact C|]. split; [exact TI|].
  intros ids k_str z pos Hr Hi Hz Hlen Hm Hpos Hrows HM1 HG HM2 mat.
  assert (BY : P_FillFile.bytes_only f' junk) by (split; [rewrite EF; exact Hby|exact Hjk]).
  assert (Lt := to_length _ _ T).
  assert (SN : forall q, In q (special_keys RobertaModel) -> exists t, Vocab_spec.entry ts (roberta_special (rv_sp rv) q) t).
  { intros q Hq'. unfold P_Rfill.plain_specials in HK.
    assert (X : exists t n, special_of c q n /\ In (t, n) (ck_vocab c)).
    { clear - HK Hq'. induction HK as [|k t ks ks' (n & Q1 & Q2 & _) F IH]; [destruct Hq'|]. destruct Hq' as [<-|Hq']; [eauto|exact (IH Hq')]. }
    destruct X as (t & n & X1 & X2). exists t. rewrite (P_Rfill.special_one c q _ n Ec (pv_tokens _ PV) Hq' (SO q Hq') X1). exact (to_given _ _ T _ _ X2). }
  assert (ENT : forall i t, Vocab_spec.entry ts i t -> (i < N.of_nat (length ts))%N).
  { intros i t En. unfold Vocab_spec.entry in En. assert (N.to_nat i < length ts) by (apply nth_error_Some; congruence). lia. }
  assert (NV : (N.of_nat (length ts) <= 2147483648)%N) by (rewrite Lt; exact (fi_vocab _ FI)).
  assert (SK : forall q, In q (special_keys RobertaModel) -> (roberta_special (rv_sp rv) q < N.of_nat (length ts))%N)
    by (intros q Hq'; destruct (SN q Hq') as (t & En); eauto).
  assert (EM : r_mask (rv_sp rv) = mask_id) by exact (P_Rfill.special_one c K_mask _ _ Ec (pv_tokens _ PV) ltac:(cbn; tauto) (SO K_mask ltac:(cbn; tauto)) SM).
  assert (EU : r_unk (rv_sp rv) = unk) by exact (P_Rfill.special_one c K_unk _ _ Ec (pv_tokens _ PV) ltac:(cbn; tauto) (SO K_unk ltac:(cbn; tauto)) SU).
  assert (EL : Eval_model.em_vocab_count (evaluator m) = N.to_nat (ck_vocab_size c)) by exact EC.
  rewrite EQ.
  apply (P_Rfill.lines_printed L junk value le P order f' true m (N.to_nat (ck_vocab_size c)) (N.to_nat (ck_positions c))
    (params_of c mat (vector_of r32)) (head_of c mat (vector_of r32)) k engine ws pick sporder ji jt jv exe path k_str prompt z ids pos HL BY Hji Hso);
    rewrite ?Ehp, ?EL; cbn [ck_hp Encoder_model.hidden_dim Encoder_model.n_layers Encoder_model.attn_heads
      Encoder_model.max_tokens Encoder_model.intermediate_dim Encoder_model.segment_count]; try assumption; try lia.
  - unfold Fill_spec.token_ids, Fill_model.api_of. rewrite Mv. cbn [Api_model.m_tokenize Api_model.m_cls Api_model.m_sep]. rewrite TK. reflexivity.
  - unfold Fill_model.api_of. rewrite Mv. cbn [Api_model.m_mask]. rewrite EM. exact Hm.
  - rewrite N2Nat.id, <- Lt. unfold ids. constructor; [apply (SK K_cls); cbn; tauto|]. apply Forall_app. split.
    + apply (P_Rtext.C133_known_ids ts ms unk mask ws matches parts inner); [|exact TI]. rewrite <- EU. apply (SN K_unk). cbn; tauto.
    + constructor; [apply (SK K_sep); cbn; tauto|constructor].
  - assert (X := fi_positions _ FI). lia.
  - rewrite Ek, EK. exact Hrows.
Qed.
Print Assumptions C141_quantized_roberta_to_lines.

(** ** Example: rows of 32 numbers, in blocks of 32 *)
Definition y_diag (d : N) : list N := concat (map (fun i => map (fun j => if i =? j then d else 0%N) (seq 0 32)) (seq 0 32)).
Definition y_row (n : nat) : list N := map (fun i => N.of_nat (Nat.modulo i 5)) (seq 0 (32 * n)).
Definition y_layer : list (list N * ptensor N) :=
  let mat s := P_Convert.x_mat (u "encoder.layer.0." ++ s) 32 32 in
  let vec s := P_Convert.x_vec (u "encoder.layer.0." ++ s) in
  [mat (u "attention.self.query.weight") (y_diag 1); vec (u "attention.self.query.bias") (repeat 0%N 32);
   mat (u "attention.self.key.weight") (y_diag 2); vec (u "attention.self.key.bias") (repeat 0%N 32);
   mat (u "attention.self.value.weight") (y_diag 3); vec (u "attention.self.value.bias") (repeat 0%N 32);
   mat (u "attention.output.dense.weight") (y_diag 5); vec (u "attention.output.dense.bias") (repeat 0%N 32);
   vec (u "attention.output.LayerNorm.weight") (repeat 1%N 32); vec (u "attention.output.LayerNorm.bias") (repeat 0%N 32);
   mat (u "intermediate.dense.weight") (y_diag 2); vec (u "intermediate.dense.bias") (repeat 0%N 32);
   mat (u "output.dense.weight") (y_diag 3); vec (u "output.dense.bias") (repeat 0%N 32);
   vec (u "output.LayerNorm.weight") (repeat 1%N 32); vec (u "output.LayerNorm.bias") (repeat 0%N 32)].
Definition y_state : list (list N * ptensor N) :=
  [P_Convert.x_mat (u "embeddings.word_embeddings.weight") 7 32 (y_row 7);
   P_Convert.x_mat (u "embeddings.position_embeddings.weight") 4 32 (y_row 4);
   P_Convert.x_mat (u "embeddings.token_type_embeddings.weight") 1 32 (y_row 1);
   P_Convert.x_vec (u "embeddings.LayerNorm.weight") (repeat 1%N 32); P_Convert.x_vec (u "embeddings.LayerNorm.bias") (repeat 0%N 32)] ++ y_layer ++
  [P_Convert.x_mat (u "pooler.dense.weight") 32 32 (y_diag 1); P_Convert.x_vec (u "pooler.dense.bias") (repeat 6%N 32)].
Definition y_lm : list (list N * ptensor N) :=
  [P_Convert.x_vec (u "predictions.bias") [0;0;0;0;3;0;1]%N;
   P_Convert.x_mat (u "predictions.transform.dense.weight") 32 32 (y_diag 2); P_Convert.x_vec (u "predictions.transform.dense.bias") (repeat 0%N 32);
   P_Convert.x_vec (u "predictions.transform.LayerNorm.weight") (repeat 1%N 32); P_Convert.x_vec (u "predictions.transform.LayerNorm.bias") (repeat 0%N 32);
   P_Convert.x_mat (u "predictions.decoder.weight") 7 32 (y_row 7); P_Convert.x_vec (u "predictions.decoder.bias") [0;0;0;0;3;0;1]%N].
Definition y_bert : checkpoint N :=
  mkck N BertModel (u "demo/wide") 7 32 1 2 4 32 1 (u "gelu") 4427486594234968593 4581421828931458171
    (fun k => match k with K_cls => Some 0%N | K_unk => Some 5%N | _ => None end)
    (fun k => match k with K_lower => Some false | K_cjk => Some true | _ => None end) 0
    (ck_vocab P_Convert.x_bert) None y_state y_lm.

(** Numbers of the file below 256, 2 bytes or 4; blocks of 32 numbers as 2 bytes and 32,
    every number as a multiple of 3; or 2 bytes each, of multiples of 4. *)
Definition y_chunk (t : gty) (data : list N) (n : nat) : list N :=
  match t with
  | TQ8_0 => flat_map (fun b => [1; 0]%N ++ map (fun i => (nth (4 * (32 * b + i)) data 0 / 3 * 3)%N) (seq 0 32)) (seq 0 (Nat.div n 32))
  | TF16 => flat_map (fun i => [(nth (4 * i) data 0 / 4 * 4)%N; 0%N]) (seq 0 n)
  | _ => P_Quantize.d_chunk t data n
  end.
Fixpoint y_widen (data : list N) : list N := match data with a :: b :: r => a :: b :: 0%N :: 0%N :: y_widen r | _ => [] end.
Definition y_value (t : gty) (bs : list N) (i : nat) : Z :=
  match t with TQ8_0 => Z.of_N (nth (34 * Nat.div i 32 + 2 + Nat.modulo i 32) bs 0%N) | _ => P_Convert.x_value t bs i end.
Definition y_bytes (f32 : bool) : list N := match convert P_Convert.x_single P_Convert.x_half y_bert f32 with Some bs => bs | None => [] end.
Definition y_room : nat := N.to_nat 40000.
Definition y_quantize (bytes : list N) (qt : gty) : outcome (bool * option (list N)) :=
  quantize_bytes P_Eval.lib64 P_Loader.d_junk y_value (fun l => l) y_chunk y_widen bytes true true (fun _ => y_room) qt.
Definition y_done (r : outcome (bool * option (list N))) : list N := match r with Ok (true, Some b) => b | _ => [] end.
Definition y_file : list N := Eval vm_compute in y_bytes false.
Definition y_out := Eval vm_compute in y_quantize y_file TQ8_0.

Lemma y_chunk_ok : chunk_ok y_chunk.
Proof.
  intros t data n Ht. assert (D := P_Quantize.d_chunk_ok t data n Ht). destruct t; try exact D.
  - unfold y_chunk. change (blck_size TF16) with 1%N. change (type_size TF16) with 2%N. rewrite N.div_1_r.
    assert (L : forall l, length (flat_map (fun i => [(nth (4 * i) data 0 / 4 * 4)%N; 0%N]) l) = 2 * length l).
    { induction l as [|b l IH]; [reflexivity|]. cbn [flat_map]. rewrite app_length, IH. cbn [length]. lia. }
    rewrite L, seq_length, Nat2N.inj_mul. change (N.of_nat 2) with 2%N. lia.
  - unfold y_chunk. change (blck_size TQ8_0) with 32%N. change (type_size TQ8_0) with 34%N.
  assert (L : forall l, length (flat_map (fun b => [1; 0]%N ++ map (fun i => (nth (4 * (32 * b + i)) data 0 / 3 * 3)%N) (seq 0 32)) l) = 34 * length l).
  { induction l as [|b l IH]; [reflexivity|]. cbn [flat_map]. rewrite app_length, IH, app_length, map_length, seq_length. cbn [length]. lia. }
  rewrite L, seq_length, Nat2N.inj_mul, Nat2N.inj_div. change (N.of_nat 34) with 34%N. change (N.of_nat 32) with 32%N. lia.
Qed.
Lemma y_floats : readable_floats y_value P_Convert.x_single P_Convert.x_half P_Convert.x_r32 P_Convert.x_r16.
Proof. destruct P_Convert.x_floats as [A B C D]. constructor; assumption. Qed.

Lemma y_storable : storable y_bert.
Proof.
  constructor.
  - left. reflexivity.
  - unfold short, fits64. vm_compute. reflexivity.
  - reflexivity.
  - reflexivity.
  - apply (P_Convert.forallb_Forall (fun x => P_Convert.wholeb (snd x))); [intros x; apply P_Convert.wholeb_ok|vm_compute; reflexivity].
  - apply (P_Convert.forallb_Forall (fun x => length (p_shape (snd x)) <=? 4)); [intros x; apply Nat.leb_le|vm_compute; reflexivity].
  - apply (P_Convert.forallb_Forall (fun x => P_Convert.namedb (fst x))); [intros x; apply P_Convert.namedb_ok|vm_compute; reflexivity].
  - apply Forall_forall. intros x Hx. exists (fst x). split; [constructor; reflexivity|].
    assert (F : Forall (fun x => ~ In 0%N (fst x) /\ length (fst x) < 53) (ck_lm y_bert)).
    { apply (P_Convert.forallb_Forall (fun x => P_Convert.namedb (fst x))); [intros z; apply P_Convert.namedb_ok|vm_compute; reflexivity]. }
    rewrite Forall_forall in F. apply F. apply filter_In in Hx. apply Hx.
  - split; [apply P_Convert.distinctb_ok; vm_compute; reflexivity|]. split; [apply P_Convert.distinctb_ok; vm_compute; reflexivity|].
    intros key name t Hin Hk. inversion Hk as [k Q1 Q2 Q3|s Q|s Q|s Q]; subst; try discriminate Q. clear - Hin.
    apply (in_map fst) in Hin. cbn [fst] in Hin. intros Q.
    assert (D : NoDup (map fst (ck_lm y_bert) ++ map fst (ck_state y_bert))) by (apply P_Convert.distinctb_ok; vm_compute; reflexivity).
    revert Hin Q D. generalize (map fst (ck_lm y_bert)), (map fst (ck_state y_bert)). intros a b. induction a as [|x a IH]; intros Ha Hb ND; [destruct Ha|].
    cbn [app] in ND. inversion ND as [|? ? N1 N2]; subst. destruct Ha as [->|Ha]; [apply N1, in_app_iff; right; exact Hb|exact (IH Ha Hb N2)].
Qed.
Ltac y_in := repeat first [left; reflexivity | right].
Lemma y_encoder : encoder_ok y_bert.
Proof.
  assert (I : forall k t, In (k, t) y_layer -> In (k, t) y_state).
  { intros k t H. unfold y_state. apply in_app_iff. right. apply in_app_iff. left. exact H. }
  constructor; cbn [ck_hidden ck_inter ck_state ck_vocab_size ck_positions ck_segments ck_layers y_bert].
  - cbn; lia.
  - cbn; lia.
  - eexists; split; [unfold y_state; cbn [app]; y_in|reflexivity].
  - eexists; split; [unfold y_state; cbn [app]; y_in|reflexivity].
  - eexists; split; [unfold y_state; cbn [app]; y_in|reflexivity].
  - repeat (constructor; [eexists; split; [unfold y_state; cbn [app]; y_in|reflexivity]|]). constructor.
  - intros n Hn. replace n with 0 by lia.
    constructor; try (apply Forall_forall; intros s Hs; cbn [In] in Hs; repeat (destruct Hs as [<-|Hs])); try (destruct Hs);
      (eexists; split; [apply I; unfold y_layer; y_in|reflexivity]).
  - eexists; split; [unfold y_state; repeat (apply in_app_iff; right); y_in|reflexivity].
  - eexists; split; [unfold y_state; repeat (apply in_app_iff; right); y_in|reflexivity].
Qed.
Lemma y_head : head_fits y_bert.
Proof. constructor; eexists; (split; [cbn [ck_lm y_bert]; unfold y_lm; y_in|reflexivity]). Qed.
Lemma y_ready : ready y_bert.
Proof.
  destruct P_Convert.x_bert_vocab as [V1 V2 V3 V4 V5].
  constructor; [exact y_storable|constructor; assumption|exact P_Convert.x_bert_specials|exact y_encoder|left; reflexivity].
Qed.
Lemma y_ints : fits_ints y_bert.
Proof. constructor; [split; [reflexivity|discriminate]|reflexivity|reflexivity|reflexivity|discriminate|discriminate]. Qed.

Definition y_blocks (b : nat) (x : list N * ptensor N) : bool :=
  match squeezed (p_shape (snd x)) with
  | [_; n] => (Nat.modulo n b =? 0) && negb (list_N_eqb (skipn (length (fst x) - 5) (u "berts.bert." ++ fst x)) (u "LayerNorm.weight"))
  | _ => true
  end.
Lemma y_quantizable_by qt b c : ck_class c = BertModel -> blck_size qt = N.of_nat b -> forallb (y_blocks b) (ck_state c ++ ck_lm c) = true -> quantizable qt c.
Proof.
  intros Ec Eb F. rewrite forallb_forall in F.
  assert (W : forall key name t, written_as c key name t -> y_blocks b (name, t) = true).
  { intros key name t W. apply F, in_app_iff. destruct W as [key t H|key name t H K _]; [left; exact H|right]. rewrite Ec in K.
    inversion K as [k Q1 Q2 Q3|s Q|s Q|s Q]; subst; try discriminate Q. exact H. }
  constructor.
  - intros key name t p r n H _ S. apply W in H. unfold y_blocks in H. cbn [fst snd] in H. rewrite S in H. apply andb_true_iff in H as (H & _).
    apply Nat.eqb_eq in H. rewrite Eb, <- Nat2N.inj_mod, H. reflexivity.
  - intros key name t p H E S. apply W in H. unfold y_blocks in H. cbn [fst snd] in H.
    destruct (squeezed (p_shape t)) as [|r [|n [|? l]]]; try discriminate S. apply andb_true_iff in H as (_ & H).
    rewrite E in H. assert (L := f_equal (@length N) E). rewrite !app_length in L.
    change (length (u "berts.bert.")) with 11 in L. change (length (u "LayerNorm.weight")) with 16 in L.
    rewrite skipn_app in H. replace (length name - 5) with (length p) in H by lia. rewrite skipn_all, Nat.sub_diag, list_N_eqb_refl in H. discriminate H.
Qed.
Lemma y_quantizable : quantizable TQ8_0 y_bert.
Proof. apply (y_quantizable_by TQ8_0 32); vm_compute; reflexivity. Qed.
Lemma y_small_quantizable : quantizable TF16 P_Convert.x_bert.
Proof. apply (y_quantizable_by TF16 1); vm_compute; reflexivity. Qed.

Definition y_eval (bs toks : list N) (n : nat) : outcome (Eval_model.evaluated Z) :=
  match load_bytes P_Eval.lib64 P_Loader.d_junk y_value (fun l => l) (Some bs) true with
  | Ok (Loaded m) => Eval_model.berts_eval P_Eval.zprim P_Eval.lib64 (Eval_model.ELoaded (evaluator m)) toks None (length toks)
      (Some (Eval_model.mkei (-1) Encoder_model.PoolNone)) (Some (repeat 0%Z n)) (Some (N.of_nat n))
  | _ => Fail
  end.
Definition y_small : list N := Eval vm_compute in y_done (y_quantize P_Convert.x_bert_file TF16).
Lemma byte_stringb bs : forallb (fun b => b <? 256)%N bs = true -> byte_string bs.
Proof. apply P_Convert.forallb_Forall. intros b Hb. apply N.ltb_lt, Hb. Qed.

(** Blocks of 32 numbers, and a small model of which the values can be computed; rounding
    changes them. *)
Example C140_example :
  readable_floats y_value P_Convert.x_single P_Convert.x_half P_Convert.x_r32 P_Convert.x_r16 /\ ready y_bert /\ fits_ints y_bert /\
  convert P_Convert.x_single P_Convert.x_half y_bert false = Some y_file /\ byte_string y_file /\ chunk_ok y_chunk /\ quantizable TQ8_0 y_bert /\
  (N.of_nat (length (y_done y_out)) = 14880)%N /\ y_quantize y_file TQ8_0 = y_out /\
  quantizable TF16 P_Convert.x_bert /\ y_quantize P_Convert.x_bert_file TF16 = Ok (true, Some y_small) /\
  y_eval P_Convert.x_bert_file [0; 2; 1]%N 6 = Ok (Eval_model.mkev true (Some [50; 125; 170; 245; 260; 335]%Z) (Some 6%N)) /\
  y_eval y_small [0; 2; 1]%N 6 = Ok (Eval_model.mkev true (Some [8; 21; 32; 45; 48; 65]%Z) (Some 6%N)).
Proof.
  split; [exact y_floats|]. split; [exact y_ready|]. split; [exact y_ints|]. split; [vm_compute; reflexivity|].
  split; [apply byte_stringb; vm_compute; reflexivity|]. split; [exact y_chunk_ok|]. split; [exact y_quantizable|].
  split; [vm_compute; reflexivity|]. split; [vm_compute; reflexivity|]. split; [exact y_small_quantizable|].
  split; [vm_compute; reflexivity|]. split; vm_compute; reflexivity.
Qed.

Definition y_fill (bs k_str prompt : list N) : outcome (N * list (Fill_model.line (V := Z))) :=
  Fill_model.fill_mask P_Eval.zprim P_Eval.lib64 (fun _ => 7%N) (fun _ => 8) (fun _ => 9%Z)
    (fun _ => Fill_model.open P_Bert.demo_icu (fun _ => []) (fun _ => false) (fun _ => None) (fun l => l)
       (load_bytes P_Eval.lib64 P_Loader.d_junk y_value (fun l => l) (Some bs) true))
    [u "fill_mask"; u "model"; k_str; prompt].
Definition y_r5 : list N := Eval vm_compute in y_done (y_quantize P_Rfill.x5_file TF16).
Definition y5_fill (prompt : list N) : outcome (N * list (Fill_model.line (V := Z))) :=
  Fill_model.fill_mask P_Eval.zprim P_Eval.lib64 (fun _ => 7%N) (fun _ => 8) (fun _ => 9%Z)
    (fun _ => Fill_model.open P_Bert.demo_icu P_Roberta.one_match P_Roberta.is_space pick_max (fun l => l)
       (load_bytes P_Eval.lib64 P_Loader.d_junk y_value (fun l => l) (Some y_r5) true))
    [u "fill_mask"; u "model"; u "2"; prompt].

(** No weight of the RoBERTa example, by its stored name, is a layer norm's matrix. *)
Definition y_named (x : list N * ptensor N) : list N * ptensor N := (head_name RobertaModel (fst x), snd x).
Lemma y5_quantizable : quantizable TF16 P_Rfill.x5.
Proof.
  assert (W : forall key name t, written_as P_Rfill.x5 key name t -> In (name, t) (ck_state P_Rfill.x5 ++ map y_named (ck_lm P_Rfill.x5))).
  { intros key name t W. apply in_app_iff. destruct W as [key t H|key name t H K _]; [left; exact H|right]. apply in_map_iff. exists (key, t).
    split; [|exact H]. unfold y_named. cbn [fst snd]. f_equal. symmetry.
    exact (eq_sym (head_key_name _ _ _ (or_intror eq_refl) K)). }
  assert (F : forallb (y_blocks 1) (ck_state P_Rfill.x5 ++ map y_named (ck_lm P_Rfill.x5)) = true) by (vm_compute; reflexivity).
  rewrite forallb_forall in F. constructor.
  - intros key name t p r n _ _ _. change (blck_size TF16) with 1%N. apply N.mod_1_r.
  - intros key name t p H E S. apply W, F in H. unfold y_blocks in H. cbn [fst snd] in H.
    destruct (squeezed (p_shape t)) as [|r [|n [|? l]]]; try discriminate S. apply andb_true_iff in H as (_ & H).
    rewrite E in H. assert (L := f_equal (@length N) E). rewrite !app_length in L.
    change (length (u "berts.bert.")) with 11 in L. change (length (u "LayerNorm.weight")) with 16 in L.
    rewrite skipn_app in H. replace (length name - 5) with (length p) in H by lia. rewrite skipn_all, Nat.sub_diag, list_N_eqb_refl in H. discriminate H.
Qed.

Example C141_example :
  head_fits P_Convert.x_bert /\ byte_string y_small /\ Fill_spec.only_at 2 [0; 2; 1]%N 1 /\
  match y_fill y_small (u "2") (u "[MASK]") with Ok (0%N, ls) => length ls = 2 /\ y_fill P_Convert.x_bert_file (u "2") (u "[MASK]") <> Ok (0%N, ls) | _ => False end /\
  head_fits P_Rfill.x5 /\ quantizable TF16 P_Rfill.x5 /\ byte_string y_r5 /\
  match y5_fill (u "<mask>") with Ok (0%N, ls) => length ls = 2 | _ => False end.
Proof.
  split; [exact P_Convert.x_bert_head|]. split; [apply byte_stringb; vm_compute; reflexivity|].
  split; [exact (proj1 (proj2 (proj2 (proj2 (proj2 (proj2 P_Convert.C125_example))))))|].
  split; [vm_compute; split; [reflexivity|discriminate]|]. split; [exact P_Rfill.x5_head|]. split; [exact y5_quantizable|].
  split; [apply byte_stringb; vm_compute; reflexivity|]. vm_compute. reflexivity.
Qed.
