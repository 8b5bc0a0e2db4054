(** Converted RoBERTa checkpoints with the tokenizer's own word pattern: C165, C166. *)
From Coq Require Import Permutation.
From Verif Require Import Base Assoc Utf_model Utf_spec Utf_proofs Ustr_spec Bert_model Vocab_model Vocab_spec Vocab_proofs Bpe_model Bpe_spec
  Bpe_load_proofs Roberta_model Roberta_spec Roberta_proofs Rtext_spec Rtext_proofs
  Loader_model Loader_spec Loader_proofs Quantize_model Quantize_spec Quantize_proofs Gguf_model Gguf_spec Gguf_proofs
  Convert_model Convert_spec Convert_proofs Convert_arrays Convert_load Convert_vocab Qck_spec.
From Verif Require Ggml_model Encoder_model Encoder_spec Eval_model Eval_spec P_Eval P_Convert P_Rtext P_Rfill P_Qck P_Pattern P_Roberta.
From Verif Require Fill_model Fill_spec Pattern_model Pattern_spec Pattern_proofs.
Local Open Scope nat_scope.

Lemma pattern_engine letter digit blank : Pattern_spec.classes letter digit blank -> forall s,
  Pattern_model.engine (Pattern_model.word_pattern letter digit blank) s = map Some (Pattern_model.occurrences (Pattern_model.word_pattern letter digit blank) s) /\
  ordered 0 (length s) (Pattern_model.occurrences (Pattern_model.word_pattern letter digit blank) s).
Proof.
  intros CL s. split; [reflexivity|]. destruct (Pattern_proofs.pattern_split letter digit blank s CL) as (gss & _ & _ & O & _). exact O.
Qed.

Lemma parts_ascii keep text parts : Roberta_spec.cut keep text parts -> Forall (fun b => (b < 0x80)%N) text ->
  Forall (fun s => Forall (fun c => (c < 0x80)%N) (snd s)) parts.
Proof.
  intros C HT. apply Forall_forall. intros s Hs. destruct (cut_parts _ _ _ C s Hs) as ((a & b & E) & _). rewrite E in HT.
  apply Forall_app in HT as (_ & HT). apply Forall_app in HT. apply HT.
Qed.

(** * C165: the tokens of a text under a converted checkpoint *)
Theorem C165_checkpoint_tokens : forall E (single half : E -> list N) (c : checkpoint E) f32 bytes L junk V (value : gty -> list N -> nat -> V) order keep
    letter digit blank,
  Pattern_spec.classes letter digit blank ->
  (forall e, length (single e) = 4) -> (forall e, length (half e) = 2) -> storable c -> proper_vocab c -> specials_ok c -> encoder_ok c ->
  ck_class c = RobertaModel -> proper_merges c -> act_number c 0 -> (forall l, Permutation l (order l)) -> P_Rfill.plain_specials c keep ->
  convert single half c f32 = Some bytes -> fits64 (N.of_nat (length bytes)) -> lib_ok L ->
  exists m rv ts ms unk mask_id mask, load_bytes L junk value order (Some bytes) true = Ok (Loaded m) /\ lo_vocab m = LRoberta rv /\
    tokens_of c ts /\ P_Rfill.merge_ids c ms /\ special_of c K_unk unk /\ special_of c K_mask mask_id /\ In (mask, mask_id) (ck_vocab c) /\
    forall trimmed pick sporder text,
      removes_maximal Bpe_model.entry_lt pick -> (forall x t, In t (sporder x) <-> In t x) ->
      Forall (fun b => (b < 0x80)%N) text ->
      exists parts ids, Roberta_spec.cut keep text parts /\
        r_tokenize (Pattern_model.engine (Pattern_model.word_pattern letter digit blank)) trimmed pick sporder rv text = Some (Ok ids) /\
        Pattern_spec.text_tokens letter digit blank ts ms unk mask trimmed parts ids.
Proof.
  intros E single half c f32 bytes L junk V value order keep letter digit blank CL H32 H16 HS PV SP EO Ec PM HA HO HK H Hf HL.
  destruct (P_Rfill.C134_checkpoint_tokens E single half c f32 bytes L junk V value order keep H32 H16 HS PV SP EO Ec PM HA HO HK H Hf HL)
    as (m & rv & ts & ms & unk & mask_id & mask & M & Mv & Ei & T & MS & SU & SM & IM & TOK).
  exists m, rv, ts, ms, unk, mask_id, mask. do 7 (split; [assumption|]).
  intros trimmed pick sporder text HP HSO HT.
  destruct (TOK _ _ trimmed pick sporder text (pattern_engine letter digit blank CL) HP HSO HT) as (parts & ids & C & TK & TI).
  exists parts, ids. split; [exact C|]. split; [exact TK|].
  apply (Pattern_proofs.text_iff letter digit blank CL); [exact (parts_ascii keep text parts C HT)|exact TI].
Qed.
Print Assumptions C165_checkpoint_tokens.

(** * C166: from the checkpoint and the prompt to the lines printed *)

(** The prompt is no shorter than its ids if it contains a mask of three characters or more. *)
Lemma enough_bytes letter digit blank keep text parts ts ms unk mask trimmed inner (cls sep : N) :
  Pattern_spec.classes letter digit blank -> ~ In [] keep -> Roberta_spec.cut keep text parts ->
  text_ids ts ms unk mask trimmed (Pattern_model.occurrences (Pattern_model.word_pattern letter digit blank)) parts inner ->
  In (true, mask) parts -> 3 <= length mask -> length (cls :: inner ++ [sep]) <= length text.
Proof.
  intros CL NE C T I L3.
  destruct (P_Rtext.C133_no_more_ids_than_bytes ts ms unk mask trimmed _ keep text parts inner (fun s => proj2 (pattern_engine letter digit blank CL s)) NE C T) as (_ & B).
  specialize (B I). cbn [length]. rewrite app_length. cbn [length]. lia.
Qed.

Lemma specials_nonempty {E} (c : checkpoint E) keep : P_Rfill.plain_specials c keep -> ~ In [] keep.
Proof.
  intros HK. unfold P_Rfill.plain_specials in HK. induction HK as [|k t ks keep (n & _ & _ & NE & _) F IH]; [intros []|].
  intros [->|I]; [congruence|exact (IH I)].
Qed.

Theorem C166_checkpoint_to_lines : forall E (single half : E -> list N) (c : checkpoint E) f32 bytes L junk V
    (value : gty -> list N -> nat -> V) order r32 r16 P (le : V -> V -> Prop) k letter digit blank trimmed pick sporder ji jt jv exe path keep,
  Pattern_spec.classes letter digit blank ->
  readable_floats value single half r32 r16 -> ready c -> fits_ints c -> head_fits c -> ck_class c = RobertaModel ->
  (0 < ck_layers c)%N -> (0 < ck_segments c)%N -> P_Rfill.plain_specials c keep ->
  convert single half c f32 = Some bytes -> fits64 (N.of_nat (length bytes)) -> byte_string bytes -> (forall i, (junk i < 256)%N) ->
  lib_ok L -> (forall l, Permutation l (order l)) -> Encoder_spec.row_ops_ok P -> Fill_spec.tokens32 ji ->
  Eval_spec.sorts le (Ggml_model.p_zero P) (Ggml_model.p_argsort P) ->
  removes_maximal Bpe_model.entry_lt pick -> (forall x t, In t (sporder x) <-> In t x) ->
  let engine := Pattern_model.engine (Pattern_model.word_pattern letter digit blank) in
  exists m ts ms cls sep unk pad mask_id mask, load_bytes L junk value order (Some bytes) true = Ok (Loaded m) /\
    tokens_of c ts /\ P_Rfill.merge_ids c ms /\ special_of c K_cls cls /\ special_of c K_sep sep /\ special_of c K_unk unk /\ special_of c K_pad pad /\
    special_of c K_mask mask_id /\ In (mask, mask_id) (ck_vocab c) /\
    forall prompt, Forall (fun b => (b < 0x80)%N) prompt ->
    exists parts inner, Roberta_spec.cut keep prompt parts /\
    Pattern_spec.text_tokens letter digit blank ts ms unk mask trimmed parts inner /\
    let ids := cls :: inner ++ [sep] in
    forall k_str z pos,
      Fill_spec.reads k_str z -> Fill_spec.is_int z -> (1 <= z <= Z.of_N (ck_vocab_size c))%Z ->
      In (true, mask) parts -> 3 <= length mask -> Fill_spec.only_at mask_id ids pos ->
      length ids <= N.to_nat (ck_positions c) -> Eval_spec.enough_rows (Encoder_model.Roberta pad) (N.to_nat (ck_positions c)) ids ->
      Eval_spec.fits (Encoder_model.get_context_buffer_size L (length ids) (ck_hp c) Encoder_model.PoolNone) (N.to_nat (ck_layers c)) ->
      Eval_spec.encoder_nodes Encoder_model.PoolNone (N.to_nat (ck_layers c)) <= Ggml_model.graph_nodes L ->
      Eval_spec.fits (Encoder_model.get_context_buffer_size_for_lm L (length ids) (ck_hp c) (N.to_nat (ck_vocab_size c))) 0 ->
      exists ls,
        Fill_model.fill_mask P L ji jt jv (fun _ => Fill_model.open k engine trimmed pick sporder (load_bytes L junk value order (Some bytes) true))
          [exe; path; k_str; prompt] = Ok (0%N, ls) /\
        Fill_spec.printed le P (Fill_model.api_of k engine trimmed pick sporder m) (Z.to_nat z)
          (Fill_spec.mask_row P (evaluator m) (ck_params r32 r16 f32 c) (ck_head r32 r16 f32 c) (Ggml_model.p_gelu P) ids pos) ls.
Proof.
  intros E single half c f32 bytes L junk V value order r32 r16 P le k letter digit blank trimmed pick sporder ji jt jv exe path keep
    CL RF RD FI HF Ec HL0 HS0 HK H Hf Hb Hjk HL HO HP Hji Hso HPk HSO engine.
  destruct (P_Rfill.C108_checkpoint_to_lines E single half c f32 bytes L junk V value order r32 r16 P le k engine _ trimmed pick sporder ji jt jv exe path keep
    RF RD FI HF Ec HL0 HS0 HK H Hf Hb Hjk HL HO HP Hji Hso (pattern_engine letter digit blank CL) HPk HSO)
    as (m & ts & ms & cls & sep & unk & pad & mask_id & mask & M & T & MS & S1 & S2 & S3 & S4 & S5 & IM & R).
  exists m, ts, ms, cls, sep, unk, pad, mask_id, mask. do 9 (split; [assumption|]).
  intros prompt HT. destruct (R prompt HT) as (parts & inner & C & TI & Q). exists parts, inner. split; [exact C|]. split.
  { apply (Pattern_proofs.text_iff letter digit blank CL); [exact (parts_ascii keep prompt parts C HT)|exact TI]. }
  intros ids k_str z pos Hr Hi Hz IMP L3 Hm Hpos Hrows HM1 HG HM2.
  apply (Q k_str z pos Hr Hi Hz); auto.
  exact (enough_bytes letter digit blank keep prompt parts ts ms unk mask trimmed inner cls sep CL (specials_nonempty c keep HK) C TI IMP L3).
Qed.
Print Assumptions C166_checkpoint_to_lines.

(** The same after quantization. *)
Theorem C166_quantized_to_lines : forall E (single half : E -> list N) (c : checkpoint E) f32 bytes L junk V
    (value : gty -> list N -> nat -> V) order r32 r16 P chunk widen qt (le : V -> V -> Prop) k letter digit blank trimmed pick sporder ji jt jv exe path keep,
  Pattern_spec.classes letter digit blank ->
  readable_floats value single half r32 r16 -> ready c -> fits_ints c -> head_fits c -> ck_class c = RobertaModel ->
  (0 < ck_layers c)%N -> (0 < ck_segments c)%N -> P_Rfill.plain_specials c keep ->
  convert single half c f32 = Some bytes -> fits64 (N.of_nat (length bytes)) -> byte_string bytes -> (forall i, (junk i < 256)%N) ->
  lib_ok L -> (forall l, Permutation l (order l)) -> Encoder_spec.row_ops_ok P -> Fill_spec.tokens32 ji ->
  Eval_spec.sorts le (Ggml_model.p_zero P) (Ggml_model.p_argsort P) ->
  removes_maximal Bpe_model.entry_lt pick -> (forall x t, In t (sporder x) <-> In t x) ->
  chunk_ok chunk -> convertible qt = true -> quantizable qt c ->
  let engine := Pattern_model.engine (Pattern_model.word_pattern letter digit blank) in
  exists out,
    (forall dev, (forall i, length out <= dev i) -> quantize_bytes L junk value order chunk widen bytes true true dev qt = Ok (true, Some out)) /\
    (fits64 (N.of_nat (length out)) -> byte_string out ->
     exists m ts ms cls sep unk pad mask_id mask, load_bytes L junk value order (Some out) true = Ok (Loaded m) /\
     tokens_of c ts /\ P_Rfill.merge_ids c ms /\ special_of c K_cls cls /\ special_of c K_sep sep /\ special_of c K_unk unk /\ special_of c K_pad pad /\
     special_of c K_mask mask_id /\ In (mask, mask_id) (ck_vocab c) /\
     forall prompt, Forall (fun b => (b < 0x80)%N) prompt ->
     exists parts inner, Roberta_spec.cut keep prompt parts /\
     Pattern_spec.text_tokens letter digit blank ts ms unk mask trimmed parts inner /\
     let ids := cls :: inner ++ [sep] in
     forall k_str z pos,
      Fill_spec.reads k_str z -> Fill_spec.is_int z -> (1 <= z <= Z.of_N (ck_vocab_size c))%Z ->
      In (true, mask) parts -> 3 <= length mask -> Fill_spec.only_at mask_id ids pos ->
      length ids <= N.to_nat (ck_positions c) -> Eval_spec.enough_rows (Encoder_model.Roberta pad) (N.to_nat (ck_positions c)) ids ->
      Eval_spec.fits (Encoder_model.get_context_buffer_size L (length ids) (ck_hp c) Encoder_model.PoolNone) (N.to_nat (ck_layers c)) ->
      Eval_spec.encoder_nodes Encoder_model.PoolNone (N.to_nat (ck_layers c)) <= Ggml_model.graph_nodes L ->
      Eval_spec.fits (Encoder_model.get_context_buffer_size_for_lm L (length ids) (ck_hp c) (N.to_nat (ck_vocab_size c))) 0 ->
      let mat := quantized_matrix value chunk widen qt single half r32 f32 in
      exists ls,
        Fill_model.fill_mask P L ji jt jv (fun _ => Fill_model.open k engine trimmed pick sporder (load_bytes L junk value order (Some out) true))
          [exe; path; k_str; prompt] = Ok (0%N, ls) /\
        Fill_spec.printed le P (Fill_model.api_of k engine trimmed pick sporder m) (Z.to_nat z)
          (Fill_spec.mask_row P (evaluator m) (params_of c mat (vector_of r32)) (head_of c mat (vector_of r32)) (Ggml_model.p_gelu P) ids pos) ls).
Proof.
  intros E single half c f32 bytes L junk V value order r32 r16 P chunk widen qt le k letter digit blank trimmed pick sporder ji jt jv exe path keep
    CL RF RD FI HF Ec HL0 HS0 HK H Hf Hb Hjk HL HO HP Hji Hso HPk HSO HCk Hq HQ engine.
  destruct (P_Qck.C141_quantized_roberta_to_lines E single half c f32 bytes L junk V value order r32 r16 P chunk widen qt le k engine _ trimmed pick sporder ji jt jv exe path keep
    RF RD FI HF Ec HL0 HS0 HK H Hf Hb Hjk HL HO HP Hji Hso (pattern_engine letter digit blank CL) HPk HSO HCk Hq HQ) as (out & Hqu & Hout).
  exists out. split; [exact Hqu|]. intros Hfit Hby.
  destruct (Hout Hfit Hby) as (m & ts & ms & cls & sep & unk & pad & mask_id & mask & M & T & MS & S1 & S2 & S3 & S4 & S5 & IM & R).
  exists m, ts, ms, cls, sep, unk, pad, mask_id, mask. do 9 (split; [assumption|]).
  intros prompt HT. destruct (R prompt HT) as (parts & inner & C & TI & Q). exists parts, inner. split; [exact C|]. split.
  { apply (Pattern_proofs.text_iff letter digit blank CL); [exact (parts_ascii keep prompt parts C HT)|exact TI]. }
  intros ids k_str z pos Hr Hi Hz IMP L3 Hm Hpos Hrows HM1 HG HM2.
  apply (Q k_str z pos Hr Hi Hz); auto.
  exact (enough_bytes letter digit blank keep prompt parts ts ms unk mask trimmed inner cls sep CL (specials_nonempty c keep HK) C TI IMP L3).
Qed.
Print Assumptions C166_quantized_to_lines.

(** ** A checkpoint with seven positions and the seven-bit classes of characters *)
Definition x7_state : list (list N * ptensor N) :=
  [P_Convert.x_mat (u "embeddings.word_embeddings.weight") 8 2 (map N.of_nat (seq 1 16));
   P_Convert.x_mat (u "embeddings.position_embeddings.weight") 7 2 [10;20;30;40;50;60;70;80;90;100;110;120;130;140]%N;
   P_Convert.x_mat (u "embeddings.token_type_embeddings.weight") 1 2 [1;2]%N;
   P_Convert.x_vec (u "embeddings.LayerNorm.weight") [1;1]%N; P_Convert.x_vec (u "embeddings.LayerNorm.bias") [0;1]%N] ++ P_Convert.x_layer ++
  [P_Convert.x_mat (u "pooler.dense.weight") 2 2 [1;2;3;4]%N; P_Convert.x_vec (u "pooler.dense.bias") [5;6]%N].
Definition x7 : checkpoint N :=
  mkck N RobertaModel (u "demo/roberta") 8 2 1 1 7 2 1 (u "GeLU") 4427486594234968593 4581421828931458171
    (fun k => match k with K_pad => Some 1%N | _ => None end) (fun _ => None) 0
    (ck_vocab P_Convert.x_roberta) (ck_merges P_Convert.x_roberta) x7_state P_Convert.x_rlm.
Definition x7_file : list N := Eval vm_compute in P_Convert.x_bytes x7 false.

Lemma x7_storable : storable x7.
Proof.
  destruct P_Convert.x_roberta_storable as [S1 S2 S3 S4 S5 S6 S7 S8 S9]. constructor; try assumption.
  - apply (P_Convert.forallb_Forall (fun x => P_Convert.wholeb (snd x))); [intros x; apply P_Convert.wholeb_ok|vm_compute; reflexivity].
  - apply (P_Convert.forallb_Forall (fun x => length (p_shape (snd x)) <=? 4)); [intros x; apply Nat.leb_le|vm_compute; reflexivity].
  - apply (P_Convert.forallb_Forall (fun x => P_Convert.namedb (fst x))); [intros x; apply P_Convert.namedb_ok|vm_compute; reflexivity].
Qed.
Lemma x7_encoder : encoder_ok x7.
Proof.
  assert (I : forall k t, In (k, t) P_Convert.x_layer -> In (k, t) x7_state).
  { intros k t H. unfold x7_state. apply in_app_iff. right. apply in_app_iff. left. exact H. }
  constructor; cbn [ck_hidden ck_inter ck_state ck_vocab_size ck_positions ck_segments ck_layers x7].
  - cbn; lia.
  - cbn; lia.
  - eexists; split; [unfold x7_state; cbn [app]; repeat first [left; reflexivity | right]|reflexivity].
  - eexists; split; [unfold x7_state; cbn [app]; repeat first [left; reflexivity | right]|reflexivity].
  - eexists; split; [unfold x7_state; cbn [app]; repeat first [left; reflexivity | right]|reflexivity].
  - repeat (constructor; [eexists; split; [unfold x7_state; cbn [app]; repeat first [left; reflexivity | right]|reflexivity]|]). constructor.
  - intros n Hn. replace n with 0 by lia.
    constructor; try (apply Forall_forall; intros s Hs; cbn [In] in Hs; repeat (destruct Hs as [<-|Hs])); try (destruct Hs);
      (eexists; split; [apply I; unfold P_Convert.x_layer; repeat first [left; reflexivity | right]|reflexivity]).
  - eexists; split; [unfold x7_state; repeat (apply in_app_iff; right); repeat first [left; reflexivity | right]|reflexivity].
  - eexists; split; [unfold x7_state; repeat (apply in_app_iff; right); repeat first [left; reflexivity | right]|reflexivity].
Qed.
Lemma x7_ready : ready x7.
Proof.
  destruct P_Convert.x_roberta_vocab as [V1 V2 V3 V4 V5]. destruct (proj2 P_Convert.x_roberta_merges) as [M1 M2 M3].
  constructor; [exact x7_storable|constructor; assumption|exact P_Convert.x_roberta_specials|exact x7_encoder|right].
  split; [reflexivity|]. split; [constructor; assumption|exact P_Convert.x_roberta_act].
Qed.
Lemma x7_ints : fits_ints x7.
Proof.
  constructor; [split; [reflexivity|discriminate]|reflexivity|reflexivity|reflexivity|discriminate|].
  intros _ pad Hp. change (pad = 1%N) in Hp. subst pad. reflexivity.
Qed.
Lemma x7_head : head_fits x7.
Proof. destruct P_Convert.x_roberta_head as [A B C D F G]. constructor; assumption. Qed.
Lemma x7_specials : P_Rfill.plain_specials x7 P_Rtext.demo_keep.
Proof.
  unfold P_Rfill.plain_specials, special_keys, P_Rtext.demo_keep.
  assert (V : forall t, forallb (fun b => (0x21 <=? b) && (b <=? 0x7e))%N t = true -> Forall (fun b => (0x21 <= b <= 0x7e)%N) t).
  { intros t F. rewrite forallb_forall in F. apply Forall_forall. intros b Hb. specialize (F b Hb). lia. }
  assert (SP : forall k s n, spellings RobertaModel k = [s] -> ck_ids x7 k = None -> In (s, n) (ck_vocab x7) -> special_of x7 k n).
  { intros k s n E1 E2 E3. unfold special_of. rewrite E2. exists [], s, []. split; [exact E1|]. split; [exact E3|intros x []]. }
  constructor; [exists 0%N|constructor; [exists 2%N|constructor; [exists 0%N|constructor; [exists 4%N|constructor; [exists 1%N|constructor; [exists 2%N|constructor; [exists 3%N|constructor]]]]]]].
  all: split; [first [reflexivity | eapply SP; [reflexivity|reflexivity|cbn; tauto]]|]; split; [cbn; tauto|]; split; [discriminate|apply V; vm_compute; reflexivity].
Qed.

Local Notation P7 := (Pattern_model.word_pattern P_Pattern.az P_Pattern.num P_Pattern.white).
Definition x7_tokens (prompt : list N) : option (outcome (list N)) :=
  match load_bytes P_Eval.lib64 P_Loader.d_junk P_Convert.x_value (fun l => l) (Some x7_file) true with
  | Ok (Loaded m) => match lo_vocab m with
                     | LRoberta rv => r_tokenize (Pattern_model.engine P7) P_Roberta.is_space pick_max (fun l => l) rv prompt
                     | _ => None end
  | _ => None
  end.

(** Two words, of which only the first is known whole; " ab" is not in the vocabulary. *)
Example C165_example :
  Pattern_spec.classes P_Pattern.az P_Pattern.num P_Pattern.white /\ ready x7 /\ P_Rfill.plain_specials x7 P_Rtext.demo_keep /\
  convert P_Convert.x_single P_Convert.x_half x7 false = Some x7_file /\
  x7_tokens (u "abba ab<s>") = Some (Ok [7; 6; 5; 3; 7; 0]%N) /\ x7_tokens (u "ab <mask>b") = Some (Ok [7; 4; 6]%N).
Proof.
  split; [exact P_Pattern.ascii_classes|]. split; [exact x7_ready|]. split; [exact x7_specials|].
  split; [vm_compute; reflexivity|]. split; vm_compute; reflexivity.
Qed.

Definition x7_fill (bytes prompt : list N) : outcome (N * list (Fill_model.line (V := Z))) :=
  Fill_model.fill_mask P_Eval.zprim P_Eval.lib64 (fun _ => 7%N) (fun _ => 8) (fun _ => 9%Z)
    (fun _ => Fill_model.open P_Bert.demo_icu (Pattern_model.engine P7) P_Roberta.is_space pick_max (fun l => l)
       (load_bytes P_Eval.lib64 P_Loader.d_junk P_Qck.y_value (fun l => l) (Some bytes) true))
    [u "fill_mask"; u "model"; u "2"; prompt].
Definition x7_out : list N := Eval vm_compute in P_Qck.y_done (P_Qck.y_quantize x7_file TF16).

Lemma x7_quantizable : quantizable TF16 x7.
Proof.
  assert (W : forall key name t, written_as x7 key name t -> In (name, t) (ck_state x7 ++ map P_Qck.y_named (ck_lm x7))).
  { intros key name t W. apply in_app_iff. destruct W as [key t H|key name t H K _]; [left; exact H|right]. apply in_map_iff. exists (key, t).
    split; [|exact H]. unfold P_Qck.y_named. cbn [fst snd]. f_equal. symmetry.
    exact (eq_sym (head_key_name _ _ _ (or_intror eq_refl) K)). }
  assert (F : forallb (P_Qck.y_blocks 1) (ck_state x7 ++ map P_Qck.y_named (ck_lm x7)) = true) by (vm_compute; reflexivity).
  rewrite forallb_forall in F. constructor.
  - intros key name t p r n _ _ _. change (blck_size TF16) with 1%N. apply N.mod_1_r.
  - intros key name t p H E S. apply W, F in H. unfold P_Qck.y_blocks in H. cbn [fst snd] in H.
    destruct (squeezed (p_shape t)) as [|r [|n [|? l]]]; try discriminate S. apply andb_true_iff in H as (_ & H).
    rewrite E in H. assert (L := f_equal (@length N) E). rewrite !app_length in L.
    change (length (u "berts.bert.")) with 11 in L. change (length (u "LayerNorm.weight")) with 16 in L.
    rewrite skipn_app in H. replace (length name - 5) with (length p) in H by lia. rewrite skipn_all, Nat.sub_diag, list_N_eqb_refl in H. discriminate H.
Qed.

(** "ab <mask>b" is [<s>], "ab", [<mask>], "b", [</s>]: the row of the mask is the third. *)
Example C166_example :
  ready x7 /\ fits_ints x7 /\ head_fits x7 /\ P_Rfill.plain_specials x7 P_Rtext.demo_keep /\ quantizable TF16 x7 /\
  In (true, u "<mask>") [(false, u "ab "); (true, u "<mask>"); (false, u "b")] /\ 3 <= length (u "<mask>") /\
  Fill_spec.only_at 4 [0; 7; 4; 6; 2]%N 2 /\ Eval_spec.enough_rows (Encoder_model.Roberta 1) 7 [0; 7; 4; 6; 2]%N /\
  byte_string x7_file /\ byte_string x7_out /\
  match x7_fill x7_file (u "ab <mask>b") with Ok (0%N, ls) => length ls = 2 | _ => False end /\
  match x7_fill x7_out (u "ab <mask>b") with Ok (0%N, ls) => length ls = 2 | _ => False end.
Proof.
  split; [exact x7_ready|]. split; [exact x7_ints|]. split; [exact x7_head|]. split; [exact x7_specials|]. split; [exact x7_quantizable|].
  split; [cbn; tauto|]. split; [cbn; lia|].
  split; [split; [reflexivity|intros [|[|[|[|[|[|i]]]]]] Hi; cbn in Hi; try discriminate Hi; reflexivity]|].
  split; [split; [cbn; lia|intros _; vm_compute; reflexivity]|].
  split; [apply P_Qck.byte_stringb; vm_compute; reflexivity|]. split; [apply P_Qck.byte_stringb; vm_compute; reflexivity|].
  split; vm_compute; reflexivity.
Qed.
