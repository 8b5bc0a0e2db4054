(** What a converted checkpoint has to say. *)
From Verif Require Import Base Assoc Bert_model Vocab_model Vocab_spec Bpe_model Roberta_model Utf_spec Loader_model Loader_spec
  Quantize_model Gguf_model Gguf_spec Convert_model.
From Verif Require Ggml_model Encoder_model Encoder_spec.

(** ** Checkpoints *)

Section Checkpoint.
Context {E : Type}.

(** As many elements as the extents say, and some. *)
Definition whole (t : ptensor E) : Prop :=
  Forall (fun n => (0 < n)%nat) (p_shape t) /\ length (p_elems t) = fold_right Nat.mul 1%nat (p_shape t).

(** The names the parameters of the head get: those of a BERT head; for RoBERTa, in the
    words of the RoBERTa head. *)
Inductive head_key (cl : mclass) : list N -> list N -> Prop :=
| hk_bert k : cl = BertModel -> head_key cl k k
| hk_dense s : cl = RobertaModel -> In s [u "weight"; u "bias"] ->
    head_key cl (u "dense." ++ s) (u "predictions.transform.dense." ++ s)
| hk_norm s : cl = RobertaModel -> In s [u "weight"; u "bias"] ->
    head_key cl (u "layer_norm." ++ s) (u "predictions.transform.LayerNorm." ++ s)
| hk_decoder s : cl = RobertaModel -> In s [u "weight"; u "bias"] ->
    head_key cl (u "decoder." ++ s) (u "predictions.decoder." ++ s).

(** Parameter [t], found under [key], is written as [name]. *)
Inductive written_as (c : checkpoint E) : list N -> list N -> ptensor E -> Prop :=
| wa_state key t : In (key, t) (ck_state c) -> written_as c key key t
| wa_head key name t : In (key, t) (ck_lm c) -> head_key (ck_class c) key name -> name <> u "predictions.bias" ->
    written_as c key name t.

(** The parameters of the head other than the plain bias, which is the decoder's. *)
Definition head_kept (cl : mclass) (x : list N * ptensor E) : bool :=
  negb (list_N_eqb (fst x) (match cl with BertModel => u "predictions.bias" | _ => u "bias" end)).

(** A checkpoint the file format can hold. *)
Record storable (c : checkpoint E) : Prop := {
  so_class : ck_class c = BertModel \/ ck_class c = RobertaModel;
  so_repo : short (ck_repo c);
  so_eps : (ck_eps c < 18446744073709551616)%N; so_range : (ck_range c < 18446744073709551616)%N;
  so_whole : Forall (fun x => whole (snd x)) (ck_state c ++ ck_lm c);
  so_dims : Forall (fun x => (length (p_shape (snd x)) <= 4)%nat) (ck_state c ++ ck_lm c);
  so_state_names : Forall (fun x => ~ In 0%N (fst x) /\ (length (fst x) < 53)%nat) (ck_state c);
  so_head_names : Forall (fun x => exists name, head_key (ck_class c) (fst x) name /\ ~ In 0%N name /\ (length name < 53)%nat)
                    (filter (head_kept (ck_class c)) (ck_lm c));
  so_distinct : NoDup (map fst (ck_state c)) /\ NoDup (map fst (ck_lm c)) /\
    forall key name t, In (key, t) (ck_lm c) -> head_key (ck_class c) key name -> ~ In name (map fst (ck_state c))
}.

(** A tokenizer: no token and no id twice, ids below the size of the vocabulary, tokens of
    1 to 256 bytes of UTF-8. *)
Record proper_vocab (c : checkpoint E) : Prop := {
  pv_tokens : NoDup (map fst (ck_vocab c)); pv_ids : NoDup (map snd (ck_vocab c));
  pv_range : forall t i, In (t, i) (ck_vocab c) -> (i < ck_vocab_size c)%N /\ (1 <= length t <= 256)%nat;
  pv_utf8 : forall t i, In (t, i) (ck_vocab c) -> valid_utf8 t;
  pv_some : (0 < ck_vocab_size c)%N
}.

(** Numbers of at most 32 bits, a known activation, nothing that is never split. *)
Record numbers_ok (c : checkpoint E) : Prop := {
  no_vocab : (ck_vocab_size c < 4294967296)%N; no_hidden : (ck_hidden c < 4294967296)%N;
  no_layers : (ck_layers c < 4294967296)%N; no_heads : (ck_heads c < 4294967296)%N;
  no_positions : (ck_positions c < 4294967296)%N; no_inter : (ck_inter c < 4294967296)%N;
  no_segments : (ck_segments c < 4294967296)%N;
  no_ids : forall k n, ck_ids c k = Some n -> (n < 4294967296)%N
}.
(** The activations with a number in berts.h; RoBERTa's name may be in capitals. *)
Definition act_numbers : list (list N * N) := [(u "gelu", 0%N); (u "relu", 1%N); (u "silu", 2%N); (u "gelu_new", 3%N)].
Definition same_letter (x y : N) : Prop := x = y /\ ~ (65 <= x <= 90)%N \/ (65 <= x <= 90)%N /\ y = (x + 32)%N.
Definition act_number (c : checkpoint E) (n : N) : Prop :=
  match ck_class c with
  | BertModel => ck_act c = u "gelu" /\ n = 0%N
  | _ => exists a, In (a, n) act_numbers /\ Forall2 same_letter (ck_act c) a
  end.
Definition merges_ok (c : checkpoint E) : Prop :=
  forall ms, ck_merges c = Some ms ->
    Forall (fun m => (snd m < 2147483648)%N /\
      (exists i, In (fst (fst m), i) (ck_vocab c) /\ (i < 2147483648)%N) /\
      (exists i, In (snd (fst m), i) (ck_vocab c) /\ (i < 2147483648)%N)) ms.

(** The tokens of a loaded vocabulary: those of the tokenizer under their ids, and names of
    their own for the ids without a token. *)
Record tokens_of (c : checkpoint E) (ts : list (list N)) : Prop := {
  to_length : N.of_nat (length ts) = ck_vocab_size c;
  to_distinct : NoDup ts;
  to_given : forall t i, In (t, i) (ck_vocab c) -> Vocab_spec.entry ts i t;
  to_rest : forall i, (i < ck_vocab_size c)%N -> ~ In i (map snd (ck_vocab c)) ->
    exists k, Vocab_spec.entry ts i (u "[unused" ++ decimal k ++ u "]") /\ ~ In (u "[unused" ++ decimal k ++ u "]") (map fst (ck_vocab c))
}.

(** The special tokens, and how they are spelled. *)
Definition spellings (cl : mclass) (k : Vocab_model.key) : list (list N) :=
  match cl, k with
  | BertModel, K_cls => [u "[CLS]"; u "<s>"] | BertModel, K_mask => [u "[MASK]"; u "<mask>"]
  | BertModel, K_pad => [u "[PAD]"; u "<pad>"] | BertModel, K_sep => [u "[SEP]"; u "</s>"]
  | BertModel, K_unk => [u "[UNK]"; u "<unk>"]
  | BertModel, _ => []
  | _, (K_bos | K_cls) => [u "<s>"] | _, (K_eos | K_sep) => [u "</s>"]
  | _, K_mask => [u "<mask>"] | _, K_pad => [u "<pad>"] | _, K_unk => [u "<unk>"]
  | _, _ => []
  end.
Definition special_keys (cl : mclass) : list Vocab_model.key :=
  match cl with BertModel => [K_cls; K_mask; K_pad; K_sep; K_unk] | _ => [K_bos; K_eos; K_cls; K_mask; K_pad; K_sep; K_unk] end.
(** The tokenizer has that special token: an id below 2^32 - 1, or no id and a token of that
    spelling. *)
Definition has_special (c : checkpoint E) (k : Vocab_model.key) : Prop :=
  match ck_ids c k with
  | Some n => (n < 4294967295)%N
  | None => exists s, In s (spellings (ck_class c) k) /\ In s (map fst (ck_vocab c))
  end.
Definition specials_ok (c : checkpoint E) : Prop := forall k, In k (special_keys (ck_class c)) -> has_special c k.

(** The id of a special token: the one given, else that of its spelling. *)
Definition special_of (c : checkpoint E) (k : Vocab_model.key) (n : N) : Prop :=
  match ck_ids c k with
  | Some i => n = i
  | None => exists pre s post, spellings (ck_class c) k = pre ++ s :: post /\ In (s, n) (ck_vocab c) /\
      forall x, In x pre -> ~ In x (map fst (ck_vocab c))
  end.

(** How a BERT text is cleaned: by the flags of the tokenizer; accents go with the case of
    letters unless said otherwise; without basic tokenization, replacement, null and control
    characters are kept and punctuation is not split. *)
Definition flag_of (c : checkpoint E) (k : Vocab_model.key) (d : bool) : bool := match ck_flags c k with Some b => b | None => d end.
Record cleaned_as (c : checkpoint E) (i : tok_info) : Prop := {
  ca_lower : t_lower i = flag_of c K_lower true;
  ca_accents : t_accents i = flag_of c K_accent (flag_of c K_lower true);
  ca_cjk : t_cjk i = flag_of c K_cjk true;
  ca_basic : Forall (fun b => b = flag_of c K_basic true) [t_rm_repl i; t_rm_null i; t_rm_ctrl i; t_punct i];
  ca_white : t_norm_ws i = true
}.

(** The numbers a model runs with. *)
Record runs_with (c : checkpoint E) (hp : Encoder_model.hparams) : Prop := {
  rw_hidden : Encoder_model.hidden_dim hp = N.to_nat (ck_hidden c); rw_layers : Encoder_model.n_layers hp = N.to_nat (ck_layers c);
  rw_heads : Encoder_model.attn_heads hp = N.to_nat (ck_heads c); rw_max : Encoder_model.max_tokens hp = N.to_nat (ck_positions c);
  rw_inter : Encoder_model.intermediate_dim hp = N.to_nat (ck_inter c); rw_segments : Encoder_model.segment_count hp = N.to_nat (ck_segments c);
  rw_act : Encoder_model.hidden_act hp = Encoder_model.Gelu; rw_eps : Encoder_model.ln_eps hp = ck_eps c
}.

(** A byte-pair tokenizer: merges of tokens that give tokens, and an unknown token of 7-bit
    characters. *)
Record proper_merges (c : checkpoint E) : Prop := {
  pm_some : ck_merges c <> None;
  pm_joined : forall ms, ck_merges c = Some ms -> Forall (fun m => In (fst (fst m) ++ snd (fst m)) (map fst (ck_vocab c))) ms;
  pm_unk : forall n t, special_of c K_unk n -> In (t, n) (ck_vocab c) -> Forall (fun b => (b < 128)%N) t
}.

(** ** Settings *)

(** The settings of the file are those of the configuration. *)
Record settings_of (c : checkpoint E) (f32 : bool) (f : file) : Prop := {
  sf_type : f_set f S_bert_type = Some (SU32 (match ck_class c with BertModel => 0 | _ => 1 end)%N);
  sf_vocab : f_set f S_vocab_size = Some (SU32 (ck_vocab_size c));
  sf_hidden : f_set f S_hidden_dim = Some (SU32 (ck_hidden c));
  sf_layers : f_set f S_n_layers = Some (SU32 (ck_layers c));
  sf_heads : f_set f S_attn_heads = Some (SU32 (ck_heads c));
  sf_max : f_set f S_max_tokens = Some (SU32 (ck_positions c));
  sf_inter : f_set f S_intermediate_dim = Some (SU32 (ck_inter c));
  sf_act : exists a, act_number c a /\ f_set f S_hidden_act = Some (SU32 a);
  sf_segments : f_set f S_segments = Some (SU32 (ck_segments c));
  sf_floats : f_set f S_eps = Some (SF64 (ck_eps c)) /\ f_set f S_init_range = Some (SF64 (ck_range c));
  sf_file_type : f_set f S_file_type = Some (SU32 (if f32 then 0 else 1)%N);
  sf_general : f_set f S_arch = Some SStr /\ f_set f S_alignment = Some (SU32 32) /\
    f_set f S_name = match ck_repo c with [] => None | _ => Some SStr end;
  sf_absent : Forall (fun k => f_set f k = None) [S_author; S_url; S_description; S_license; S_quant_version];
  sf_ids : forall k, In k [K_cls; K_mask; K_pad; K_sep; K_unk] -> f_tok f k = option_map KU32 (ck_ids c k);
  sf_more_ids : forall k, In k [K_bos; K_eos] ->
    f_tok f k = match ck_class c with BertModel => None | _ => option_map KU32 (ck_ids c k) end;
  sf_flags : forall k, In k [K_lower; K_basic; K_cjk; K_accent] ->
    f_tok f k = match ck_class c with BertModel => option_map KBool (ck_flags c k) | _ => None end
}.
(** ** Parameters *)

(** The extents other than 1, innermost first, as far as four. *)
Definition extents (shape : list nat) (t : tinfo) : Prop :=
  [ti_ne0 t; ti_ne1 t; ti_ne2 t; ti_ne3 t] = firstn 4 (rev (filter (fun n => negb (n =? 1)%nat) shape) ++ [1; 1; 1; 1]%nat).

(** The file has a tensor of that name and type with these bytes, in place. *)
Definition stores (f : file) (name : list N) (ty : gty) (shape : list nat) (bytes : list N) : Prop :=
  exists t, named f name = Some t /\ contained f t /\ ti_type t = ty /\ extents shape t /\ region f t = bytes.

(** Parameters that are rounded: weights that are matrices of at least 2 x 2. *)
Definition rounded (f32 : bool) (key : list N) (t : ptensor E) : Prop :=
  f32 = false /\ length (filter (fun n => negb (n =? 1)%nat) (p_shape t)) = 2%nat /\ exists p, key = p ++ u ".weight".

(** ** Values *)

(** [single] and [half] are numbers of 4 and 2 bytes that the library reads as [r32] and
    [r16] of the element. *)
Record readable_floats {V} (value : gty -> list N -> nat -> V) (single half : E -> list N) (r32 r16 : E -> V) : Prop := {
  rf_single : forall e, length (single e) = 4%nat;
  rf_half : forall e, length (half e) = 2%nat;
  rf_value32 : forall es i e, nth_error es i = Some e -> value TF32 (concat (map single es)) i = r32 e;
  rf_value16 : forall es i e, nth_error es i = Some e -> value TF16 (concat (map half es)) i = r16 e
}.

(** The parameter [key] as a matrix of rows of [n] numbers. *)
Definition ck_find (d : list (list N * ptensor E)) (key : list N) : option (ptensor E) :=
  option_map snd (find (fun x => list_N_eqb (fst x) key) d).
Definition cut {A} (n : nat) (l : list A) (j : nat) : list A := firstn n (skipn (n * j) l).
Definition matrix_of {V} (r32 r16 : E -> V) (f32 : bool) (d : list (list N * ptensor E)) (key : list N) : list (list V) :=
  match ck_find d key with
  | Some (mkpt [r; n] es) =>
      let round := if negb f32 && (2 <=? r)%nat && (2 <=? n)%nat then r16 else r32 in
      map (fun j => map round (cut n es j)) (seq 0 r)
  | _ => []
  end.
Definition vector_of {V} (r32 : E -> V) (d : list (list N * ptensor E)) (key : list N) : list V :=
  match ck_find d key with
  | Some t => map r32 (p_elems t)
  | None => []
  end.

(** A matrix / vector of the dictionary. *)
Definition has_matrix (d : list (list N * ptensor E)) (r n : nat) (key : list N) : Prop :=
  exists t, In (key, t) d /\ p_shape t = [r; n].
Definition has_vector (d : list (list N * ptensor E)) (n : nat) (key : list N) : Prop :=
  exists t, In (key, t) d /\ p_shape t = [n].

Definition layer_key (n : nat) (s : list N) : list N := u "encoder.layer." ++ decimal (N.of_nat n) ++ u "." ++ s.

(** The shapes of a BERT encoder with hidden size [h], intermediate size [m]; at least 2
    (see P_Convert for 1). *)
Record layer_ok (d : list (list N * ptensor E)) (h m n : nat) : Prop := {
  lk_square : Forall (fun s => has_matrix d h h (layer_key n s))
    [u "attention.self.query.weight"; u "attention.self.key.weight"; u "attention.self.value.weight";
     u "attention.output.dense.weight"];
  lk_up : has_matrix d m h (layer_key n (u "intermediate.dense.weight"));
  lk_up_bias : has_vector d m (layer_key n (u "intermediate.dense.bias"));
  lk_down : has_matrix d h m (layer_key n (u "output.dense.weight"));
  lk_vectors : Forall (fun s => has_vector d h (layer_key n s))
    [u "attention.self.query.bias"; u "attention.self.key.bias"; u "attention.self.value.bias";
     u "attention.output.dense.bias"; u "attention.output.LayerNorm.weight"; u "attention.output.LayerNorm.bias";
     u "output.dense.bias"; u "output.LayerNorm.weight"; u "output.LayerNorm.bias"]
}.
Record encoder_ok (c : checkpoint E) : Prop := {
  eo_h : (2 <= ck_hidden c)%N; eo_m : (2 <= ck_inter c)%N;
  eo_words : has_matrix (ck_state c) (N.to_nat (ck_vocab_size c)) (N.to_nat (ck_hidden c)) (u "embeddings.word_embeddings.weight");
  eo_positions : has_matrix (ck_state c) (N.to_nat (ck_positions c)) (N.to_nat (ck_hidden c)) (u "embeddings.position_embeddings.weight");
  eo_segments : has_matrix (ck_state c) (N.to_nat (ck_segments c)) (N.to_nat (ck_hidden c)) (u "embeddings.token_type_embeddings.weight");
  eo_ln : Forall (has_vector (ck_state c) (N.to_nat (ck_hidden c))) [u "embeddings.LayerNorm.weight"; u "embeddings.LayerNorm.bias"];
  eo_layers : forall n, (n < N.to_nat (ck_layers c))%nat -> layer_ok (ck_state c) (N.to_nat (ck_hidden c)) (N.to_nat (ck_inter c)) n;
  eo_pooler : has_matrix (ck_state c) (N.to_nat (ck_hidden c)) (N.to_nat (ck_hidden c)) (u "pooler.dense.weight");
  eo_pooler_bias : has_vector (ck_state c) (N.to_nat (ck_hidden c)) (u "pooler.dense.bias")
}.

(** The head, under the names of its class. *)
Definition hd (cl : mclass) (bert roberta : list N) : list N := match cl with BertModel => bert | _ => roberta end.
Record head_fits (c : checkpoint E) : Prop := {
  hf_dense : has_matrix (ck_lm c) (N.to_nat (ck_hidden c)) (N.to_nat (ck_hidden c))
    (hd (ck_class c) (u "predictions.transform.dense.weight") (u "dense.weight"));
  hf_dense_bias : has_vector (ck_lm c) (N.to_nat (ck_hidden c)) (hd (ck_class c) (u "predictions.transform.dense.bias") (u "dense.bias"));
  hf_norm : has_vector (ck_lm c) (N.to_nat (ck_hidden c)) (hd (ck_class c) (u "predictions.transform.LayerNorm.weight") (u "layer_norm.weight"));
  hf_norm_bias : has_vector (ck_lm c) (N.to_nat (ck_hidden c)) (hd (ck_class c) (u "predictions.transform.LayerNorm.bias") (u "layer_norm.bias"));
  hf_decoder : has_matrix (ck_lm c) (N.to_nat (ck_vocab_size c)) (N.to_nat (ck_hidden c))
    (hd (ck_class c) (u "predictions.decoder.weight") (u "decoder.weight"));
  hf_decoder_bias : has_vector (ck_lm c) (N.to_nat (ck_vocab_size c)) (hd (ck_class c) (u "predictions.decoder.bias") (u "decoder.bias"))
}.

(** The parameters of the checkpoint, as numbers. *)
Section Params.
Context {V : Type} (r32 r16 : E -> V) (f32 : bool) (c : checkpoint E).
Definition ck_block (n : nat) : Encoder_spec.s_block V :=
  let mat s := matrix_of r32 r16 f32 (ck_state c) (layer_key n s) in
  let vec s := vector_of r32 (ck_state c) (layer_key n s) in
  Encoder_spec.mksb
    (mat (u "attention.self.query.weight")) (vec (u "attention.self.query.bias"))
    (mat (u "attention.self.key.weight")) (vec (u "attention.self.key.bias"))
    (mat (u "attention.self.value.weight")) (vec (u "attention.self.value.bias"))
    (mat (u "attention.output.dense.weight")) (vec (u "attention.output.dense.bias"))
    (vec (u "attention.output.LayerNorm.weight")) (vec (u "attention.output.LayerNorm.bias"))
    (mat (u "intermediate.dense.weight")) (vec (u "intermediate.dense.bias"))
    (mat (u "output.dense.weight")) (vec (u "output.dense.bias"))
    (vec (u "output.LayerNorm.weight")) (vec (u "output.LayerNorm.bias")).
Definition ck_params : Encoder_spec.s_model V :=
  let mat s := matrix_of r32 r16 f32 (ck_state c) s in
  let vec s := vector_of r32 (ck_state c) s in
  Encoder_spec.mksm
    (mat (u "embeddings.word_embeddings.weight")) (mat (u "embeddings.position_embeddings.weight"))
    (mat (u "embeddings.token_type_embeddings.weight"))
    (vec (u "embeddings.LayerNorm.weight")) (vec (u "embeddings.LayerNorm.bias"))
    (map ck_block (seq 0 (N.to_nat (ck_layers c))))
    (mat (u "pooler.dense.weight")) (vec (u "pooler.dense.bias")).
Definition ck_head : Encoder_spec.s_lm_head V :=
  let mat b r := matrix_of r32 r16 f32 (ck_lm c) (hd (ck_class c) b r) in
  let vec b r := vector_of r32 (ck_lm c) (hd (ck_class c) b r) in
  Encoder_spec.mksl
    (mat (u "predictions.transform.dense.weight") (u "dense.weight")) (vec (u "predictions.transform.dense.bias") (u "dense.bias"))
    (vec (u "predictions.transform.LayerNorm.weight") (u "layer_norm.weight"))
    (vec (u "predictions.transform.LayerNorm.bias") (u "layer_norm.bias"))
    (mat (u "predictions.decoder.weight") (u "decoder.weight")) (vec (u "predictions.decoder.bias") (u "decoder.bias")).
End Params.

(** A checkpoint that the converter and the loader both take. *)
Record ready (c : checkpoint E) : Prop := {
  rd_storable : storable c; rd_vocab : proper_vocab c; rd_specials : specials_ok c; rd_encoder : encoder_ok c;
  rd_class : ck_class c = BertModel \/ ck_class c = RobertaModel /\ proper_merges c /\ act_number c 0
}.
(** The numbers of its configuration, for evaluation. *)
Definition ck_hp (c : checkpoint E) : Encoder_model.hparams :=
  Encoder_model.mkhp (N.to_nat (ck_hidden c)) (N.to_nat (ck_layers c)) (N.to_nat (ck_heads c)) (N.to_nat (ck_positions c))
    (N.to_nat (ck_inter c)) (N.to_nat (ck_segments c)) Encoder_model.Gelu (ck_eps c).
(** How its positions are counted: RoBERTa's from the padding token. *)
Definition flavour_of (c : checkpoint E) (fl : Encoder_model.flavour) : Prop :=
  match ck_class c with BertModel => fl = Encoder_model.Bert | _ => exists pad, special_of c K_pad pad /\ fl = Encoder_model.Roberta pad end.
(** Heads that divide the hidden size, and numbers that 32-bit integers hold. *)
Record fits_ints (c : checkpoint E) : Prop := {
  fi_heads : (ck_hidden c mod ck_heads c = 0 /\ ck_heads c <> 0)%N;
  fi_hidden : (ck_hidden c < 4294967296)%N; fi_positions : (ck_positions c < 2147483648)%N;
  fi_segments : (ck_segments c < 2147483648)%N; fi_vocab : (ck_vocab_size c <= 2147483648)%N;
  fi_pad : ck_class c = RobertaModel -> forall pad, special_of c K_pad pad -> (pad + ck_positions c < 2147483648)%N
}.
End Checkpoint.
