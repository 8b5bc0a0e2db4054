(** What a model file must contain, in the words of keys.h and of the converter. *)
From Verif Require Import Base Bert_model Vocab_model Bpe_model Roberta_model Loader_model.
From Verif Require Ggml_model Encoder_model Encoder_spec Eval_model.

Definition layer_parts : list (list N) :=
  [u "attention.self.query.weight"; u "attention.self.query.bias";
   u "attention.self.key.weight"; u "attention.self.key.bias";
   u "attention.self.value.weight"; u "attention.self.value.bias";
   u "attention.output.dense.weight"; u "attention.output.dense.bias";
   u "attention.output.LayerNorm.weight"; u "attention.output.LayerNorm.bias";
   u "intermediate.dense.weight"; u "intermediate.dense.bias";
   u "output.dense.weight"; u "output.dense.bias";
   u "output.LayerNorm.weight"; u "output.LayerNorm.bias"].

(** Names of the tensors of layer [n]. *)
Definition layer_names (n : nat) : list (list N) :=
  map (fun p => u "berts.bert.encoder.layer." ++ decimal (N.of_nat n) ++ u "." ++ p) layer_parts.

Definition embedding_names : list (list N) :=
  [u "berts.bert.embeddings.word_embeddings.weight"; u "berts.bert.embeddings.token_type_embeddings.weight";
   u "berts.bert.embeddings.position_embeddings.weight"; u "berts.bert.embeddings.LayerNorm.weight";
   u "berts.bert.embeddings.LayerNorm.bias"].
Definition pooler_names : list (list N) :=
  [u "berts.bert.pooler.dense.weight"; u "berts.bert.pooler.dense.bias"].
Definition head_names : list (list N) :=
  [u "berts.bert.predictions.transform.dense.weight"; u "berts.bert.predictions.transform.dense.bias";
   u "berts.bert.predictions.transform.LayerNorm.weight"; u "berts.bert.predictions.transform.LayerNorm.bias";
   u "berts.bert.predictions.decoder.weight"; u "berts.bert.predictions.decoder.bias"].

Definition required_names (layers : nat) : list (list N) :=
  embedding_names ++ flat_map layer_names (seq 0 layers) ++ pooler_names.

(** The file has a tensor of that name. *)
Definition has (f : file) (name : list N) : Prop := exists t, In t (f_tensors f) /\ ti_name t = name.

(** [t] is the first tensor of its name. *)
Inductive first_named (n : list N) : list tinfo -> tinfo -> Prop :=
| first_here t ts : ti_name t = n -> first_named n (t :: ts) t
| first_later x t ts : ti_name x <> n -> first_named n ts t -> first_named n (x :: ts) t.

(** Its data lie inside the file. *)
Definition contained (f : file) (t : tinfo) : Prop :=
  (f_data f + ti_offset t + nbytes t <= N.of_nat (length (f_bytes f)))%N.

(** The part of the file that belongs to a tensor. *)
Definition region (f : file) (t : tinfo) : list N :=
  firstn (N.to_nat (nbytes t)) (skipn (N.to_nat (f_data f + ti_offset t)) (f_bytes f)).

(** Names fit into ggml's tensors. *)
Definition short_names (f : file) : Prop := Forall (fun t => (length (ti_name t) < 64)%nat) (f_tensors f).

(** No name is used twice. *)
Definition distinct_names (f : file) : Prop := NoDup (map ti_name (f_tensors f)).

(** Settings: required and optional ones, with their types. *)
Definition required_keys : list skey :=
  [S_bert_type; S_vocab_size; S_hidden_dim; S_n_layers; S_attn_heads; S_max_tokens;
   S_intermediate_dim; S_hidden_act].
Definition optional_f64 : list skey := [S_eps; S_init_range].
Definition optional_str : list skey := [S_arch; S_name; S_author; S_url; S_description; S_license].

Definition optional (f : file) (is : sval -> Prop) (k : skey) : Prop :=
  match f_set f k with None => True | Some v => is v end.
Definition is_u32 (v : sval) : Prop := exists n, v = SU32 n.
Definition is_f64 (v : sval) : Prop := exists bits, v = SF64 bits.

(** [bits] is the positive normal double next to a / b: its significand is 2^52 and the low
    52 bits, and it is off by less than half of a unit in the last place. *)
Definition nearest_double (bits a b : N) : Prop :=
  let significand := (2 ^ 52 + bits mod 2 ^ 52)%N in
  let exponent := (bits / 2 ^ 52)%N in
  (0 < exponent <= 1075)%N /\
  (2 * Z.abs (Z.of_N (significand * b) - Z.of_N (a * 2 ^ (1075 - exponent))) < Z.of_N b)%Z.

(** The constant of the layer normalisation: the file's, or 1e-12. *)
Definition eps_is (f : file) (e : N) : Prop :=
  f_set f S_eps = Some (SF64 e) \/ (f_set f S_eps = None /\ nearest_double e 1 (10 ^ 12)).

(** General information, with a file type that has a name. *)
Definition general_ok (f : file) : Prop :=
  Forall (optional f (fun v => v = SStr)) optional_str /\
  optional f is_u32 S_quant_version /\ optional f is_u32 S_alignment /\
  exists t, f_set f S_file_type = Some (SU32 t) /\ (t < 19)%N.

Definition settings_ok (f : file) : Prop :=
  (forall k, In k required_keys -> exists n, f_set f k = Some (SU32 n)) /\
  optional f is_u32 S_segments /\ Forall (optional f is_f64) optional_f64.

(** A size ggml can pad. *)
Record lib_ok (L : Ggml_model.lib) : Prop := {
  lib_align : (0 < Ggml_model.mem_align L)%N;
  lib_tensor : (Ggml_model.tensor_bytes L mod Ggml_model.mem_align L = 0)%N
}.

(** Whole blocks in every row. *)
Definition whole_rows (t : tinfo) : Prop := (N.of_nat (ti_ne0 t) mod blck_size (ti_type t) = 0)%N.

(** Sum of a measure over tensors. *)
Definition total (g : tinfo -> N) (ts : list tinfo) : N := fold_right (fun t a => (g t + a)%N) 0%N ts.

(** [made] lists, for each description, the first tensor of its name: the one copied. *)
Definition copies (f : file) (made : list tinfo) : Prop :=
  Forall2 (fun d t => first_named (ti_name d) (f_tensors f) t) (f_tensors f) made.

(** Every tensor but the last can be read completely.  The size is that of the first
    tensor of the name. *)
Definition readable (f : file) : Prop :=
  forall made, copies f made ->
    Forall (fun p => (f_data f + ti_offset (fst p) + nbytes (snd p) <= N.of_nat (length (f_bytes f)))%N \/
                     nbytes (snd p) = 0%N)
      (removelast (combine (f_tensors f) made)).

(** What memory holds for a tensor: its region, completed by whatever was there if the
    file is too short. *)
Definition memory_of (junk : nat -> N) (f : file) (t : tinfo) : list N :=
  region f t ++ map junk (seq (length (region f t)) (N.to_nat (nbytes t) - length (region f t))).

(** The first tensor of a name. *)
Definition named (f : file) (n : list N) : option tinfo :=
  find (fun t => list_N_eqb (ti_name t) n) (f_tensors f).

(** The vocabulary tensors of a file, and the vocabulary they make. *)
Definition vocab_at (junk : nat -> N) (f : file) (n : list N) : option Vocab_model.tensor :=
  match named f n with
  | None => None
  | Some t =>
      Some match ti_type t with
           | TI8 => mkt (ti_dims t) T_I8 (memory_of junk f t)
           | TI32 => mkt (ti_dims t) T_I32 (words32 (memory_of junk f t))
           | _ => mkt (ti_dims t) T_other []
           end
  end.

Definition vocabulary (junk : nat -> N) order (f : file) (arch : N) : outcome lvocab :=
  let get n := vocab_at junk f n in
  if (arch =? 0)%N
  then match bert_init_vocab (f_tok f) (get (u "berts.vocab.size")) (get (u "berts.vocab.data")) with
       | Ok v => Ok (LBert v) | Fail => Fail | UB => UB | Abort => Abort end
  else match roberta_init_vocab order (f_tok f) (get (u "berts.vocab.size")) (get (u "berts.vocab.data"))
               (get (u "berts.merge.data")) with
       | Ok v => Ok (LRoberta v) | Fail => Fail | UB => UB | Abort => Abort end.

Definition supported_arch (arch : N) : Prop := arch = 0%N \/ arch = 1%N.

(** A file that can be loaded. *)
Record loadable (junk : nat -> N) order (f : file) (arch layers : N) : Prop := {
  l_general : general_ok f;
  l_settings : settings_ok f;
  l_names : short_names f;
  l_readable : readable f;
  l_act : f_set f S_hidden_act = Some (SU32 0);
  l_arch : f_set f S_bert_type = Some (SU32 arch);
  l_supported : supported_arch arch;
  l_layers : f_set f S_n_layers = Some (SU32 layers);
  l_vocab : exists v, vocabulary junk order f arch = Ok v;
  l_weights : Forall (has f) (required_names (N.to_nat layers))
}.

(** ** Parameters *)

Section Params.
Context {V : Type} (value : gty -> list N -> nat -> V).

(** The rows of a tensor of the file; its first row. *)
Definition rows_of (f : file) (n : list N) : list (list V) :=
  match named f n with
  | None => []
  | Some t => map (fun j => map (fun i => value (ti_type t) (region f t) (i + ti_ne0 t * j)%nat) (seq 0 (ti_ne0 t))) (seq 0 (ti_ne1 t))
  end.
Definition row_of (f : file) (n : list N) : list V := nth 0 (rows_of f n) [].

Definition bert_name (s : list N) : list N := u "berts.bert." ++ s.
Definition layer_name (n : nat) (s : list N) : list N := u "berts.bert.encoder.layer." ++ decimal (N.of_nat n) ++ u "." ++ s.

Definition file_block (f : file) (n : nat) : Encoder_spec.s_block V :=
  let mat s := rows_of f (layer_name n s) in
  let vec s := row_of f (layer_name n s) in
  Encoder_spec.mksb
    (mat (u "attention.self.query.weight")) (vec (u "attention.self.query.bias"))
    (mat (u "attention.self.key.weight")) (vec (u "attention.self.key.bias"))
    (mat (u "attention.self.value.weight")) (vec (u "attention.self.value.bias"))
    (mat (u "attention.output.dense.weight")) (vec (u "attention.output.dense.bias"))
    (vec (u "attention.output.LayerNorm.weight")) (vec (u "attention.output.LayerNorm.bias"))
    (mat (u "intermediate.dense.weight")) (vec (u "intermediate.dense.bias"))
    (mat (u "output.dense.weight")) (vec (u "output.dense.bias"))
    (vec (u "output.LayerNorm.weight")) (vec (u "output.LayerNorm.bias")).

Definition file_params (f : file) (layers : nat) : Encoder_spec.s_model V :=
  let mat s := rows_of f (bert_name s) in
  let vec s := row_of f (bert_name s) in
  Encoder_spec.mksm
    (mat (u "embeddings.word_embeddings.weight")) (mat (u "embeddings.position_embeddings.weight"))
    (mat (u "embeddings.token_type_embeddings.weight"))
    (vec (u "embeddings.LayerNorm.weight")) (vec (u "embeddings.LayerNorm.bias"))
    (map (file_block f) (seq 0 layers))
    (mat (u "pooler.dense.weight")) (vec (u "pooler.dense.bias")).

Definition file_head (f : file) : Encoder_spec.s_lm_head V :=
  let mat s := rows_of f (bert_name s) in
  let vec s := row_of f (bert_name s) in
  Encoder_spec.mksl
    (mat (u "predictions.transform.dense.weight")) (vec (u "predictions.transform.dense.bias"))
    (vec (u "predictions.transform.LayerNorm.weight")) (vec (u "predictions.transform.LayerNorm.bias"))
    (mat (u "predictions.decoder.weight")) (vec (u "predictions.decoder.bias")).
End Params.

(** ** Shapes *)

(** The tensor [name] is an r x c matrix / an F32 vector, inside the file. *)
Definition matrix_at (f : file) (r c : nat) (name : list N) : Prop :=
  exists t, named f name = Some t /\ contained f t /\
    ti_ne0 t = c /\ ti_ne1 t = r /\ ti_ne2 t = 1%nat /\ ti_ne3 t = 1%nat.
Definition vector_at (f : file) (c : nat) (name : list N) : Prop :=
  exists t, named f name = Some t /\ contained f t /\ ti_type t = TF32 /\
    ti_ne0 t = c /\ ti_ne1 t = 1%nat /\ ti_ne2 t = 1%nat /\ ti_ne3 t = 1%nat.

(** The shapes of a BERT with hidden size [h], intermediate size [m]. *)
Record layer_shaped (f : file) (h m n : nat) : Prop := {
  ly_square : Forall (fun s => matrix_at f h h (layer_name n s))
    [u "attention.self.query.weight"; u "attention.self.key.weight"; u "attention.self.value.weight";
     u "attention.output.dense.weight"];
  ly_up : matrix_at f m h (layer_name n (u "intermediate.dense.weight"));
  ly_up_bias : vector_at f m (layer_name n (u "intermediate.dense.bias"));
  ly_down : matrix_at f h m (layer_name n (u "output.dense.weight"));
  ly_vectors : Forall (fun s => vector_at f h (layer_name n s))
    [u "attention.self.query.bias"; u "attention.self.key.bias"; u "attention.self.value.bias";
     u "attention.output.dense.bias"; u "attention.output.LayerNorm.weight"; u "attention.output.LayerNorm.bias";
     u "output.dense.bias"; u "output.LayerNorm.weight"; u "output.LayerNorm.bias"]
}.

Record well_shaped (f : file) (h m layers segs words rows : nat) : Prop := {
  ws_words : matrix_at f words h (bert_name (u "embeddings.word_embeddings.weight"));
  ws_positions : matrix_at f rows h (bert_name (u "embeddings.position_embeddings.weight"));
  ws_segments : matrix_at f segs h (bert_name (u "embeddings.token_type_embeddings.weight"));
  ws_ln : Forall (fun s => vector_at f h (bert_name s)) [u "embeddings.LayerNorm.weight"; u "embeddings.LayerNorm.bias"];
  ws_layers : forall n, (n < layers)%nat -> layer_shaped f h m n;
  ws_pooler : matrix_at f h h (bert_name (u "pooler.dense.weight"));
  ws_pooler_bias : vector_at f h (bert_name (u "pooler.dense.bias"))
}.

Record head_shaped (f : file) (h words : nat) : Prop := {
  hs_dense : matrix_at f h h (bert_name (u "predictions.transform.dense.weight"));
  hs_decoder : matrix_at f words h (bert_name (u "predictions.decoder.weight"));
  hs_vectors : Forall (fun s => vector_at f h (bert_name s))
    [u "predictions.transform.dense.bias"; u "predictions.transform.LayerNorm.weight";
     u "predictions.transform.LayerNorm.bias"];
  hs_bias : vector_at f words (bert_name (u "predictions.decoder.bias"))
}.

(** The settings of a file. *)
Record file_settings (f : file) (h layers heads max inter segs : nat) : Prop := {
  fs_h : f_set f S_hidden_dim = Some (SU32 (N.of_nat h));
  fs_layers : f_set f S_n_layers = Some (SU32 (N.of_nat layers));
  fs_heads : f_set f S_attn_heads = Some (SU32 (N.of_nat heads));
  fs_max : f_set f S_max_tokens = Some (SU32 (N.of_nat max));
  fs_inter : f_set f S_intermediate_dim = Some (SU32 (N.of_nat inter));
  fs_segs : f_set f S_segments = Some (SU32 (N.of_nat segs)) \/ f_set f S_segments = None /\ segs = 2%nat
}.
