(** What a converted and then quantized checkpoint has to say. *)
From Verif Require Import Base Assoc Bert_model Vocab_model Vocab_spec Loader_model Loader_spec Quantize_model Quantize_spec
  Gguf_model Convert_model Convert_spec.
From Verif Require Encoder_spec.

Section Q.
Context {E : Type}.

(** The extents other than 1. *)
Definition squeezed (shape : list nat) : list nat := filter (fun n => negb (n =? 1)%nat) shape.

(** A checkpoint whose matrices can be converted to [qt]: the rows of weights are whole
    blocks, and the weights of layer norms are vectors. *)
Record quantizable (qt : gty) (c : checkpoint E) : Prop := {
  qz_blocks : forall key name t p r n, written_as c key name t -> u "berts.bert." ++ name = p ++ u "weight" ->
    squeezed (p_shape t) = [r; n] -> (N.of_nat n mod blck_size qt = 0)%N;
  qz_norms : forall key name t p, written_as c key name t -> u "berts.bert." ++ name = p ++ u "LayerNorm.weight" ->
    length (squeezed (p_shape t)) <> 2%nat
}.

(** The parameter [key] as a matrix, after conversion: matrices of at least 2 x 2 are the
    blocks made of their floats, those of the file converted first; others are as they
    were. *)
Section Matrix.
Context {V : Type} (value : gty -> list N -> nat -> V) (chunk : gty -> list N -> nat -> list N) (widen : list N -> list N) (qt : gty).
Context (single half : E -> list N) (r32 : E -> V) (f32 : bool).
Definition quantized_matrix (d : list (list N * ptensor E)) (key : list N) : list (list V) :=
  match ck_find d key with
  | Some (mkpt [r; n] es) =>
      if (2 <=? r)%nat && (2 <=? n)%nat then
        let floats := if f32 then concat (map single es) else widen (concat (map half es)) in
        let blocks := chunk qt floats (length es) in
        map (fun j => map (fun i => value qt blocks (i + n * j)%nat) (seq 0 n)) (seq 0 r)
      else map (fun j => map r32 (Convert_spec.cut n es j)) (seq 0 r)
  | _ => []
  end.
End Matrix.

(** The parameters of a model, from the matrices and vectors of a checkpoint. *)
Section Params.
Context {V : Type} (c : checkpoint E) (matrix : list (list N * ptensor E) -> list N -> list (list V)).
Context (vector : list (list N * ptensor E) -> list N -> list V).
Definition block_of (n : nat) : Encoder_spec.s_block V :=
  let mat s := matrix (ck_state c) (layer_key n s) in
  let vec s := vector (ck_state c) (layer_key n s) in
  Encoder_spec.mksb
    (mat (u "attention.self.query.weight")) (vec (u "attention.self.query.bias"))
    (mat (u "attention.self.key.weight")) (vec (u "attention.self.key.bias"))
    (mat (u "attention.self.value.weight")) (vec (u "attention.self.value.bias"))
    (mat (u "attention.output.dense.weight")) (vec (u "attention.output.dense.bias"))
    (vec (u "attention.output.LayerNorm.weight")) (vec (u "attention.output.LayerNorm.bias"))
    (mat (u "intermediate.dense.weight")) (vec (u "intermediate.dense.bias"))
    (mat (u "output.dense.weight")) (vec (u "output.dense.bias"))
    (vec (u "output.LayerNorm.weight")) (vec (u "output.LayerNorm.bias")).
Definition params_of : Encoder_spec.s_model V :=
  let mat s := matrix (ck_state c) s in
  let vec s := vector (ck_state c) s in
  Encoder_spec.mksm
    (mat (u "embeddings.word_embeddings.weight")) (mat (u "embeddings.position_embeddings.weight"))
    (mat (u "embeddings.token_type_embeddings.weight"))
    (vec (u "embeddings.LayerNorm.weight")) (vec (u "embeddings.LayerNorm.bias"))
    (map block_of (seq 0 (N.to_nat (ck_layers c))))
    (mat (u "pooler.dense.weight")) (vec (u "pooler.dense.bias")).
Definition head_of : Encoder_spec.s_lm_head V :=
  let mat b r := matrix (ck_lm c) (hd (ck_class c) b r) in
  let vec b r := vector (ck_lm c) (hd (ck_class c) b r) in
  Encoder_spec.mksl
    (mat (u "predictions.transform.dense.weight") (u "dense.weight")) (vec (u "predictions.transform.dense.bias") (u "dense.bias"))
    (vec (u "predictions.transform.LayerNorm.weight") (u "layer_norm.weight"))
    (vec (u "predictions.transform.LayerNorm.bias") (u "layer_norm.bias"))
    (mat (u "predictions.decoder.weight") (u "decoder.weight")) (vec (u "predictions.decoder.bias") (u "decoder.bias")).
End Params.
End Q.
