(** What quantization is meant to do. *)
From Verif Require Import Base Bert_model Vocab_model Bpe_model Roberta_model Loader_model Loader_spec Quantize_model.
From Verif Require Ggml_model.

(** The tensors to convert: two-dimensional, named by a text without line breaks and
    "weight". *)
Definition wanted (s : stored) : Prop :=
  ti_dims (st_info s) = 2%N /\
  exists p, st_name s = p ++ u "weight" /\ ~ In 10%N p /\ ~ In 13%N p.

(** Floats can be converted, and nothing else. *)
Definition float_type (t : gty) : Prop := t = TF32 \/ t = TF16.

(** [becomes qt s t bs]: tensor [s] is written with type [t] and bytes [bs]. *)
Inductive becomes (chunk : gty -> list N -> nat -> list N) (widen : list N -> list N) (qt : gty) (s : stored) : gty -> list N -> Prop :=
| becomes_same : ~ wanted s -> becomes chunk widen qt s (ti_type (st_info s)) (st_bytes s)
| becomes_f32 : wanted s -> ti_type (st_info s) = TF32 -> convertible qt = true ->
    becomes chunk widen qt s qt (chunk qt (st_bytes s) (elements (st_info s)))
| becomes_f16 : wanted s -> ti_type (st_info s) = TF16 -> convertible qt = true ->
    becomes chunk widen qt s qt (chunk qt (widen (st_bytes s)) (elements (st_info s)))
| becomes_lost : wanted s -> float_type (ti_type (st_info s)) -> convertible qt = false ->
    becomes chunk widen qt s qt [].

(** The size ggml_quantize_chunk returns: whole blocks only. *)
Definition chunk_ok (chunk : gty -> list N -> nat -> list N) : Prop :=
  forall t data n, convertible t = true ->
    N.of_nat (length (chunk t data n)) = (N.of_nat n / blck_size t * type_size t)%N.

(** A description as the tensor library makes it: extents beyond the dimensions are 1. *)
Definition trimmed (t : tinfo) : Prop :=
  (ti_dims t <= 4)%N /\ ((ti_dims t <= 0)%N -> ti_ne0 t = 1%nat) /\ ((ti_dims t <= 1)%N -> ti_ne1 t = 1%nat) /\
  ((ti_dims t <= 2)%N -> ti_ne2 t = 1%nat) /\ ((ti_dims t <= 3)%N -> ti_ne3 t = 1%nat).

(** The tensors of a file, as they are in memory. *)
Definition tensors_of (junk : nat -> N) (f : file) : list stored :=
  map (fun t => mkst t (ti_name t) (memory_of junk f t)) (f_tensors f).

(** The tensors of a loaded model: distinct, short names, complete data. *)
Record pool_ok (ts : list stored) : Prop := {
  po_short : Forall (fun s => (length (st_name s) < 64)%nat) ts;
  po_distinct : NoDup (map st_name ts);
  po_trimmed : Forall (fun s => trimmed (st_info s)) ts;
  po_bytes : Forall (fun s => N.of_nat (length (st_bytes s)) = nbytes (st_info s)) ts
}.

(** Same name and extents. *)
Definition same_shape (s : stored) (w : winfo) : Prop :=
  w_name w = st_name s /\ w_dims w = ti_dims (st_info s) /\
  w_ne0 w = ti_ne0 (st_info s) /\ w_ne1 w = ti_ne1 (st_info s) /\
  w_ne2 w = ti_ne2 (st_info s) /\ w_ne3 w = ti_ne3 (st_info s).

(** A tensor description as the reader sees it. *)
Definition seen (w : winfo) : tinfo :=
  mkti (w_name w) (w_type w) (w_dims w) (w_ne0 w) (w_ne1 w) (w_ne2 w) (w_ne3 w) (w_offset w).

(** [n] bytes from [pos]. *)
Definition slice (bytes : list N) (pos n : N) : list N := firstn (N.to_nat n) (skipn (N.to_nat pos) bytes).

(** The first place where data can begin: the descriptions, filled up to a multiple of the
    alignment. *)
Definition data_start (align n_kv : N) (kv : list N) (ws : list winfo) : N :=
  Ggml_model.pad_to align (N.of_nat (length (raw_meta n_kv kv ws))).

(** The file as the library reads it back: the settings of the source, but for the type and
    the version; [align] is the setting general.alignment, 32 without it. *)
Definition align_of (f : file) : N := match f_set f S_alignment with Some (SU32 a) => a | _ => 32%N end.
Definition reread (f : file) (qt : gty) (n_kv : N) (kv : list N) (ws : list winfo) (bytes : list N) : file :=
  mkfile (fun k => match k with
                   | S_file_type => Some (SU32 (code qt))
                   | S_quant_version => Some (SU32 2)
                   | _ => f_set f k
                   end)
    (f_tok f) (map seen ws) (data_start (align_of f) n_kv kv ws) bytes.


(** [ts] is written as [outs]: the descriptions [ws] and the bytes of the file. *)
Definition padding (n : N) : nat := N.to_nat (pad32 n - n).
Definition data_section (outs : list (gty * list N)) : list N :=
  concat (map (fun o => snd o ++ repeat 0%N (padding (N.of_nat (length (snd o))))) outs).

(** Offsets: one tensor after the other, each at a multiple of the alignment. *)
Inductive offsets_from : N -> list winfo -> Prop :=
| offsets_nil n : offsets_from n []
| offsets_cons n w ws : w_offset w = n -> offsets_from (n + pad32 (w_size w)) ws -> offsets_from n (w :: ws).

Record written chunk widen (qt : gty) (ts : list stored) (outs : list (gty * list N)) (ws : list winfo) : Prop := {
  wr_becomes : Forall2 (fun s o => becomes chunk widen qt s (fst o) (snd o)) ts outs;
  wr_shape : Forall2 same_shape ts ws;
  wr_type : Forall2 (fun o w => w_type w = fst o) outs ws;
  wr_size : Forall2 (fun o w => w_size w = N.of_nat (length (snd o))) outs ws;
  wr_offsets : offsets_from 0 ws
}.

(** Starts like a model file. *)
Definition has_magic (bytes : list N) : Prop := exists rest, bytes = u "GGUF" ++ rest.

(** The types the tool offers: berts/examples/quant.cpp. *)
Definition offered : list gty :=
  [TF32; TF16; TQ4_0; TQ4_1; TQ5_0; TQ5_1; TQ8_0; TQ8_1; TQ2_K; TQ3_K; TQ4_K; TQ5_K; TQ6_K].

(** The usual names of the types. *)
Definition type_name (t : gty) : list N :=
  match t with
  | TF32 => u "F32" | TF16 => u "F16" | TQ4_0 => u "Q4_0" | TQ4_1 => u "Q4_1" | TQ5_0 => u "Q5_0" | TQ5_1 => u "Q5_1"
  | TQ8_0 => u "Q8_0" | TQ8_1 => u "Q8_1" | TQ2_K => u "Q2_K" | TQ3_K => u "Q3_K" | TQ4_K => u "Q4_K" | TQ5_K => u "Q5_K"
  | TQ6_K => u "Q6_K" | TQ8_K => u "Q8_K" | TI8 => u "I8" | TI16 => u "I16" | TI32 => u "I32"
  end.
(** [whole] contains [part]. *)
Definition mentions (whole part : list N) : Prop := exists a b, whole = a ++ part ++ b.

(** The weights of the layer norms are one-dimensional, as the converter writes them. *)
Definition norms_flat (f : file) : Prop :=
  forall t p, In t (f_tensors f) -> ti_name t = p ++ u "LayerNorm.weight" -> ti_dims t <> 2%N.

(** The rows of a matrix converted to [qt]. *)
Definition converted_rows {V} (value : gty -> list N -> nat -> V) chunk (widen : list N -> list N) (qt : gty) (f : file) (t : tinfo) : list (list V) :=
  let floats := match ti_type t with TF16 => widen (region f t) | _ => region f t end in
  map (fun j => map (fun i => value qt (chunk qt floats (elements t)) (i + ti_ne0 t * j)%nat) (seq 0 (ti_ne0 t))) (seq 0 (ti_ne1 t)).
