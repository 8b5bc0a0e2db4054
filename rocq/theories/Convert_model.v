(** convert_hf_to_gguf.py: from a checkpoint to the bytes of a model file.

    What the script takes from the transformers library is a record: the configuration, the
    ids and flags of the tokenizer, its vocabulary and merges, and the two state
    dictionaries.  GGUFWriter is the one of the Python package gguf of December 2023.
    Floating point numbers are elements of a type [E]; [single] and [half] are numpy's
    conversions to float32 and float16 bytes.  Printing is left out. *)
From Verif Require Import Base Assoc Bert_model Vocab_model Bpe_model Roberta_model Loader_model Quantize_model Gguf_model.
From Verif Require Ggml_model.

(** convert_hf_to_gguf.py:58-68 and 356-362: the classes told apart; DeBERTa and all others
    raise before the output is opened *)
Inductive mclass := BertModel | RobertaModel | OtherModel.

(** A torch tensor: extents, outermost first, and elements in row-major order *)
Record ptensor (E : Type) := mkpt { p_shape : list nat; p_elems : list E }.
Arguments mkpt {E}. Arguments p_shape {E}. Arguments p_elems {E}.

(** convert_hf_to_gguf.py:73-89, 117-121, 143-152 and 180-193, 236-242: what is read from
    model.config and the tokenizer.  Floats of the configuration are given by the bits of the
    double.
    [ck_ids]: the special ids, where not None; [ck_flags]: likewise; [ck_never_split]: how
    many tokens are never split (0 also without basic tokenizer). *)
Record checkpoint (E : Type) := mkck {
  ck_class : mclass; ck_repo : list N;
  ck_vocab_size : N; ck_hidden : N; ck_layers : N; ck_heads : N; ck_positions : N; ck_inter : N; ck_segments : N;
  ck_act : list N; ck_eps : N; ck_range : N;
  ck_ids : Vocab_model.key -> option N; ck_flags : Vocab_model.key -> option bool; ck_never_split : nat;
  ck_vocab : list (list N * N); ck_merges : option (list ((list N * list N) * N));
  ck_state : list (list N * ptensor E); ck_lm : list (list N * ptensor E)
}.
Arguments ck_class {E}. Arguments ck_repo {E}. Arguments ck_vocab_size {E}. Arguments ck_hidden {E}.
Arguments ck_layers {E}. Arguments ck_heads {E}. Arguments ck_positions {E}. Arguments ck_inter {E}.
Arguments ck_segments {E}. Arguments ck_act {E}. Arguments ck_eps {E}. Arguments ck_range {E}.
Arguments ck_ids {E}. Arguments ck_flags {E}. Arguments ck_never_split {E}. Arguments ck_vocab {E}.
Arguments ck_merges {E}. Arguments ck_state {E}. Arguments ck_lm {E}.

(** ** GGUFWriter: key/value pairs *)

(** add_uint32: struct.pack raises for numbers of more than 32 bits *)
Definition add_u32 (k : list N) (n : N) : option kv :=
  if (n <? 4294967296)%N then Some (mkkv k (VScalar 4 (le 4 n))) else None.
(** add_float64, add_bool *)
Definition add_f64 (k : list N) (bits : N) : option kv := Some (mkkv k (VScalar 12 (le 8 bits))).
Definition add_bool (k : list N) (b : bool) : option kv := Some (mkkv k (VScalar 7 [if b then 1%N else 0%N])).
(** add_string: an empty text is not written *)
Definition add_string (k s : list N) : list (option kv) :=
  match s with [] => [] | _ => [Some (mkkv k (VStr s))] end.

(** 'if x is not None' *)
Definition opt_u32s {A} (ids : A -> option N) (l : list (A * list N)) : list (option kv) :=
  flat_map (fun x => match ids (fst x) with Some n => [add_u32 (snd x) n] | None => [] end) l.
Definition opt_bools {A} (flags : A -> option bool) (l : list (A * list N)) : list (option kv) :=
  flat_map (fun x => match flags (fst x) with Some b => [add_bool (snd x) b] | None => [] end) l.

(** str.lower for the letters that occur in the names compared *)
Definition lower (s : list N) : list N := map (fun c => if (65 <=? c)%N && (c <=? 90)%N then (c + 32)%N else c) s.

(** convert_hf_to_gguf.py:109-110 (the assertion) and 216-229 *)
Definition act_code {E} (c : checkpoint E) : option N :=
  match ck_class c with
  | BertModel => if list_N_eqb (ck_act c) (u "gelu") then Some 0%N else None
  | _ =>
      let a := lower (ck_act c) in
      if list_N_eqb a (u "gelu") then Some 0%N
      else if list_N_eqb a (u "relu") then Some 1%N
      else if list_N_eqb a (u "silu") then Some 2%N
      else if list_N_eqb a (u "gelu_new") then Some 3%N
      else None
  end.

(** convert_hf_to_gguf.py:102-113 and 209-232; the names are those of keys.h, which the
    script reads (27-41) *)
Definition config_pairs {E} (c : checkpoint E) : list (option kv) :=
  [add_u32 (u "berts.bert_type") (match ck_class c with BertModel => 0%N | _ => 1%N end);
   add_u32 (u "berts.vocab_size") (ck_vocab_size c);
   add_u32 (u "berts.hidden_dim") (ck_hidden c);
   add_u32 (u "berts.n_layers") (ck_layers c);
   add_u32 (u "berts.attn_heads") (ck_heads c);
   add_u32 (u "berts.max_token") (ck_positions c);
   add_u32 (u "berts.intermediate_dim") (ck_inter c);
   match act_code c with Some a => add_u32 (u "berts.hidden_act") a | None => None end;
   add_f64 (u "berts.layer_norm_eps") (ck_eps c);
   add_u32 (u "berts.segments") (ck_segments c);
   add_f64 (u "berts.initializer_range") (ck_range c)].

(** convert_hf_to_gguf.py:132-141 and 256-269 *)
Definition id_pairs {E} (c : checkpoint E) : list (option kv) :=
  opt_u32s (ck_ids c)
    ([(K_cls, u "berts.cls_id"); (K_mask, u "berts.mask_id"); (K_pad, u "berts.pad_id"); (K_sep, u "berts.sep_id");
      (K_unk, u "berts.unk_id")] ++
     match ck_class c with BertModel => [] | _ => [(K_bos, u "berts.bos_id"); (K_eos, u "berts.eos_id")] end).

(** convert_hf_to_gguf.py:164-176; RoBERTa has none of them *)
Definition flag_pairs {E} (c : checkpoint E) : list (option kv) :=
  match ck_class c with
  | BertModel =>
      opt_bools (ck_flags c)
        [(K_lower, u "berts.do_lower_case"); (K_basic, u "berts.do_basic_tokenize");
         (K_cjk, u "berts.tokenize_chinese_chars")] ++
      (if (ck_never_split c =? 0)%nat then [] else [None]) ++
      opt_bools (ck_flags c) [(K_accent, u "berts.strip_accent")]
  | _ => []
  end.

(** convert_hf_to_gguf.py:356-382: all pairs, in the order written *)
Definition pairs {E} (c : checkpoint E) (f32 : bool) : option (list kv) :=
  all_some
    (add_string (u "general.architecture") (match ck_class c with BertModel => u "BERT" | _ => u "RoBERTa" end) ++
     add_string (u "general.name") (ck_repo c) ++
     [add_u32 (u "general.alignment") 32] ++
     config_pairs c ++ id_pairs c ++ flag_pairs c ++
     [add_u32 (u "general.file_type") (if f32 then 0 else 1)%N]).

(** ** Tensors *)

(** A numpy array handed to add_tensor, with the type written for it *)
Record wtensor := mkwt { o_name : list N; o_type : gty; o_shape : list nat; o_bytes : list N }.

(** torch.Tensor.squeeze *)
Definition squeeze (shape : list nat) : list nat := filter (fun n => negb (n =? 1)%nat) shape.

(** key[-7:] *)
Definition last7 (k : list N) : list N := skipn (length k - 7) k.

Section Convert.
Context {E : Type} (single half : E -> list N).

(** convert_hf_to_gguf.py:396-409 and 440-453.  [key] is the key of the state dictionary,
    [name] the one written *)
Definition to_half (f32 : bool) (key : list N) (t : ptensor E) : bool :=
  negb f32 && (length (squeeze (p_shape t)) =? 2)%nat && list_N_eqb (last7 key) (u ".weight").
Definition array (f32 : bool) (key name : list N) (t : ptensor E) : wtensor :=
  if to_half f32 key t
  then mkwt (u "berts.bert." ++ name) TF16 (squeeze (p_shape t)) (concat (map half (p_elems t)))
  else mkwt (u "berts.bert." ++ name) TF32 (squeeze (p_shape t)) (concat (map single (p_elems t))).

(** convert_hf_to_gguf.py:429-437 and 458-459 *)
Definition head_renames : list (list N * list N) :=
  [(u "bias", u "predictions.bias");
   (u "dense.weight", u "predictions.transform.dense.weight");
   (u "dense.bias", u "predictions.transform.dense.bias");
   (u "layer_norm.weight", u "predictions.transform.LayerNorm.weight");
   (u "layer_norm.bias", u "predictions.transform.LayerNorm.bias");
   (u "decoder.weight", u "predictions.decoder.weight");
   (u "decoder.bias", u "predictions.decoder.bias")].
Definition head_name (cl : mclass) (key : list N) : list N :=
  match cl with
  | RobertaModel => match lookup list_N_eqb key head_renames with Some n => n | None => key end
  | _ => key
  end.

(** convert_hf_to_gguf.py:395-415 and 425-465 *)
Definition state_arrays (f32 : bool) (c : checkpoint E) : list wtensor :=
  map (fun x => array f32 (fst x) (fst x) (snd x)) (ck_state c).
Definition lm_arrays (f32 : bool) (c : checkpoint E) : list wtensor :=
  flat_map (fun x => let name := head_name (ck_class c) (fst x) in
                     if list_N_eqb name (u "predictions.bias") then [] else [array f32 (fst x) name (snd x)]) (ck_lm c).

(** convert_hf_to_gguf.py:317-318 and 340-342, with write_vocab and write_merges of
    Vocab_model and Roberta_model; 386-388: merges only if the tokenizer has any *)
Definition vocab_arrays (c : checkpoint E) : option (list wtensor) :=
  match write_vocab (N.to_nat (ck_vocab_size c)) (ck_vocab c) with
  | None => None
  | Some (s, d) =>
      Some [mkwt (u "berts.vocab.size") TI8 [length (t_data s)] (t_data s);
            mkwt (u "berts.vocab.data") TI8 [length (t_data d)] (t_data d)]
  end.
Definition merge_arrays (c : checkpoint E) : option (list wtensor) :=
  match ck_merges c with
  | None => Some []
  | Some ms =>
      match write_merges (ck_vocab c) ms with
      | None => None
      | Some l => Some [mkwt (u "berts.merge.data") TI32 [length l] (concat (map (le 4) l))]
      end
  end.
Definition arrays (c : checkpoint E) (f32 : bool) : option (list wtensor) :=
  match vocab_arrays c, merge_arrays c with
  | Some v, Some m => Some (v ++ m ++ state_arrays f32 c ++ lm_arrays f32 c)
  | _, _ => None
  end.

(** ** GGUFWriter: the file *)

(** ggml_pad with the alignment 32 *)
Definition ggml_pad (n : N) : N := ((n + 31) / 32 * 32)%N.
Definition fill_up (bs : list N) : list N := bs ++ repeat 0%N (N.to_nat (ggml_pad (N.of_nat (length bs))) - length bs).

(** add_tensor_info: extents innermost first; each tensor starts at a multiple of 32 *)
Definition put_info (t : wtensor) (offset : N) : list N :=
  le 8 (N.of_nat (length (o_name t))) ++ o_name t ++ le 4 (N.of_nat (length (o_shape t))) ++
  concat (map (fun n => le 8 (N.of_nat n)) (rev (o_shape t))) ++ le 4 (code (o_type t)) ++ le 8 offset.
Fixpoint put_infos (offset : N) (ts : list wtensor) : list N :=
  match ts with
  | [] => []
  | t :: ts' => put_info t offset ++ put_infos (offset + ggml_pad (N.of_nat (length (o_bytes t))))%N ts'
  end.

(** write_header_to_file, write_kv_data_to_file, write_tensors_to_file *)
Definition put_file (kvs : list kv) (ts : list wtensor) : list N :=
  fill_up (u "GGUF" ++ le 4 3 ++ le 8 (N.of_nat (length ts)) ++ le 8 (N.of_nat (length kvs)) ++ put_kvs kvs ++ put_infos 0 ts) ++
  concat (map (fun t => fill_up (o_bytes t)) ts).

(** convert_hf_to_gguf.py:349-482; None: an exception *)
Definition convert (c : checkpoint E) (f32 : bool) : option (list N) :=
  match ck_class c with
  | OtherModel => None
  | _ =>
      match pairs c f32, arrays c f32 with
      | Some kvs, Some ts => Some (put_file kvs ts)
      | _, _ => None
      end
  end.

(** What is found at the output path afterwards, [old] having been there before: the
    constructor of GGUFWriter (358-360) empties the file, which is written at the end *)
Definition output (old : option (list N)) (c : checkpoint E) (f32 : bool) : option (list N) :=
  match ck_class c with
  | OtherModel => old
  | _ => Some match convert c f32 with Some bs => bs | None => [] end
  end.
End Convert.
