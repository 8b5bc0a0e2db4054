(** Loading a model file: berts/models/gguf.cpp:61-288, berts/models/gguf.hpp:47-105,
    berts/models/internal.cpp:12-72, berts/models/bert.cpp:210-366 (weights::init, used by
    both architectures), berts/models/model_base.hpp:189-279.

    gguf_init_from_file belongs to ggml and is not modelled: a file is what it returns,
    the settings with their types, the tensor descriptions and the position of the data,
    together with the bytes of the file.  It has checked magic, version, type codes and
    that the number of elements is a multiple of the block size.  Sizes are exact (no
    wrap-around of size_t).  Logging is not modelled, nor running out of memory in
    operator new. *)
From Verif Require Import Base Bert_model Vocab_model Bpe_model Roberta_model.
From Verif Require Ggml_model Encoder_model Eval_model.

(** ggml_type, with the sizes of ggml's type table *)
Inductive gty :=
| TF32 | TF16 | TQ4_0 | TQ4_1 | TQ5_0 | TQ5_1 | TQ8_0 | TQ8_1
| TQ2_K | TQ3_K | TQ4_K | TQ5_K | TQ6_K | TQ8_K | TI8 | TI16 | TI32.

Definition code (t : gty) : N :=
  match t with
  | TF32 => 0 | TF16 => 1 | TQ4_0 => 2 | TQ4_1 => 3 | TQ5_0 => 6 | TQ5_1 => 7 | TQ8_0 => 8
  | TQ8_1 => 9 | TQ2_K => 10 | TQ3_K => 11 | TQ4_K => 12 | TQ5_K => 13 | TQ6_K => 14
  | TQ8_K => 15 | TI8 => 16 | TI16 => 17 | TI32 => 18
  end.

Definition gtype_of (t : gty) : Ggml_model.gtype :=
  match t with
  | TF32 => Ggml_model.F32 | TI32 => Ggml_model.I32
  | TF16 => Ggml_model.OtherType 2 1 | TI8 => Ggml_model.OtherType 1 1 | TI16 => Ggml_model.OtherType 2 1
  | TQ4_0 => Ggml_model.OtherType 18 32 | TQ4_1 => Ggml_model.OtherType 20 32
  | TQ5_0 => Ggml_model.OtherType 22 32 | TQ5_1 => Ggml_model.OtherType 24 32
  | TQ8_0 => Ggml_model.OtherType 34 32 | TQ8_1 => Ggml_model.OtherType 40 32
  | TQ2_K => Ggml_model.OtherType 84 256 | TQ3_K => Ggml_model.OtherType 110 256 | TQ4_K => Ggml_model.OtherType 144 256
  | TQ5_K => Ggml_model.OtherType 176 256 | TQ6_K => Ggml_model.OtherType 210 256 | TQ8_K => Ggml_model.OtherType 292 256
  end.
Definition type_size (t : gty) : N := Ggml_model.type_size (gtype_of t).
Definition blck_size (t : gty) : N := Ggml_model.blck_size (gtype_of t).

(** One tensor description: gguf_get_tensor_name / _offset and the extents *)
Record tinfo := mkti {
  ti_name : list N;
  ti_type : gty;
  ti_dims : N;
  ti_ne0 : nat; ti_ne1 : nat; ti_ne2 : nat; ti_ne3 : nat;
  ti_offset : N
}.

(** Settings, keys.h:12-42 and gguf.cpp:73-81 *)
Inductive skey :=
| S_arch | S_quant_version | S_alignment | S_name | S_author | S_url | S_description | S_license
| S_file_type
| S_bert_type | S_vocab_size | S_hidden_dim | S_n_layers | S_attn_heads | S_max_tokens
| S_intermediate_dim | S_segments | S_hidden_act | S_eps | S_init_range.
Inductive sval := SU32 (n : N) | SF64 (bits : N) | SStr | SOther.

Record file := mkfile {
  f_set : skey -> option sval;
  f_tok : Vocab_model.gguf;
  f_tensors : list tinfo;
  f_data : N;               (* gguf_get_data_offset *)
  f_bytes : list N
}.

(** gguf.hpp:47-105: a missing key or a value of another type stops the process *)
Definition need_u32 (f : file) (k : skey) : outcome N :=
  match f_set f k with Some (SU32 n) => Ok n | _ => Abort end.
Definition opt_u32 (f : file) (k : skey) (d : N) : outcome N :=
  match f_set f k with None => Ok d | Some (SU32 n) => Ok n | Some _ => Abort end.
Definition opt_f64 (f : file) (k : skey) (d : N) : outcome N :=
  match f_set f k with None => Ok d | Some (SF64 n) => Ok n | Some _ => Abort end.
Definition opt_str (f : file) (k : skey) : outcome unit :=
  match f_set f k with None => Ok tt | Some SStr => Ok tt | Some _ => Abort end.

(** gguf.cpp:21-51  ftype: the names of the file types *)
Definition ftype_names : list (list N) :=
  [u "ALL_F32"; u "MOSTLY_F16"; u "MOSTLY_Q4_0"; u "MOSTLY_Q4_1"; u "MOSTLY_Q4_1_SOME_F16";
   u "MOSTLY_Q4_2"; u "MOSTLY_Q4_3"; u "MOSTLY_Q8_0"; u "MOSTLY_Q5_0"; u "MOSTLY_Q5_1";
   u "MOSTLY_Q2_K"; u "MOSTLY_Q3_K_S"; u "MOSTLY_Q3_K_M"; u "MOSTLY_Q3_K_L"; u "MOSTLY_Q4_K_S";
   u "MOSTLY_Q4_K_M"; u "MOSTLY_Q5_K_S"; u "MOSTLY_Q5_K_M"; u "MOSTLY_Q6_K"].
Definition ftype (n : N) : outcome (list N) :=
  if (N.of_nat (length ftype_names) <=? n)%N then Abort else Ok (nth (N.to_nat n) ftype_names []).

(** gguf.cpp:53-55 *)
Definition type_to_str (t : gty) : outcome (list N) := ftype (code t).

(** gguf.cpp:71-101 *)
Definition read_metadata (f : file) : outcome unit :=
  obind (opt_str f S_arch) (fun _ =>
  obind (opt_u32 f S_quant_version 4294967295) (fun _ =>
  obind (opt_u32 f S_alignment 4294967295) (fun _ =>
  obind (opt_str f S_name) (fun _ =>
  obind (opt_str f S_author) (fun _ =>
  obind (opt_str f S_url) (fun _ =>
  obind (opt_str f S_description) (fun _ =>
  obind (opt_str f S_license) (fun _ =>
  obind (need_u32 f S_file_type) (fun t =>
  obind (ftype t) (fun _ => Ok tt)))))))))).

(** ggml_get_tensor: the first tensor of that name.  ggml keeps the first 63 bytes of a
    name (GGML_MAX_NAME = 64), so the full name of a longer one is not found. *)
Definition MAX_NAME : nat := 64.
Definition get_tensor {A} (name : A -> list N) (ts : list A) (n : list N) : option A :=
  find (fun t => list_N_eqb (firstn (MAX_NAME - 1) (name t)) n) ts.

(** ggml_nbytes: from the strides nb of a tensor without gaps *)
Definition nbytes (t : tinfo) : N :=
  let ts := Z.of_N (type_size (ti_type t)) in
  let bs := Z.of_N (blck_size (ti_type t)) in
  let n0 := Z.of_nat (ti_ne0 t) in let n1 := Z.of_nat (ti_ne1 t) in
  let n2 := Z.of_nat (ti_ne2 t) in let n3 := Z.of_nat (ti_ne3 t) in
  let nb0 := ts in
  let nb1 := (nb0 * (n0 / bs))%Z in
  let nb2 := (nb1 * n1)%Z in
  let nb3 := (nb2 * n2)%Z in
  Z.to_N (if (bs =? 1)%Z
          then ts + (n0 - 1) * nb0 + (n1 - 1) * nb1 + (n2 - 1) * nb2 + (n3 - 1) * nb3
          else n0 * nb0 / bs + (n1 - 1) * nb1 + (n2 - 1) * nb2 + (n3 - 1) * nb3)%Z.

Section Loader.
Context (L : Ggml_model.lib).

(** Bytes ggml_dup_tensor takes from the pool *)
Definition dup_cost (t : tinfo) : N :=
  Ggml_model.tensor_cost L (gtype_of (ti_type t)) (ti_ne0 t) (ti_ne1 t) (ti_ne2 t) (ti_ne3 t).

(** gguf.cpp:121-150: the size of the pool.  A tensor that is not found is a null pointer
    given to ggml_nbytes. *)
Fixpoint ctx_size (meta todo : list tinfo) : outcome N :=
  match todo with
  | [] => Ok 0%N
  | ti :: rest =>
      match get_tensor ti_name meta (ti_name ti) with
      | None => UB
      | Some t => obind (ctx_size meta rest) (fun s =>
          Ok (Ggml_model.tensor_bytes L + Ggml_model.pad_to (Ggml_model.mem_align L) (nbytes t) + Ggml_model.object_bytes L + s)%N)
      end
  end.

(** What a read leaves in freshly allocated memory: the bytes there are, then whatever
    the memory held ([junk]). *)
Context (junk : nat -> N).
Definition read_bytes (f : file) (offset want : N) : list N * bool :=
  let got := firstn (N.to_nat want) (skipn (N.to_nat (f_data f + offset)) (f_bytes f)) in
  let missing := (N.to_nat want - length got)%nat in
  (got ++ map junk (seq (length got) missing), (0 <? missing)%nat).

(** A tensor of the pool *)
Record stored := mkst { st_info : tinfo; st_name : list N; st_bytes : list N }.

(** gguf.cpp:192-212.  [failed]: the stream is in a failed state, which seekg does not
    clear; the state is tested after seekg only.  A tensor for which there is no room is a
    null pointer given to ggml_set_name. *)
Fixpoint read_tensors (f : file) (size used : N) (failed : bool) (todo : list tinfo) : outcome (list stored) :=
  match todo with
  | [] => Ok []
  | ti :: rest =>
      match get_tensor ti_name (f_tensors f) (ti_name ti) with
      | None => UB
      | Some t =>
          if (size <? used + dup_cost t)%N then UB
          else if failed then Fail
          else
            let '(bytes, failed') := read_bytes f (ti_offset ti) (nbytes t) in
            obind (read_tensors f size (used + dup_cost t)%N failed' rest) (fun ts =>
              Ok (mkst t (ti_name ti) bytes :: ts))
      end
  end.

(** gguf.cpp:214-225; the doubles 1e-12 and 0.02 *)
Definition default_eps : N := 4427486594234968593.   (* 0x3d719799812dea11 *)
Definition default_range : N := 4581421828931458171. (* 0x3f947ae147ae147b *)
Record settings := mkset { se_arch : N; se_act : N; se_vocab_size : N; se_hp : Encoder_model.hparams }.
Definition read_settings (f : file) : outcome settings :=
  obind (need_u32 f S_bert_type) (fun arch =>
  obind (need_u32 f S_vocab_size) (fun vocab =>
  obind (need_u32 f S_hidden_dim) (fun hidden =>
  obind (need_u32 f S_n_layers) (fun layers =>
  obind (need_u32 f S_attn_heads) (fun heads =>
  obind (need_u32 f S_max_tokens) (fun max =>
  obind (need_u32 f S_intermediate_dim) (fun inter =>
  obind (opt_u32 f S_segments 2) (fun segs =>
  obind (need_u32 f S_hidden_act) (fun act =>
  obind (opt_f64 f S_eps default_eps) (fun eps =>
  obind (opt_f64 f S_init_range default_range) (fun _ =>
  Ok (mkset arch act vocab
    (Encoder_model.mkhp (N.to_nat hidden) (N.to_nat layers) (N.to_nat heads) (N.to_nat max) (N.to_nat inter)
       (N.to_nat segs)
       (if (act =? 0)%N then Encoder_model.Gelu else if (act =? 1)%N then Encoder_model.Relu
        else if (act =? 2)%N then Encoder_model.Silu else Encoder_model.GeluNew) eps))))))))))))).

(** The pool's tensors as the vocabulary code sees them; for I32 four bytes, least
    significant first, make an element. *)
Fixpoint words32 (l : list N) : list N :=
  match l with
  | a :: b :: c :: d :: l' => (a + 256 * b + 65536 * c + 16777216 * d)%N :: words32 l'
  | _ => []
  end.
Definition as_vocab (s : stored) : Vocab_model.tensor :=
  let t := st_info s in
  match ti_type t with
  | TI8 => mkt (ti_dims t) T_I8 (st_bytes s)
  | TI32 => mkt (ti_dims t) T_I32 (words32 (st_bytes s))
  | _ => mkt (ti_dims t) T_other []
  end.
Definition vocab_tensor (ts : list stored) (key : list N) : option Vocab_model.tensor :=
  option_map as_vocab (get_tensor st_name ts key).

(** keys.h:88-95 *)
Definition key_vocab_size := u "berts.vocab.size".
Definition key_vocab_data := u "berts.vocab.data".
Definition key_merge_data := u "berts.merge.data".

(** Weights: the value of the n-th element of a tensor without gaps is given by ggml's
    conversion ([value]) *)
Context {V : Type} (value : gty -> list N -> nat -> V).
Definition as_weight (s : stored) : Ggml_model.tensor V :=
  let t := st_info s in
  Ggml_model.packed (gtype_of (ti_type t)) (ti_ne0 t) (ti_ne1 t) (ti_ne2 t) (ti_ne3 t)
    (fun i j k l => value (ti_type t) (st_bytes s) (i + ti_ne0 t * (j + ti_ne1 t * (k + ti_ne2 t * l)))).
Definition weight (ts : list stored) (key : list N) : option (Ggml_model.tensor V) :=
  option_map as_weight (get_tensor st_name ts key).

(** bert.cpp:213-252 *)
Definition key (s : list N) : list N := u "berts.bert." ++ s.
Definition key_n (n : nat) (s : list N) : list N :=
  u "berts.bert.encoder.layer." ++ decimal (N.of_nat n) ++ u "." ++ s.

Definition bind {A B} (x : option A) (f : A -> option B) : option B :=
  match x with Some a => f a | None => None end.

(** bert.cpp:312-329 *)
Definition layer_init (ts : list stored) (n : nat) : option (Encoder_model.block V) :=
  let get s := weight ts (key_n n s) in
  bind (get (u "attention.self.query.weight")) (fun q_w =>
  bind (get (u "attention.self.query.bias")) (fun q_b =>
  bind (get (u "attention.self.key.weight")) (fun k_w =>
  bind (get (u "attention.self.key.bias")) (fun k_b =>
  bind (get (u "attention.self.value.weight")) (fun v_w =>
  bind (get (u "attention.self.value.bias")) (fun v_b =>
  bind (get (u "attention.output.dense.weight")) (fun ff_w =>
  bind (get (u "attention.output.dense.bias")) (fun ff_b =>
  bind (get (u "attention.output.LayerNorm.weight")) (fun ln_ff_w =>
  bind (get (u "attention.output.LayerNorm.bias")) (fun ln_ff_b =>
  bind (get (u "intermediate.dense.weight")) (fun i_w =>
  bind (get (u "intermediate.dense.bias")) (fun i_b =>
  bind (get (u "output.dense.weight")) (fun o_w =>
  bind (get (u "output.dense.bias")) (fun o_b =>
  bind (get (u "output.LayerNorm.weight")) (fun ln_out_w =>
  bind (get (u "output.LayerNorm.bias")) (fun ln_out_b =>
  Some (Encoder_model.mkblock V q_w q_b k_w k_b v_w v_b ff_w ff_b ln_ff_w ln_ff_b i_w i_b o_w o_b ln_out_w ln_out_b))))))))))))))))).

Fixpoint layers_init (ts : list stored) (todo : list nat) : option (list (Encoder_model.block V)) :=
  match todo with
  | [] => Some []
  | n :: rest => bind (layer_init ts n) (fun y => bind (layers_init ts rest) (fun ys => Some (y :: ys)))
  end.

(** bert.cpp:334-339; the head is usable only if all six are there (bert.cpp:1055-1061) *)
Definition head_init (ts : list stored) : option (Encoder_model.head V) :=
  let get s := weight ts (key s) in
  bind (get (u "predictions.transform.dense.weight")) (fun dw =>
  bind (get (u "predictions.transform.dense.bias")) (fun db =>
  bind (get (u "predictions.transform.LayerNorm.weight")) (fun lw =>
  bind (get (u "predictions.transform.LayerNorm.bias")) (fun lb =>
  bind (get (u "predictions.decoder.weight")) (fun cw =>
  bind (get (u "predictions.decoder.bias")) (fun cb =>
  Some (Encoder_model.mkhead V dw db lw lb cw cb))))))).

(** bert.cpp:263-366 *)
Definition weights_init (ts : list stored) (n_layers : nat) : option (Encoder_model.weights V) :=
  let get s := weight ts (key s) in
  bind (get (u "embeddings.word_embeddings.weight")) (fun tok =>
  bind (get (u "embeddings.token_type_embeddings.weight")) (fun seg =>
  bind (get (u "embeddings.position_embeddings.weight")) (fun pos =>
  bind (get (u "embeddings.LayerNorm.weight")) (fun lw =>
  bind (get (u "embeddings.LayerNorm.bias")) (fun lb =>
  bind (layers_init ts (seq 0 n_layers)) (fun ys =>
  bind (get (u "pooler.dense.weight")) (fun pw =>
  bind (get (u "pooler.dense.bias")) (fun pb =>
  Some (Encoder_model.mkweights V tok seg pos lw lb ys pw pb (head_init ts)))))))))).

(** A context, internal.cpp:12-22 *)
Inductive lvocab := LBert (v : bvocab) | LRoberta (v : rvocab).
Record loaded := mklo { lo_vocab : lvocab; lo_settings : settings; lo_weights : Encoder_model.weights V }.

(** The result of loading.  [handed_over]: the file context and the pool were released by
    their handles and given to new_context (gguf.cpp:286). *)
Inductive load_result := Loaded (m : loaded) | Null (handed_over : bool).

Context (order : list (ustring * N) -> list (ustring * N)).
Definition init_vocab (arch : N) (f : file) (ts : list stored) : outcome lvocab :=
  if (arch =? 0)%N
  then obind (bert_init_vocab (f_tok f) (vocab_tensor ts key_vocab_size) (vocab_tensor ts key_vocab_data))
         (fun v => Ok (LBert v))
  else obind (roberta_init_vocab order (f_tok f) (vocab_tensor ts key_vocab_size)
                (vocab_tensor ts key_vocab_data) (vocab_tensor ts key_merge_data))
         (fun v => Ok (LRoberta v)).

(** internal.cpp:24-45 *)
Definition new_context (f : file) (s : settings) (ts : list stored) : outcome load_result :=
  match init_vocab (se_arch s) f ts with
  | Ok v =>
      match weights_init ts (Encoder_model.n_layers (se_hp s)) with
      | Some w => Ok (Loaded (mklo v s w))
      | None => Ok (Null true)
      end
  | Fail => Ok (Null true)
  | UB => UB
  | Abort => Abort
  end.

(** gguf.cpp:161-288.  [None]: gguf_init_from_file refuses the file.  [reopen]: the file
    can be opened a second time. *)
Definition load_from_file (file : option file) (reopen : bool) : outcome load_result :=
  match file with
  | None => Ok (Null false)
  | Some f =>
      obind (read_metadata f) (fun _ =>
      obind (ctx_size (f_tensors f) (f_tensors f)) (fun size =>
      if negb reopen then Ok (Null false)
      else
        match read_tensors f size 0 false (f_tensors f) with
        | Ok ts =>
            obind (read_settings f) (fun s =>
            obind (need_u32 f S_file_type) (fun t =>
            obind (ftype t) (fun _ =>
            if negb (se_act s =? 0)%N then Ok (Null false)
            else if negb ((se_arch s =? 0) || (se_arch s =? 1))%N then Ok (Null false)
            else new_context f s ts)))
        | Fail => Ok (Null false)
        | UB => UB
        | Abort => Abort
        end))
  end.

(** The model that evaluation works on. *)
Definition evaluator (m : loaded) : Eval_model.emodel V :=
  match lo_vocab m with
  | LBert v => Eval_model.mkem V Encoder_model.Bert (se_hp (lo_settings m)) (lo_weights m) (length (v_tokens v))
  | LRoberta v => Eval_model.mkem V (Encoder_model.Roberta (r_pad (rv_sp v))) (se_hp (lo_settings m)) (lo_weights m)
                    (length (i2t (rv_voc v)))
  end.

(** ** What stays allocated *)
Inductive resource := FileContext | Pool | Context | Model.

(** After loading (gguf.cpp:165-287 with the handles of utils.hpp; internal.cpp:32-42) *)
Definition live (r : load_result) : list resource :=
  match r with
  | Loaded _ => [FileContext; Pool; Context; Model]
  | Null true => [FileContext; Pool]
  | Null false => []
  end.

(** internal.cpp:47-49: deletes the context and, through unique_ptr, the model *)
Definition berts_free (l : list resource) : list resource :=
  filter (fun r => match r with Context | Model => false | _ => true end) l.

End Loader.
Arguments Loaded {V}. Arguments Null {V}. Arguments mklo {V}.
Arguments lo_vocab {V}. Arguments lo_settings {V}. Arguments lo_weights {V}.
Arguments live {V}. Arguments evaluator {V}.
