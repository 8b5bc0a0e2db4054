(** Model files as bytes: ggml's gguf_init_from_file and gguf_find_key, which
    berts/models/gguf.cpp:61-69,186-225 and berts/models/gguf.hpp:47-105 use, gguf_set_kv and
    gguf_set_val_u32 (quantize.cpp:87-90), and loading and quantizing a file given by its
    bytes.

    The library is the one of the pinned submodule (versions 2 and 3 of the format).  Its
    reader is written out here; the writer of the descriptions is in Quantize_model.
    Simplified: sizes and counts are exact (no wrap-around of size_t), memory does not run
    out, and a file that ends inside the key/value section is refused (the library looks at
    an unread type code before it gives up). *)
From Verif Require Import Base Bert_model Vocab_model Bpe_model Roberta_model Loader_model Quantize_model.
From Verif Require Ggml_model.

(** Little-endian numbers *)
Definition unle (bs : list N) : N := fold_right (fun b a => b + 256 * a)%N 0%N bs.

(** A value: code of a fixed-size type and its bytes; a string; an array of fixed-size
    elements; an array of strings *)
Inductive kval :=
| VScalar (t : N) (bs : list N)
| VStr (s : list N)
| VArr (t : N) (n : N) (bs : list N)
| VStrs (l : list (list N)).
Record kv := mkkv { k_key : list N; k_val : kval }.

(** GGUF_TYPE_SIZE; nothing is read for codes above GGUF_TYPE_COUNT = 13 *)
Definition scalar_size (t : N) : N :=
  if (t <? 2)%N || (t =? 7)%N then 1
  else if (t <? 4)%N then 2
  else if (t <? 7)%N then 4
  else if (t =? 10)%N || (t =? 11)%N || (t =? 12)%N then 8
  else 0.

(** gguf_fread_el, gguf_fread_str: what was read and what follows *)
Definition take (n : N) (bs : list N) : outcome (list N * list N) :=
  if (N.of_nat (length bs) <? n)%N then Fail else Ok (firstn (N.to_nat n) bs, skipn (N.to_nat n) bs).
Definition take_num (k : N) (bs : list N) : outcome (N * list N) :=
  obind (take k bs) (fun r => Ok (unle (fst r), snd r)).
Definition take_str (bs : list N) : outcome (list N * list N) :=
  obind (take_num 8 bs) (fun r => take (fst r) (snd r)).

(** [n] things one after the other *)
Fixpoint take_many {A} (p : list N -> outcome (A * list N)) (n : nat) (bs : list N) : outcome (list A * list N) :=
  match n with
  | O => Ok ([], bs)
  | S n' => obind (p bs) (fun r => obind (take_many p n' (snd r)) (fun r' => Ok (fst r :: fst r', snd r')))
  end.

(** The value of a pair.  Nested arrays and the code 13 stop the process (GGML_ASSERT); an
    array of elements of unknown type keeps an uninitialised pointer, which is freed
    later. *)
Definition take_val (t : N) (bs : list N) : outcome (kval * list N) :=
  if (t =? 8)%N then obind (take_str bs) (fun r => Ok (VStr (fst r), snd r))
  else if (t =? 9)%N then
    obind (take_num 4 bs) (fun e => obind (take_num 8 (snd e)) (fun n =>
      if (fst e =? 8)%N then obind (take_many take_str (N.to_nat (fst n)) (snd n)) (fun r => Ok (VStrs (fst r), snd r))
      else if (fst e =? 9)%N || (fst e =? 13)%N then Abort
      else if (13 <? fst e)%N then UB
      else obind (take (fst n * scalar_size (fst e)) (snd n)) (fun r => Ok (VArr (fst e) (fst n) (fst r), snd r))))
  else if (t =? 13)%N then Abort
  else obind (take (scalar_size t) bs) (fun r => Ok (VScalar t (fst r), snd r)).
Definition take_kv (bs : list N) : outcome (kv * list N) :=
  obind (take_str bs) (fun k => obind (take_num 4 (snd k)) (fun t => obind (take_val (fst t) (snd t)) (fun v =>
    Ok (mkkv (fst k) (fst v), snd v)))).

(** A tensor description; more than four extents are written beyond their array *)
Record rinfo := mkri { ri_name : list N; ri_ne : list N; ri_code : N; ri_offset : N }.
Definition take_info (bs : list N) : outcome (rinfo * list N) :=
  obind (take_str bs) (fun k => obind (take_num 4 (snd k)) (fun d =>
    if (4 <? fst d)%N then UB
    else obind (take_many (take_num 8) (N.to_nat (fst d)) (snd d)) (fun ne =>
         obind (take_num 4 (snd ne)) (fun t => obind (take_num 8 (snd t)) (fun o =>
           Ok (mkri (fst k) (fst ne) (fst t) (fst o), snd o)))))).

(** Names and keys are used as C strings *)
Fixpoint cstr (s : list N) : list N :=
  match s with
  | [] => []
  | c :: s' => if (c =? 0)%N then [] else c :: cstr s'
  end.

(** gguf_find_key: the first pair of that key *)
Definition find_key (kvs : list kv) (k : list N) : option kval :=
  option_map k_val (find (fun x => list_N_eqb (cstr (k_key x)) k) kvs).

(** Type codes of ggml; 4 and 5 are unused *)
Definition gty_of (c : N) : option gty :=
  find (fun t => (code t =? c)%N)
    [TF32; TF16; TQ4_0; TQ4_1; TQ5_0; TQ5_1; TQ8_0; TQ8_1; TQ2_K; TQ3_K; TQ4_K; TQ5_K; TQ6_K; TQ8_K; TI8; TI16; TI32].

(** The description as the rest of the library sees it.  An unknown code reads outside the
    table of types (for 4 and 5 it divides by zero). *)
Definition describe_info (r : rinfo) : outcome tinfo :=
  match gty_of (ri_code r) with
  | None => UB
  | Some t =>
      let ne k := N.to_nat (nth k (ri_ne r) 1%N) in
      let i := mkti (cstr (ri_name r)) t (N.of_nat (length (ri_ne r))) (ne 0%nat) (ne 1%nat) (ne 2%nat) (ne 3%nat) (ri_offset r) in
      if negb (N.of_nat (elements i) mod blck_size t =? 0)%N then Fail else Ok i
  end.
Fixpoint describe_all (l : list rinfo) : outcome (list tinfo) :=
  match l with
  | [] => Ok []
  | r :: l' => obind (describe_info r) (fun i => obind (describe_all l') (fun is => Ok (i :: is)))
  end.

(** general.alignment; it must be an u32 (GGML_ASSERT), and 0 divides by zero *)
Definition alignment (kvs : list kv) : outcome N :=
  match find_key kvs (u "general.alignment") with
  | None => Ok 32%N
  | Some (VScalar t bs) => if (t =? 4)%N then (if (unle bs =? 0)%N then UB else Ok (unle bs)) else Abort
  | Some _ => Abort
  end.

(** keys.h:12-42 and gguf.cpp:73-81; keys.h:48-82 *)
Definition setting_key (k : skey) : list N :=
  match k with
  | S_arch => u "general.architecture" | S_quant_version => u "general.quantization_version"
  | S_alignment => u "general.alignment" | S_name => u "general.name" | S_author => u "general.author"
  | S_url => u "general.url" | S_description => u "general.description" | S_license => u "general.license"
  | S_file_type => u "general.file_type"
  | S_bert_type => u "berts.bert_type" | S_vocab_size => u "berts.vocab_size" | S_hidden_dim => u "berts.hidden_dim"
  | S_n_layers => u "berts.n_layers" | S_attn_heads => u "berts.attn_heads" | S_max_tokens => u "berts.max_token"
  | S_intermediate_dim => u "berts.intermediate_dim" | S_segments => u "berts.segments"
  | S_hidden_act => u "berts.hidden_act" | S_eps => u "berts.layer_norm_eps" | S_init_range => u "berts.initializer_range"
  end.
Definition tok_key (k : Vocab_model.key) : list N :=
  match k with
  | K_cls => u "berts.cls_id" | K_mask => u "berts.mask_id" | K_pad => u "berts.pad_id" | K_sep => u "berts.sep_id"
  | K_unk => u "berts.unk_id" | K_bos => u "berts.bos_id" | K_eos => u "berts.eos_id"
  | K_lower => u "berts.do_lower_case" | K_basic => u "berts.do_basic_tokenize"
  | K_cjk => u "berts.tokenize_chinese_chars" | K_accent => u "berts.strip_accent"
  end.

(** gguf_get_kv_type with gguf_get_val_u32 / _bool *)
Definition as_setting (v : kval) : sval :=
  match v with
  | VScalar t bs => if (t =? 4)%N then SU32 (unle bs) else if (t =? 12)%N then SF64 (unle bs) else SOther
  | VStr _ => SStr
  | _ => SOther
  end.
Definition as_tok (v : kval) : kvval :=
  match v with
  | VScalar t bs => if (t =? 4)%N then KU32 (unle bs) else if (t =? 7)%N then KBool (negb (unle bs =? 0)%N) else KOther
  | _ => KOther
  end.

(** gguf_init_from_file *)
Definition read_gguf (bs : list N) : outcome (list kv * file) :=
  obind (take 4 bs) (fun magic =>
  if negb (list_N_eqb (fst magic) GGUF) then Fail
  else
    obind (take_num 4 (snd magic)) (fun version =>
    obind (take_num 8 (snd version)) (fun n_tensors =>
    obind (take_num 8 (snd n_tensors)) (fun n_kv =>
    if (fst version =? 1)%N then Fail
    else
      obind (take_many take_kv (N.to_nat (fst n_kv)) (snd n_kv)) (fun kvs =>
      obind (take_many take_info (N.to_nat (fst n_tensors)) (snd kvs)) (fun infos =>
      obind (alignment (fst kvs)) (fun align =>
      obind (describe_all (fst infos)) (fun ts =>
      Ok (fst kvs,
          mkfile (fun k => option_map as_setting (find_key (fst kvs) (setting_key k)))
            (fun k => option_map as_tok (find_key (fst kvs) (tok_key k)))
            ts (Ggml_model.pad_to align (N.of_nat (length bs) - N.of_nat (length (snd infos)))) bs))))))))).

(** gguf_set_kv, gguf_set_val_*: an existing pair of that key is overwritten in place.
    Strings are copied as C strings; pairs of unknown type are dropped. *)
Fixpoint set_key (k : list N) (v : kval) (l : list kv) : list kv :=
  match l with
  | [] => [mkkv k v]
  | x :: l' => if list_N_eqb (k_key x) k then mkkv (k_key x) v :: l' else x :: set_key k v l'
  end.
Definition copy_val (v : kval) : kval :=
  match v with
  | VStr s => VStr (cstr s)
  | VStrs l => VStrs (map cstr l)
  | _ => v
  end.
Definition known (v : kval) : bool := match v with VScalar t _ => (t <? 13)%N | _ => true end.
Definition set_kv (src : list kv) : list kv :=
  fold_left (fun d x => if known (k_val x) then set_key (cstr (k_key x)) (copy_val (k_val x)) d else d) src [].

(** quantize.cpp:87-90; GGML_QNT_VERSION is 2 *)
Definition new_kvs (src : list kv) (qt : gty) : list kv :=
  set_key (u "general.file_type") (VScalar 4 (le 4 (code qt)))
    (set_key (u "general.quantization_version") (VScalar 4 (le 4 2)) (set_kv src)).

(** gguf_write_to_buf: the key/value section *)
Definition put_str (s : list N) : list N := le 8 (N.of_nat (length s)) ++ s.
Definition put_val (v : kval) : list N :=
  match v with
  | VScalar t bs => le 4 t ++ bs
  | VStr s => le 4 8 ++ put_str s
  | VArr t n bs => le 4 9 ++ le 4 t ++ le 8 n ++ bs
  | VStrs l => le 4 9 ++ le 4 8 ++ le 8 (N.of_nat (length l)) ++ concat (map put_str l)
  end.
Definition put_kv (x : kv) : list N := put_str (k_key x) ++ put_val (k_val x).
Definition put_kvs (l : list kv) : list N := concat (map put_kv l).

Section Bytes.
Context (L : Ggml_model.lib) (junk : nat -> N) {V : Type} (value : gty -> list N -> nat -> V).
Context (order : list (ustring * N) -> list (ustring * N)).

(** gguf.cpp:161-288 for the bytes of a file; [None]: it cannot be opened *)
Definition load_bytes (bs : option (list N)) (reopen : bool) : outcome (load_result (V := V)) :=
  match bs with
  | None => load_from_file L junk value order None reopen
  | Some bs =>
      match read_gguf bs with
      | Ok r => load_from_file L junk value order (Some (snd r)) reopen
      | Fail => load_from_file L junk value order None reopen
      | UB => UB
      | Abort => Abort
      end
  end.

(** quantize.cpp:70-218 for the bytes of the input *)
Context (chunk : gty -> list N -> nat -> list N) (widen : list N -> list N).
Definition quantize_bytes (bs : list N) (reopen opens : bool) (dev : nat -> nat) (qt : gty) : outcome (bool * option (list N)) :=
  match read_gguf bs with
  | Ok r =>
      let kvs := new_kvs (fst r) qt in
      berts_model_quantize chunk widen L junk value order (Some (snd r)) reopen opens
        (N.of_nat (length kvs)) (put_kvs kvs) dev qt
  | Fail => berts_model_quantize chunk widen L junk value order None reopen opens 0 [] dev qt
  | UB => UB
  | Abort => Abort
  end.
End Bytes.
