(** What loading a model file writes to the log with the messages of level DEBUG:
    berts/models/gguf.cpp:61-288, internal.cpp:24-45, model_base.hpp:189-280, bert.cpp:254-366,
    roberta.cpp:129-244, bpe.cpp:138-200; and quantization (quantize.cpp:70-218), which writes no
    such messages of its own.  Says_load_model and Says_quantize_model with these messages added.

    [keys] are the names of the settings of the file in their order, as gguf_get_key gives them
    (C strings); [addr] are the addresses of the contexts; otherwise as in Says_load_model.  The
    result of init_gg is taken to be made in place (gguf.cpp:68, 158, 165: without that its move
    constructor writes the lines of both contexts again). *)
From Verif Require Import Base Utf_model Bert_model Vocab_model Bpe_model Roberta_model Log_model Loader_model.
From Verif Require Import Says_model Says_eval_model Says_load_model Says_quantize_model Quantize_model.
From Verif Require Ggml_model Encoder_model.

(** [f] for each element with its number, from [i] on *)
Fixpoint numbered {A B} (f : nat -> A -> B) (i : nat) (l : list A) : list B :=
  match l with
  | [] => []
  | x :: rest => f i x :: numbered f (S i) rest
  end.

(** The contexts of utils.hpp:94-200 *)
Inductive context := Meta | Source | Pool | Berts | Target.

Section Says_debug.
Context (L : Ggml_model.lib) (junk : nat -> N) {V : Type} (value : gty -> list N -> nat -> V).
Context (order : list (ustring * N) -> list (ustring * N)).
Context (path : list N) (text : skey -> list N) (double : N -> list N) (keys : list (list N)).
Context (addr : context -> N).

(** utils.hpp:38-68, 100-161: a context is taken over or disposed of.  The context of the
    metadata is set without the first (utils.hpp:173). *)
Definition ctx_init (kind : list N) (c : context) : log_call := Formatted Debug (kind ++ u "_init @ " ++ hex16 (addr c)).
Definition ctx_free (kind : list N) (c : context) : log_call := Formatted Debug (kind ++ u "_free @ " ++ hex16 (addr c)).

(** gguf.cpp:113-118 *)
Definition key_debug (i : nat) (k : list N) : log_call :=
  Formatted Debug (u "  key " ++ number i ++ u ": " ++ k).

(** gguf.cpp:126-149; [t]: what ggml_get_tensor finds under the name *)
Definition tensor_debug (meta : list tinfo) (i : nat) (ti : tinfo) : log_call :=
  match get_tensor ti_name meta (ti_name ti) with
  | Some t =>
      Formatted Debug (u "  tensor " ++ number i ++ nl
        ++ u "    name: " ++ firstn (MAX_NAME - 1) (ti_name t) ++ u " (" ++ ti_name ti ++ u ")" ++ nl
        ++ u "    n_dims: " ++ decimal (ti_dims t) ++ nl ++ u "    size: " ++ decimal (nbytes t) ++ nl
        ++ u "    padded_size: " ++ decimal (Ggml_model.pad_to (Ggml_model.mem_align L) (nbytes t)) ++ nl
        ++ u "    offset: " ++ decimal (ti_offset ti))
  | None => Plain Debug []
  end.

(** gguf.cpp:192-212: the recursion of [read_tensors] *)
Fixpoint reading_says (f : file) (i : nat) (failed : bool) (todo : list tinfo) : list log_call :=
  match todo with
  | [] => []
  | ti :: rest =>
      Formatted Debug (u "  load " ++ number i ++ u " " ++ ti_name ti) ::
      if failed then []
      else match get_tensor ti_name (f_tensors f) (ti_name ti) with
           | None => []
           | Some t => reading_says f (S i) (snd (read_bytes junk f (ti_offset ti) (nbytes t))) rest
           end
  end.

(** roberta.cpp:194-241 with bpe.cpp:138-200 *)
Definition r_bpe_full (g : gguf) (merges : option stored) (v : voc) : list log_call :=
  match roberta_specials g (r_find v) with
  | Ok sp =>
      id_to_token_says (i2t v) (r_unk sp)
      ++ match r_id_to_token v (r_unk sp) with
         | Ok unk =>
             match dec8 unk, bpe_words v, merges_says merges with
             | Some unk', Some words, [] =>
                 match read_merges (option_map as_vocab merges) with
                 | Ok ms =>
                     let b := load_words (order words) (bpe_new unk' DZero true) in
                     [Formatted Debug (u "  merge count: " ++ number (length ms));
                      Plain Debug (u "loading BPE vocab"); Plain Debug (u "  merge")]
                     ++ load_merges_says (N.of_nat (length (b_merge b))) ms b
                     ++ (if fst (load_merges (N.of_nat (length (b_merge b))) ms b)
                         then [Plain Debug (u "finish loading BPE vocab")]
                         else [Plain Error (u "failed to load bpe vocab")])
                 | _ => []
                 end
             | _, _, errors => errors
             end
         | _ => []
         end
  | _ => []
  end.

(** roberta.cpp:129-244 *)
Definition r_init_full (g : gguf) (merges : option stored) (v : voc) : list log_call :=
  flat_map (fun w => get_token_id_says g v (fst (fst w)) (snd (fst w)) (snd w)) r_wanted_ids
  ++ flat_map (id_to_token_says (i2t v)) (r_ids g v)
  ++ map (fun p => Formatted Info (u "  " ++ fst p ++ decimal (snd p) ++ u " (" ++ id_to_token v (snd p) ++ u ")"))
       (combine [u "bos_id:  "; u "eos_id:  "; u "cls_id:  "; u "mask_id: "; u "pad_id:  "; u "sep_id:  "; u "unk_id:  "] (r_ids g v))
  ++ r_bpe_full g merges v.

(** model_base.hpp:189-262 for a RoBERTa model *)
Definition r_vocab_full (g : gguf) (lens data : list N) (merges : option stored) : outcome (option rvocab * list log_call) :=
  let head := [Plain Info (u "loading vocab"); Formatted Debug (u "  vocab count: " ++ decimal (N.of_nat (length lens)))]
              ++ read_tokens_says lens data 0 voc0 in
  match read_tokens lens data 0 voc0 with
  | UB => UB
  | Abort => Abort
  | Fail => Ok (None, head)
  | Ok (p, v) =>
      if negb (p =? N.of_nat (length data))%N then Ok (None, head ++ [Plain Error (u "something wrong")])
      else
        match roberta_vocab_init order g (option_map as_vocab merges) v with
        | UB => UB
        | Abort => Abort
        | Fail => Ok (None, head ++ r_init_full g merges v ++ [Plain Error (u "fail to build vocab")])
        | Ok b => Ok (Some b, head ++ r_init_full g merges v ++ [Plain Info (u "finish loading vocab")])
        end
  end.

(** model_base.hpp:189-262 *)
Definition init_vocab_full (arch : N) (f : file) (ts : list stored) : outcome (option lvocab * list log_call) :=
  let s := get_tensor st_name ts key_vocab_size in
  let d := get_tensor st_name ts key_vocab_data in
  match tensors_says s d, s, d with
  | [], Some s, Some d =>
      if (arch =? 0)%N
      then obind (vocab_logged (f_tok f) (st_bytes s) (st_bytes d)) (fun p => Ok (option_map LBert (fst p), snd p))
      else obind (r_vocab_full (f_tok f) (st_bytes s) (st_bytes d) (get_tensor st_name ts key_merge_data))
             (fun p => Ok (option_map LRoberta (fst p), snd p))
  | errors, _, _ => Ok (None, Plain Info (u "loading vocab") :: errors)
  end.

(** bert.cpp:254-261 *)
Definition store_says (ts : list stored) (k : list N) : list log_call :=
  tensor_says ts k ++ [Formatted Debug (u "  store " ++ k)].

(** bert.cpp:301-332: the first missing tensor ends it *)
Fixpoint required_full (ts : list stored) (ks : list (list N)) : list log_call * bool :=
  match ks with
  | [] => ([], true)
  | k :: ks' =>
      if present ts k then let '(says, ok) := required_full ts ks' in (store_says ts k ++ says, ok)
      else (store_says ts k, false)
  end.

(** bert.cpp:263-366 *)
Definition weights_full (f : file) (ts : list stored) (layers : nat) : list log_call :=
  let '(says, ok) := required_full ts (Says_load_model.keys layers) in
  if ok then
    let stored := Says_load_model.keys layers ++ filter (present ts) head_keys in
    let not_stored := filter (fun k => negb (present ts k)) head_keys in
    says ++ flat_map (store_says ts) head_keys
    ++ listed (u "unused") (fun n => negb (mem n stored) && negb (mem n [key_vocab_size; key_vocab_data])) 0 (f_tensors f)
    ++ listed (u "skipped") (fun n => mem n not_stored) 0 (f_tensors f)
  else says.

(** internal.cpp:24-45, model_base.hpp:264-280 *)
Definition new_context_full (f : file) (s : settings) (ts : list stored) : outcome (load_result (V := V) * list log_call) :=
  obind (init_vocab_full (se_arch s) f ts) (fun p =>
    match fst p with
    | None => Ok (Null true, snd p ++ [Plain Error (u "fail to load vocab")])
    | Some v =>
        let layers := Encoder_model.n_layers (se_hp s) in
        let says := snd p ++ [Plain Info (u "initializing weights")] ++ weights_full f ts layers in
        match weights_init value ts layers with
        | Some w => Ok (Loaded (mklo v s w), says ++ [Plain Info (u "finish initializing weights")])
        | None => Ok (Null true, says ++ [Plain Error (u "fail to load weights")])
        end
    end).

(** gguf.cpp:161-288.  The contexts that are not given to the model are disposed of on return. *)
Definition load_full (file : option file) (reopen : bool) : outcome (load_result (V := V) * list log_call) :=
  let start := [Formatted Info (u "loading model: " ++ path)] in
  match file with
  | None => Ok (Null false, start ++ [Formatted Error (u "fail to load gguf file: " ++ path)])
  | Some f =>
      obind (read_metadata f) (fun _ =>
      obind (ctx_size L (f_tensors f) (f_tensors f)) (fun size =>
      let start := start ++ [ctx_init (u "gguf") Source] ++ metadata_says text (N.of_nat (length keys)) f
                   ++ numbered key_debug 0 keys ++ numbered (tensor_debug (f_tensors f)) 0 (f_tensors f) ++ [size_says size]
                   ++ [ctx_init (u "ggml") Pool] in
      let refused c := Ok (Null false, start ++ c ++ [ctx_free (u "ggml") Pool; ctx_free (u "gguf") Source; ctx_free (u "ggml") Meta]) in
      if negb reopen then refused [Plain Error (u "fail to open gguf file")]
      else
        let reading := reading_says f 0 false (f_tensors f) in
        match read_tensors L junk f size 0 false (f_tensors f) with
        | Ok ts =>
            obind (read_settings f) (fun s =>
            obind (need_u32 f S_file_type) (fun t =>
            obind (ftype t) (fun _ =>
            let reading := reading ++ [hparams_says double f s] in
            if negb (se_act s =? 0)%N
            then refused (reading ++ [Formatted Error (u "unknown hidden_act: " ++ signed (as_i32 (se_act s)))])
            else if negb ((se_arch s =? 0) || (se_arch s =? 1))%N
            then refused (reading ++ [Formatted Error (u "unknown bert_type: " ++ signed (as_i32 (se_arch s)))])
            else obind (new_context_full f s ts) (fun p =>
              Ok (fst p, start ++ (reading ++ snd p) ++ [ctx_free (u "ggml") Meta])))))
        | Fail => refused (reading ++ [Plain Error (u "failed to seek gguf file")])
        | UB => UB
        | Abort => Abort
        end))
  end.

(** quantize.cpp:70-218, with the parameters of Says_quantize_model *)
Context (chunk : gty -> list N -> nat -> list N) (widen : list N -> list N).
Context (kib mib : N -> list N) (bins : list (list N) -> list N) (output : list N).
Definition quantize_full (file : option file) (reopen opens : bool)
    (n_kv : N) (kv : list N) (dev : nat -> nat) (qt : gty) : outcome ((bool * option (list N)) * list log_call) :=
  let start := [Plain Info (u "start quantization")] in
  obind (type_to_str qt) (fun _ =>
  obind (load_full file reopen) (fun '(r, tr) =>
  match r, file with
  | Loaded _, Some f =>
      obind (ctx_size L (f_tensors f) (f_tensors f)) (fun size =>
      obind (read_tensors L junk f size 0 false (f_tensors f)) (fun ts =>
      obind (quantize_to_logged chunk widen kib mib bins output ts (map ti_name (f_tensors f)) opens n_kv kv dev qt) (fun '(a, tr') =>
      Ok (a, start ++ tr ++ [ctx_init (u "berts") Berts; Formatted Info (u "model loaded: " ++ path); ctx_init (u "gguf") Target] ++ tr'
             ++ [ctx_free (u "gguf") Target; ctx_free (u "berts") Berts]))))
  | _, _ => Ok ((false, None), start ++ tr ++ [Formatted Error (u "fail to load model: " ++ path)])
  end)).
End Says_debug.
