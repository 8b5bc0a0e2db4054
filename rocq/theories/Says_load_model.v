(** What loading a model file writes to the log: berts/models/gguf.cpp:61-288,
    internal.cpp:24-45, model_base.hpp:189-280, bert.cpp:254-366, roberta.cpp:129-244,
    bpe.cpp:163-192, in the order in which it is written.  The results are those of
    Loader_model.

    Simplified: messages of level DEBUG are left out (statements are about levels from
    INFO on); so are the lines of unicode.cpp about ICU errors.  ggml_init is taken to
    succeed (gguf.cpp:181-184).  [text] are the values of the text settings up to the
    first NUL, [double] is the {} of a double, [n_kv] the number of settings, [path] the
    argument. *)
From Verif Require Import Base Utf_model Bert_model Vocab_model Bpe_model Roberta_model Log_model Loader_model.
From Verif Require Import Says_model Says_eval_model.
From Verif Require Ggml_model Encoder_model.

Section Says_load.
Context (L : Ggml_model.lib) (junk : nat -> N) {V : Type} (value : gty -> list N -> nat -> V).
Context (order : list (ustring * N) -> list (ustring * N)).
Context (path : list N) (text : skey -> list N) (double : N -> list N) (n_kv : N).

(** (int32_t) of an uint32_t *)
Definition as_i32 (n : N) : Z := if (n <? 2147483648)%N then Z.of_N n else (Z.of_N n - 4294967296)%Z.

(** gguf.cpp:72-111 *)
Definition str_text (f : file) (k : skey) : list N := match f_set f k with Some SStr => text k | _ => [] end.
Definition u32_text (f : file) (k : skey) : list N :=
  signed (as_i32 match f_set f k with Some (SU32 n) => n | _ => 4294967295%N end).
Definition type_text (f : file) : list N :=
  match f_set f S_file_type with
  | Some (SU32 n) => match ftype n with Ok t => t | _ => [] end
  | _ => []
  end.
Definition metadata_says (f : file) : list log_call :=
  [Formatted Info (u "model metadata" ++ nl ++ u "  arch: " ++ str_text f S_arch ++ nl
     ++ u "  quantization_version: " ++ u32_text f S_quant_version ++ nl
     ++ u "  alignment: " ++ u32_text f S_alignment ++ nl
     ++ u "  name: " ++ str_text f S_name ++ nl ++ u "  author: " ++ str_text f S_author ++ nl
     ++ u "  url: " ++ str_text f S_url ++ nl ++ u "  description: " ++ str_text f S_description ++ nl
     ++ u "  license: " ++ str_text f S_license ++ nl ++ u "  type: " ++ type_text f);
   Formatted Info (u "gguf info" ++ nl ++ u "  n_tensors: " ++ number (length (f_tensors f)) ++ nl
     ++ u "  n_kv: " ++ decimal n_kv)].

(** gguf.cpp:152 *)
Definition size_says (size : N) : log_call :=
  Formatted Info (u "  model_size: " ++ decimal size ++ u " (" ++ decimal (size / 1024 / 1024) ++ u " MiB)").

(** gguf.cpp:227-250 *)
Definition hparams_says (f : file) (s : settings) : log_call :=
  let hp := se_hp s in
  Formatted Info (u "hparams" ++ nl ++ u "  arch: " ++ signed (as_i32 (se_arch s)) ++ nl
    ++ u "  vocab_size: " ++ decimal (se_vocab_size s) ++ nl ++ u "  hidden_dim: " ++ number (Encoder_model.hidden_dim hp) ++ nl
    ++ u "  n_layers: " ++ number (Encoder_model.n_layers hp) ++ nl ++ u "  attn_heads: " ++ number (Encoder_model.attn_heads hp) ++ nl
    ++ u "  max_tokens: " ++ number (Encoder_model.max_tokens hp) ++ nl
    ++ u "  intermediate_dim: " ++ number (Encoder_model.intermediate_dim hp) ++ nl
    ++ u "  segments: " ++ number (Encoder_model.segment_count hp) ++ nl ++ u "  hidden_act: " ++ signed (as_i32 (se_act s)) ++ nl
    ++ u "  eps: " ++ double (Encoder_model.ln_eps hp) ++ nl
    ++ u "  init_range: " ++ double match opt_f64 f S_init_range default_range with Ok r => r | _ => 0%N end).

(** model_base.hpp:202-225: what is wrong with the two tensors *)
Definition tensors_says (vsize vdata : option stored) : list log_call :=
  match vsize, vdata with
  | None, _ => [Formatted Error (u "key " ++ key_vocab_size ++ u " is not found")]
  | _, None => [Formatted Error (u "key " ++ key_vocab_data ++ u " is not found")]
  | Some s, Some d =>
      if negb (ti_dims (st_info s) =? 1)%N || negb (ti_dims (st_info d) =? 1)%N
      then [Formatted Error (u "invalid shape: vocab_size=" ++ decimal (ti_dims (st_info s)) ++
                             u ", vocab_data=" ++ decimal (ti_dims (st_info d)))]
      else match ti_type (st_info s), ti_type (st_info d) with
           | TI8, TI8 => []
           | TI8, t => [Formatted Error (u "invalid type of vocab_data: " ++ decimal (code t))]
           | t, _ => [Formatted Error (u "invalid type of vocab_size: " ++ decimal (code t))]
           end
  end.

(** ** RoBERTa *)

(** roberta.cpp:133-139; the alternatives are ASCII, which byte_encoder leaves alone *)
Definition r_wanted_ids : list (Vocab_model.key * list N * list (list N)) :=
  [(K_bos, u "berts.bos_id", [s_s]); (K_eos, u "berts.eos_id", [s_es]); (K_cls, u "berts.cls_id", [s_s]);
   (K_mask, u "berts.mask_id", [s_mask]); (K_pad, u "berts.pad_id", [s_pad]); (K_sep, u "berts.sep_id", [s_es]);
   (K_unk, u "berts.unk_id", [s_unk])].

(** roberta.cpp:141-155 *)
Definition r_ids (g : gguf) (v : voc) : list N :=
  let id k alts := match get_token_id g (r_find v) k alts with Ok i => i | _ => INVALID end in
  let bos := id K_bos [s_s] in let eos := id K_eos [s_es] in
  let cls := id K_cls [s_s] in let sep := id K_sep [s_es] in
  let bos := if (bos =? INVALID)%N then cls else bos in
  let eos := if (eos =? INVALID)%N then sep else eos in
  let cls := if (cls =? INVALID)%N then bos else cls in
  let sep := if (sep =? INVALID)%N then eos else sep in
  [bos; eos; cls; id K_mask [s_mask]; id K_pad [s_pad]; sep; id K_unk [s_unk]].

(** roberta.cpp:207-225 *)
Definition merges_says (m : option stored) : list log_call :=
  match m with
  | None => [Formatted Error (u "merge data (" ++ key_merge_data ++ u ") is not found")]
  | Some s =>
      let t := st_info s in
      if negb (ti_dims t =? 1)%N then [Formatted Error (u "invalid shape: merge_data=" ++ decimal (ti_dims t))]
      else match ti_type t with
           | TI32 => if (length (words32 (st_bytes s)) mod 3 =? 0)%nat then []
                     else [Formatted Error (u "invalid size of merge_data: " ++ number (length (words32 (st_bytes s))))]
           | x => [Formatted Error (u "invalid type of merge_data: " ++ decimal (code x))]
           end
  end.

(** bpe.cpp:166-192; the recursion is that of [load_merges] *)
Fixpoint load_merges_says (rank : N) (ms : list (N * N)) (b : bpe) : list log_call :=
  match ms with
  | [] => []
  | (id0, id1) :: ms' =>
      match bpe_id_to_token b id0 with
      | None => [Formatted Error (u "token id " ++ decimal id0 ++ u " is not found in vocab")]
      | Some t0 =>
          match bpe_id_to_token b id1 with
          | None => [Formatted Error (u "token id " ++ decimal id1 ++ u " is not found in vocab")]
          | Some t1 =>
              match bpe_token_to_id b (merged_token b t0 t1) with
              | None => [Formatted Error (u "merged token " ++ enc8s (merged_token b t0 t1) ++ u " is not found in vocab")]
              | Some nid =>
                  load_merges_says (rank + 1) ms'
                    (mkbpe (b_unk b) (b_dropout b) (b_fuse b) (b_vocab b) (b_vocab_r b)
                       (Assoc.assign pair_eqb (id0, id1) (rank, nid) (b_merge b)) (b_prefix b) (b_suffix b))
              end
          end
      end
  end.

(** roberta.cpp:194-241, reached with all ids found *)
Definition r_bpe_says (g : gguf) (merges : option stored) (v : voc) : list log_call :=
  match roberta_specials g (r_find v) with
  | Ok sp =>
      id_to_token_says (i2t v) (r_unk sp)
      ++ match r_id_to_token v (r_unk sp) with
         | Ok unk =>
             match dec8 unk, bpe_words v, merges_says merges with
             | Some unk', Some words, [] =>
                 match read_merges (option_map as_vocab merges) with
                 | Ok ms =>
                     let b := load_words (order words) (bpe_new unk' DZero true) in
                     load_merges_says (N.of_nat (length (b_merge b))) ms b
                     ++ (if fst (load_merges (N.of_nat (length (b_merge b))) ms b) then []
                         else [Plain Error (u "failed to load bpe vocab")])
                 | _ => []
                 end
             | _, _, errors => errors
             end
         | _ => []
         end
  | _ => []
  end.

(** roberta.cpp:129-244 *)
Definition r_init_says (g : gguf) (merges : option stored) (v : voc) : list log_call :=
  flat_map (fun w => get_token_id_says g v (fst (fst w)) (snd (fst w)) (snd w)) r_wanted_ids
  ++ flat_map (id_to_token_says (i2t v)) (r_ids g v)
  ++ map (fun p => Formatted Info (u "  " ++ fst p ++ decimal (snd p) ++ u " (" ++ id_to_token v (snd p) ++ u ")"))
       (combine [u "bos_id:  "; u "eos_id:  "; u "cls_id:  "; u "mask_id: "; u "pad_id:  "; u "sep_id:  "; u "unk_id:  "] (r_ids g v))
  ++ r_bpe_says g merges v.

(** model_base.hpp:189-262 for a RoBERTa model *)
Definition r_vocab_logged (g : gguf) (lens data : list N) (merges : option stored) : outcome (option rvocab * list log_call) :=
  let head := [Plain Info (u "loading vocab")] ++ read_tokens_says lens data 0 voc0 in
  match read_tokens lens data 0 voc0 with
  | UB => UB
  | Abort => Abort
  | Fail => Ok (None, head)
  | Ok (p, v) =>
      if negb (p =? N.of_nat (length data))%N then Ok (None, head ++ [Plain Error (u "something wrong")])
      else
        match roberta_vocab_init order g (option_map as_vocab merges) v with
        | UB => UB
        | Abort => Abort
        | Fail => Ok (None, head ++ r_init_says g merges v ++ [Plain Error (u "fail to build vocab")])
        | Ok b => Ok (Some b, head ++ r_init_says g merges v ++ [Plain Info (u "finish loading vocab")])
        end
  end.

(** model_base.hpp:189-262 *)
Definition init_vocab_logged (arch : N) (f : file) (ts : list stored) : outcome (option lvocab * list log_call) :=
  let s := get_tensor st_name ts key_vocab_size in
  let d := get_tensor st_name ts key_vocab_data in
  match tensors_says s d, s, d with
  | [], Some s, Some d =>
      if (arch =? 0)%N
      then obind (vocab_logged (f_tok f) (st_bytes s) (st_bytes d)) (fun p => Ok (option_map LBert (fst p), snd p))
      else obind (r_vocab_logged (f_tok f) (st_bytes s) (st_bytes d) (get_tensor st_name ts key_merge_data))
             (fun p => Ok (option_map LRoberta (fst p), snd p))
  | errors, _, _ => Ok (None, Plain Info (u "loading vocab") :: errors)
  end.

(** ** Weights *)

(** bert.cpp:217-252 and 301-332: the keys in the order in which they are asked for *)
Definition layer_keys (n : nat) : list (list N) :=
  map (key_n n)
    [u "attention.self.query.weight"; u "attention.self.query.bias"; u "attention.self.key.weight"; u "attention.self.key.bias";
     u "attention.self.value.weight"; u "attention.self.value.bias"; u "attention.output.dense.weight";
     u "attention.output.dense.bias"; u "attention.output.LayerNorm.weight"; u "attention.output.LayerNorm.bias";
     u "intermediate.dense.weight"; u "intermediate.dense.bias"; u "output.dense.weight"; u "output.dense.bias";
     u "output.LayerNorm.weight"; u "output.LayerNorm.bias"].
Definition keys (layers : nat) : list (list N) :=
  map Loader_model.key
    [u "embeddings.word_embeddings.weight"; u "embeddings.token_type_embeddings.weight";
     u "embeddings.position_embeddings.weight"; u "embeddings.LayerNorm.weight"; u "embeddings.LayerNorm.bias"]
  ++ flat_map layer_keys (seq 0 layers)
  ++ map Loader_model.key [u "pooler.dense.weight"; u "pooler.dense.bias"].
Definition head_keys : list (list N) :=
  map Loader_model.key
    [u "predictions.transform.dense.weight"; u "predictions.transform.dense.bias"; u "predictions.transform.LayerNorm.weight";
     u "predictions.transform.LayerNorm.bias"; u "predictions.decoder.weight"; u "predictions.decoder.bias"].

(** bert.cpp:254-261 *)
Definition present (ts : list stored) (k : list N) : bool :=
  match get_tensor st_name ts k with Some _ => true | None => false end.
Definition tensor_says (ts : list stored) (k : list N) : list log_call :=
  if present ts k then [] else [Formatted Error (u "failed to read tensor: " ++ k)].

(** bert.cpp:301-332: the first missing tensor ends it *)
Fixpoint required_says (ts : list stored) (ks : list (list N)) : list log_call * bool :=
  match ks with
  | [] => ([], true)
  | k :: ks' => if present ts k then required_says ts ks' else (tensor_says ts k, false)
  end.

(** bert.cpp:341-363: the number and name of each tensor of the file that [which] selects *)
Fixpoint listed (label : list N) (which : list N -> bool) (n : nat) (infos : list tinfo) : list log_call :=
  match infos with
  | [] => []
  | t :: rest =>
      (if which (ti_name t) then [Formatted Info (u "  " ++ label ++ u " " ++ number n ++ u " " ++ ti_name t)] else [])
      ++ listed label which (S n) rest
  end.

Definition mem (x : list N) (l : list (list N)) : bool := existsb (list_N_eqb x) l.

(** bert.cpp:263-366 *)
Definition weights_says (f : file) (ts : list stored) (layers : nat) : list log_call :=
  let '(says, ok) := required_says ts (keys layers) in
  if ok then
    let stored := keys layers ++ filter (present ts) head_keys in
    let not_stored := filter (fun k => negb (present ts k)) head_keys in
    says ++ flat_map (tensor_says ts) head_keys
    ++ listed (u "unused") (fun n => negb (mem n stored) && negb (mem n [key_vocab_size; key_vocab_data])) 0 (f_tensors f)
    ++ listed (u "skipped") (fun n => mem n not_stored) 0 (f_tensors f)
  else says.

(** internal.cpp:24-45, model_base.hpp:264-280 *)
Definition new_context_logged (f : file) (s : settings) (ts : list stored) : outcome (load_result (V := V) * list log_call) :=
  obind (init_vocab_logged (se_arch s) f ts) (fun p =>
    match fst p with
    | None => Ok (Null true, snd p ++ [Plain Error (u "fail to load vocab")])
    | Some v =>
        let layers := Encoder_model.n_layers (se_hp s) in
        let says := snd p ++ [Plain Info (u "initializing weights")] ++ weights_says f ts layers in
        match weights_init value ts layers with
        | Some w => Ok (Loaded (mklo v s w), says ++ [Plain Info (u "finish initializing weights")])
        | None => Ok (Null true, says ++ [Plain Error (u "fail to load weights")])
        end
    end).

(** gguf.cpp:161-288 *)
Definition load_logged (file : option file) (reopen : bool) : outcome (load_result (V := V) * list log_call) :=
  let start := [Formatted Info (u "loading model: " ++ path)] in
  match file with
  | None => Ok (Null false, start ++ [Formatted Error (u "fail to load gguf file: " ++ path)])
  | Some f =>
      obind (read_metadata f) (fun _ =>
      obind (ctx_size L (f_tensors f) (f_tensors f)) (fun size =>
      let start := start ++ metadata_says f ++ [size_says size] in
      if negb reopen then Ok (Null false, start ++ [Plain Error (u "fail to open gguf file")])
      else
        match read_tensors L junk f size 0 false (f_tensors f) with
        | Ok ts =>
            obind (read_settings f) (fun s =>
            obind (need_u32 f S_file_type) (fun t =>
            obind (ftype t) (fun _ =>
            let start := start ++ [hparams_says f s] in
            if negb (se_act s =? 0)%N
            then Ok (Null false, start ++ [Formatted Error (u "unknown hidden_act: " ++ signed (as_i32 (se_act s)))])
            else if negb ((se_arch s =? 0) || (se_arch s =? 1))%N
            then Ok (Null false, start ++ [Formatted Error (u "unknown bert_type: " ++ signed (as_i32 (se_arch s)))])
            else obind (new_context_logged f s ts) (fun p => Ok (fst p, start ++ snd p)))))
        | Fail => Ok (Null false, start ++ [Plain Error (u "failed to seek gguf file")])
        | UB => UB
        | Abort => Abort
        end))
  end.

End Says_load.
