(** What the calls of the API write to the log: the messages of berts/berts.cpp:76-198,
    berts/models/internal.hpp:131-150, model_base.hpp:64-160 and 189-262, bert.cpp:111-207
    and 396-642, in the order in which they are written, as calls of Log_model.  The
    results of the calls are those of the other models.  (Evaluation: Says_eval_model.)

    Simplified: the lines "icu error: NAME [function:line]" of unicode.cpp:25 are left
    out; they are formatted errors (written at levels up to INFO only) made of ICU's error
    names, function names and numbers.  The lines of RoBERTa's tokenizer, of reading
    weights and of gguf.cpp are left out. *)
From Verif Require Import Base Utf_model Trie_model Bert_model Vocab_model Log_model.
Local Open Scope N_scope.

(** A call with its messages, run in a state of the log: its value and what was written. *)
Definition logged {A} (st : log_state) (r : outcome (A * list log_call)) : outcome (A * list N) :=
  obind r (fun p => obind (calls st (snd p)) (fun w => Ok (fst p, snd w))).

(** ** Looking up tokens *)

(** model_base.hpp:127-133 *)
Definition id_to_token_says (tokens : list (list N)) (id : N) : list log_call :=
  if N.of_nat (length tokens) <=? id
  then [Formatted Error (u "token id " ++ decimal id ++ u " is not found (max=" ++ decimal (N.of_nat (length tokens)) ++ u ")")]
  else [].

(** model_base.hpp:135-142 *)
Definition token_to_id_says (v : voc) (t : list N) : list log_call :=
  if token_to_id v t =? INVALID then [Formatted Error (u "token " ++ t ++ u " is not found")] else [].

(** internal.hpp:131-150 with berts.cpp:73-87: the checks in front of every call *)
Inductive handle := NullCtx | NoModel | HasModel.
Definition check_model_says (h : handle) : list log_call :=
  match h with
  | NullCtx => [Plain Warn (u "ctx=nullptr")]
  | NoModel => [Plain Error (u "model is not loaded")]
  | HasModel => []
  end.

(** berts.cpp:138-141  berts_token_to_id for a BERT model (bert.hpp: no translation) *)
Definition token_to_id_logged (v : voc) (t : list N) : outcome (N * list log_call) :=
  Ok (token_to_id v t, token_to_id_says v t).

(** berts.cpp:123-136  berts_id_to_token as far as the string *)
Definition id_to_token_logged (tokens : list (list N)) (id : N) : outcome (list N * list log_call) :=
  Ok (nth (N.to_nat id) tokens [], id_to_token_says tokens id).

(** ** Tokenizing with a BERT model *)

(** {:04x} of a 16-bit value *)
Definition hex_digit (n : N) : N := if n <? 10 then 48 + n else 87 + n.
Definition hex4 (n : N) : list N :=
  [hex_digit (n / 4096 mod 16); hex_digit (n / 256 mod 16); hex_digit (n / 16 mod 16); hex_digit (n mod 16)].

(** bert.cpp:403-430  the callback of clean_text_and_split *)
Definition clean_says (f : tok_info) (C : cp) : list log_call :=
  let c := cp_c C in
  if c =? 0 then (if t_rm_null f then [Plain Info (u "null character found in text")] else [])
  else if c =? 0xfffd then
    (if t_rm_repl f then
       [Plain Info (if is_pair C then
                      u "invalid sequence found: lone " ++ (if cp_hi C =? 0 then u "low" else u "high") ++ u " surrogate "
                      ++ hex4 (if cp_hi C =? 0 then cp_lo C else cp_hi C)
                    else u "0xfffd found")]
     else [])
  else [].

(** bert.cpp:488-562  basic_tokenize *)
Definition basic_says (k : icu) (f : tok_info) (s : list N) : list log_call :=
  [Plain Debug (u "start basic_tokenize")]
  ++ flat_map (clean_says f) (each_cp false (i_nfc k s))
  ++ [Plain Debug (u "end basic_tokenize")].

(** bert.cpp:581-598  one word; the recursion is that of [wp_word] *)
Fixpoint wp_word_says (fuel : nat) (root_node cont_node root : trie_node) (rest : list N)
  : list log_call * trie_node :=
  match fuel with
  | O => ([], root)
  | S fuel' =>
      match rest with
      | [] => ([], root)
      | _ =>
          match search_trie_substr root rest with
          | (id, Some (found, rest')) =>
              let root' := match rest' with [] => root_node | _ => cont_node end in
              let '(tr, r) := wp_word_says fuel' root_node cont_node root' rest' in
              (Formatted Debug (u "  token: " ++ encode found ++ u " (" ++ decimal id ++ u ")") :: tr, r)
          | (_, None) => ([Formatted Warn (u "  unknown token: " ++ encode rest)], root)
          end
      end
  end.

(** bert.cpp:579-599 *)
Fixpoint wp_words_says (root_node cont_node root : trie_node) (words : list (list N)) : list log_call :=
  match words with
  | [] => []
  | w :: ws =>
      let '(tr, root') := wp_word_says (S (length w)) root_node cont_node root w in
      tr ++ wp_words_says root_node cont_node root' ws
  end.

(** bert.cpp:564-604 *)
Definition wordpiece_says (vocab words : list (list N)) : list log_call :=
  let t := build_trie vocab in
  [Plain Debug (u "start wordpiece_tokenize")]
  ++ match search_node t cont_prefix with
     | None => [Plain Error (u "corrupted vocab: ""##"" is not found")]
     | Some cont => wp_words_says t cont t words ++ [Plain Debug (u "end wordpiece_tokenize")]
     end.

(** bert.cpp:606-642 *)
Definition model_tokenize_logged (k : icu) (v : bvocab) (text : list N) : outcome (list N * list log_call) :=
  match all_some (map from_utf8 (v_tokens v)),
        all_some (map (fun id => from_utf8 (bv_token v id)) [v_cls v; v_mask v; v_pad v; v_sep v; v_unk v]),
        from_utf8 text with
  | Some toks, Some never, Some s =>
      obind (model_tokenize k v text) (fun ids =>
        Ok (ids,
            flat_map (id_to_token_says (v_tokens v)) [v_cls v; v_mask v; v_pad v; v_sep v; v_unk v]
            ++ [Plain Info (u "start tokenize")]
            ++ basic_says k (v_cond v) s
            ++ wordpiece_says toks (basic_tokenize k (v_cond v) never s)
            ++ [Plain Info (u "end tokenize")]))
  | _, _, _ => UB
  end.

(** berts.cpp:151-197  [None] is the return of false; [max] is hparams.max_tokens as
    size_t *)
Definition berts_tokenize_logged (k : icu) (v : bvocab) (max : N) (text : list N)
  : outcome (option (list N) * list log_call) :=
  if v_cls v =? INVALID then Ok (None, [Plain Error (u "cls_id is not found")])
  else if v_sep v =? INVALID then Ok (None, [Plain Error (u "sep_id is not found")])
  else obind (model_tokenize_logged k v text) (fun p =>
    let ids := [v_cls v] ++ fst p ++ [v_sep v] in
    let n := N.of_nat (length ids) in
    Ok (Some ids, snd p ++
        (if max <? n
         then [Formatted Warn (u "Token count (" ++ decimal n ++ u ") is larger than the max_position_embeddings ("
                 ++ decimal max ++ u "). Calling eval() with this sequence will cause a failure.")]
         else []))).

(** ** Building a BERT vocabulary *)

(** model_base.hpp:232-245; the recursion is that of [read_tokens] *)
Fixpoint read_tokens_says (lens data : list N) (p : N) (v : voc) : list log_call :=
  match lens with
  | [] => []
  | b :: lens' =>
      let n := tok_len b in
      let t := firstn (N.to_nat n) (skipn (N.to_nat p) data) in
      match add_token v t with
      | None => [Formatted Warn (u "  token " ++ t ++ u " already exists"); Formatted Error (u "failed to add token: " ++ t)]
      | Some v' => read_tokens_says lens' data (p + n) v'
      end
  end.

(** model_base.hpp:64-100 for a key that is missing or holds the invalid id; [name] is the key *)
Fixpoint alternates_says (v : voc) (name : list N) (alts : list (list N)) : list log_call :=
  match alts with
  | [] => [Formatted Error (name ++ u " does not exist in vocab")]
  | a :: alts' =>
      Formatted Warn (name ++ u " is not defined; use " ++ a ++ u " instead") :: token_to_id_says v a ++
      (if token_to_id v a =? INVALID then alternates_says v a alts' else [])
  end.

Definition get_token_id_says (g : gguf) (v : voc) (k : key) (name : list N) (alts : list (list N)) : list log_call :=
  match gguf_u32 g k INVALID with
  | Ok id => if id =? INVALID then alternates_says v name alts else []
  | _ => []
  end.

(** bert.cpp:115-119 *)
Definition wanted_ids : list (key * list N * list (list N)) :=
  [(K_cls, u "berts.cls_id", [s_CLS; s_s]); (K_mask, u "berts.mask_id", [s_MASK; s_mask]);
   (K_pad, u "berts.pad_id", [s_PAD; s_pad]); (K_sep, u "berts.sep_id", [s_SEP; s_es]);
   (K_unk, u "berts.unk_id", [s_UNK; s_unk])].

(** bert.cpp:121-127; id_to_token may complain first *)
Definition id_line_says (v : voc) (label : list N) (id : outcome N) : list log_call :=
  match id with
  | Ok i => id_to_token_says (i2t v) i ++
            [Formatted Info (u "  " ++ label ++ decimal i ++ u " (" ++ id_to_token v i ++ u ")")]
  | _ => []
  end.

(** {:<5s} of a bool, and {} of one *)
Definition bool5 (b : bool) : list N := if b then u "true " else u "false".
Definition bool_text (b : bool) : list N := if b then u "true" else u "false".
Definition nl : list N := [10].

(** bert.cpp:175-198 *)
Definition info_says (basic : bool) (f : tok_info) : list log_call :=
  [Formatted Info (u "  do_basic_tokenize = " ++ bool_text basic);
   Formatted Info (u "  tokenizer_info {" ++ nl
     ++ u "    bool normalize = " ++ bool5 (t_normalize f) ++ u ";                 // ignored, always normalized with NFC" ++ nl
     ++ u "    bool remove_replacement_char = " ++ bool5 (t_rm_repl f) ++ u ";   // remove U+FFFD" ++ nl
     ++ u "    bool remove_null_char = " ++ bool5 (t_rm_null f) ++ u ";          // remove U+0000" ++ nl
     ++ u "    bool remove_control_char = " ++ bool5 (t_rm_ctrl f) ++ u ";       // remove control chars (category C*)" ++ nl
     ++ u "    bool normalize_whitespaces = " ++ bool5 (t_norm_ws f) ++ u ";     // convert all whitespaces to a normal space (U+0020)" ++ nl
     ++ u "    bool add_space_around_cjk_char = " ++ bool5 (t_cjk f) ++ u "; // add space around all CJK characters" ++ nl
     ++ u "    bool do_lower_case = " ++ bool5 (t_lower f) ++ u ";             // force input to be lowercase letters" ++ nl
     ++ u "    bool strip_accents = " ++ bool5 (t_accents f) ++ u ";             // remove all accent chars" ++ nl
     ++ u "    bool split_on_punc = " ++ bool5 (t_punct f) ++ u ";             // split words at a punctuation" ++ nl
     ++ u "  }")].

(** bert.cpp:111-207  vocab::init; the ids are those of [bert_vocab_init] *)
Definition init_says (g : gguf) (v : voc) : list log_call :=
  let id w := get_token_id g (token_to_id v) (fst (fst w)) (snd w) in
  let bad w := match id w with Ok i => i =? INVALID | _ => false end in
  flat_map (fun w => get_token_id_says g v (fst (fst w)) (snd (fst w)) (snd w)) wanted_ids
  ++ flat_map (fun p => id_line_says v (fst p) (id (snd p)))
       (combine [u "cls_id:  "; u "mask_id: "; u "pad_id:  "; u "sep_id:  "; u "unk_id:  "] wanted_ids)
  ++ (if existsb bad wanted_ids then []
      else match gguf_bool g K_lower true, gguf_bool g K_basic true, gguf_bool g K_cjk true with
           | Ok lower, Ok basic, Ok cjk =>
               match gguf_bool g K_accent lower with
               | Ok accents => info_says basic (make_info lower basic cjk accents)
               | _ => []
               end
           | _, _, _ => []
           end
           ++ (if (length (i2t v) =? 0)%nat then [Plain Error (u "fail to build vocab")] else [])).

(** model_base.hpp:227-262 for one-dimensional I8 tensors with these contents; [None]
    is the return of false *)
Definition vocab_logged (g : gguf) (lens data : list N) : outcome (option bvocab * list log_call) :=
  let head := [Plain Info (u "loading vocab");
               Formatted Debug (u "  vocab count: " ++ decimal (N.of_nat (length lens)))]
              ++ read_tokens_says lens data 0 voc0 in
  match read_tokens lens data 0 voc0 with
  | UB => UB
  | Abort => Abort
  | Fail => Ok (None, head)
  | Ok (p, v) =>
      if negb (p =? N.of_nat (length data)) then Ok (None, head ++ [Plain Error (u "something wrong")])
      else
        match bert_vocab_init g v with
        | UB => UB
        | Abort => Abort
        | Fail => Ok (None, head ++ init_says g v ++ [Plain Error (u "fail to build vocab")])
        | Ok b => Ok (Some b, head ++ init_says g v ++ [Plain Info (u "finish loading vocab")])
        end
  end.
