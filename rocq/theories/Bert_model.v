(** Model of the BERT tokenizer, berts/models/bert.cpp:26-52 and 368-642, on top
    of the models of the string class, the prefix tree and WordPiece. *)
From Verif Require Import Base Utf_model Trie_model.
Open Scope N_scope.

(** bert.hpp:23-51  struct tokenizer_info.  [normalize] is ignored by the code. *)
Record tok_info := mktok {
  t_normalize : bool;
  t_rm_repl : bool;       (* remove_replacement_char *)
  t_rm_null : bool;       (* remove_null_char *)
  t_rm_ctrl : bool;       (* remove_control_char *)
  t_norm_ws : bool;       (* normalize_whitespaces *)
  t_cjk : bool;           (* add_space_around_cjk_char *)
  t_lower : bool;         (* do_lower_case *)
  t_accents : bool;       (* strip_accents *)
  t_punct : bool          (* split_on_punc *)
}.

(** bert.cpp:26-38, 40-52 *)
Definition info_basic : tok_info := mktok true true true true true true true true true.
Definition info_no_basic : tok_info := mktok true false false false true false false false false.

(** bert.cpp:140-171  the configuration built by vocab::init from the four keys *)
Definition make_info (lower basic cjk accents : bool) : tok_info :=
  let i := if basic then info_basic else info_no_basic in
  mktok (t_normalize i) (t_rm_repl i) (t_rm_null i) (t_rm_ctrl i) (t_norm_ws i) cjk lower accents (t_punct i).

(** ICU's tables and normalizers (parameters).  [i_blank] is u_isblank,
    [i_print] u_isprint, [i_punct] "u_charType is a P category", [i_mark]
    "u_charType is U_NON_SPACING_MARK"; [i_nfc]/[i_nfd] are what safe_norm_nfc /
    safe_norm_nfd (bert.cpp:380-394) return, fall-back to the input included;
    [i_lower] is the text u_strToLower produces. *)
Record icu := mkicu {
  i_blank : N -> bool;
  i_print : N -> bool;
  i_punct : N -> bool;
  i_mark : N -> bool;
  i_nfc : list N -> list N;
  i_nfd : list N -> list N;
  i_lower : list N -> list N
}.

(** unicode.cpp:540-545, 547-551 *)
Definition is_whitespace (k : icu) (c : N) : bool := i_blank k c.
Definition is_control (k : icu) (c : N) : bool := negb (i_print k c).

(** unicode.cpp:553-566 *)
Definition is_punct (k : icu) (c : N) : bool :=
  (((33 <=? c) && (c <=? 47)) || ((58 <=? c) && (c <=? 64)) ||
   ((91 <=? c) && (c <=? 96)) || ((123 <=? c) && (c <=? 126))) || i_punct k c.

(** bert.cpp:375-377  the three macros *)
Definition layout (c : N) : bool := (c =? 32) || (c =? 9) || (c =? 10) || (c =? 13).
Definition WS (k : icu) (c : N) : bool := layout c || is_whitespace k c.
Definition CTRL (k : icu) (c : N) : bool := negb (layout c) && is_control k c.
Definition CJK (c : N) : bool :=
  ((0x4e00 <=? c) && (c <=? 0x9fff)) || ((0x3400 <=? c) && (c <=? 0x4dbf)) ||
  ((0x20000 <=? c) && (c <=? 0x2a6df)) || ((0x2a700 <=? c) && (c <=? 0x2b73f)) ||
  ((0x2b740 <=? c) && (c <=? 0x2b81f)) || ((0x2b820 <=? c) && (c <=? 0x2ceaf)) ||
  ((0xf900 <=? c) && (c <=? 0xfaff)) || ((0x2f800 <=? c) && (c <=? 0x2fa1f)).

(** [cleaned.push_back(c)] with a 32-bit [c]: the only viable constructor of
    ustr::cp takes one 16-bit unit (unicode.hpp:120-123), so [c] is narrowed. *)
Definition narrow (c : N) : cp := cp_unit (c mod 65536).

(** bert.cpp:400-457  the callback of clean_text_and_split: what it appends to
    [cleaned] for one code point *)
Definition clean_cp (k : icu) (f : tok_info) (C : cp) : list cp :=
  let c := cp_c C in
  if c =? 0 then (if t_rm_null f then [] else [narrow c])
  else if c =? 0xfffd then (if t_rm_repl f then [] else [narrow c])
  else if CTRL k c then (if t_rm_ctrl f then [] else [narrow c])
  else if WS k c then (if t_norm_ws f then [cp_unit 32] else [narrow c])
  else
    let sp := if CJK c && t_cjk f then [cp_unit 32] else [] in
    sp ++ [C] ++ sp.

(** bert.cpp:460-485  the loop over [cleaned]; [cur] is [current] *)
Fixpoint split_cleaned (cur : list N) (cs : list cp) : list (list N) :=
  match cs with
  | [] => match cur with [] => [] | _ => [cur] end
  | C :: cs' =>
      if cp_c C =? 32 then
        match cur with
        | [] => split_cleaned [] cs'
        | _ => cur :: split_cleaned [] cs'
        end
      else split_cleaned (cur ++ (if is_pair C then [cp_hi C; cp_lo C] else [cp_c C mod 65536])) cs'
  end.

(** bert.cpp:396-486 *)
Definition clean_text_and_split (k : icu) (f : tok_info) (s : list N) : list (list N) :=
  split_cleaned [] (flat_map (clean_cp k f) (each_cp false s)).

(** unicode.cpp:610-617  to_lower: the sizing call u_strToLower(nullptr, 0, ...)
    reports U_BUFFER_OVERFLOW_ERROR exactly when the result does not fit in zero
    units; this is not U_SUCCESS, so the function returns false with [out]
    disposed.  For an empty string, a null pointer, it reports an illegal argument.
    The result is (return value, contents of [out]). *)
Definition to_lower (k : icu) (s : list N) : bool * list N :=
  match s, i_lower k s with
  | _ :: _, [] => (true, [])
  | _, _ => (false, [])
  end.

(** The value of a ustr built from code points; on an ICU error the object is
    unusable, which cannot happen for scalar values (from_utf32_some). *)
Definition of_cps (cs : list N) : list N := match from_utf32 cs with Some us => us | None => [] end.

(** bert.cpp:511-520  strip accents *)
Definition strip_accents (k : icu) (w : list N) : list N :=
  i_nfc k (of_cps (filter (fun c => negb (i_mark k c)) (codepoints_of true (i_nfd k w)))).

(** bert.cpp:528-556  splitting at punctuation; [temp] as in the code *)
Fixpoint punct_split (k : icu) (temp : list N) (cs : list N) : list (list N) :=
  match cs with
  | [] => match temp with [] => [] | _ => [of_cps temp] end
  | c :: cs' =>
      if is_punct k c then
        (match temp with [] => [] | _ => [of_cps temp] end) ++ [of_cps [c]] ++ punct_split k [] cs'
      else punct_split k (temp ++ [c]) cs'
  end.

Definition mem_word (w : list N) (l : list (list N)) : bool := existsb (list_N_eqb w) l.

(** bert.cpp:503-557  the body of the loop over the words *)
Definition basic_word (k : icu) (f : tok_info) (never : list (list N)) (w : list N) : list (list N) :=
  if mem_word w never then [w]
  else
    let w1 := if t_lower f then snd (to_lower k w) else w in
    let w2 := if t_accents f then strip_accents k w1 else w1 in
    if t_punct f then punct_split k [] (codepoints_of true w2) else [w2].

(** bert.cpp:488-562  basic_tokenize after the text was decoded to [s] *)
Definition basic_tokenize (k : icu) (f : tok_info) (never : list (list N)) (s : list N) : list (list N) :=
  flat_map (basic_word k f never) (clean_text_and_split k f (i_nfc k s)).

(** bert.hpp:53-64  what the tokenizer reads of a loaded vocabulary: the tokens
    (UTF-8 bytes), the special ids and the configuration *)
Record bvocab := mkbv {
  v_tokens : list (list N);
  v_cls : N; v_mask : N; v_pad : N; v_sep : N; v_unk : N;
  v_cond : tok_info
}.

(** model_base.hpp:127-133  id_to_token: "" outside the table *)
Definition bv_token (v : bvocab) (id : N) : list N := nth (N.to_nat id) (v_tokens v) [].

Fixpoint all_some {A} (l : list (option A)) : option (list A) :=
  match l with
  | [] => Some []
  | None :: _ => None
  | Some a :: l' => option_map (cons a) (all_some l')
  end.

(** bert.cpp:606-642  model::tokenize / tokenize: the ids appended to [out].  A
    text or special token that is not valid UTF-8 makes a string object whose
    size field was never written: UB.  The result of wordpiece_tokenize is
    ignored (line 623), so a vocabulary without "##" yields no ids. *)
Definition model_tokenize (k : icu) (v : bvocab) (text : list N) : outcome (list N) :=
  match all_some (map from_utf8 (v_tokens v)),
        all_some (map (fun id => from_utf8 (bv_token v id)) [v_cls v; v_mask v; v_pad v; v_sep v; v_unk v]),
        from_utf8 text with
  | Some toks, Some never, Some s =>
      match wordpiece toks (v_unk v) (basic_tokenize k (v_cond v) never s) with
      | WpOk ids => Ok ids
      | WpNoCont => Ok []
      | WpFuel => Abort
      end
  | _, _, _ => UB
  end.

(** berts.cpp:151-197  berts_tokenize up to the buffers: the sequence [ids] *)
Definition berts_ids (k : icu) (v : bvocab) (text : list N) : outcome (list N) :=
  if v_cls v =? INVALID then Fail
  else if v_sep v =? INVALID then Fail
  else obind (model_tokenize k v text) (fun ids => Ok ([v_cls v] ++ ids ++ [v_sep v])).
