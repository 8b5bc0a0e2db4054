(** The parts of berts/models/unicode.cpp that depend on how ICU's functions are called: the
    error field of strings, the two calls (one for the size, one for the text) of conversions,
    encode, normalize_nfc/nfd, to_lower and to_upper; the life of compiled regular expressions;
    general categories.

    Trusted about ICU: a function that is given an error already does nothing; it writes its
    result if it fits and reports U_STRING_NOT_TERMINATED_WARNING if it fits without a
    terminating zero, U_BUFFER_OVERFLOW_ERROR if it does not fit; a conversion of text that
    is not well-formed reports an error and no size; u_strToLower and u_strToUpper refuse a null
    source, unorm2_normalize refuses equal non-null source and destination, uregex_open an
    empty pattern.  The instances of unorm2_getNFCInstance are available. *)
From Verif Require Import Base Utf_model Ustr_model.
Local Open Scope nat_scope.

(** UErrorCode, as far as the code distinguishes values *)
Inductive status := Zero | Warned (* U_STRING_NOT_TERMINATED_WARNING *) | Overflow (* U_BUFFER_OVERFLOW_ERROR *) | Error.

(** U_FAILURE *)
Definition failure (e : status) : bool := match e with Overflow | Error => true | _ => false end.

(** What a call of an ICU function leaves: the status, the units written and the length, if
    it was reported. *)
Record called := mkcalled { c_status : status; c_units : list N; c_length : option nat }.

(** A call with room for [cap] units; [result] is read from the source, [None] being text
    that is not well-formed. *)
Definition icu_call (result : outcome (option (list N))) (cap : nat) (e : status) : outcome called :=
  if failure e then Ok (mkcalled e [] None)
  else obind result (fun r =>
    match r with
    | None => Ok (mkcalled Error [] None)
    | Some l =>
        if length l <? cap then Ok (mkcalled Zero l (Some (length l)))
        else if length l =? cap then Ok (mkcalled Warned l (Some (length l)))
        else Ok (mkcalled Overflow [] (Some (length l)))
    end).

(** unicode.cpp:33-39 struct ustr_impl.  The buffer is null, filled, or allocated and not
    written; [None] is a size that was never set. *)
Inductive buffer := Null | Chars (l : list N) | Junk.
Record obj := mkobj { o_buf : buffer; o_size : option nat; o_err : status }.

(** unicode.cpp:41-43 *)
Definition obj_default : obj := mkobj Null None Zero.

(** unicode.cpp:104-110 and 294-297 *)
Definition dispose (o : obj) : obj := mkobj Null (Some 0) Zero.

(** unicode.cpp:96-102; the error field stays *)
Definition alloc (n : nat) (o : obj) : obj :=
  mkobj (if n =? 0 then Null else Junk) (Some n) (o_err o).

(** An ICU function writes [l] into the whole buffer. *)
Definition written (l : list N) (o : obj) : obj :=
  mkobj (match l with [] => o_buf o | _ => Chars l end) (o_size o) (o_err o).
Definition with_error (e : status) (o : obj) : obj := mkobj (o_buf o) (o_size o) e.

(** What a function reading [size] units at [str] finds. *)
Definition source (o : obj) : outcome (list N) :=
  match o_size o with
  | None => UB
  | Some 0 => Ok []
  | Some n => match o_buf o with Chars l => if n <=? length l then Ok (firstn n l) else UB | _ => UB end
  end.

(** unicode.cpp:257-264 and 272-279: conversion from UTF-8 or UTF-32; [r] is the text in
    UTF-16 *)
Definition convert (r : option (list N)) : outcome obj :=
  let o := obj_default in
  obind (icu_call (Ok r) 0 (o_err o)) (fun c =>
  let o := mkobj (o_buf o) (c_length c) (c_status c) in
  if failure (o_err o) && negb (match o_err o with Overflow => true | _ => false end) then Ok o
  else
    match o_size o with
    | None => UB
    | Some n =>
        let o := alloc n (with_error Zero o) in
        obind (icu_call (Ok r) n (o_err o)) (fun c => Ok (with_error (c_status c) (written (c_units c) o)))
    end).

(** unicode.cpp:266-270 *)
Definition of_units (l : list N) : obj := written l (alloc (length l) obj_default).

(** unicode.cpp:67-77 copy assignment to another object *)
Definition copy (a b : obj) : outcome obj :=
  match o_buf b with
  | Null => Ok (mkobj Null (Some 0) (o_err b))
  | _ => obind (source b) (fun l => Ok (mkobj (match l with [] => Null | _ => Chars l end) (Some (length l)) (o_err b)))
  end.

(** unicode.cpp:79-90 move assignment to another object: (this, other) *)
Definition moved (a b : obj) : obj * obj := (b, mkobj Null (Some 0) Zero).

(** unicode.cpp:313-331 *)
Definition plus (a b : obj) : outcome obj :=
  obind (source a) (fun l => obind (source b) (fun r => Ok (of_units (l ++ r)))).

(** unicode.cpp:333-350 *)
Definition plus_assign (a b : obj) : outcome obj :=
  match o_size b with
  | None => UB
  | Some 0 => Ok a
  | Some _ =>
      match o_size a with
      | None => UB
      | Some 0 => copy a b
      | Some _ => obind (plus a b) (fun r => copy a r)
      end
  end.

(** unicode.cpp:411-422 encode: the text and the object, whose error field changes.  [s] is
    resized to the number left in [size] by the first call. *)
Definition encode_obj (o : obj) : outcome (list N * obj) :=
  match o_buf o with
  | Null => Ok ([], o)
  | _ =>
      let utf8 := obind (source o) (fun l => Ok (option_map enc8s (dec16 l))) in
      obind (icu_call utf8 0 (o_err o)) (fun c =>
      if failure (c_status c) && negb (match c_status c with Overflow => true | _ => false end)
      then Ok ([], with_error (c_status c) o)
      else
        match c_length c with
        | None => UB
        | Some n =>
            obind (icu_call utf8 n Zero) (fun c =>
            Ok (c_units c ++ repeat 0%N (n - length (c_units c)), with_error (c_status c) o))
        end)
  end.

(** unicode.cpp:512-538 normalize_nfc and normalize_nfd; [f] is what unorm2_normalize makes of
    a text.  Result: returned value and [out]; if [same], [in] and [out] are one object. *)
Definition normalize (f : list N -> list N) (same : bool) (i o : obj) : outcome (bool * obj) :=
  obind (icu_call (obind (source i) (fun l => Ok (Some (f l)))) 0 Zero) (fun c =>
  let len := match c_length c with Some n => n | None => 0 end in
  let o := alloc len o in
  let i := if same then o else i in
  let clash := same && match o_buf o with Null => false | _ => true end in
  if clash then Ok (false, o)
  else
    obind (icu_call (obind (source i) (fun l => Ok (Some (f l)))) len Zero) (fun c =>
    Ok (negb (failure (c_status c)), written (c_units c) o))).

(** What u_strToLower and u_strToUpper make of a string; an empty one is a null pointer. *)
Definition mapped (g : list N -> list N) (o : obj) : outcome (option (list N)) :=
  match o_buf o, o_size o with
  | Null, Some _ => Ok None
  | _, _ => obind (source o) (fun l => Ok (Some (g l)))
  end.

(** unicode.cpp:610-626 to_lower and to_upper; [g] is what u_strToLower or u_strToUpper makes
    of a text.  Result: returned value, [in] and [out]; if [same], both are [out]. *)
Definition to_case (g : list N -> list N) (same : bool) (i o : obj) : outcome (bool * obj * obj) :=
  let o := dispose o in
  let i := if same then o else i in
  obind (icu_call (mapped g i) 0 (o_err i)) (fun c =>
  let i := with_error (c_status c) i in
  let o := if same then i else o in
  if failure (o_err i) then Ok (false, i, o)
  else
    let o := alloc (match c_length c with Some n => n | None => 0 end) o in
    let i := if same then o else i in
    let room := match o_size o with Some n => n | None => 0 end in
    obind (icu_call (mapped g i) room (o_err o)) (fun c =>
    let o := with_error (c_status c) (written (c_units c) o) in
    Ok (negb (failure (o_err o)), if same then o else i, o))).

(** ** Programs over strings *)
Inductive top :=
| TDefault (i : nat)
| TUtf8 (i : nat) (bytes : list N)
| TUtf16 (i : nat) (units : list N)
| TUtf32 (i : nat) (points : list N)
| TCopyNew (i j : nat)
| TMoveNew (i j : nat)
| TAssign (i j : nat)
| TMoveAssign (i j : nat)
| TPlus (k i j : nat)
| TPlusAssign (i j : nat)
| TEncode (i : nat)
| TOk (i : nat)
| TNfc (i j : nat)
| TNfd (i j : nat)
| TLower (i j : nat)
| TUpper (i j : nat)
| TDestroy (i : nat).

Inductive tout := TNothing | TFlag (b : bool) | TBytes (l : list N).

Section Programs.
Context (nfc nfd lower upper : list N -> list N).

Definition normalize_step (f : list N -> list N) (h : nat -> option obj) (i j : nat) : outcome ((nat -> option obj) * tout) :=
  obind (get h i) (fun a => obind (get h j) (fun b =>
  obind (normalize f (i =? j) a b) (fun '(r, b') => Ok (upd h j (Some b'), TFlag r)))).

Definition case_step (g : list N -> list N) (h : nat -> option obj) (i j : nat) : outcome ((nat -> option obj) * tout) :=
  obind (get h i) (fun a => obind (get h j) (fun b =>
  obind (to_case g (i =? j) a b) (fun '(r, a', b') => Ok (upd (upd h i (Some a')) j (Some b'), TFlag r)))).

Definition tstep (h : nat -> option obj) (o : top) : outcome ((nat -> option obj) * tout) :=
  match o with
  | TDefault i => obind (fresh h i) (fun _ => Ok (upd h i (Some obj_default), TNothing))
  | TUtf8 i bs => obind (fresh h i) (fun _ => obind (convert (from_utf8 bs)) (fun a => Ok (upd h i (Some a), TNothing)))
  | TUtf16 i l => obind (fresh h i) (fun _ => Ok (upd h i (Some (of_units l)), TNothing))
  | TUtf32 i cs => obind (fresh h i) (fun _ => obind (convert (from_utf32 cs)) (fun a => Ok (upd h i (Some a), TNothing)))
  | TCopyNew i j =>
      obind (fresh h i) (fun _ => obind (get h j) (fun b =>
      obind (copy obj_default b) (fun a => Ok (upd h i (Some a), TNothing))))
  | TMoveNew i j =>
      obind (fresh h i) (fun _ => obind (get h j) (fun b =>
      let '(a, b') := moved obj_default b in Ok (upd (upd h j (Some b')) i (Some a), TNothing)))
  | TAssign i j =>
      obind (get h i) (fun a => obind (get h j) (fun b =>
      if i =? j then Ok (h, TNothing)
      else obind (copy a b) (fun a' => Ok (upd h i (Some a'), TNothing))))
  | TMoveAssign i j =>
      obind (get h i) (fun a => obind (get h j) (fun b =>
      if i =? j then Ok (h, TNothing)
      else let '(a', b') := moved a b in Ok (upd (upd h j (Some b')) i (Some a'), TNothing)))
  | TPlus k i j =>
      obind (fresh h k) (fun _ => obind (get h i) (fun a => obind (get h j) (fun b =>
      obind (plus a b) (fun r => Ok (upd h k (Some r), TNothing)))))
  | TPlusAssign i j =>
      obind (get h i) (fun a => obind (get h j) (fun b =>
      obind (plus_assign a b) (fun a' => Ok (upd h i (Some a'), TNothing))))
  | TEncode i =>
      obind (get h i) (fun a => obind (encode_obj a) (fun '(l, a') => Ok (upd h i (Some a'), TBytes l)))
  | TOk i => obind (get h i) (fun a => Ok (h, TFlag (negb (failure (o_err a)))))
  | TNfc i j => normalize_step nfc h i j
  | TNfd i j => normalize_step nfd h i j
  | TLower i j => case_step lower h i j
  | TUpper i j => case_step upper h i j
  | TDestroy i => obind (get h i) (fun _ => Ok (upd h i None, TNothing))
  end.

Fixpoint trun (h : nat -> option obj) (os : list top) : outcome ((nat -> option obj) * list tout) :=
  match os with
  | [] => Ok (h, [])
  | o :: os' => obind (tstep h o) (fun '(h', x) =>
                obind (trun h' os') (fun '(h'', xs) => Ok (h'', x :: xs)))
  end.
End Programs.

(** ** Compiled regular expressions *)

(** unicode.hpp:182-201 and unicode.cpp:628-668.  A variable holds the number of a compiled
    pattern or null; [p_next] counts the patterns opened, [p_closed] lists those closed. *)
Record patterns := mkpats { p_vars : nat -> option (option nat); p_next : nat; p_closed : list nat }.

Inductive rop :=
| RDefault (i : nat)                   (* regex re;        unicode.cpp:628-637: an empty pattern *)
| ROpen (i : nat) (compiles : bool)    (* regex re{text};  unicode.cpp:639-646 *)
| RMoveNew (i j : nat)                 (* regex re{std::move(other)}; 648-651 *)
| RMoveAssign (i j : nat)              (* re = std::move(other); 659-668 *)
| RDestroy (i : nat)                   (* 653-657 *)
| RUse (i : nat).                      (* test or split, 670-744 *)

Definition close (v : option nat) (closed : list nat) : list nat :=
  match v with Some n => closed ++ [n] | None => closed end.

Definition rstep (p : patterns) (o : rop) : outcome (patterns * option bool) :=
  match o with
  | RDefault i => obind (fresh (p_vars p) i) (fun _ => Ok (mkpats (upd (p_vars p) i (Some None)) (p_next p) (p_closed p), None))
  | ROpen i compiles => obind (fresh (p_vars p) i) (fun _ =>
      Ok (if compiles then mkpats (upd (p_vars p) i (Some (Some (p_next p)))) (S (p_next p)) (p_closed p)
          else mkpats (upd (p_vars p) i (Some None)) (p_next p) (p_closed p), None))
  | RMoveNew i j => obind (fresh (p_vars p) i) (fun _ => obind (get (p_vars p) j) (fun v =>
      Ok (mkpats (upd (upd (p_vars p) i (Some v)) j (Some None)) (p_next p) (p_closed p), None)))
  | RMoveAssign i j => obind (get (p_vars p) i) (fun v => obind (get (p_vars p) j) (fun w =>
      if i =? j then Ok (p, None)
      else Ok (mkpats (upd (upd (p_vars p) i (Some w)) j (Some None)) (p_next p) (close v (p_closed p)), None)))
  | RDestroy i => obind (get (p_vars p) i) (fun v =>
      Ok (mkpats (upd (p_vars p) i None) (p_next p) (close v (p_closed p)), None))
  | RUse i => obind (get (p_vars p) i) (fun v =>
      match v with
      | None => Ok (p, Some false)
      | Some n => if existsb (Nat.eqb n) (p_closed p) then UB else Ok (p, Some true)
      end)
  end.

Fixpoint rrun (p : patterns) (os : list rop) : outcome (patterns * list (option bool)) :=
  match os with
  | [] => Ok (p, [])
  | o :: os' => obind (rstep p o) (fun '(p', x) =>
                obind (rrun p' os') (fun '(p'', xs) => Ok (p'', x :: xs)))
  end.

Definition no_patterns : patterns := mkpats (fun _ => None) 0 [].

(** ** General categories *)

(** unicode.cpp:568-603 category: [t] is what u_charType returns, numbered as UCharCategory *)
Definition category (t : N) : list N :=
  match t with
  | 0 => u"Cn" | 1 => u"Lu" | 2 => u"Ll" | 3 => u"Lt" | 4 => u"Lm" | 5 => u"Lo"
  | 6 => u"Mn" | 7 => u"Me" | 8 => u"Mc" | 9 => u"Nd" | 10 => u"Nl" | 11 => u"No"
  | 12 => u"Zs" | 13 => u"Zl" | 14 => u"Zp" | 15 => u"Cc" | 16 => u"Cf" | 17 => u"Co" | 18 => u"Cs"
  | 19 => u"Pd" | 20 => u"Ps" | 21 => u"Pe" | 22 => u"Pc" | 23 => u"Po"
  | 24 => u"Sm" | 25 => u"Sc" | 26 => u"Sk" | 27 => u"So" | 28 => u"Pi" | 29 => u"Pf"
  | _ => []
  end%N.

(** unicode.cpp:605-608 *)
Definition is_category (chartype : N -> N) (c : N) (cat : list N) : bool := list_N_eqb (category (chartype c)) cat.

(** unicode.cpp:553-566 *)
Definition is_punct_by_category (chartype : N -> N) (c : N) : bool :=
  if ((33 <=? c) && (c <=? 47) || (58 <=? c) && (c <=? 64) || (91 <=? c) && (c <=? 96) || (123 <=? c) && (c <=? 126))%N
  then true
  else match category (chartype c) with k0 :: _ => (k0 =? 80)%N | [] => false end.
