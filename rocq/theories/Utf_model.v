(** Model of the encodings used by berts/models/unicode.{hpp,cpp}: code point
    iteration over UTF-16 and the ICU conversions the string class calls. *)
From Verif Require Import Base.
Open Scope N_scope.

(** unicode.hpp:117-129  struct ustr::cp { unic32_t c; unic_t hi, lo; } *)
Record cp := mkcp { cp_c : N; cp_hi : N; cp_lo : N }.

(** unicode.hpp:120-123  cp(unic_t c): a code unit that is a character *)
Definition cp_unit (c : N) : cp := mkcp c 0 0.

(** unicode.hpp:128  is_pair *)
Definition is_pair (p : cp) : bool := negb (cp_hi p =? 0) || negb (cp_lo p =? 0).

Definition is_low (c : N) : bool := (0xdc00 <=? c) && (c <? 0xe000).
Definition is_high (c : N) : bool := (0xd800 <=? c) && (c <? 0xdc00).

(** unicode.hpp:164-165  the scalar value of a surrogate pair *)
Definition pair_value (h l : N) : N :=
  N.lor (N.shiftl (h - 0xd800) 10) (l - 0xdc00) + 0x10000.

(** unicode.hpp:109-177  each / each_cp.  [sur] is the variable [surrogate]
    (0 = none); the result lists the arguments of the successive calls of [fn]. *)
Fixpoint each_cp_from (skip_invalid : bool) (sur : N) (us : list N) : list cp :=
  match us with
  | [] => if sur =? 0 then [] else if skip_invalid then [] else [mkcp 0xfffd sur 0]
  | c :: us' =>
      if is_low c then
        if sur =? 0
        then (if skip_invalid then [] else [mkcp 0xfffd 0 c]) ++ each_cp_from skip_invalid 0 us'
        else mkcp (pair_value sur c) sur c :: each_cp_from skip_invalid 0 us'
      else
        (if sur =? 0 then [] else if skip_invalid then [] else [mkcp 0xfffd sur 0]) ++
        (if is_high c then each_cp_from skip_invalid c us'
         else cp_unit c :: each_cp_from skip_invalid 0 us')
  end.

Definition each_cp (skip_invalid : bool) (us : list N) : list cp := each_cp_from skip_invalid 0 us.

(** The code points seen by the callers that use only [cp.c]. *)
Definition codepoints_of (skip_invalid : bool) (us : list N) : list N :=
  map cp_c (each_cp skip_invalid us).

(** A Unicode scalar value. *)
Definition scalar (c : N) : bool := (c <? 0xd800) || ((0xe000 <=? c) && (c <? 0x110000)).

(** UTF-16 encoding of one scalar value (what ICU's u_strFromUTF32 writes). *)
Definition enc16 (c : N) : list N :=
  if c <? 0x10000 then [c]
  else [0xd800 + (c - 0x10000) / 1024; 0xdc00 + (c - 0x10000) mod 1024].

Definition enc16s (cs : list N) : list N := flat_map enc16 cs.

(** unicode.cpp:272-279  ustr(const unic32_t *, size_t): u_strFromUTF32 fails on
    a value that is not a scalar value; [None] is that failure. *)
Definition from_utf32 (cs : list N) : option (list N) :=
  if forallb scalar cs then Some (enc16s cs) else None.

(** UTF-8 encoding of one scalar value (ICU u_strToUTF8). *)
Definition enc8 (c : N) : list N :=
  if c <? 0x80 then [c]
  else if c <? 0x800 then [0xc0 + c / 64; 0x80 + c mod 64]
  else if c <? 0x10000 then [0xe0 + c / 4096; 0x80 + (c / 64) mod 64; 0x80 + c mod 64]
  else [0xf0 + c / 262144; 0x80 + (c / 4096) mod 64; 0x80 + (c / 64) mod 64; 0x80 + c mod 64].

Definition enc8s (cs : list N) : list N := flat_map enc8 cs.

Definition is_trail (b : N) : bool := (0x80 <=? b) && (b <? 0xc0).

(** Strict UTF-8 decoding (ICU u_strFromUTF8 accepts exactly well-formed UTF-8:
    shortest forms, no surrogates, at most U+10FFFF); [None] is failure. *)
Fixpoint dec8 (bs : list N) : option (list N) :=
  match bs with
  | [] => Some []
  | b0 :: r0 =>
      if b0 <? 0x80 then option_map (cons b0) (dec8 r0)
      else match r0 with
      | [] => None
      | b1 :: r1 =>
          if (0xc2 <=? b0) && (b0 <? 0xe0) then
            if is_trail b1 then option_map (cons ((b0 - 0xc0) * 64 + (b1 - 0x80))) (dec8 r1) else None
          else match r1 with
          | [] => None
          | b2 :: r2 =>
              if (0xe0 <=? b0) && (b0 <? 0xf0) then
                let c := (b0 - 0xe0) * 4096 + (b1 - 0x80) * 64 + (b2 - 0x80) in
                if is_trail b1 && is_trail b2 && (0x800 <=? c) && scalar c
                then option_map (cons c) (dec8 r2) else None
              else match r2 with
              | [] => None
              | b3 :: r3 =>
                  if (0xf0 <=? b0) && (b0 <? 0xf5) then
                    let c := (b0 - 0xf0) * 262144 + (b1 - 0x80) * 4096 + (b2 - 0x80) * 64 + (b3 - 0x80) in
                    if is_trail b1 && is_trail b2 && is_trail b3 && (0x10000 <=? c) && scalar c
                    then option_map (cons c) (dec8 r3) else None
                  else None
              end
          end
      end
  end.

(** unicode.cpp:257-264  ustr(const char *, size_t): the units, or [None] when
    ICU reports an error (then the string pointer stays null and the size field
    is never written). *)
Definition from_utf8 (bs : list N) : option (list N) := option_map enc16s (dec8 bs).

(** ICU u_strToUTF8 fails on an unpaired surrogate. *)
Fixpoint dec16 (us : list N) : option (list N) :=
  match us with
  | [] => Some []
  | c :: us' =>
      if is_low c then None
      else if is_high c then
        match us' with
        | l :: us'' => if is_low l then option_map (cons (pair_value c l)) (dec16 us'') else None
        | [] => None
        end
      else option_map (cons c) (dec16 us')
  end.

(** unicode.cpp:411-422  ustr::encode: "" for the empty string and on failure. *)
Definition encode (us : list N) : list N :=
  match dec16 us with Some cs => enc8s cs | None => [] end.
