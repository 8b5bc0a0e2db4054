(** Independent description of UTF-16 and of string values. *)
From Verif Require Import Base.
Open Scope N_scope.

(** A 16-bit code unit. *)
Definition unit16 (c : N) : Prop := c < 0x10000.

(** Unicode scalar values: 0..D7FF, E000..10FFFF (Unicode definition D76). *)
Definition scalar_value (c : N) : Prop := c < 0xd800 \/ (0xe000 <= c /\ c < 0x110000).

Definition hi_sur (c : N) : Prop := 0xd800 <= c /\ c < 0xdc00.
Definition lo_sur (c : N) : Prop := 0xdc00 <= c /\ c < 0xe000.

(** [utf16 cs us]: [us] is the UTF-16 form of the scalar values [cs] (Unicode D91,
    by the defining equation of surrogate pairs). *)
Inductive utf16 : list N -> list N -> Prop :=
| utf16_nil : utf16 [] []
| utf16_bmp c cs us : scalar_value c -> c < 0x10000 -> utf16 cs us -> utf16 (c :: cs) (c :: us)
| utf16_sup c h l cs us :
    hi_sur h -> lo_sur l -> c = 0x10000 + (h - 0xd800) * 0x400 + (l - 0xdc00) ->
    utf16 cs us -> utf16 (c :: cs) (h :: l :: us).

(** What arbitrary 16-bit data consists of. *)
Inductive item := Char (c : N) (hi lo : N) | Lone (c : N).

Definition starts_low (us : list N) : Prop := exists l r, us = l :: r /\ lo_sur l.

(** [reads us is]: [is] is the left-to-right reading of [us]; a high surrogate
    pairs with an immediately following low one, every other surrogate is lone. *)
Inductive reads : list N -> list item -> Prop :=
| reads_nil : reads [] []
| reads_bmp c us is : ~ hi_sur c -> ~ lo_sur c -> reads us is -> reads (c :: us) (Char c 0 0 :: is)
| reads_pair h l us is :
    hi_sur h -> lo_sur l -> reads us is ->
    reads (h :: l :: us) (Char (0x10000 + (h - 0xd800) * 0x400 + (l - 0xdc00)) h l :: is)
| reads_lone_hi h us is : hi_sur h -> ~ starts_low us -> reads us is -> reads (h :: us) (Lone h :: is)
| reads_lone_lo l us is : lo_sur l -> reads us is -> reads (l :: us) (Lone l :: is).

(** The units of an item, and the character it is reported as. *)
Definition item_units (i : item) : list N :=
  match i with Char c 0 0 => [c] | Char _ h l => [h; l] | Lone c => [c] end.
Definition item_char (i : item) : N := match i with Char c _ _ => c | Lone _ => 0xfffd end.
Definition is_char (i : item) : bool := match i with Char _ _ _ => true | Lone _ => false end.

(** Well-formed UTF-8: the encoding of some scalar values is given by the defining
    bit patterns (Unicode table 3-6). *)
Inductive utf8_char : N -> list N -> Prop :=
| utf8_1 c : c < 0x80 -> utf8_char c [c]
| utf8_2 c a b : 0x80 <= c -> c < 0x800 -> a < 32 -> b < 64 -> c = a * 64 + b ->
    utf8_char c [0xc0 + a; 0x80 + b]
| utf8_3 c a b d : 0x800 <= c -> c < 0x10000 -> ~ (0xd800 <= c /\ c < 0xe000) ->
    a < 16 -> b < 64 -> d < 64 -> c = a * 4096 + b * 64 + d ->
    utf8_char c [0xe0 + a; 0x80 + b; 0x80 + d]
| utf8_4 c a b d e : 0x10000 <= c -> c < 0x110000 ->
    a < 8 -> b < 64 -> d < 64 -> e < 64 -> c = a * 262144 + b * 4096 + d * 64 + e ->
    utf8_char c [0xf0 + a; 0x80 + b; 0x80 + d; 0x80 + e].

Definition utf8 (cs bs : list N) : Prop := exists bss, Forall2 utf8_char cs bss /\ bs = concat bss.

Definition valid_utf8 (bs : list N) : Prop := exists cs, utf8 cs bs.

(** [us] is the UTF-16 form of the text whose UTF-8 form is [bs]. *)
Definition same_text (bs us : list N) : Prop := exists cs, utf8 cs bs /\ utf16 cs us.

(** ** String objects as values *)

(** A string variable holds a list of units, or was never given a value. *)
Inductive sval := Val (l : list N) | Undef.
