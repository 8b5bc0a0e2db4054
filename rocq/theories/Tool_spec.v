(** What the quantization tool is meant to do: the usage text of quant.cpp:68-75. *)
From Verif Require Import Base Loader_model Quantize_spec.

(** The capital of a letter. *)
Definition capital (c : N) : N := if ((97 <=? c) && (c <=? 122))%N then (c - 32)%N else c.

(** [numeral s z]: a decimal number, with as many zeros in front as one likes, perhaps
    with a minus sign. *)
Inductive digits_are : list N -> N -> Prop :=
| digits_one d : (d < 10)%N -> digits_are [(48 + d)%N] d
| digits_more s n d : digits_are s n -> (d < 10)%N -> digits_are (s ++ [(48 + d)%N]) (10 * n + d)%N.
Inductive numeral : list N -> Z -> Prop :=
| numeral_plain s n : digits_are s n -> numeral s (Z.of_N n)
| numeral_minus s n : digits_are s n -> numeral (45%N :: s) (- Z.of_N n).

(** An argument names an offered type: by name, in any case, or by number. *)
Inductive names_type (s : list N) (t : gty) : Prop :=
| by_name : In t offered -> map capital s = type_name t -> names_type s t
| by_number : In t offered -> numeral s (Z.of_N (code t)) -> names_type s t.

(** Arguments outside the language's rules: bytes that are negative characters, or a
    number too large for an int. *)
Definition negative_char (c : N) : Prop := (128 <= c < 255)%N.
Definition too_large (s : list N) : Prop := exists z, numeral s z /\ ~ (-2147483648 <= z <= 2147483647)%Z.
