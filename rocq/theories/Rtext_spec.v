(** Byte-level byte-pair encoding of a text with special tokens, as RoBERTa does it, stated
    without the tokenizer's code. *)
From Verif Require Import Base Utf_spec Ustr_spec Vocab_spec Bpe_spec Roberta_spec.
Local Open Scope N_scope.

Section Text.
(** The tokens of the model, the merges in the order of the file (pairs of ids), the ids of
    the unknown and the mask token, the class of blanks, and where the pattern matches. *)
Context (tokens : list (list N)) (merges : list (N * N)) (unk : N) (mask : list N).
Context (blank : N -> bool) (matches : list N -> list (nat * nat)).

(** The byte has a token of its own. *)
Definition named_byte (b i : N) : Prop := exists t, spelling [b] t /\ entry tokens i t.

(** The ids of the single bytes; a run of bytes without a token is one unknown token.
    [last] is the id before. *)
Inductive byte_ids : option N -> list N -> list N -> Prop :=
| by_nil last : byte_ids last [] []
| by_named last b i bs is : named_byte b i -> byte_ids (Some i) bs is -> byte_ids last (b :: bs) (i :: is)
| by_unknown last b bs is : (forall i, ~ named_byte b i) -> last <> Some unk -> byte_ids (Some unk) bs is ->
    byte_ids last (b :: bs) (unk :: is)
| by_again b bs is : (forall i, ~ named_byte b i) -> byte_ids (Some unk) bs is -> byte_ids (Some unk) (b :: bs) is.

(** Two neighbours can be merged if the file lists the pair and their texts in a row are a
    token; the rank is the (last) position in the list. *)
Definition merge_rules (R : table) : Prop :=
  forall x y r z, R (x, y) = Some (r, z) <->
    (exists k, r = N.of_nat k /\ last_at (x, y) merges k) /\
    exists tx ty, entry tokens x tx /\ entry tokens y ty /\ entry tokens z (tx ++ ty).

(** A word: its bytes, merged by the textbook algorithm. *)
Definition word_ids (w ids : list N) : Prop :=
  exists R start, merge_rules R /\ byte_ids None w start /\ canonical R start ids.

(** An ordinary part: the pattern cuts it into words. *)
Definition part_ids (p ids : list N) : Prop :=
  exists ws idss, pieces_spec p 0 (matches p) ws /\ Forall2 word_ids ws idss /\ ids = concat idss.

(** The parts of a text; blanks before a mask are dropped. *)
Inductive text_ids : list (bool * list N) -> list N -> Prop :=
| tx_end : text_ids [] []
| tx_special k i ps ids : entry tokens i k -> text_ids ps ids -> text_ids ((true, k) :: ps) (i :: ids)
| tx_before_mask p kept run is ps ids :
    maximal_trailing_run blank p kept run -> part_ids kept is -> text_ids ((true, mask) :: ps) ids ->
    text_ids ((false, p) :: (true, mask) :: ps) (is ++ ids)
| tx_plain p is ps ids :
    (forall ps', ps <> (true, mask) :: ps') -> part_ids p is -> text_ids ps ids ->
    text_ids ((false, p) :: ps) (is ++ ids).
End Text.

(** The special tokens: each id has a token of visible 7-bit characters. *)
Definition plain_token (tokens : list (list N)) (i : N) (t : list N) : Prop :=
  entry tokens i t /\ t <> [] /\ Forall (fun c => 0x21 <= c <= 0x7e) t.
