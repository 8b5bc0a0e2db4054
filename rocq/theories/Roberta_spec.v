(** What the RoBERTa tokenizer is supposed to do, stated without its code. *)
From Verif Require Import Base Utf_spec Ustr_spec Vocab_spec.
Local Open Scope N_scope.

(** The byte alphabet of GPT-2 (bytes_to_unicode in the original tokenizer): the
    printable Latin-1 bytes stand for themselves, the k-th of the remaining bytes is
    the character 256 + k. *)
Definition printable (b : N) : Prop := (0x21 <= b <= 0x7e) \/ (0xa1 <= b <= 0xac) \/ (0xae <= b <= 0xff).

Definition printable_b (b : N) : bool :=
  ((0x21 <=? b) && (b <=? 0x7e)) || ((0xa1 <=? b) && (b <=? 0xac)) || ((0xae <=? b) && (b <=? 0xff)).

Definition byte_symbol (b : N) : N :=
  if printable_b b then b
  else 0x100 + N.of_nat (length (filter (fun c => negb (printable_b c)) (map N.of_nat (seq 0 (N.to_nat b))))).

(** The token that spells the bytes [bs]. *)
Definition spelling (bs : list N) (t : list N) : Prop := utf8 (map byte_symbol bs) t.

(** [cut sp text parts]: [text] is cut at the special strings [sp], from left to
    right; an ordinary part ends only where a special string begins or at the end,
    and no special string begins inside it. *)
Definition ordinary_first (ps : list (bool * list N)) : Prop :=
  match ps with (false, _) :: _ => True | _ => False end.

Inductive cut (sp : list (list N)) : list N -> list (bool * list N) -> Prop :=
| cut_end : cut sp [] []
| cut_special k rest ps :
    In k sp -> cut sp rest ps -> cut sp (k ++ rest) ((true, k) :: ps)
| cut_ordinary p rest ps :
    p <> [] ->
    (forall a b k, p = a ++ b -> b <> [] -> In k sp -> ~ prefix k (b ++ rest)) ->
    cut sp rest ps -> ~ ordinary_first ps ->
    cut sp (p ++ rest) ((false, p) :: ps).

(** No special string is a proper prefix of another one. *)
Definition prefix_free (sp : list (list N)) : Prop :=
  forall a b, In a sp -> In b sp -> prefix a b -> a = b.

(** The text the tokens stand for: an ordinary part directly before the mask loses
    its trailing whitespace. *)
Inductive rendered (ws : N -> bool) (mask : list N) : list (bool * list N) -> list N -> Prop :=
| ren_nil : rendered ws mask [] []
| ren_special k ps t : rendered ws mask ps t -> rendered ws mask ((true, k) :: ps) (k ++ t)
| ren_before_mask p kept run ps t :
    rendered ws mask ((true, mask) :: ps) t ->
    maximal_trailing_run ws p kept run ->
    rendered ws mask ((false, p) :: (true, mask) :: ps) (kept ++ t)
| ren_plain p ps t :
    (forall ps', ps <> (true, mask) :: ps') ->
    rendered ws mask ps t -> rendered ws mask ((false, p) :: ps) (p ++ t).

(** One source, or another one if the first names nothing. *)
Definition or_else (R1 R2 : N -> Prop) (n : N) : Prop := R1 n \/ ((forall m, ~ R1 m) /\ R2 n).

(** The merge tensor of the file: two token ids and a rank for each merge. *)
Definition triples (l : list (N * N * N)) : list N := flat_map (fun '(a, b, r) => [a; b; r]) l.
