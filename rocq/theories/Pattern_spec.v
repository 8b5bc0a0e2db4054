(** The words RoBERTa cuts a text into, described without regular expressions. *)
From Coq Require Import Relation_Operators.
From Verif Require Import Base Utf_spec Ustr_spec Vocab_spec Bpe_spec Roberta_spec Rtext_spec Pattern_model.
Local Open Scope N_scope.

(** What must be known of the Unicode classes. *)
Record classes (letter digit blank : N -> bool) : Prop := {
  cl_space : blank 32 = true;
  cl_visible : forall c, 0x21 <= c <= 0x7e -> blank c = false;
  cl_letter : forall c, blank c = true -> letter c = false;
  cl_digit : forall c, blank c = true -> digit c = false;
  cl_apart : forall c, letter c = true -> digit c = false }.

(** 's 't 're 've 'm 'll 'd *)
Definition contractions : list (list N) :=
  [[39; 115]; [39; 116]; [39; 114; 101]; [39; 118; 101]; [39; 109]; [39; 108; 108]; [39; 100]].

Section Words.
Context (letter digit blank : N -> bool).

(** The class of a visible character: letters, digits, and all the others. *)
Inductive kind := Letter | Digit | Other.
Definition of_kind (k : kind) (c : N) : Prop :=
  blank c = false /\
  match k with
  | Letter => letter c = true
  | Digit => digit c = true
  | Other => letter c = false /\ digit c = false
  end.

(** [t] does not begin with a character satisfying [P]. *)
Definition stops (P : N -> Prop) (t : list N) : Prop := forall c t', t = c :: t' -> ~ P c.

Definition contracted (t : list N) : Prop := exists k r, In k contractions /\ t = k ++ r.

(** [word w rest]: [w] is the first word of [w ++ rest]. *)
Inductive word : list N -> list N -> Prop :=
(** an English contraction *)
| wd_contraction k rest : In k contractions -> word k rest
(** the longest run of characters of one kind *)
| wd_run k p rest :
    p <> [] -> Forall (of_kind k) p -> stops (of_kind k) rest -> ~ contracted (p ++ rest) -> word p rest
(** the same after one space *)
| wd_space k p rest :
    p <> [] -> Forall (of_kind k) p -> stops (of_kind k) rest -> word (32 :: p) rest
(** the blanks at the end of the text *)
| wd_last p : p <> [] -> Forall (fun c => blank c = true) p -> word p []
(** blanks before something visible: all but the last *)
| wd_blanks p c rest :
    p <> [] -> Forall (fun c => blank c = true) (p ++ [c]) ->
    rest <> [] -> stops (fun c => blank c = true) rest -> word p (c :: rest)
(** one blank other than a space before something visible *)
| wd_blank c rest :
    blank c = true -> c <> 32 -> rest <> [] -> stops (fun c => blank c = true) rest -> word [c] rest.

(** The words of a text. *)
Inductive words : list N -> list (list N) -> Prop :=
| ws_nil : words [] []
| ws_cons w rest ws : word w rest -> words rest ws -> words (w ++ rest) (w :: ws).
End Words.

(** Byte-pair encoding of a text with special tokens (Rtext_spec), the ordinary parts being cut
    into these words. *)
Section Text.
Context (letter digit blank : N -> bool).
Context (tokens : list (list N)) (merges : list (N * N)) (unk : N) (mask : list N) (trimmed : N -> bool).

Definition part_tokens (p ids : list N) : Prop :=
  exists ws idss, words letter digit blank p ws /\ Forall2 (word_ids tokens merges unk) ws idss /\ ids = concat idss.

Inductive text_tokens : list (bool * list N) -> list N -> Prop :=
| tt_end : text_tokens [] []
| tt_special k i ps ids : entry tokens i k -> text_tokens ps ids -> text_tokens ((true, k) :: ps) (i :: ids)
| tt_before_mask p kept run is ps ids :
    maximal_trailing_run trimmed p kept run -> part_tokens kept is -> text_tokens ((true, mask) :: ps) ids ->
    text_tokens ((false, p) :: (true, mask) :: ps) (is ++ ids)
| tt_plain p is ps ids :
    (forall ps', ps <> (true, mask) :: ps') -> part_tokens p is -> text_tokens ps ids ->
    text_tokens ((false, p) :: ps) (is ++ ids).
End Text.

(** [a] ends with something visible (or is empty) and [b] begins with a blank (or is empty). *)
Definition meet (blank : N -> bool) (a b : list N) : Prop :=
  (forall a' c, a = a' ++ [c] -> blank c = false) /\ (forall c b', b = c :: b' -> blank c = true).

(** ** Regular expressions in general *)

(** [accepts n r s s']: [s] is a text of the expression followed by [s']; [n] is the length
    of the whole text. *)
Fixpoint accepts (n : nat) (r : rx) (s s' : list N) : Prop :=
  match r with
  | One p => exists c, s = c :: s' /\ p c = true
  | Seq a b => exists t, accepts n a s t /\ accepts n b t s'
  | Alt a b => accepts n a s s' \/ accepts n b s s'
  | Opt a => accepts n a s s' \/ s' = s
  | Plus a => clos_trans_1n _ (accepts n a) s s'
  | NotAhead a => s' = s /\ forall t, ~ accepts n a s t
  | Start => s' = s /\ length s = n
  end.
