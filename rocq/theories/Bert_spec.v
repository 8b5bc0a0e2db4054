(** Specification of text cleaning and of splitting into words, on characters. *)
From Verif Require Import Base Utf_spec.
Open Scope N_scope.

(** What happens to each character: it is thrown away, it separates words, it
    stands alone as a word, or it is an ordinary part of a word. *)
Inductive kind := Dropped | Separator | Alone | Part.

(** Space, tab, newline, carriage return: whitespace although Unicode calls some
    of them control characters. *)
Definition layout_chars : list N := [32; 9; 10; 13].
Definition white_char (blank : N -> bool) (c : N) : bool := existsb (N.eqb c) layout_chars || blank c.
Definition control_char (printable : N -> bool) (c : N) : bool :=
  negb (existsb (N.eqb c) layout_chars) && negb (printable c).

(** The blocks the reference tokenizer treats as Chinese characters. *)
Definition han_ranges : list (N * N) :=
  [(0x4e00, 0x9fff); (0x3400, 0x4dbf); (0x20000, 0x2a6df); (0x2a700, 0x2b73f);
   (0x2b740, 0x2b81f); (0x2b820, 0x2ceaf); (0xf900, 0xfaff); (0x2f800, 0x2fa1f)].
Definition han (c : N) : bool := existsb (fun r => (fst r <=? c) && (c <=? snd r)) han_ranges.

(** The documented meaning of the settings (bert.hpp:23-51): U+0000 and U+FFFD
    have their own switches, then control characters, then whitespace; an
    ideograph stands alone when that is asked for.  Whitespace that is not
    normalized separates words only if it is a plain space. *)
Definition char_kind (rm_null rm_repl rm_ctrl norm_ws cjk : bool)
           (control white ideograph : N -> bool) (c : N) : kind :=
  if c =? 0 then if rm_null then Dropped else Part
  else if c =? 0xfffd then if rm_repl then Dropped else Part
  else if control c then if rm_ctrl then Dropped else Part
  else if white c then if norm_ws || (c =? 32) then Separator else Part
  else if ideograph c && cjk then Alone
  else Part.

Section Words.
  Variable kind_of : N -> kind.

  Definition kept (c : N) : bool :=
    match kind_of c with Alone | Part => true | _ => false end.

  Definition sep (c : N) : Prop := kind_of c = Separator.
  Definition alone (c : N) : Prop := kind_of c = Alone.

  (** There is a word boundary after the first [n] characters of the words. *)
  Definition boundary (ws : list (list N)) (n : nat) : Prop :=
    exists ws1 ws2, ws = ws1 ++ ws2 /\ length (concat ws1) = n.

  (** The words of a text: non-empty, together exactly the kept characters in
      order; two consecutive kept characters belong to different words iff a
      separator lies between them or one of them stands alone. *)
  Definition words_of (text : list N) (ws : list (list N)) : Prop :=
    Forall (fun w => w <> []) ws /\
    concat ws = filter kept text /\
    forall a x m y b, text = a ++ x :: m ++ y :: b ->
      kept x = true -> kept y = true -> filter kept m = [] ->
      (boundary ws (length (filter kept (a ++ [x]))) <->
       (exists s, In s m /\ sep s) \/ alone x \/ alone y).
End Words.

(** Splitting at punctuation: each punctuation mark is a piece of its own, the
    other pieces are maximal runs without punctuation. *)
Section Punct.
  Variable punct : N -> bool.
  Definition mark (p : list N) : Prop := exists c, p = [c] /\ punct c = true.
  Definition run (p : list N) : Prop := p <> [] /\ Forall (fun c => punct c = false) p.
  Fixpoint no_two_runs (ps : list (list N)) : Prop :=
    match ps with
    | p :: ((q :: _) as tl) => ~ (run p /\ run q) /\ no_two_runs tl
    | _ => True
    end.
  Definition punct_pieces (w : list N) (ps : list (list N)) : Prop :=
    concat ps = w /\ Forall (fun p => mark p \/ run p) ps /\ no_two_runs ps.
End Punct.

(** Punctuation as the reference tokenizer sees it: the printable ASCII characters
    that are neither letters nor digits nor the space, and Unicode's P categories. *)
Definition punct_char (category_p : N -> bool) (c : N) : bool :=
  ((33 <=? c) && (c <=? 126) &&
   negb (((48 <=? c) && (c <=? 57)) || ((65 <=? c) && (c <=? 90)) || ((97 <=? c) && (c <=? 122))))
  || category_p c.

(** The pieces a word of the text is looked up by: a special token stays whole,
    any other word is split at punctuation.  [specials] are UTF-16 strings. *)
Definition word_pieces (punct : N -> bool) (specials : list (list N)) (w : list N) (ps : list (list N)) : Prop :=
  exists us, utf16 w us /\
    ((In us specials /\ ps = [w]) \/ (~ In us specials /\ punct_pieces punct w ps)).
