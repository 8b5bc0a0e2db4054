(** The regular expressions of unicode.cpp: ICU's engine for the operators the project uses,
    the pattern of the RoBERTa tokenizer, and [regex::test].

    The engine is ICU's, not the project's; what is written here is the documented meaning of
    the operators (backtracking, alternatives in order, greedy repetition, text read by code
    points, [findNext] continuing after the last match).  Resource limits of the engine are
    left out: repetition of a class takes no stack there. *)
From Verif Require Import Base Utf_model Ustr_model.
Local Open Scope N_scope.

Inductive rx :=
| One (p : N -> bool)      (* a character, a class, '.' *)
| Seq (a b : rx)
| Alt (a b : rx)           (* a|b *)
| Opt (a : rx)             (* a?, greedy *)
| Plus (a : rx)            (* a+, greedy *)
| NotAhead (a : rx)        (* (?!a) *)
| Start.                   (* ^ *)

(** Greedy repetition: what [m] leaves, again as long as it makes progress. *)
Fixpoint repeated (m : list N -> list (list N)) (n : nat) (s : list N) : list (list N) :=
  match n with
  | O => []
  | S n' => flat_map (fun r => (if Nat.ltb (length r) (length s) then repeated m n' r else []) ++ [r]) (m s)
  end.

(** The texts left after a match at the beginning of [s], in the order in which backtracking
    tries them.  [n] is the length of the whole text. *)
Fixpoint matches (n : nat) (r : rx) (s : list N) : list (list N) :=
  match r with
  | One p => match s with c :: s' => if p c then [s'] else [] | [] => [] end
  | Seq a b => flat_map (matches n b) (matches n a s)
  | Alt a b => matches n a s ++ matches n b s
  | Opt a => matches n a s ++ [s]
  | Plus a => repeated (matches n a) (S (length s)) s
  | NotAhead a => match matches n a s with [] => [s] | _ => [] end
  | Start => if Nat.eqb (length s) n then [s] else []
  end.

(** The match that is taken. *)
Definition first (n : nat) (r : rx) (s : list N) : option (list N) := hd_error (matches n r s).

(** uregex_findNext until nothing is found: positions counted in code points.  After an empty
    match the search goes on one code point further. *)
Fixpoint find_all (n : nat) (r : rx) (fuel : nat) (s : list N) : list (nat * nat) :=
  match fuel with
  | O => []
  | S f =>
      match first n r s with
      | Some s' =>
          (n - length s, n - length s')%nat ::
          (if Nat.ltb (length s') (length s) then find_all n r f s'
           else match s with _ :: s'' => find_all n r f s'' | [] => [] end)
      | None => match s with _ :: s'' => find_all n r f s'' | [] => [] end
      end
  end.

(** The code points of a text with the units they occupy; an unpaired surrogate is a code
    point of its own. *)
Fixpoint points (us : list N) : list (list N) :=
  match us with
  | [] => []
  | c :: us' =>
      match us' with
      | l :: us'' => if is_high c && is_low l then [c; l] :: points us'' else [c] :: points us'
      | [] => [[c]]
      end
  end.

Definition point (g : list N) : N :=
  match g with h :: l :: _ => pair_value h l | [c] => c | [] => 0 end.

(** Where code point [i] begins, in units. *)
Definition offset (gs : list (list N)) (i : nat) : nat := length (concat (firstn i gs)).

(** The successive matches in a text, as uregex_start and uregex_end report them.  An empty
    string has no buffer; uregex_setText refuses the null pointer and nothing is looked for. *)
Definition occurrences (r : rx) (us : list N) : list (nat * nat) :=
  match us with
  | [] => []
  | _ =>
      let gs := points us in
      let n := length gs in
      map (fun '(a, b) => (offset gs a, offset gs b)) (find_all n r (S n) (map point gs))
  end.

Definition engine (r : rx) (us : list N) : list (option (nat * nat)) := map Some (occurrences r us).

(** unicode.cpp:670-688  regex::test: is there a match at all ([impl] null: no) *)
Definition regex_test (impl : option rx) (us : list N) : bool :=
  match impl with
  | None => false
  | Some r => match occurrences r us with [] => false | _ => true end
  end.

(** ** The pattern, roberta.cpp:295:
    's|'t|'re|'ve|'m|'ll|'d| ?\p{L}+| ?\p{N}+| ?[^\s\p{L}\p{N}]+|\s+(?!\S)|\s+ *)

Definition lit (c : N) : rx := One (N.eqb c).
Definition lit2 (a b : N) : rx := Seq (lit a) (lit b).
Definition lit3 (a b c : N) : rx := Seq (lit a) (lit2 b c).

Section Pattern.
  (** \p{L}, \p{N} and \s: Unicode tables, ICU's *)
  Variables letter digit blank : N -> bool.

  Definition symbol (c : N) : bool := negb (blank c || letter c || digit c).

  Definition spaced (p : N -> bool) : rx := Seq (Opt (lit 32)) (Plus (One p)).

  Definition word_pattern : rx :=
    fold_right Alt (Plus (One blank))
      [lit2 39 115; lit2 39 116; lit3 39 114 101; lit3 39 118 101; lit2 39 109; lit3 39 108 108; lit2 39 100;
       spaced letter; spaced digit; spaced symbol;
       Seq (Plus (One blank)) (NotAhead (One (fun c => negb (blank c))))].
End Pattern.
