(** Specification of the string class: variables holding list values. *)
From Verif Require Import Base Utf_spec Ustr_model.
Open Scope N_scope.

(** Lexicographic order on unit sequences. *)
Definition lex_lt (l r : list N) : Prop :=
  (exists c t, r = l ++ c :: t) \/
  (exists p a b l' r', l = p ++ a :: l' /\ r = p ++ b :: r' /\ a < b).

Fixpoint lex_ltb (l r : list N) : bool :=
  match l, r with
  | _, [] => false
  | [], _ :: _ => true
  | a :: l', b :: r' => (a <? b) || ((a =? b) && lex_ltb l' r')
  end.

Definition order (l r : list N) : comparison :=
  if list_N_eqb l r then Eq else if lex_ltb l r then Lt else Gt.

Definition sheap := nat -> option sval.

(** The value of a variable that must have one: reading an undefined one is UB. *)
Definition val (v : sval) : outcome (list N) := match v with Val l => Ok l | Undef => UB end.

(** Copying an undefined variable gives the empty string. *)
Definition copied (v : sval) : sval := match v with Val l => Val l | Undef => Val [] end.

Definition sstep (s : sheap) (o : uop) : outcome (sheap * uout) :=
  match o with
  | UDefault i => obind (fresh s i) (fun _ => Ok (upd s i (Some Undef), ONone))
  | UUnits i l => obind (fresh s i) (fun _ => Ok (upd s i (Some (Val l)), ONone))
  | UCopyNew i j => obind (fresh s i) (fun _ => obind (get s j) (fun b =>
      Ok (upd s i (Some (copied b)), ONone)))
  | UMoveNew i j => obind (fresh s i) (fun _ => obind (get s j) (fun b =>
      Ok (upd (upd s j (Some (Val []))) i (Some b), ONone)))
  | UAssign i j => obind (get s i) (fun a => obind (get s j) (fun b =>
      if Nat.eqb i j then Ok (s, ONone) else Ok (upd s i (Some (copied b)), ONone)))
  | UMoveAssign i j => obind (get s i) (fun a => obind (get s j) (fun b =>
      if Nat.eqb i j then Ok (s, ONone)
      else Ok (upd (upd s j (Some (Val []))) i (Some b), ONone)))
  | UPlus k i j => obind (fresh s k) (fun _ => obind (get s i) (fun a => obind (get s j) (fun b =>
      obind (val a) (fun l => obind (val b) (fun r => Ok (upd s k (Some (Val (l ++ r))), ONone))))))
  | UPlusAssign i j => obind (get s i) (fun a => obind (get s j) (fun b =>
      obind (val b) (fun r =>
      match r with
      | [] => Ok (upd s i (Some a), ONone)
      | _ => obind (val a) (fun l => Ok (upd s i (Some (Val (l ++ r))), ONone))
      end)))
  | UDispose i => obind (get s i) (fun _ => Ok (upd s i (Some (Val [])), ONone))
  | UDestroy i => obind (get s i) (fun _ => Ok (upd s i None, ONone))
  | UEq i j => obind (get s i) (fun a => obind (get s j) (fun b =>
      obind (val a) (fun l => obind (val b) (fun r => Ok (s, OBool (list_N_eqb l r))))))
  | UCmp i j => obind (get s i) (fun a => obind (get s j) (fun b =>
      obind (val a) (fun l => obind (val b) (fun r => Ok (s, OCmp (order l r))))))
  | UEmpty i => obind (get s i) (fun a =>
      Ok (s, OBool (match a with Val (_ :: _) => false | _ => true end)))
  | USize i => obind (get s i) (fun a => obind (val a) (fun l =>
      Ok (s, OSize (N.of_nat (length l)))))
  end.

Fixpoint srun (s : sheap) (os : list uop) : outcome (sheap * list uout) :=
  match os with
  | [] => Ok (s, [])
  | o :: os' => obind (sstep s o) (fun '(s', x) =>
                obind (srun s' os') (fun '(s'', xs) => Ok (s'', x :: xs)))
  end.

(** What an observer sees of a run. *)
Definition seen {S} (r : outcome (S * list uout)) : outcome (list uout) :=
  obind r (fun '(_, xs) => Ok xs).

Definition no_obj {A} : nat -> option A := fun _ => None.

(** Objects created minus objects destroyed by a program. *)
Definition creates (o : uop) : nat :=
  match o with
  | UDefault _ | UUnits _ _ | UCopyNew _ _ | UMoveNew _ _ | UPlus _ _ _ => 1
  | _ => 0
  end%nat.
Definition count_creates (os : list uop) : nat := fold_right (fun o n => (creates o + n)%nat) 0%nat os.

(** Appends to a non-empty string of a non-empty string. *)
Definition joins (s : sheap) (o : uop) : nat :=
  match o with
  | UPlusAssign i j => match s i, s j with Some (Val (_ :: _)), Some (Val (_ :: _)) => 1 | _, _ => 0 end
  | _ => 0
  end%nat.
Fixpoint count_joins (s : sheap) (os : list uop) : nat :=
  match os with
  | [] => 0
  | o :: os' => joins s o + match sstep s o with Ok (s', _) => count_joins s' os' | _ => 0 end
  end%nat.

(** ** Stripping *)
Definition maximal_leading_run (ws : N -> bool) (cs run rest : list N) : Prop :=
  cs = run ++ rest /\ Forall (fun c => ws c = true) run /\
  match rest with [] => True | c :: _ => ws c = false end.

Definition maximal_trailing_run (ws : N -> bool) (cs rest run : list N) : Prop :=
  cs = rest ++ run /\ Forall (fun c => ws c = true) run /\
  match rev rest with [] => True | c :: _ => ws c = false end.

(** ** Splitting *)

(** Matches reported in order, non-overlapping, inside a text of length [n]. *)
Fixpoint ordered (from n : nat) (ms : list (nat * nat)) : Prop :=
  match ms with
  | [] => (from <= n)%nat
  | (st, en) :: ms' => (from <= st /\ st <= en)%nat /\ ordered en n ms'
  end.

Definition slice (s : list N) (st en : nat) : list N := firstn (en - st) (skipn st s).

(** Every piece is a match, a non-empty gap between matches or the non-empty
    remainder: the specification of the result. *)
Fixpoint pieces_spec (s : list N) (from : nat) (ms : list (nat * nat)) (ps : list (list N)) : Prop :=
  match ms with
  | [] => (from = length s /\ ps = []) \/ ((from < length s)%nat /\ ps = [slice s from (length s)])
  | (st, en) :: ms' =>
      exists rest, pieces_spec s en ms' rest /\
      ((from = st /\ ps = slice s st en :: rest) \/
       ((from < st)%nat /\ ps = slice s from st :: slice s st en :: rest))
  end.

(** Exactly what the comparison looks at: the first half of the prefix, and for
    an odd length the low byte of the middle unit. *)
Definition half_match (s p : list N) : Prop :=
  (length p <= length s)%nat /\
  firstn (length p / 2) s = firstn (length p / 2) p /\
  (Nat.odd (length p) = true ->
   nth (length p / 2) s 0 mod 256 = nth (length p / 2) p 0 mod 256).
