(** Textbook byte-pair encoding and the vocabulary of its properties. *)
From Coq Require Import Permutation Relations.
From Verif Require Import Base.
Open Scope N_scope.

(** A merge table: (left,right) -> (rank,new id). *)
Definition table := N * N -> option (N * N).

(** One legal merge somewhere in the word. *)
Definition merge_step (R : table) (w w' : list N) : Prop :=
  exists a x y b r z, w = a ++ x :: y :: b /\ R (x, y) = Some (r, z) /\ w' = a ++ z :: b.

Definition legal (R : table) : list N -> list N -> Prop := clos_refl_trans _ (merge_step R).

(** The merge the textbook algorithm performs: lowest rank, leftmost. *)
Definition best_step (R : table) (w w' : list N) : Prop :=
  exists a x y b r z, w = a ++ x :: y :: b /\ R (x, y) = Some (r, z) /\ w' = a ++ z :: b /\
    forall a' x' y' b' r' z', w = a' ++ x' :: y' :: b' -> R (x', y') = Some (r', z') ->
      r < r' \/ (r = r' /\ (length a <= length a')%nat).

Definition irreducible (R : table) (w : list N) : Prop :=
  forall a x y b, w = a ++ x :: y :: b -> R (x, y) = None.

(** The result of the textbook algorithm. *)
Definition canonical (R : table) (w out : list N) : Prop :=
  clos_refl_trans _ (best_step R) w out /\ irreducible R out.

(** The priority queue removes some element that no other element precedes. *)
Definition removes_maximal {E} (lt : E -> E -> bool) (pick : list E -> option (E * list E)) : Prop :=
  forall q, match pick q with
            | None => q = []
            | Some (t, q') => Permutation q (t :: q') /\ Forall (fun e => lt t e = false) q'
            end.

(** The last position of a pair in a list. *)
Definition last_at {A} (p : A) (l : list A) (k : nat) : Prop :=
  exists a b, l = a ++ p :: b /\ ~ In p b /\ length a = k.

(** Number of maximal runs of elements satisfying [f]. *)
Fixpoint runs {A} (f : A -> bool) (inside : bool) (l : list A) : nat :=
  match l with
  | [] => 0
  | a :: l' => if f a then ((if inside then 0 else 1) + runs f true l')%nat else runs f false l'
  end.

(** The single-character pieces a word starts from: every character but the first
    carries the subword prefix [p], the last one the word suffix [s]. *)
Fixpoint rest_pieces (p s : list N) (text : list N) : list (list N) :=
  match text with
  | [] => []
  | [c] => [p ++ [c] ++ s]
  | c :: text' => (p ++ [c]) :: rest_pieces p s text'
  end.
Definition pieces (p s : list N) (text : list N) : list (list N) :=
  match text with
  | [] => []
  | [c] => [[c] ++ s]
  | c :: text' => [c] :: rest_pieces p s text'
  end.

(** Ids of pieces when unknown pieces are not fused; [unk] is the id of the
    unknown token, if it has one. *)
Definition plain_ids (lk : list N -> option N) (unk : option N) (ps : list (list N)) : list N :=
  flat_map (fun p => match lk p with
                     | Some i => [i]
                     | None => match unk with Some x => [x] | None => [] end
                     end) ps.

Definition unknown_first (lk : list N -> option N) (ps : list (list N)) : Prop :=
  match ps with [] => False | p :: _ => lk p = None end.

(** Fusing: a maximal run of unknown pieces yields one unknown token. *)
Inductive fused (lk : list N -> option N) (x : N) : list (list N) -> list N -> Prop :=
| fused_nil : fused lk x [] []
| fused_known p i ps is : lk p = Some i -> fused lk x ps is -> fused lk x (p :: ps) (i :: is)
| fused_run rs ps is :
    rs <> [] -> Forall (fun p => lk p = None) rs -> ~ unknown_first lk ps ->
    fused lk x ps is -> fused lk x (rs ++ ps) (x :: is).

(** A function that reads exactly the entries of a list. *)
Definition reads {A B} (f : A -> option B) (l : list (A * B)) : Prop :=
  forall a b, f a = Some b <-> In (a, b) l.

(** What a merge rule produces: the left token followed by the right one without
    its subword prefix [p]. *)
Definition joined (p t0 t1 : list N) : list N := t0 ++ skipn (length p) t1.

(** A pair of ids is a usable rule of the vocabulary [vs]: both tokens and the
    merged token are there. *)
Definition rule (p : list N) (vs : list (list N * N)) (x y z : N) : Prop :=
  exists tx ty, In (tx, x) vs /\ In (ty, y) vs /\ In (joined p tx ty, z) vs.

(** The merge table described by a vocabulary and a list of merges: rank = last
    position in the list. *)
Definition describes (p : list N) (vs : list (list N * N)) (ms : list (N * N)) (R : table) : Prop :=
  forall x y r z, R (x, y) = Some (r, z) <->
    (exists k, r = N.of_nat k /\ last_at (x, y) ms k) /\ rule p vs x y z.

(** Ids a word starts with.  [last] is the id emitted just before. *)
Fixpoint start_ids (lk : list N -> option N) (unk : option N) (fuse : bool) (last : option N)
         (ps : list (list N)) : list N :=
  match ps with
  | [] => []
  | p :: ps' =>
      match lk p, unk with
      | Some i, _ => i :: start_ids lk unk fuse (Some i) ps'
      | None, None => start_ids lk unk fuse last ps'
      | None, Some x =>
          if fuse && match last with Some l => l =? x | None => false end
          then start_ids lk unk fuse last ps'
          else x :: start_ids lk unk fuse (Some x) ps'
      end
  end.

(** The id of the unknown token: none if the string is empty or not in the vocabulary. *)
Definition unk_id (lk : list N -> option N) (unk : list N) : option N :=
  match unk with [] => None | _ => lk unk end.

(** Undo a segmentation: the first token, then the others without the prefix. *)
Definition glue (p : list N) (ts : list (list N)) : list N :=
  match ts with
  | [] => []
  | t :: ts' => t ++ flat_map (skipn (length p)) ts'
  end.
