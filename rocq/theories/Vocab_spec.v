(** What a vocabulary file means, stated without the loader. *)
From Verif Require Import Base.
Local Open Scope N_scope.

(** [layout lens data ts]: the two tensors describe exactly the tokens [ts]: the
    data is their concatenation and the i-th length byte is the size of the i-th
    token modulo 256, sizes being 1 to 256. *)
Inductive layout : list N -> list N -> list (list N) -> Prop :=
| lay_nil : layout [] [] []
| lay_cons t ls d ts :
    (1 <= length t <= 256)%nat ->
    layout ls d ts ->
    layout (N.of_nat (length t) mod 256 :: ls) (t ++ d) (t :: ts).

(** Reading past the end: after some tokens that fit and are distinct the next
    length asks for more bytes than are left. *)
Definition overruns (lens data : list N) : Prop :=
  exists l1 b l2 d1 d2 ts,
    lens = l1 ++ b :: l2 /\ data = d1 ++ d2 /\ layout l1 d1 ts /\ NoDup ts /\
    N.of_nat (length d2) < (if b =? 0 then 256 else b).

(** [n]-th entry of the vocabulary. *)
Definition entry (ts : list (list N)) (n : N) (t : list N) : Prop :=
  nth_error ts (N.to_nat n) = Some t.

(** Where a special id comes from: a usable stored number, else the first
    conventional spelling that is a token. *)
Inductive special_id (stored : option N) (ts : list (list N)) : list (list N) -> N -> Prop :=
| from_file n alts : stored = Some n -> n <> INVALID -> special_id stored ts alts n
| from_vocab pre a post n :
    (stored = None \/ stored = Some INVALID) ->
    (forall x, In x pre -> ~ In x ts) ->
    entry ts n a ->
    special_id stored ts (pre ++ a :: post) n.
