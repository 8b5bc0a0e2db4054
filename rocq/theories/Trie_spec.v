(** Specifications for the prefix tree and WordPiece, in terms of the plain
    vocabulary list only. *)
From Verif Require Import Base Trie_model.

(** Ids are 32-bit and the all-ones id is reserved. *)
Definition small (vocab : list (list N)) : Prop := (N.of_nat (length vocab) <= INVALID)%N.

(** [i] is the id of entry [v]: the last position holding it. *)
Definition entry (vocab : list (list N)) (v : list N) (i : N) : Prop :=
  exists k, i = N.of_nat k /\ nth_error vocab k = Some v /\
            forall j, k < j -> nth_error vocab j <> Some v.

(** No entry goes on along [s] beyond the entry [v]. *)
Definition no_dead_end (vocab : list (list N)) (w p s : list N) : Prop :=
  forall c s' v, s = p ++ c :: s' -> In v vocab -> ~ prefix (w ++ p ++ [c]) v.

(** Greedy longest-match-first segmentation of [w], looking pieces up under the
    prefix [pre] ("" for the first piece, "##" afterwards); the last condition
    says the search does not run past the chosen piece into a longer entry that
    then diverges. *)
Inductive segments (vocab : list (list N)) : list N -> list N -> list N -> Prop :=
| seg_nil pre : segments vocab pre [] []
| seg_cons pre p w i ids :
    p <> [] ->
    entry vocab (pre ++ p) i ->
    (forall p', p' <> [] -> prefix p' (p ++ w) -> In (pre ++ p') vocab -> length p' <= length p) ->
    no_dead_end vocab pre p (p ++ w) ->
    segments vocab cont_prefix w ids ->
    segments vocab pre (p ++ w) (i :: ids).

(** The same without the last condition: the textbook definition. *)
Inductive greedy (vocab : list (list N)) : list N -> list N -> list N -> Prop :=
| greedy_nil pre : greedy vocab pre [] []
| greedy_cons pre p w i ids :
    p <> [] ->
    entry vocab (pre ++ p) i ->
    (forall p', p' <> [] -> prefix p' (p ++ w) -> In (pre ++ p') vocab -> length p' <= length p) ->
    greedy vocab cont_prefix w ids ->
    greedy vocab pre (p ++ w) (i :: ids).

(** Some entry starts with "##". *)
Definition has_cont (vocab : list (list N)) : Prop := exists v, In v vocab /\ prefix cont_prefix v.

(** No entry is a prefix of the word. *)
Definition unknown_at_once (vocab : list (list N)) (w : list N) : Prop :=
  w <> [] /\ forall p, p <> [] -> prefix p w -> ~ In p vocab.

(** The word segments completely, or is unknown from its first piece on. *)
Definition clean_word (vocab : list (list N)) (w : list N) : Prop :=
  (exists ids, segments vocab [] w ids) \/ unknown_at_once vocab w.

(** An emitted id is the unknown id or the id of an entry. *)
Definition id_ok (vocab : list (list N)) (unk i : N) : Prop :=
  i = unk \/ exists v, entry vocab v i.
