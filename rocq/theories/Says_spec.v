(** What a log contains, and what the calls of the API ought to put there. *)
From Verif Require Import Base Trie_spec Utf_spec Wp_spec Log_spec Vocab_model.
Local Open Scope N_scope.

(** A message: the highest level at which it is still written, and its text. *)
Definition message : Type := Z * list N.

(** C strings end before the first NUL. *)
Definition cut_at_nul (m t : list N) : Prop := ~ In 0 t /\ (m = t \/ exists r, m = t ++ 0 :: r).

(** The log of a run at level [l]: the messages of at least that level in order, each
    on its line, read as printf formats without arguments.  There is none if one of
    them is no such format. *)
Inductive log_of (l : Z) : list message -> list N -> Prop :=
| log_end : log_of l [] []
| log_skip r m ms o : (r < l)%Z -> log_of l ms o -> log_of l ((r, m) :: ms) o
| log_line r m ms t p o : (l <= r)%Z -> cut_at_nul m t -> escaped t p -> log_of l ms o ->
    log_of l ((r, m) :: ms) (p ++ [10] ++ o).

(** What WordPiece comes across: a piece taken off with the id put out, or a remainder
    nothing matches.  As in [word_run]. *)
Inductive heard := Known (piece : list N) (id : N) | Unknown (rest : list N).

Inductive word_hears (vocab : list (list N)) : place -> list N -> list heard -> place -> Prop :=
| hear_end m : word_hears vocab m [] [] m
| hear_unknown m s :
    s <> [] -> (forall p, p <> [] -> prefix p s -> ~ In (under m ++ p) vocab) ->
    word_hears vocab m s [Unknown s] m
| hear_piece m s p f r i hs m' :
    longest_entry vocab (under m) s p -> entry vocab (under m ++ p) i ->
    longest_begun vocab (under m) s f -> s = f ++ r ->
    word_hears vocab (match r with [] => AtStart | _ => Inside end) r hs m' ->
    word_hears vocab m s (Known f i :: hs) m'.

Inductive text_hears (vocab : list (list N)) : place -> list (list N) -> list heard -> place -> Prop :=
| hears_end m : text_hears vocab m [] [] m
| hears_word m w ws hs hs' m' m'' :
    word_hears vocab m w hs m' -> text_hears vocab m' ws hs' m'' ->
    text_hears vocab m (w :: ws) (hs ++ hs') m''.

(** The ids put out. *)
Definition heard_id (unk : N) (h : heard) : N := match h with Known _ i => i | Unknown _ => unk end.

(** The bytes printed for a piece: its UTF-8, nothing for a broken surrogate pair. *)
Definition shown (us b : list N) : Prop := same_text b us \/ ((forall b', ~ same_text b' us) /\ b = []).

Inductive heard_line : heard -> message -> Prop :=
| known_line f i b : shown f b -> heard_line (Known f i) (0%Z, u "  token: " ++ b ++ u " (" ++ decimal i ++ u ")")
| unknown_line r b : shown r b -> heard_line (Unknown r) (2%Z, u "  unknown token: " ++ b).

(** Characters the cleaning step reports. *)
Definition clean_lines (rm_null rm_repl : bool) (c : N) : list message :=
  if c =? 0 then if rm_null then [(1%Z, u "null character found in text")] else []
  else if c =? 0xfffd then if rm_repl then [(1%Z, u "0xfffd found")] else []
  else [].

(** Ids of special tokens outside the vocabulary. *)
Definition id_lines (count : nat) (ids : list N) : list message :=
  flat_map (fun i => if N.of_nat count <=? i
                     then [(1%Z, u "token id " ++ decimal i ++ u " is not found (max=" ++ decimal (N.of_nat count) ++ u ")")]
                     else []) ids.

Definition count_lines (max n : N) : list message :=
  if max <? n
  then [(2%Z, u "Token count (" ++ decimal n ++ u ") is larger than the max_position_embeddings (" ++ decimal max ++
              u "). Calling eval() with this sequence will cause a failure.")]
  else [].

(** All messages of tokenizing, given those about characters and pieces. *)
Definition tokenize_messages (specials cleaning pieces count : list message) : list message :=
  specials ++ [(1%Z, u "start tokenize"); (0%Z, u "start basic_tokenize")] ++ cleaning ++
  [(0%Z, u "end basic_tokenize"); (0%Z, u "start wordpiece_tokenize")] ++ pieces ++
  [(0%Z, u "end wordpiece_tokenize"); (1%Z, u "end tokenize")] ++ count.

(** A text fprintf prints, possibly only up to a NUL. *)
Definition printable_text (m : list N) : Prop := exists t p, cut_at_nul m t /\ escaped t p.
