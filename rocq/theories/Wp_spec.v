(** What the WordPiece loop answers for every word and every text, in terms of the
    plain vocabulary list; and the reference WordPiece it is meant to be. *)
From Verif Require Import Base Trie_model Trie_spec Utf_spec Bert_spec.
Local Open Scope nat_scope.

(** Which entries a search looks at: all of them, or those written with "##". *)
Inductive place := AtStart | Inside.
Definition under (m : place) : list N := match m with AtStart => [] | Inside => cont_prefix end.

(** [p] is the longest non-empty prefix of [s] that is an entry under [pre]. *)
Definition longest_entry (vocab : list (list N)) (pre s p : list N) : Prop :=
  p <> [] /\ prefix p s /\ In (pre ++ p) vocab /\
  forall p', p' <> [] -> prefix p' s -> In (pre ++ p') vocab -> length p' <= length p.

(** Some entry begins with [s]. *)
Definition begins (vocab : list (list N)) (s : list N) : Prop := exists v, In v vocab /\ prefix s v.

(** [f] is the longest prefix of [s] that begins an entry under [pre]. *)
Definition longest_begun (vocab : list (list N)) (pre s f : list N) : Prop :=
  prefix f s /\ begins vocab (pre ++ f) /\
  forall f', prefix f' s -> begins vocab (pre ++ f') -> length f' <= length f.

(** The run over one word: the id put out is that of the longest entry, but what is
    taken off the word is the longest beginning of any entry; a word that matches
    nothing puts out the unknown id and is dropped, leaving the place as it is. *)
Inductive word_run (vocab : list (list N)) (unk : N) : place -> list N -> list N -> place -> Prop :=
| run_end m : word_run vocab unk m [] [] m
| run_unknown m s :
    s <> [] -> (forall p, p <> [] -> prefix p s -> ~ In (under m ++ p) vocab) ->
    word_run vocab unk m s [unk] m
| run_piece m s p f r i ids m' :
    longest_entry vocab (under m) s p -> entry vocab (under m ++ p) i ->
    longest_begun vocab (under m) s f -> s = f ++ r ->
    word_run vocab unk (match r with [] => AtStart | _ => Inside end) r ids m' ->
    word_run vocab unk m s (i :: ids) m'.

(** Over the words of a text the place is carried along. *)
Inductive text_run (vocab : list (list N)) (unk : N) : place -> list (list N) -> list N -> place -> Prop :=
| text_end m : text_run vocab unk m [] [] m
| text_word m w ws ids ids' m' m'' :
    word_run vocab unk m w ids m' -> text_run vocab unk m' ws ids' m'' ->
    text_run vocab unk m (w :: ws) (ids ++ ids') m''.

(** The reference: the greedy segmentation if there is one, else one unknown id. *)
Definition reference (vocab : list (list N)) (unk : N) (w ids : list N) : Prop :=
  greedy vocab [] w ids \/ (ids = [unk] /\ forall ids', ~ greedy vocab [] w ids').

(** The unknown id is not that of a continuation entry, nor of one [w] starts with
    (unless [w] is that entry). *)
Definition unk_apart (vocab : list (list N)) (unk : N) (w : list N) : Prop :=
  forall v, entry vocab v unk -> ~ prefix cont_prefix v /\ (prefix v w -> v = w).

(** ** The strings a word of the text is looked up by, for any settings without
    lower-casing: a special token stays whole; otherwise accents are stripped and
    the word is split at punctuation, as far as the settings ask for it. *)
Definition stripped (mark : N -> bool) (nfd nfc : list N -> list N) (us : list N) (w : list N) : Prop :=
  exists d s, utf16 d (nfd us) /\ utf16 (filter (fun c => negb (mark c)) d) s /\ utf16 w (nfc s).

Definition looked_up (accents split : bool) (mark : N -> bool) (nfd nfc : list N -> list N)
           (punct : N -> bool) (specials : list (list N)) (w : list N) (ps : list (list N)) : Prop :=
  exists us, utf16 w us /\
    ((In us specials /\ ps = [w]) \/
     (~ In us specials /\
      exists w', (if accents then stripped mark nfd nfc us w' else w' = w) /\
                 (if split then punct_pieces punct w' ps else ps = [w']))).
