(** What loading a file ought to write to the log. *)
From Verif Require Import Base Vocab_model Loader_model Log_spec Vocab_spec Roberta_spec Loader_spec Says_spec.
From Verif Require Import P_Says_vocab Roberta_proofs Vocab_proofs.
From Verif Require Says_eval_model.
Local Open Scope N_scope.

Definition line (m : list N) : list N := m ++ [10].

(** Where the ids of a RoBERTa model are looked for. *)
Definition r_places : list (Vocab_model.key * list N * list (list N)) :=
  [(K_bos, u "berts.bos_id", [u "<s>"]); (K_eos, u "berts.eos_id", [u "</s>"]); (K_cls, u "berts.cls_id", [u "<s>"]);
   (K_mask, u "berts.mask_id", [u "<mask>"]); (K_pad, u "berts.pad_id", [u "<pad>"]); (K_sep, u "berts.sep_id", [u "</s>"]);
   (K_unk, u "berts.unk_id", [u "<unk>"])].
Definition places_of (arch : N) := if arch =? 0 then places else r_places.

(** Whether every special token has an id. *)
Definition bert_complete (g : gguf) (ts : list (list N)) : Prop :=
  forall w, In w places -> exists n, special_id (stored g (fst (fst w))) ts (snd w) n.
Definition roberta_complete (g : gguf) (ts : list (list N)) : Prop :=
  let src k := special_id (stored g k) ts [roberta_spelling k] in
  forall k, In k roberta_keys -> exists n, or_else (src k) (src (roberta_fallback k)) n.

(** A table of merges: triples of numbers. *)
Definition merge_table (m : option tensor) : Prop := exists l, m = Some (mkt 1 T_I32 l) /\ (length l mod 3 = 0)%nat.

(** What is written about the reason when a vocabulary with all tokens read is refused. *)
Inductive reason (g : gguf) (arch : N) (ts : list (list N)) (m : option tensor) : list N -> Prop :=
| no_id : arch = 0 -> ~ bert_complete g ts -> reason g arch ts m []
| no_tokens : arch = 0 -> bert_complete g ts -> ts = [] -> reason g arch ts m (line (u "fail to build vocab"))
| no_r_id : arch <> 0 -> ~ roberta_complete g ts -> reason g arch ts m []
| no_table : arch <> 0 -> roberta_complete g ts -> ~ merge_table m -> reason g arch ts m []
| bad_merge : arch <> 0 -> roberta_complete g ts -> merge_table m -> reason g arch ts m (line (u "failed to load bpe vocab")).

(** What is written at the default level about a vocabulary, and whether it is accepted.
    [vs], [vd], [m]: the tensors of the lengths, the texts and the merges. *)
Inductive vocab_writes (g : gguf) (arch : N) (vs vd m : option tensor) : bool -> list N -> Prop :=
| not_tensors : (forall lens data, ~ (vs = Some (mkt 1 T_I8 lens) /\ vd = Some (mkt 1 T_I8 data))) ->
    vocab_writes g arch vs vd m false []
| repeated l1 l2 d1 d2 ts t o :
    vs = Some (mkt 1 T_I8 (l1 ++ N.of_nat (length t) mod 256 :: l2)) -> vd = Some (mkt 1 T_I8 (d1 ++ t ++ d2)) ->
    layout l1 d1 ts -> NoDup ts -> In t ts -> (1 <= length t <= 256)%nat ->
    log_of 2 [(2%Z, u "  token " ++ t ++ u " already exists")] o ->
    vocab_writes g arch vs vd m false o
| too_long lens data rest ts :
    vs = Some (mkt 1 T_I8 lens) -> vd = Some (mkt 1 T_I8 (data ++ rest)) -> rest <> [] ->
    layout lens data ts -> NoDup ts ->
    vocab_writes g arch vs vd m false (line (u "something wrong"))
| refused lens data ts reports why :
    vs = Some (mkt 1 T_I8 lens) -> vd = Some (mkt 1 T_I8 data) -> layout lens data ts -> NoDup ts ->
    Forall2 (id_report g ts) (places_of arch) reports -> reason g arch ts m why ->
    vocab_writes g arch vs vd m false (concat reports ++ why ++ line (u "fail to build vocab"))
| accepted lens data ts reports :
    vs = Some (mkt 1 T_I8 lens) -> vd = Some (mkt 1 T_I8 data) -> layout lens data ts -> NoDup ts ->
    (if arch =? 0 then bert_complete g ts /\ ts <> [] else roberta_complete g ts /\ merge_table m) ->
    Forall2 (id_report g ts) (places_of arch) reports ->
    vocab_writes g arch vs vd m true (concat reports).

(** What is written at the default level about a file, and the result. *)
Inductive load_writes (junk : nat -> N) {V} : option file -> bool -> load_result (V := V) -> list N -> Prop :=
| no_gguf reopen : load_writes junk None reopen (Null false) []
| gone f : load_writes junk (Some f) false (Null false) (line (u "fail to open gguf file"))
| cut_off f : ~ readable f -> load_writes junk (Some f) true (Null false) (line (u "failed to seek gguf file"))
| other_act f n : readable f -> f_set f S_hidden_act = Some (SU32 n) -> n <> 0 -> load_writes junk (Some f) true (Null false) []
| other_type f n : readable f -> f_set f S_hidden_act = Some (SU32 0) -> f_set f S_bert_type = Some (SU32 n) ->
    ~ supported_arch n -> load_writes junk (Some f) true (Null false) []
| bad_vocab f arch o :
    readable f -> f_set f S_hidden_act = Some (SU32 0) -> f_set f S_bert_type = Some (SU32 arch) -> supported_arch arch ->
    vocab_writes (f_tok f) arch (vocab_at junk f (u "berts.vocab.size")) (vocab_at junk f (u "berts.vocab.data"))
      (vocab_at junk f (u "berts.merge.data")) false o ->
    load_writes junk (Some f) true (Null true) (o ++ line (u "fail to load vocab"))
| bad_weights f arch layers o :
    readable f -> f_set f S_hidden_act = Some (SU32 0) -> f_set f S_bert_type = Some (SU32 arch) -> supported_arch arch ->
    vocab_writes (f_tok f) arch (vocab_at junk f (u "berts.vocab.size")) (vocab_at junk f (u "berts.vocab.data"))
      (vocab_at junk f (u "berts.merge.data")) true o ->
    f_set f S_n_layers = Some (SU32 layers) -> ~ Forall (has f) (required_names (N.to_nat layers)) ->
    load_writes junk (Some f) true (Null true) (o ++ line (u "fail to load weights"))
| good f arch layers o m :
    readable f -> f_set f S_hidden_act = Some (SU32 0) -> f_set f S_bert_type = Some (SU32 arch) -> supported_arch arch ->
    vocab_writes (f_tok f) arch (vocab_at junk f (u "berts.vocab.size")) (vocab_at junk f (u "berts.vocab.data"))
      (vocab_at junk f (u "berts.merge.data")) true o ->
    f_set f S_n_layers = Some (SU32 layers) -> Forall (has f) (required_names (N.to_nat layers)) ->
    load_writes junk (Some f) true (Loaded m) o.

(** The last line of a text. *)
Definition last_line (o m : list N) : Prop := o = line m \/ exists before, o = before ++ [10] ++ line m.

(** The last line at INFO says what happened.  [as_int]: 32 bits read as a signed number. *)
Definition as_int (n : N) (z : Z) : Prop := n < 2 ^ 32 -> (z mod 2 ^ 32 = Z.of_N n mod 2 ^ 32)%Z /\ (- 2 ^ 31 <= z < 2 ^ 31)%Z.
Inductive told (f : file) {V} : bool -> load_result (V := V) -> list N -> Prop :=
| told_gone : told f false (Null false) (u "fail to open gguf file")
| told_cut : ~ readable f -> told f true (Null false) (u "failed to seek gguf file")
| told_act n z : readable f -> f_set f S_hidden_act = Some (SU32 n) -> n <> 0 -> as_int n z ->
    told f true (Null false) (u "unknown hidden_act: " ++ Says_eval_model.signed z)
| told_type n z : readable f -> f_set f S_hidden_act = Some (SU32 0) -> f_set f S_bert_type = Some (SU32 n) ->
    ~ supported_arch n -> as_int n z -> told f true (Null false) (u "unknown bert_type: " ++ Says_eval_model.signed z)
| told_vocab : readable f -> told f true (Null true) (u "fail to load vocab")
| told_weights layers : readable f -> f_set f S_n_layers = Some (SU32 layers) -> ~ Forall (has f) (required_names (N.to_nat layers)) ->
    told f true (Null true) (u "fail to load weights")
| told_good layers m : readable f -> f_set f S_n_layers = Some (SU32 layers) -> Forall (has f) (required_names (N.to_nat layers)) ->
    told f true (Loaded m) (u "finish initializing weights").

(** The first name of a list that the file lacks. *)
Definition first_missing (f : file) (names : list (list N)) (k : list N) : Prop :=
  exists before after, names = before ++ k :: after /\ Forall (has f) before /\ ~ has f k.

(** The lines about optional tensors, one for each that is missing. *)
Inductive absent (f : file) : list (list N) -> list N -> Prop :=
| absent_end : absent f [] []
| absent_here k ks o : has f k -> absent f ks o -> absent f (k :: ks) o
| absent_not k ks o : ~ has f k -> absent f ks o -> absent f (k :: ks) (line (u "failed to read tensor: " ++ k) ++ o).

(** The messages about tensors with none of the names [used], numbered from [n]. *)
Inductive unused (used : list (list N)) : nat -> list tinfo -> list message -> Prop :=
| unused_end n : unused used n [] []
| unused_used n t ts ms : In (ti_name t) used -> unused used (S n) ts ms -> unused used n (t :: ts) ms
| unused_not n t ts ms : ~ In (ti_name t) used -> unused used (S n) ts ms ->
    unused used n (t :: ts) ((1%Z, u "  unused " ++ decimal (N.of_nat n) ++ u " " ++ ti_name t) :: ms).
Definition used_names (layers : nat) : list (list N) :=
  required_names layers ++ head_names ++ [u "berts.vocab.size"; u "berts.vocab.data"].
