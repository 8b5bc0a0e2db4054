(** Property theorems: vocabulary search and WordPiece (C01-C07, C71, C72). *)
From Verif Require Import Base Trie_model Trie_spec Trie_proofs.

(** C01: exact search is the vocabulary (for a repeated entry, its last position). *)
Theorem C01_exact_search :
  forall vocab s, small vocab ->
  (forall i, s <> [] -> nth_error vocab i = Some s ->
             (forall j, i < j -> nth_error vocab j <> Some s) ->
             search_trie (build_trie vocab) s = N.of_nat i) /\
  ((s = [] \/ ~ In s vocab) -> search_trie (build_trie vocab) s = INVALID).
Proof. exact search_trie_spec. Qed.
Print Assumptions C01_exact_search.

(** C01 for a vocabulary without repetitions. *)
Theorem C01_exact_search_distinct :
  forall vocab s i, small vocab -> NoDup vocab -> s <> [] ->
  (search_trie (build_trie vocab) s = N.of_nat i /\ i < length vocab <-> nth_error vocab i = Some s).
Proof. exact search_trie_distinct. Qed.
Print Assumptions C01_exact_search_distinct.

Definition demo_vocab : list (list N) :=
  [u "[UNK]"; u "a"; u "ab"; u "##b"; u "b"; u "##cd"].

Example C01_nonvacuous :
  small demo_vocab /\ NoDup demo_vocab /\
  search_trie (build_trie demo_vocab) (u "ab") = 2%N /\
  search_trie (build_trie demo_vocab) (u "##c") = INVALID.
Proof.
  split; [vm_compute; discriminate|]. split.
  - repeat constructor; simpl; intuition discriminate.
  - split; vm_compute; reflexivity.
Qed.

(** C02: greedy search returns the longest matching entry's id. *)
Theorem C02_longest_match :
  forall vocab s, small vocab ->
  (forall i f r, search_trie_substr (build_trie vocab) s = (i, Some (f, r)) ->
     exists v, v <> [] /\ entry vocab v i /\ prefix v s /\
               forall v', v' <> [] -> In v' vocab -> prefix v' s -> length v' <= length v) /\
  ((exists i, search_trie_substr (build_trie vocab) s = (i, None)) <->
     forall v, v <> [] -> In v vocab -> ~ prefix v s) /\
  (forall i, search_trie_substr (build_trie vocab) s = (i, None) -> i = INVALID).
Proof. exact search_longest. Qed.
Print Assumptions C02_longest_match.

Example C02_nonvacuous :
  search_trie_substr (build_trie demo_vocab) (u "abx") = (2%N, Some (u "ab", u "x")) /\
  search_trie_substr (build_trie demo_vocab) (u "xab") = (INVALID, None).
Proof. split; vm_compute; reflexivity. Qed.

(** C03: matched part and remainder make up the query. *)
Theorem C03_split_is_query :
  forall vocab s i f r, small vocab ->
  search_trie_substr (build_trie vocab) s = (i, Some (f, r)) ->
  f ++ r = s /\ exists v, v <> [] /\ entry vocab v i /\ prefix v f.
Proof. exact search_split. Qed.
Print Assumptions C03_split_is_query.

(** C04: the matched part need not be the entry whose id is returned. *)
Theorem C04_found_is_entry_refuted :
  exists vocab s i f r,
    small vocab /\ NoDup vocab /\ ~ In [] vocab /\
    search_trie_substr (build_trie vocab) s = (i, Some (f, r)) /\
    nth_error vocab (N.to_nat i) <> Some f /\ ~ In f vocab.
Proof. exact found_is_entry_refuted. Qed.
Print Assumptions C04_found_is_entry_refuted.

(** C04: it is exactly when no other entry runs on along the query and diverges. *)
Theorem C04_found_is_entry_iff_partial :
  forall vocab s i f r, small vocab ->
  search_trie_substr (build_trie vocab) s = (i, Some (f, r)) ->
  (entry vocab f i <-> forall v, entry vocab v i -> no_dead_end vocab [] v s).
Proof. exact search_found_is_entry. Qed.
Print Assumptions C04_found_is_entry_iff_partial.

(** C05: greedy longest-match-first segmentation. *)
Theorem C05_wordpiece_greedy :
  forall vocab unk words idss, small vocab -> has_cont vocab ->
  Forall2 (segments vocab []) words idss ->
  wordpiece vocab unk words = WpOk (concat idss).
Proof. exact wordpiece_greedy. Qed.
Print Assumptions C05_wordpiece_greedy.

Example C05_nonvacuous :
  small demo_vocab /\ has_cont demo_vocab /\
  Forall2 (segments demo_vocab []) [u "abcd"; u "b"] [[2; 5]; [4]]%N /\
  wordpiece demo_vocab 0 [u "abcd"; u "b"] = WpOk [2; 5; 4]%N.
Proof.
  split; [vm_compute; discriminate|].
  split; [exists (u "##b"); split; [simpl; tauto|exists (u "b"); reflexivity]|].
  split; [|vm_compute; reflexivity].
  constructor.
  - apply (seg_cons _ [] (u "ab") (u "cd")); [discriminate|solve_entry|solve_max|solve_nd|].
    apply (seg_cons _ cont_prefix (u "cd") []); [discriminate|solve_entry|solve_max|solve_nd|constructor].
  - constructor; [|constructor].
    apply (seg_cons _ [] (u "b") []); [discriminate|solve_entry|solve_max|solve_nd|constructor].
Qed.

(** C71: without the dead-end condition the claim is false. *)
Theorem C71_wordpiece_greedy_refuted :
  exists vocab unk w ids,
    small vocab /\ NoDup vocab /\ has_cont vocab /\ greedy vocab [] w ids /\
    wordpiece vocab unk [w] <> WpOk ids.
Proof. exact wordpiece_greedy_refuted. Qed.
Print Assumptions C71_wordpiece_greedy_refuted.

(** C72: a word that cannot be segmented is not always a single unknown token. *)
Theorem C72_unknown_word_single_unk_refuted :
  exists vocab unk w,
    small vocab /\ NoDup vocab /\ has_cont vocab /\
    (forall ids, ~ greedy vocab [] w ids) /\ wordpiece vocab unk [w] <> WpOk [unk].
Proof. exact unknown_word_single_unk_refuted. Qed.
Print Assumptions C72_unknown_word_single_unk_refuted.

(** C06: words influence their successors. *)
Theorem C06_word_independence_refuted :
  exists vocab unk w1 w2 ids1 ids2,
    small vocab /\ NoDup vocab /\ has_cont vocab /\
    wordpiece vocab unk [w1] = WpOk ids1 /\ wordpiece vocab unk [w2] = WpOk ids2 /\
    wordpiece vocab unk [w1; w2] <> WpOk (ids1 ++ ids2).
Proof. exact wordpiece_independence_refuted. Qed.
Print Assumptions C06_word_independence_refuted.

(** C06: they do not when each earlier word segments completely or is unknown
    from the start.  Missing for the full claim: earlier words that become
    unknown after a first piece, where it is false. *)
Theorem C06_word_independence_partial :
  forall vocab unk ws1 ws2,
  small vocab -> has_cont vocab -> Forall (clean_word vocab) ws1 ->
  exists ids1 ids2, wordpiece vocab unk ws1 = WpOk ids1 /\ wordpiece vocab unk ws2 = WpOk ids2 /\
    wordpiece vocab unk (ws1 ++ ws2) = WpOk (ids1 ++ ids2).
Proof. exact wordpiece_compositional. Qed.
Print Assumptions C06_word_independence_partial.

Example C06_nonvacuous : Forall (clean_word demo_vocab) [u "b"; u "xyz"].
Proof.
  constructor.
  - left. exists [4]%N. apply (seg_cons _ [] (u "b") []); [discriminate|solve_entry|solve_max|solve_nd|constructor].
  - constructor; [|constructor]. right. split; [discriminate|].
    intros p Hne [r Hr] Hin. cbn in Hin.
    repeat (destruct Hin as [<-|Hin]; [cbn in Hr; discriminate|]). destruct Hin.
Qed.

(** C07: termination, range, length. *)
Theorem C07_wordpiece_total :
  forall vocab unk words, small vocab ->
  (has_cont vocab -> exists ids, wordpiece vocab unk words = WpOk ids /\
      Forall (id_ok vocab unk) ids /\ length ids <= length (concat words)) /\
  (~ has_cont vocab -> wordpiece vocab unk words = WpNoCont).
Proof. exact wordpiece_total. Qed.
Print Assumptions C07_wordpiece_total.

Example C07_nonvacuous :
  wordpiece demo_vocab 0 [u "abx"; u "b"; u ""; u "zz"] = WpOk [2; 0; 3; 0]%N.
Proof. vm_compute; reflexivity. Qed.
