(** Properties of the byte-pair encoder (berts/models/bpe.cpp). *)
From Coq Require Import Relations.
From Verif Require Import Base Assoc Bpe_model Bpe_spec Bpe_proofs Bpe_load_proofs.
Open Scope N_scope.

(** The adjacent pairs of a word with their positions, for the examples. *)
Fixpoint adjacent (k : nat) (w : list N) : list (nat * (N * N)) :=
  match w with
  | x :: ((y :: _) as t) => (k, (x, y)) :: adjacent (S k) t
  | _ => []
  end.
Lemma adjacent_split a x y b : forall k, In ((k + length a)%nat, (x, y)) (adjacent k (a ++ x :: y :: b)).
Proof.
  induction a as [|c a IH]; intros k; [simpl; left; f_equal; lia|].
  specialize (IH (S k)). replace (k + length (c :: a))%nat with (S k + length a)%nat by (simpl; lia).
  destruct a as [|d a]; right; exact IH.
Qed.
Ltac nodup :=
  repeat (apply NoDup_cons;
    [let H := fresh in vm_compute; intros H; repeat (destruct H as [H|H]; [discriminate H|]); exact H|]);
  apply NoDup_nil.
(** [w] has no rule better than rank [r] at position [k]: checked pair by pair. *)
Definition best_among (R : table) (w : list N) (r : N) (k : nat) : bool :=
  forallb (fun '(n, p) => match R p with
                          | Some (r', _) => (r <? r') || ((r =? r') && Nat.leb k n)
                          | None => true
                          end) (adjacent 0 w).
Lemma best_among_ok R w r k : best_among R w r k = true ->
  forall a x y b r' z', w = a ++ x :: y :: b -> R (x, y) = Some (r', z') ->
    r < r' \/ (r = r' /\ (k <= length a)%nat).
Proof.
  intros H a x y b r' z' -> HR. unfold best_among in H. rewrite forallb_forall in H.
  specialize (H _ (adjacent_split a x y b 0)). cbn beta iota in H. rewrite HR in H.
  cbn [Nat.add] in H. apply orb_true_iff in H as [H|H]; [left; lia|].
  apply andb_true_iff in H as [H1 H2]. apply Nat.leb_le in H2. right. split; [lia|exact H2].
Qed.
Ltac no_better := apply best_among_ok; vm_compute; reflexivity.

(** A vocabulary for the examples: "a" 0, "b" 1, "ab" 2, "c" 3, "abc" 4, "?" 5. *)
Definition ex_vs : list (ustring * N) :=
  [(u "a", 0); (u "b", 1); (u "ab", 2); (u "c", 3); (u "abc", 4); (u "?", 5)].
Definition ex_ms : list (N * N) := [(0, 1); (2, 3)].
Definition ex_b (d : dropout_t) : bpe := snd (load_vocab (fresh (u "?") d true [] []) ex_vs ex_ms).

Example ex_loads d : load_vocab (fresh (u "?") d true [] []) ex_vs ex_ms = (true, ex_b d).
Proof. vm_compute. reflexivity. Qed.
Example ex_nodup_tokens : NoDup (map fst ex_vs).
Proof. nodup. Qed.
Example ex_nodup_ids : NoDup (map snd ex_vs).
Proof. nodup. Qed.

(** ** C33 *)

(** Every word is tokenized after a number of queue operations bounded by a
    polynomial in its length, with every access in bounds, whatever the merge
    table, the dropout decisions and the tie-breaking of the queue. *)
Theorem C33_terminates_in_bounds :
  forall b pick coins text fuel, removes_maximal entry_lt pick ->
    ((4 * length text) * (4 * length text + 1) + length text < fuel)%nat ->
    exists ts, tokenize b pick fuel coins text = Some (Ok ts).
Proof.
  intros b pick coins text fuel HP HF. destruct text as [|c text]; [eexists; reflexivity|]. unfold tokenize.
  destruct (merge_word_total b pick coins (c :: text) fuel HP HF) as (syms & -> & _). eauto.
Qed.
Print Assumptions C33_terminates_in_bounds.

Theorem C33_never_out_of_bounds :
  forall b pick coins text fuel r, removes_maximal entry_lt pick ->
    tokenize b pick fuel coins text = Some r -> exists ts, r = Ok ts.
Proof.
  intros b pick coins text fuel r HP H. destruct text as [|c text]; [inversion H; eauto|]. unfold tokenize in H.
  destruct (merge_word b pick fuel coins (c :: text)) as [o|] eqn:E; [|discriminate].
  destruct (merge_word_legal _ _ _ _ _ _ HP E) as (syms & -> & _). inversion H; eauto.
Qed.
Print Assumptions C33_never_out_of_bounds.

(** Without dropout the number of pops is linear. *)
Theorem C33_linear_without_dropout :
  forall b pick coins text fuel, removes_maximal entry_lt pick -> b_dropout b <> DPos ->
    (4 * length text < fuel)%nat ->
    exists ts, tokenize b pick fuel coins text = Some (Ok ts).
Proof.
  intros b pick coins text fuel HP HD HF. destruct text as [|c text]; [eexists; reflexivity|]. unfold tokenize.
  destruct (merge_word_linear b pick coins (c :: text) fuel HP HD HF) as (syms & ->). eauto.
Qed.
Print Assumptions C33_linear_without_dropout.

Example C33_queue_exists : removes_maximal entry_lt pick_max.
Proof. exact pick_max_ok. Qed.
Example C33_example : tokenize (ex_b DZero) pick_max 40 (fun _ => true) (u "abcab") = Some (Ok [u "abc"; u "ab"]).
Proof. vm_compute. reflexivity. Qed.

(** ** C34 *)

(** The tokens, without the subword prefixes, spell the text and the word suffix. *)
Theorem C34_lossless :
  forall unk pre suf d fuse vs ms b pick coins text fuel r,
    NoDup (map fst vs) -> NoDup (map snd vs) ->
    load_vocab (fresh unk d fuse pre suf) vs ms = (true, b) ->
    removes_maximal entry_lt pick -> text <> [] ->
    Forall (fun p => In p (map fst vs)) (pieces pre suf text) ->
    tokenize b pick fuel coins text = Some r ->
    exists ts, r = Ok ts /\ glue pre ts = text ++ suf /\ Forall (fun t => In t (map fst vs)) ts.
Proof.
  intros unk pre suf d fuse vs ms b pick coins text fuel r NDt NDi HL.
  exact (loaded_lossless unk pre suf d fuse vs ms b NDt NDi HL pick coins text fuel r).
Qed.
Print Assumptions C34_lossless.

(** Without prefix and suffix: the concatenation is the text. *)
Theorem C34_lossless_plain :
  forall unk d fuse vs ms b pick coins text fuel r,
    NoDup (map fst vs) -> NoDup (map snd vs) ->
    load_vocab (fresh unk d fuse [] []) vs ms = (true, b) ->
    removes_maximal entry_lt pick ->
    Forall (fun c => In [c] (map fst vs)) text ->
    tokenize b pick fuel coins text = Some r ->
    exists ts, r = Ok ts /\ concat ts = text.
Proof.
  intros unk d fuse vs ms b pick coins text fuel r NDt NDi HL HP HF H.
  destruct text as [|c text]; [inversion H; eexists; split; reflexivity|].
  assert (E : forall t, rest_pieces [] [] t = map (fun c => [c]) t).
  { induction t as [|c1 [|c2 t] IH]; [reflexivity..|].
    change (rest_pieces [] [] (c1 :: c2 :: t)) with ([c1] :: rest_pieces [] [] (c2 :: t)). rewrite IH. reflexivity. }
  assert (E2 : forall t, pieces [] [] t = map (fun c => [c]) t).
  { intros [|c1 [|c2 t]]; [reflexivity..|].
    change (pieces [] [] (c1 :: c2 :: t)) with ([c1] :: rest_pieces [] [] (c2 :: t)). rewrite E. reflexivity. }
  assert (HK : Forall (fun p => In p (map fst vs)) (pieces [] [] (c :: text))).
  { rewrite E2. apply Forall_map. exact HF. }
  assert (HN : c :: text <> []) by discriminate.
  destruct (C34_lossless unk [] [] d fuse vs ms b pick coins (c :: text) fuel r NDt NDi HL HP HN HK H)
    as (ts & -> & G & _).
  exists ts. split; [reflexivity|]. rewrite app_nil_r in G. rewrite <- G.
  assert (EF : forall l : list ustring, concat l = flat_map (skipn 0) l).
  { induction l as [|t l IH]; [reflexivity|]. cbn [concat flat_map]. rewrite IH. reflexivity. }
  destruct ts as [|t ts]; [reflexivity|]. cbn [concat glue length]. rewrite EF. reflexivity.
Qed.
Print Assumptions C34_lossless_plain.

Example C34_example : Forall (fun c => In [c] (map fst ex_vs)) (u "abcab").
Proof. repeat apply Forall_cons; try apply Forall_nil; vm_compute; auto 10. Qed.
(** With a prefix and a suffix: "ab" is cut into "a" and "##b</w>". *)
Example C34_example_affixes :
  let vs := [(u "a", 0); (u "##b</w>", 1); (u "ab</w>", 2)] in
  pieces (u "##") (u "</w>") (u "ab") = [u "a"; u "##b</w>"] /\
  glue (u "##") [u "a"; u "##b</w>"] = u "ab</w>" /\
  tokenize (snd (load_vocab (fresh [] DZero false (u "##") (u "</w>")) vs [(0, 1)])) pick_max 20 (fun _ => false) (u "ab")
    = Some (Ok [u "ab</w>"]).
Proof. vm_compute. repeat split; reflexivity. Qed.

(** ** C35 *)

(** Without dropout the result is the one of the textbook algorithm, for every
    priority queue.  [R] and [lk] are whatever table and dictionary the loaded
    vocabulary and merge list describe.  The unknown token must be unusable or
    longer than the subword prefix (see C78). *)
Theorem C35_canonical :
  forall unk pre suf d fuse vs ms b R lk text,
    NoDup (map fst vs) -> NoDup (map snd vs) ->
    load_vocab (fresh unk d fuse pre suf) vs ms = (true, b) ->
    d <> DPos -> describes pre vs ms R -> reads lk vs ->
    (unk = [] \/ ~ In unk (map fst vs) \/ (length pre < length unk)%nat) ->
    exists out ts,
      canonical R (start_ids lk (unk_id lk unk) fuse None (pieces pre suf text)) out /\
      Forall2 (fun t i => In (t, i) vs) ts out /\
      forall pick coins fuel, removes_maximal entry_lt pick -> (4 * length text < fuel)%nat ->
        tokenize b pick fuel coins text = Some (Ok ts).
Proof.
  intros unk pre suf d fuse vs ms b R lk text NDt NDi HL HD HR Hlk HU.
  exact (loaded_result unk pre suf d fuse vs ms b NDt NDi HL R lk text HD HR Hlk HU).
Qed.
Print Assumptions C35_canonical.

(** The textbook algorithm has exactly one result. *)
Theorem C35_canonical_unique : forall R w a b, canonical R w a -> canonical R w b -> a = b.
Proof. exact canonical_functional. Qed.
Print Assumptions C35_canonical_unique.

(** Without a subword prefix no condition on the unknown token is needed. *)
Theorem C35_canonical_no_prefix :
  forall unk suf d fuse vs ms b R lk text,
    NoDup (map fst vs) -> NoDup (map snd vs) ->
    load_vocab (fresh unk d fuse [] suf) vs ms = (true, b) ->
    d <> DPos -> describes [] vs ms R -> reads lk vs ->
    exists out ts,
      canonical R (start_ids lk (unk_id lk unk) fuse None (pieces [] suf text)) out /\
      Forall2 (fun t i => In (t, i) vs) ts out /\
      forall pick coins fuel, removes_maximal entry_lt pick -> (4 * length text < fuel)%nat ->
        tokenize b pick fuel coins text = Some (Ok ts).
Proof.
  intros unk suf d fuse vs ms b R lk text NDt NDi HL HD HR Hlk.
  apply (loaded_result unk [] suf d fuse vs ms b NDt NDi HL R lk text HD HR Hlk).
  destruct unk; [left; reflexivity|right; right; simpl; lia].
Qed.
Print Assumptions C35_canonical_no_prefix.

(** A table as required exists: the one of the loaded model. *)
Example C35_example_table : describes [] ex_vs ex_ms (bpe_merge (ex_b DZero)) /\ reads (bpe_token_to_id (ex_b DZero)) ex_vs.
Proof.
  destruct (load_fresh_table (u "?") [] [] DZero true ex_vs ex_ms ex_nodup_tokens ex_nodup_ids _ (ex_loads DZero))
    as (H1 & H2 & _). split; [exact H1|]. intros t i; apply H2.
Qed.
Example C35_example : canonical (bpe_merge (ex_b DZero)) [0; 1; 3] [4].
Proof.
  split.
  - eapply rt_trans; apply rt_step.
    + exists [], 0, 1, [3], 0, 2. split; [vm_compute; reflexivity|]. split; [vm_compute; reflexivity|]. split; [vm_compute; reflexivity|].
      no_better.
    + exists [], 2, 3, [], 1, 4. split; [vm_compute; reflexivity|]. split; [vm_compute; reflexivity|]. split; [vm_compute; reflexivity|].
      no_better.
  - intros a x y c E. pose proof (adjacent_split a x y c 0) as H. rewrite <- E in H. contradiction.
Qed.

(** ** C36 *)

Theorem C36_legal :
  forall unk pre suf d fuse vs ms b R lk pick coins text fuel r,
    NoDup (map fst vs) -> NoDup (map snd vs) ->
    load_vocab (fresh unk d fuse pre suf) vs ms = (true, b) ->
    describes pre vs ms R -> reads lk vs -> removes_maximal entry_lt pick ->
    tokenize b pick fuel coins text = Some r ->
    exists out ts, r = Ok ts /\ Forall2 (fun t i => In (t, i) vs) ts out /\
      legal R (start_ids lk (unk_id lk unk) fuse None (pieces pre suf text)) out.
Proof.
  intros unk pre suf d fuse vs ms b R lk pick coins text fuel r NDt NDi HL HR Hlk HP H.
  destruct (loaded_legal unk pre suf d fuse vs ms b NDt NDi HL pick coins text fuel r HP H) as (out & ts & E & F & LG & _).
  exists out, ts. split; [exact E|]. split; [exact F|].
  rewrite (loaded_start unk pre suf d fuse vs ms b NDt NDi HL lk text Hlk) in LG.
  eapply legal_ext; [|exact LG]. apply (describes_functional pre vs ms); [|exact HR].
  apply (load_fresh_table unk pre suf d fuse vs ms NDt NDi b HL).
Qed.
Print Assumptions C36_legal.

Theorem C36_all_skipped :
  forall unk pre suf fuse vs ms b lk pick coins text fuel r,
    NoDup (map fst vs) -> NoDup (map snd vs) ->
    load_vocab (fresh unk DPos fuse pre suf) vs ms = (true, b) ->
    reads lk vs -> removes_maximal entry_lt pick -> (forall k, coins k = true) ->
    tokenize b pick fuel coins text = Some r ->
    exists ts, r = Ok ts /\
      Forall2 (fun t i => In (t, i) vs) ts (start_ids lk (unk_id lk unk) fuse None (pieces pre suf text)).
Proof.
  intros unk pre suf fuse vs ms b lk pick coins text fuel r NDt NDi HL Hlk HP HC H.
  destruct (loaded_legal unk pre suf DPos fuse vs ms b NDt NDi HL pick coins text fuel r HP H) as (out & ts & E & F & _ & HO).
  exists ts. split; [exact E|]. rewrite <- (loaded_start unk pre suf DPos fuse vs ms b NDt NDi HL lk text Hlk).
  rewrite <- (HO eq_refl HC). exact F.
Qed.
Print Assumptions C36_all_skipped.

Example C36_example :
  tokenize (ex_b DPos) pick_max 200 (fun _ => true) (u "abc") = Some (Ok [u "a"; u "b"; u "c"]) /\
  tokenize (ex_b DPos) pick_max 200 (fun k => Nat.eqb k 1) (u "abc") = Some (Ok [u "ab"; u "c"]) /\
  tokenize (ex_b DPos) pick_max 200 (fun _ => false) (u "abc") = Some (Ok [u "abc"]).
Proof. vm_compute. repeat split; reflexivity. Qed.

(** ** C37 *)

Theorem C37_cache_invisible :
  forall b pick fuel calls, run_cached b pick fuel [] calls = run_uncached b pick fuel calls.
Proof. intros. apply run_cached_equal. intros t ts H; discriminate. Qed.
Print Assumptions C37_cache_invisible.

Theorem C37_dropout_disables_cache :
  forall b pick fuel coins cache text, b_dropout b <> DZero ->
    tokenize_cached b pick fuel coins cache text =
    match tokenize b pick fuel coins text with
    | Some (Ok ts) => Some (Ok (ts, cache))
    | Some Fail => Some Fail | Some UB => Some UB | Some Abort => Some Abort
    | None => None
    end.
Proof.
  intros b pick fuel coins cache text HD.
  pose proof (cached_call b pick fuel coins cache text (or_intror HD)) as H.
  destruct (tokenize b pick fuel coins text) as [[ts| | |]|]; try exact H.
  destruct H as (cache' & -> & E & _). rewrite (E HD). reflexivity.
Qed.
Print Assumptions C37_dropout_disables_cache.

(** The cache is really used: a repeated word is answered from it. *)
Example C37_example :
  let c := [(u "abc", [u "abc"])] in
  tokenize_cached (ex_b DZero) pick_max 40 (fun _ => false) [] (u "abc") = Some (Ok ([u "abc"], c)) /\
  tokenize_cached (ex_b DZero) pick_max 0 (fun _ => false) c (u "abc") = Some (Ok ([u "abc"], c)) /\
  run_cached (ex_b DZero) pick_max 40 [] [(u "abc", fun _ => true); (u "cab", fun _ => true); (u "abc", fun _ => false)]
    = Some (Ok [[u "abc"]; [u "c"; u "ab"]; [u "abc"]]).
Proof. vm_compute. repeat split; reflexivity. Qed.

(** ** C38 *)

(** Without fusing: one unknown token for each unknown piece (none if the unknown
    token is empty or not in the vocabulary); then merges. *)
Theorem C38_unknown_plain :
  forall unk pre suf d vs ms b R lk pick coins text fuel r,
    NoDup (map fst vs) -> NoDup (map snd vs) ->
    load_vocab (fresh unk d false pre suf) vs ms = (true, b) ->
    describes pre vs ms R -> reads lk vs -> removes_maximal entry_lt pick ->
    tokenize b pick fuel coins text = Some r ->
    exists out ts, r = Ok ts /\ Forall2 (fun t i => In (t, i) vs) ts out /\
      legal R (plain_ids lk (unk_id lk unk) (pieces pre suf text)) out.
Proof.
  intros unk pre suf d vs ms b R lk pick coins text fuel r NDt NDi HL HR Hlk HP H.
  destruct (C36_legal _ _ _ _ _ _ _ _ R lk _ _ _ _ _ NDt NDi HL HR Hlk HP H) as (out & ts & E & F & LG).
  exists out, ts. rewrite start_ids_plain in LG. auto.
Qed.
Print Assumptions C38_unknown_plain.

(** With fusing: one unknown token for each maximal run of unknown pieces,
    provided the text does not contain the unknown token itself as a piece. *)
Theorem C38_unknown_fused :
  forall unk pre suf d vs ms b R lk pick coins text fuel r x,
    NoDup (map fst vs) -> NoDup (map snd vs) ->
    load_vocab (fresh unk d true pre suf) vs ms = (true, b) ->
    describes pre vs ms R -> reads lk vs -> removes_maximal entry_lt pick ->
    unk <> [] -> In (unk, x) vs -> ~ In unk (pieces pre suf text) ->
    tokenize b pick fuel coins text = Some r ->
    exists st out ts, fused lk x (pieces pre suf text) st /\ legal R st out /\
      r = Ok ts /\ Forall2 (fun t i => In (t, i) vs) ts out.
Proof.
  intros unk pre suf d vs ms b R lk pick coins text fuel r x NDt NDi HL HR Hlk HP HU HX HN H.
  destruct (C36_legal _ _ _ _ _ _ _ _ R lk _ _ _ _ _ NDt NDi HL HR Hlk HP H) as (out & ts & E & F & LG).
  assert (EU : unk_id lk unk = Some x) by (destruct unk; [congruence|]; apply Hlk; exact HX).
  rewrite EU in LG. exists (start_ids lk (Some x) true None (pieces pre suf text)), out, ts.
  split; [|auto]. apply start_ids_fused; [|discriminate].
  apply Forall_forall. intros p Hp Ep. apply Hlk in Ep. apply HN.
  rewrite (token_functional unk pre suf d true vs ms b NDt NDi HL unk p x HX Ep). exact Hp.
Qed.
Print Assumptions C38_unknown_fused.

(** An unusable unknown token: unknown pieces leave no trace, fused or not. *)
Theorem C38_unknown_dropped :
  forall unk pre suf d fuse vs ms b R lk pick coins text fuel r,
    NoDup (map fst vs) -> NoDup (map snd vs) ->
    load_vocab (fresh unk d fuse pre suf) vs ms = (true, b) ->
    describes pre vs ms R -> reads lk vs -> removes_maximal entry_lt pick ->
    unk = [] \/ ~ In unk (map fst vs) ->
    tokenize b pick fuel coins text = Some r ->
    exists out ts, r = Ok ts /\ Forall2 (fun t i => In (t, i) vs) ts out /\
      legal R (flat_map (fun p => match lk p with Some i => [i] | None => [] end) (pieces pre suf text)) out.
Proof.
  intros unk pre suf d fuse vs ms b R lk pick coins text fuel r NDt NDi HL HR Hlk HP HU H.
  destruct (C36_legal _ _ _ _ _ _ _ _ R lk _ _ _ _ _ NDt NDi HL HR Hlk HP H) as (out & ts & E & F & LG).
  assert (EU : unk_id lk unk = None).
  { destruct HU as [->|HU]; [reflexivity|]. destruct unk as [|c unk]; [reflexivity|]. simpl.
    destruct (lk (c :: unk)) as [i|] eqn:E2; [|reflexivity]. apply Hlk in E2. exfalso; apply HU.
    apply in_map_iff. exists (c :: unk, i); auto. }
  rewrite EU, start_ids_no_unk in LG. exists out, ts. auto.
Qed.
Print Assumptions C38_unknown_dropped.

(** Without merges the initial tokens are the result. *)
Theorem C38_no_merges : forall R st out, (forall p, R p = None) -> legal R st out -> out = st.
Proof.
  intros R st out HR H. induction H as [x y H|x|x y z _ IH1 _ IH2]; [|reflexivity|congruence].
  destruct H as (a & p & q & c & r & z & _ & E & _). rewrite HR in E. discriminate.
Qed.
Print Assumptions C38_no_merges.

Example C38_example :
  tokenize (ex_b DZero) pick_max 60 (fun _ => false) (u "xyabzc") = Some (Ok [u "?"; u "ab"; u "?"; u "c"]) /\
  tokenize (snd (load_vocab (fresh (u "?") DZero false [] []) ex_vs ex_ms)) pick_max 60 (fun _ => false) (u "xyabzc")
    = Some (Ok [u "?"; u "?"; u "ab"; u "?"; u "c"]) /\
  tokenize (snd (load_vocab (fresh (u "!") DZero false [] []) ex_vs ex_ms)) pick_max 60 (fun _ => false) (u "xyabzc")
    = Some (Ok [u "abc"]).
Proof. vm_compute. repeat split; reflexivity. Qed.

(** The proviso of [C38_unknown_fused] is needed: a literal "?" swallows the
    unknown character after it. *)
Example C38_fused_literal :
  tokenize (ex_b DZero) pick_max 60 (fun _ => false) (u "?x") = Some (Ok [u "?"]).
Proof. vm_compute. reflexivity. Qed.

(** ** C39 *)

Theorem C39_load_succeeds_iff :
  forall unk d fuse pre suf vs ms, NoDup (map fst vs) -> NoDup (map snd vs) ->
    fst (load_vocab (fresh unk d fuse pre suf) vs ms) = true <->
    Forall (fun p => exists z, rule pre vs (fst p) (snd p) z) ms.
Proof. intros. apply load_fresh_ok; assumption. Qed.
Print Assumptions C39_load_succeeds_iff.

Theorem C39_table_and_dictionary :
  forall unk d fuse pre suf vs ms b, NoDup (map fst vs) -> NoDup (map snd vs) ->
    load_vocab (fresh unk d fuse pre suf) vs ms = (true, b) ->
    describes pre vs ms (bpe_merge b) /\
    (forall t i, bpe_token_to_id b t = Some i <-> In (t, i) vs) /\
    (forall t i, bpe_id_to_token b i = Some t <-> In (t, i) vs).
Proof.
  intros unk d fuse pre suf vs ms b NDt NDi HL.
  destruct (load_fresh_table unk pre suf d fuse vs ms NDt NDi b HL) as (A & B & C & _). auto.
Qed.
Print Assumptions C39_table_and_dictionary.

(** The overload that takes the merges as token strings. *)
Theorem C39_token_overload :
  forall unk d fuse pre suf vs ts, NoDup (map fst vs) -> NoDup (map snd vs) ->
    fst (load_vocab_tokens (fresh unk d fuse pre suf) vs ts) = true <->
    Forall (fun t => In (fst t) (map fst vs) /\ In (snd t) (map fst vs) /\
                     In (joined pre (fst t) (snd t)) (map fst vs)) ts.
Proof. intros. apply load_tokens_ok; assumption. Qed.
Print Assumptions C39_token_overload.

Example C39_example :
  bpe_merge (snd (load_vocab (fresh [] DZero false [] []) ex_vs [(0, 1); (2, 3); (0, 1)])) (0, 1) = Some (2, 2) /\
  fst (load_vocab (fresh [] DZero false [] []) ex_vs [(0, 1); (1, 0)]) = false /\
  fst (load_vocab_tokens (fresh [] DZero false [] []) ex_vs [(u "ab", u "c")]) = true /\
  fst (load_vocab_tokens (fresh [] DZero false [] []) ex_vs [(u "c", u "ab")]) = false.
Proof. vm_compute. repeat split; reflexivity. Qed.

(** ** C40 *)

(** clear() keeps the id-to-token map, so the cleared model still answers
    id_to_token, and a later load accepts merges of ids that are gone. *)
Theorem C40_clear_like_new_refuted :
  exists vs ms vs2 ms2 b,
    NoDup (map fst vs) /\ NoDup (map snd vs) /\ NoDup (map fst vs2) /\ NoDup (map snd vs2) /\
    load_vocab (bpe_new [] DZero false) vs ms = (true, b) /\
    (exists i t, bpe_id_to_token (bpe_clear b) i = Some t /\ bpe_id_to_token (bpe_new [] DZero false) i = None) /\
    fst (load_vocab (bpe_clear b) vs2 ms2) = true /\
    fst (load_vocab (bpe_new [] DZero false) vs2 ms2) = false.
Proof.
  exists [(u "a", 0); (u "b", 1)], [], [(u "ab", 2)], [(0, 1)], (snd (load_vocab (bpe_new [] DZero false) [(u "a", 0); (u "b", 1)] [])).
  split; [nodup|].
  split; [nodup|].
  split; [nodup|].
  split; [nodup|].
  split; [vm_compute; reflexivity|]. split; [|split; vm_compute; reflexivity].
  exists 0, (u "a"). split; vm_compute; reflexivity.
Qed.
Print Assumptions C40_clear_like_new_refuted.

(** What does hold: token_to_id and tokenize forget everything, and a reload that
    covers all old ids gives a model indistinguishable from a new one. *)
Theorem C40_clear_partial :
  forall b, (forall t, bpe_token_to_id (bpe_clear b) t = None) /\
    (forall pick fuel coins text, removes_maximal entry_lt pick -> (0 < fuel)%nat ->
       tokenize (bpe_clear b) pick fuel coins text = Some (Ok [])) /\
    (forall vs ms, NoDup (map snd vs) ->
       (forall i t, bpe_id_to_token b i = Some t -> In i (map snd vs)) ->
       let new := fresh (b_unk b) (b_dropout b) (b_fuse b) (b_prefix b) (b_suffix b) in
       let old' := load_vocab (bpe_clear b) vs ms in
       let new' := load_vocab new vs ms in
       fst old' = fst new' /\
       (forall t, bpe_token_to_id (snd old') t = bpe_token_to_id (snd new') t) /\
       (forall i, bpe_id_to_token (snd old') i = bpe_id_to_token (snd new') i) /\
       (forall pick fuel coins text,
          tokenize (snd old') pick fuel coins text = tokenize (snd new') pick fuel coins text)).
Proof.
  intros b. split; [vm_compute; reflexivity|]. split.
  - intros pick fuel coins text HP HF. apply (clear_tokenize b pick fuel coins text HP HF).
  - intros vs ms ND HC. destruct (reload_alike b vs ms ND HC) as [A B]. cbv zeta.
    split; [exact A|]. split; [apply B|]. split; [apply B|]. intros. apply tokenize_alike. exact B.
Qed.
Print Assumptions C40_clear_partial.

Example C40_example : tokenize (bpe_clear (ex_b DZero)) pick_max 1 (fun _ => false) (u "abc") = Some (Ok []) /\
  (forall i t, bpe_id_to_token (ex_b DZero) i = Some t -> In i (map snd ex_vs)).
Proof.
  split; [vm_compute; reflexivity|]. intros i t H.
  destruct (load_fresh_table (u "?") [] [] DZero true ex_vs ex_ms ex_nodup_tokens ex_nodup_ids _ (ex_loads DZero))
    as (_ & _ & H3 & _). apply H3 in H. apply in_map_iff. exists (t, i). auto.
Qed.

(** ** C77 *)

(** Loading a second merge list appends it: its rules rank after the existing ones.
    False if the first list repeats a pair, because ranks start at the number of
    distinct pairs. *)
Theorem C77_second_load_appends_refuted :
  exists vs ms1 ms2 b1 b2 p q rp zp rq zq,
    load_vocab (bpe_new [] DZero false) vs ms1 = (true, b1) /\ load_vocab b1 vs ms2 = (true, b2) /\
    In p ms1 /\ ~ In p ms2 /\ In q ms2 /\ ~ In q ms1 /\
    bpe_merge b2 p = Some (rp, zp) /\ bpe_merge b2 q = Some (rq, zq) /\ rq < rp.
Proof.
  set (b1 := snd (load_vocab (bpe_new [] DZero false) ex_vs [(0, 1); (0, 1); (0, 1)])).
  exists ex_vs, [(0, 1); (0, 1); (0, 1)], [(2, 3)], b1, (snd (load_vocab b1 ex_vs [(2, 3)])), (0, 1), (2, 3), 2, 2, 1, 4.
  split; [vm_compute; reflexivity|]. split; [vm_compute; reflexivity|].
  split; [left; reflexivity|]. split; [intros [E|[]]; discriminate|].
  split; [left; reflexivity|]. split; [intros [E|[E|[E|[]]]]; discriminate|].
  split; [vm_compute; reflexivity|]. split; [vm_compute; reflexivity|]. reflexivity.
Qed.
Print Assumptions C77_second_load_appends_refuted.

Theorem C77_second_load_appends_partial :
  forall unk d fuse pre suf vs1 ms1 vs2 ms2 b1 b2, NoDup ms1 ->
    load_vocab (fresh unk d fuse pre suf) vs1 ms1 = (true, b1) ->
    load_vocab b1 vs2 ms2 = (true, b2) ->
    forall p q rp zp rq zq, In p ms1 -> ~ In p ms2 -> In q ms2 ->
      bpe_merge b2 p = Some (rp, zp) -> bpe_merge b2 q = Some (rq, zq) -> rp < rq.
Proof. exact second_load_ranks. Qed.
Print Assumptions C77_second_load_appends_partial.

(** The ranks of both lists, whatever they repeat: the second list is ranked from the
    number of different pairs of the first, a pair of the first has the place of its last
    occurrence there. *)
Theorem C77_ranks_exact :
  forall unk d fuse pre suf vs1 ms1 vs2 ms2 b1 b2 distinct,
    load_vocab (fresh unk d fuse pre suf) vs1 ms1 = (true, b1) ->
    load_vocab b1 vs2 ms2 = (true, b2) ->
    NoDup distinct -> (forall p, In p distinct <-> In p ms1) ->
    (forall p k, last_at p ms1 k -> ~ In p ms2 -> exists z, bpe_merge b2 p = Some (N.of_nat k, z)) /\
    (forall q k, last_at q ms2 k -> exists z, bpe_merge b2 q = Some (N.of_nat (length distinct + k), z)).
Proof.
  intros unk d fuse pre suf vs1 ms1 vs2 ms2 b1 b2 ds H1 H2 ND HD.
  assert (L : length ds = length (nodup pair_dec ms1)).
  { apply Nat.le_antisymm; apply NoDup_incl_length; try exact ND; try apply NoDup_nodup; intros k Hk.
    - apply nodup_In, HD, Hk.
    - apply nodup_In in Hk. apply HD, Hk. }
  rewrite L. exact (two_load_ranks unk d fuse pre suf vs1 ms1 vs2 ms2 b1 b2 H1 H2).
Qed.
Print Assumptions C77_ranks_exact.

(** So the second list ranks after the first exactly if no last occurrence in the first is
    past the number of its different pairs. *)
Theorem C77_second_load_appends_iff :
  forall unk d fuse pre suf vs1 ms1 vs2 ms2 b1 b2 distinct q,
    load_vocab (fresh unk d fuse pre suf) vs1 ms1 = (true, b1) ->
    load_vocab b1 vs2 ms2 = (true, b2) ->
    NoDup distinct -> (forall p, In p distinct <-> In p ms1) -> last_at q ms2 0 ->
    ((forall p rp zp rq zq, In p ms1 -> ~ In p ms2 ->
        bpe_merge b2 p = Some (rp, zp) -> bpe_merge b2 q = Some (rq, zq) -> rp < rq) <->
     forall p k, last_at p ms1 k -> ~ In p ms2 -> (k < length distinct)%nat).
Proof.
  intros unk d fuse pre suf vs1 ms1 vs2 ms2 b1 b2 ds q H1 H2 ND HD Hq.
  destruct (C77_ranks_exact unk d fuse pre suf vs1 ms1 vs2 ms2 b1 b2 ds H1 H2 ND HD) as (A & B).
  destruct (B q 0%nat Hq) as (zq & Eq). rewrite Nat.add_0_r in Eq. split.
  - intros H p k Hk Hn. destruct (A p k Hk Hn) as (z & Ez).
    assert (In p ms1) by (destruct Hk as (a & c & -> & _); apply in_elt).
    specialize (H p _ _ _ _ H0 Hn Ez Eq). lia.
  - intros H p rp zp rq zq' Hp Hn Rp Rq. destruct (in_last_at pair_dec _ _ Hp) as (k & Hk).
    destruct (A p k Hk Hn) as (z & Ez). specialize (H p k Hk Hn). rewrite Ez in Rp. rewrite Eq in Rq. inversion Rp; inversion Rq; subst. lia.
Qed.
Print Assumptions C77_second_load_appends_iff.

Example C77_example :
  let b1 := snd (load_vocab (fresh [] DZero false [] []) ex_vs [(0, 1)]) in
  let b2 := snd (load_vocab b1 ex_vs [(2, 3)]) in
  bpe_merge b2 (0, 1) = Some (0, 2) /\ bpe_merge b2 (2, 3) = Some (1, 4).
Proof. vm_compute. repeat split; reflexivity. Qed.

Example C77_iff_example :
  let ms1 := [(0, 1); (0, 1); (0, 1)] in
  let b1 := snd (load_vocab (fresh [] DZero false [] []) ex_vs ms1) in
  fst (load_vocab (fresh [] DZero false [] []) ex_vs ms1) = true /\
  fst (load_vocab b1 ex_vs [(2, 3)]) = true /\
  NoDup [(0, 1)] /\ (forall p, In p [(0, 1)] <-> In p ms1) /\ last_at (2, 3) [(2, 3)] 0 /\
  last_at (0, 1) ms1 2 /\ ~ In (0, 1) [(2, 3)] /\ ~ (2 < length [(0, 1)])%nat.
Proof.
  cbv zeta. split; [vm_compute; reflexivity|]. split; [vm_compute; reflexivity|].
  split; [constructor; [intros []|constructor]|].
  split; [intros p; cbn; tauto|].
  split; [exists [], []; split; [reflexivity|split; [intros []|reflexivity]]|].
  split; [exists [(0, 1); (0, 1)], []; split; [reflexivity|split; [intros []|reflexivity]]|].
  split; [intros [E|[]]; discriminate|]. cbn. lia.
Qed.

(** ** C78 *)

(** C35 without the condition on the unknown token is false: a queue entry that
    outlived its pair is recognised only by the id it would create, and a short
    unknown token lets two different pairs create the same id. *)
Definition c78_vs : list (ustring * N) :=
  [(u "x", 0); (u "?", 1); (u "##b", 2); (u "##c", 3); (u "?b", 4); (u "?bc", 5)].
Definition c78_ms : list (N * N) := [(1, 2); (0, 1); (4, 3); (0, 4)].

Theorem C78_short_unknown_canonical_refuted :
  exists unk pre vs ms b text out,
    NoDup (map fst vs) /\ NoDup (map snd vs) /\
    load_vocab (fresh unk DZero false pre []) vs ms = (true, b) /\
    canonical (bpe_merge b)
      (start_ids (bpe_token_to_id b) (unk_id (bpe_token_to_id b) unk) false None (pieces pre [] text)) out /\
    forall ts, tokenize b pick_max 40 (fun _ => false) text = Some (Ok ts) ->
      ~ Forall2 (fun t i => In (t, i) vs) ts out.
Proof.
  exists (u "?"), (u "##"), c78_vs, c78_ms, (snd (load_vocab (fresh (u "?") DZero false (u "##") []) c78_vs c78_ms)), (u "xzbc"), [0; 5].
  split; [nodup|].
  split; [nodup|].
  split; [vm_compute; reflexivity|]. split.
  - split.
    + eapply rt_trans; apply rt_step.
      * exists [0], 1, 2, [3], 0, 4. split; [vm_compute; reflexivity|]. split; [vm_compute; reflexivity|]. split; [vm_compute; reflexivity|].
        no_better.
      * exists [0], 4, 3, [], 2, 5. split; [vm_compute; reflexivity|]. split; [vm_compute; reflexivity|]. split; [vm_compute; reflexivity|].
        no_better.
    + intros a x y c E. pose proof (adjacent_split a x y c 0) as H. rewrite <- E in H.
      vm_compute in H. destruct H as [H|[]]. inversion H; subst. vm_compute. reflexivity.
  - intros ts H. vm_compute in H. inversion H; subst. intros F. inversion F as [|? ? ? ? _ F']; subst.
    inversion F' as [|? ? ? ? HI _]; subst. simpl in HI.
    repeat (destruct HI as [E|HI]; [discriminate|]). exact HI.
Qed.
Print Assumptions C78_short_unknown_canonical_refuted.

(** The condition of [C35_canonical] in its own words. *)
Theorem C78_short_unknown_canonical_partial :
  forall unk pre suf d fuse vs ms b R lk text,
    NoDup (map fst vs) -> NoDup (map snd vs) ->
    load_vocab (fresh unk d fuse pre suf) vs ms = (true, b) ->
    d <> DPos -> describes pre vs ms R -> reads lk vs -> (length pre < length unk)%nat ->
    exists out ts,
      canonical R (start_ids lk (unk_id lk unk) fuse None (pieces pre suf text)) out /\
      Forall2 (fun t i => In (t, i) vs) ts out /\
      forall pick coins fuel, removes_maximal entry_lt pick -> (4 * length text < fuel)%nat ->
        tokenize b pick fuel coins text = Some (Ok ts).
Proof. intros. eapply C35_canonical; eauto. Qed.
Print Assumptions C78_short_unknown_canonical_partial.
