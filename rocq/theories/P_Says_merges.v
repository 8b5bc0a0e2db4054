(** The merges in the log of byte-pair encoding. *)
From Verif Require Import Base Assoc Utf_model Ustr_model Vocab_model Bpe_model Bpe_spec Log_model Says_model Says_rdebug_model.
From Verif Require Import Bpe_proofs Bpe_load_proofs.
From Coq Require Import Sorting.Permutation Sorting.Sorted.
From Verif Require P_Roberta.
Local Open Scope N_scope.

(** ** Specification *)

(** Replaying reported merges from one list of ids to another: each takes two neighbours that the
    table merges and puts the table's id in their place. *)
Inductive replayed (R : N * N -> option (N * N)) : list N -> list (N * N * N) -> list N -> Prop :=
| replayed_end w : replayed R w [] w
| replayed_step w1 x y z w2 rank rest w :
    R (x, y) = Some (rank, z) -> replayed R (w1 ++ z :: w2) rest w ->
    replayed R (w1 ++ x :: y :: w2) ((x, y, z) :: rest) w.

(** Numbers with a blank between each two. *)
Inductive blank_separated : list N -> list N -> Prop :=
| separated_none : blank_separated [] []
| separated_one i : blank_separated [i] (decimal i)
| separated_more i j rest t : blank_separated (j :: rest) t -> blank_separated (i :: j :: rest) (decimal i ++ [32] ++ t).

Definition merge_message (m : N * N * N) : log_call :=
  let '(x, y, z) := m in Formatted Debug (u "  * merge (" ++ decimal x ++ u ", " ++ decimal y ++ u ") -> " ++ decimal z).

(** ** Proofs *)

Lemma joined_separated : forall l, blank_separated l (joined l).
Proof.
  induction l as [|i [|j l] IH]; [constructor|constructor|]. change (joined (i :: j :: l)) with (decimal i ++ u " " ++ joined (j :: l)).
  constructor. exact IH.
Qed.

Lemma says_merge b top syms w1 x n j y m w2 rk :
  repr (w1 ++ (e_index top, x, n) :: (j, y, m) :: w2) syms -> bpe_merge b (x, y) = Some (rk, e_new top) ->
  process_says b top syms = [merge_message (x, y, e_new top)].
Proof.
  intros [HL HP _ _] E. apply linked_app in HL as (_ & HL). cbn [linked] in HL. destruct HL as (H1 & H2 & _).
  unfold c_idx, c_id, c_len in H1, H2. cbn [fst snd first_idx] in H1, H2. unfold c_idx in H1. cbn [fst] in H1.
  apply Forall_app in HP as (_ & HP). apply Forall_cons_iff in HP as (Hn & _). unfold c_len in Hn. cbn [snd] in Hn.
  unfold process_says. rewrite H1. cbn [s_len s_next s_id]. rewrite (proj2 (N.eqb_neq _ _) Hn), H2. cbn [s_id]. rewrite E, N.eqb_refl. reflexivity.
Qed.

Lemma says_stale b top syms w : repr w syms -> stale (bpe_merge b) top w -> process_says b top syms = [].
Proof.
  intros [HL HP HS HD] ST. unfold process_says. destruct (nth_error syms (e_index top)) as [s|] eqn:E; [|reflexivity].
  destruct (N.eqb_spec (s_len s) 0) as [Z|Z]; [reflexivity|].
  destruct (in_dec Nat.eq_dec (e_index top) (idxs w)) as [I|I]; [|exfalso; apply Z; exact (HD _ _ E I)].
  destruct (in_idxs_split _ _ I) as (w1 & x & n & w2 & ->).
  apply linked_app in HL as (_ & HL). cbn [linked] in HL. destruct HL as (H1 & H2).
  unfold c_idx at 1, c_id, c_len in H1. cbn [fst snd] in H1. rewrite E in H1. injection H1 as ->. cbn [s_next s_id].
  destruct w2 as [|[[j y] m] w2]; [reflexivity|]. cbn [first_idx linked] in *. destruct H2 as (H2 & _). rewrite H2. cbn [s_id].
  unfold c_id. cbn [fst snd]. destruct (bpe_merge b (x, y)) as [[rk nid]|] eqn:EM; [|reflexivity].
  destruct (N.eqb_spec nid (e_new top)) as [->|]; [|reflexivity]. exfalso. exact (ST w1 x n j y m w2 rk eq_refl EM).
Qed.

Lemma loop_merges b pick : removes_maximal entry_lt pick ->
  forall fuel coins q skip syms w syms', repr w syms -> bounded (length syms) q -> bounded (length syms) skip ->
  merge_loop b pick fuel coins q skip syms = Some (Ok syms') ->
  exists merges w', merge_loop_says b pick fuel coins q skip syms = map merge_message merges /\
    replayed (bpe_merge b) (ids w) merges (ids w') /\ repr w' syms'.
Proof.
  intros HP. induction fuel as [|fuel IH]; intros coins q skip syms w syms' RP Bq Bs; cbn [merge_loop merge_loop_says]; [discriminate|].
  specialize (HP q). destruct (pick q) as [[top q1]|].
  2:{ intros E. injection E as <-. exists [], w. split; [reflexivity|]. split; [constructor|exact RP]. }
  destruct HP as [PM _]. destruct (perm_bounded _ _ _ _ PM Bq) as [Bt Bq1]. cbv zeta.
  destruct (_ && coins 0%nat).
  - apply IH; [exact RP|exact Bq1|]. apply Forall_app; split; [exact Bs|]. constructor; [exact Bt|constructor].
  - assert (Bq2 : bounded (length syms) (skip ++ q1)) by (apply Forall_app; split; assumption).
    destruct (process_spec b top (skip ++ q1) syms w RP Bt)
      as [[-> ST]|(w1 & x & n & j & y & m & w2 & rk & syms1 & -> & ER & -> & RP' & EL)].
    + rewrite (says_stale b top syms w RP ST). cbn [app]. intros E. eapply IH; [exact RP|exact Bq2|constructor|exact E].
    + rewrite (says_merge b top syms w1 x n j y m w2 rk RP ER). intros E.
      match type of E with merge_loop _ _ _ ?co ?qu _ _ = _ =>
        destruct (IH co qu [] syms1 (w1 ++ (e_index top, e_new top, (n + m)%N) :: w2) syms' RP') as (ms & w' & E1 & E2 & E3); [| |exact E|] end.
      * rewrite EL. apply Forall_app; split; [apply push_next_bounded; exact Bt|].
        apply Forall_app; split; [|exact Bq2]. rewrite <- EL. eapply push_prev_bounded; exact RP'.
      * constructor.
      * exists ((x, y, e_new top) :: ms), w'. split; [rewrite E1; reflexivity|]. split; [|exact E3].
        rewrite ids_app in *. cbn [ids map] in *. unfold c_id in *. cbn [fst snd] in *. econstructor; [exact ER|exact E2].
Qed.

(** C215: the messages about a word that is not in the cache are the ids it begins with and the
    merges made, which lead to the ids of the tokens put out. *)
Theorem C215_merges : forall b pick fuel coins cache text ts cache',
  removes_maximal entry_lt pick -> text <> [] ->
  (b_dropout b = DZero -> lookup list_N_eqb text cache = None) ->
  tokenize_cached b pick fuel coins cache text = Some (Ok (ts, cache')) ->
  exists from numbers merges to,
    tokenize_cached_says b pick fuel coins cache text =
      [Plain Debug (u "start BPE tokenization"); Formatted Debug (u "  text = """ ++ enc8s text ++ u """");
       Formatted Debug (u "  id = (" ++ numbers ++ u ")")] ++ map merge_message merges ++ [Plain Debug (u "finish BPE tokenization")] /\
    from = start_ids (bpe_token_to_id b) (unk_id (bpe_token_to_id b) (b_unk b)) (b_fuse b) None (pieces (b_prefix b) (b_suffix b) text) /\
    blank_separated from numbers /\ replayed (bpe_merge b) from merges to /\
    ts = map (fun i => match bpe_id_to_token b i with Some t => t | None => b_unk b end) to.
Proof.
  intros b pick fuel coins cache text ts cache' HP HT HC. unfold tokenize_cached, tokenize_cached_says. cbv zeta.
  destruct text as [|c text]; [congruence|]. generalize dependent (c :: text). clear c text. intros text _ HC.
  replace (if match b_dropout b with DZero => true | _ => false end then lookup list_N_eqb text cache else None) with (@None (list ustring))
    by (destruct (b_dropout b); [symmetry; apply HC; reflexivity|reflexivity..]).
  replace (match b_dropout b with DZero => lookup list_N_eqb text cache | _ => None end) with (@None (list ustring))
    by (destruct (b_dropout b); [symmetry; apply HC; reflexivity|reflexivity..]).
  unfold merge_word, merge_all. destruct (initial_symbols_spec b text) as (l & E & Eid & Hl & HL). rewrite E.
  destruct (merge_loop b pick fuel coins (init_queue b 0 (chain 0 l)) [] (chain 0 l)) as [[syms'| | |]|] eqn:EM; try discriminate.
  intros X. injection X as <- _.
  assert (SI : map s_id (chain 0 l) = map fst l).
  { clear. generalize 0%nat as k. intros k. revert k. induction l as [|[i n] l IH]; intros k; [reflexivity|]. cbn [chain map fst]. f_equal. apply IH. }
  destruct (loop_merges b pick HP fuel coins _ [] _ (cells 0 l) syms' (chain_repr l Hl) (init_queue_bounded b l 0 _ eq_refl) (Forall_nil _) EM) as (merges & w' & E1 & E2 & E3).
  exists (map fst l), (joined (map fst l)), merges, (map s_id (compact syms')). split; [|split; [exact Eid|split; [apply joined_separated|split]]].
  - rewrite SI, E1. reflexivity.
  - rewrite (compact_ids _ _ E3), <- (cells_ids l 0). exact E2.
  - unfold word_to_tokens. rewrite map_map. reflexivity.
Qed.
Print Assumptions C215_merges.

(** Every merge takes one id away. *)
Theorem C215_count : forall R from merges to, replayed R from merges to -> length from = (length merges + length to)%nat.
Proof.
  intros R from merges to H. induction H as [w|w1 x y z w2 rank rest w _ _ IH]; [reflexivity|].
  rewrite app_length in *. cbn [length] in *. lia.
Qed.
Print Assumptions C215_count.

(** Words that are in the cache, or empty, are named without ids and merges. *)
Theorem C215_cached : forall b pick fuel coins cache text,
  text = [] \/ b_dropout b = DZero /\ lookup list_N_eqb text cache <> None ->
  tokenize_cached_says b pick fuel coins cache text =
    [Plain Debug (u "start BPE tokenization"); Formatted Debug (u "  text = """ ++ enc8s text ++ u """")].
Proof.
  intros b pick fuel coins cache text H. unfold tokenize_cached_says. cbv zeta. destruct text as [|c text]; [reflexivity|].
  destruct H as [H|(D & H)]; [discriminate|]. rewrite D. destruct (lookup list_N_eqb (c :: text) cache); [reflexivity|congruence].
Qed.
Print Assumptions C215_cached.

(** ** Examples *)

(** "abĠa": two merges of the table. *)
Example C215_example :
  let b := Roberta_model.rv_bpe P_Roberta.r_demo in
  let text := [97; 98; 0x120; 97] in
  removes_maximal entry_lt pick_max /\ lookup list_N_eqb text [] = @None (list ustring) /\
  (exists cache, tokenize_cached b pick_max 17 (fun _ => true) [] text = Some (Ok ([[97; 98]; [0x120; 97]], cache))) /\
  tokenize_cached_says b pick_max 17 (fun _ => true) [] text =
    [Plain Debug (u "start BPE tokenization"); Formatted Debug (u "  text = ""ab" ++ [0xc4; 0xa0] ++ u "a""");
     Formatted Debug (u "  id = (4 5 6 4)"); merge_message (4, 5, 7); merge_message (6, 4, 8); Plain Debug (u "finish BPE tokenization")] /\
  replayed (bpe_merge b) [4; 5; 6; 4] [(4, 5, 7); (6, 4, 8)] [7; 8].
Proof.
  cbv zeta. split; [exact pick_max_ok|]. split; [reflexivity|]. split; [eexists; vm_compute; reflexivity|]. split; [vm_compute; reflexivity|].
  apply (replayed_step _ [] 4 5 7 [6; 4] 0); [vm_compute; reflexivity|]. apply (replayed_step _ [7] 6 4 8 [] 1); [vm_compute; reflexivity|]. constructor.
Qed.
Example C215_cached_example : tokenize_cached_says (Roberta_model.rv_bpe P_Roberta.r_demo) pick_max 17 (fun _ => true) [([97; 98], [[97; 98]])] [97; 98] =
  [Plain Debug (u "start BPE tokenization"); Formatted Debug (u "  text = ""ab""")].
Proof. vm_compute. reflexivity. Qed.
