(** Properties of WordPiece and of BERT tokenization for every word and text,
    dead ends and unknown words included (C142-C145). *)
From Verif Require Import Base Utf_model Utf_spec Utf_proofs Trie_model Trie_spec Trie_proofs
  Bert_model Bert_spec Bert_proofs Wp_spec Wp_proofs P_Trie P_Bert.
Local Open Scope nat_scope.

(** C142: the ids of any words are exactly those of the run described by the
    vocabulary list. *)
Theorem C142_wordpiece_exact :
  forall vocab unk words ids, small vocab -> has_cont vocab ->
  (wordpiece vocab unk words = WpOk ids <-> exists m, text_run vocab unk AtStart words ids m).
Proof. exact wordpiece_exact. Qed.
Print Assumptions C142_wordpiece_exact.

(** There is exactly one such run. *)
Theorem C142_run_exists_unique :
  forall vocab unk words, small vocab -> has_cont vocab ->
  exists ids m, text_run vocab unk AtStart words ids m /\
    forall ids' m', text_run vocab unk AtStart words ids' m' -> ids' = ids /\ m' = m.
Proof.
  intros vocab unk words A B. destruct (text_run_total vocab unk words A B) as (ids & m & T).
  exists ids, m. split; [exact T|]. intros ids' m' T'. exact (text_run_fun _ _ _ _ _ _ T' _ _ T).
Qed.
Print Assumptions C142_run_exists_unique.

(** {[UNK], a, abc, ##d, d}: "abd" is put out as a, ##d (the b is lost); "ax" stops
    inside, so that the following "d" is read as ##d. *)
Definition wp_vocab : list (list N) := [u "[UNK]"; u "a"; u "abc"; u "##d"; u "d"].

Lemma wp_small : small wp_vocab. Proof. vm_compute; discriminate. Qed.
Lemma wp_cont : has_cont wp_vocab.
Proof. exists (u "##d"). split; [simpl; auto|exists (u "d"); reflexivity]. Qed.

Example C142_example :
  text_run wp_vocab 0 AtStart [u "abd"; u "ax"; u "d"] [1; 3; 1; 0; 3]%N AtStart /\
  wordpiece wp_vocab 0 [u "abd"; u "ax"; u "d"] = WpOk [1; 3; 1; 0; 3]%N /\
  wordpiece wp_vocab 0 [u "d"] = WpOk [4]%N.
Proof.
  assert (E : wordpiece wp_vocab 0 [u "abd"; u "ax"; u "d"] = WpOk [1; 3; 1; 0; 3]%N) by (vm_compute; reflexivity).
  split; [|split; [exact E|vm_compute; reflexivity]].
  apply (C142_wordpiece_exact _ _ _ _ wp_small wp_cont) in E as (m & T).
  destruct m; [exact T|exfalso].
  (* the last word ends at its end, so the place is the start *)
  inversion T as [|? ? ? ? ? ? ? _ T1]; subst. inversion T1 as [|? ? ? ? ? ? ? _ T2]; subst.
  inversion T2 as [|? ? ? a b ? ? R T3]; subst. inversion T3; subst.
  destruct (run_inv _ _ _ _ _ _ R) as [(Q & _)|[(_ & B & _ & Q)|(p & f & r & i & ids' & L & E & B & S & I & R2)]].
  - discriminate Q.
  - subst. apply (B (u "d")); [discriminate|exists []; reflexivity|simpl; auto].
  - destruct f as [|c f].
    + destruct B as (_ & _ & B). specialize (B (u "d")). cbn in B.
      assert (1 <= 0); [|lia]. apply B; [exists []; reflexivity|].
      destruct m'0; [exists (u "d")|exists (u "##d")]; (split; [simpl; auto 10|exists []; reflexivity]).
    + destruct f; [|discriminate S]. destruct r; [|discriminate S].
      destruct (run_inv _ _ _ _ _ _ R2) as [(_ & _ & Q)|[(Q & _)|(p' & f' & r' & i' & is' & L' & _)]].
      * discriminate Q.
      * contradiction.
      * exact (longest_entry_ne _ _ _ _ L' eq_refl).
Qed.

(** C143: on one word the code answers what the reference WordPiece answers exactly
    for the clean words: those that segment without a dead end, and those whose
    first piece is already unknown. *)
Theorem C143_agrees_with_reference_iff :
  forall vocab unk w ids, small vocab -> has_cont vocab -> unk_apart vocab unk w ->
  reference vocab unk w ids ->
  (wordpiece vocab unk [w] = WpOk ids <-> clean_word vocab w).
Proof. exact reference_clean. Qed.
Print Assumptions C143_agrees_with_reference_iff.

(** C72, exactly: a word without a segmentation becomes the single unknown token just
    when it does not even start with an entry. *)
Theorem C72_single_unknown_iff :
  forall vocab unk w, small vocab -> has_cont vocab -> unk_apart vocab unk w ->
  (forall ids, ~ greedy vocab [] w ids) ->
  (wordpiece vocab unk [w] = WpOk [unk] <-> forall p, p <> [] -> prefix p w -> ~ In p vocab).
Proof.
  intros vocab unk w A B U NG. rewrite (C143_agrees_with_reference_iff vocab unk w [unk] A B U); [|right; split; [reflexivity|exact NG]].
  unfold clean_word. split.
  - intros [[ids G]|H]; [elim (NG _ (segments_greedy _ _ _ _ G))|exact (proj2 H)].
  - intros H. right. split; [|exact H]. intros ->. exact (NG [] (greedy_nil _ _)).
Qed.
Print Assumptions C72_single_unknown_iff.

(** Both sides of C143: "ab" of {a, ab, ##b} is clean, "abd" above is not. *)
Example C143_example :
  unk_apart demo_vocab 0 (u "abcd") /\ reference demo_vocab 0 (u "abcd") [2; 5]%N /\
  wordpiece demo_vocab 0 [u "abcd"] = WpOk [2; 5]%N /\
  unk_apart wp_vocab 0 (u "abd") /\ reference wp_vocab 0 (u "abd") [0]%N /\
  wordpiece wp_vocab 0 [u "abd"] = WpOk [1; 3]%N.
Proof.
  assert (UA : forall voc w, nth_error voc 0 = Some (u "[UNK]") -> ~ prefix (u "[UNK]") w -> unk_apart voc 0 w).
  { intros voc w H N0 v (k & Hk & Hv & _). assert (k = 0) as -> by lia.
    rewrite H in Hv. injection Hv as <-. split; [intros [r Hr]; discriminate Hr|tauto]. }
  split; [apply UA; [reflexivity|intros [r Hr]; discriminate Hr]|].
  split.
  { left. apply (greedy_cons _ [] (u "ab") (u "cd")); [discriminate|solve_entry|solve_max|].
    apply (greedy_cons _ cont_prefix (u "cd") []); [discriminate|solve_entry|solve_max|constructor]. }
  split; [vm_compute; reflexivity|].
  split; [apply UA; [reflexivity|intros [r Hr]; discriminate Hr]|].
  split; [|vm_compute; reflexivity].
  right. split; [reflexivity|]. intros ids' G.
  destruct (greedy_step _ _ _ _ G ltac:(discriminate)) as (p & w & i & is & S & _ & L & E & G2).
  assert (p = u "a") as ->.
  { apply (longest_entry_unique wp_vocab [] (u "abd") p (u "a") L).
    split; [discriminate|]. split; [exists (u "bd"); reflexivity|]. split; [simpl; auto|solve_max]. }
  injection S as <-.
  destruct (greedy_step _ _ _ _ G2 ltac:(discriminate)) as (p & w & j & js & S & _ & (L1 & L2 & L3 & _) & _).
  destruct p as [|c p]; [contradiction|]. cbn in L3.
  destruct L2 as [r Hr]. cbn in Hr. injection Hr as <- _.
  repeat (destruct L3 as [L3|L3]; [discriminate L3|]). destruct L3.
Qed.

(** C144: words that went before leave all later words alone exactly when the run
    over them ends at the start place. *)
Theorem C144_words_independent_iff :
  forall vocab unk ws1 ids1 m1, small vocab -> has_cont vocab ->
  (forall v, entry vocab v unk -> ~ prefix cont_prefix v) ->
  text_run vocab unk AtStart ws1 ids1 m1 ->
  ((forall ws2 ids2, wordpiece vocab unk ws2 = WpOk ids2 ->
                     wordpiece vocab unk (ws1 ++ ws2) = WpOk (ids1 ++ ids2))
   <-> m1 = AtStart).
Proof. exact independent_iff. Qed.
Print Assumptions C144_words_independent_iff.

(** "a" ends at the start place, "ax" inside a word. *)
Example C144_example :
  (forall v, entry wp_vocab v 0 -> ~ prefix cont_prefix v) /\
  text_run wp_vocab 0 AtStart [u "a"] [1]%N AtStart /\
  text_run wp_vocab 0 AtStart [u "ax"] [1; 0]%N Inside.
Proof.
  assert (L : forall r, longest_entry wp_vocab [] (u "a" ++ r) (u "a") /\ entry wp_vocab (u "a") 1 \/ r <> [] /\ r <> u "x").
  { intros r. destruct r as [|c r]; [left|].
    - split; [|solve_entry]. split; [discriminate|]. split; [exists []; reflexivity|]. split; [simpl; auto|solve_max].
    - destruct (list_N_eq_dec (c :: r) (u "x")) as [->|N0]; [left|right; split; [discriminate|exact N0]].
      split; [|solve_entry]. split; [discriminate|]. split; [exists (u "x"); reflexivity|]. split; [simpl; auto|solve_max]. }
  assert (B : forall r, r = [] \/ r = u "x" -> longest_begun wp_vocab [] (u "a" ++ r) (u "a")).
  { intros r Hr. split; [exists r; reflexivity|]. split; [exists (u "a"); split; [simpl; auto|exists []; reflexivity]|].
    intros f' F (v & V & [q Q]). cbn [app] in Q.
    destruct Hr as [-> | ->]; [exact (prefix_le _ _ F)|].
    pose proof (prefix_le _ _ F) as Ln. cbn in Ln.
    destruct (Nat.eq_dec (length f') 2) as [E2|]; [exfalso|cbn; lia].
    assert (f' = u "ax") as -> by (apply (prefix_same_len f' (u "ax") (u "ax") F); [exists []; reflexivity|exact E2]).
    cbn in V, Q. subst v. repeat (destruct V as [V|V]; [discriminate V|]). destruct V. }
  split.
  { intros v (k & Hk & Hv & _). assert (k = 0) as -> by lia. injection Hv as <-. intros [r Hr]; discriminate Hr. }
  split.
  - change [1%N] with ([1%N] ++ []). econstructor; [|constructor].
    destruct (L []) as [[L1 L2]|[Q _]]; [|contradiction].
    apply (run_piece wp_vocab 0 AtStart (u "a") (u "a") (u "a") [] 1 [] AtStart L1 L2 (B [] (or_introl eq_refl)) eq_refl).
    constructor.
  - change [1%N; 0%N] with ([1%N; 0%N] ++ []). econstructor; [|constructor].
    destruct (L (u "x")) as [[L1 L2]|[_ Q]]; [|contradiction].
    apply (run_piece wp_vocab 0 AtStart (u "ax") (u "a") (u "a") (u "x") 1 [0%N] Inside L1 L2 (B (u "x") (or_intror eq_refl)) eq_refl).
    apply run_unknown; [discriminate|].
    intros p Hp [r Hr] Hin. destruct p as [|c p]; [contradiction|]. injection Hr as <- _.
    cbn in Hin. repeat (destruct Hin as [Hin|Hin]; [discriminate Hin|]). destruct Hin.
Qed.

(** C145: the ids of every text, for every vocabulary and any settings without
    lower-casing: decode, normalize, cut into words, strip accents and split at
    punctuation as the settings say, run WordPiece over the pieces. *)
Local Open Scope N_scope.
Theorem C145_tokenize_exact : forall k v text toks never s ncs ws pss uss ids m,
  let f := v_cond v in
  t_lower f = false ->
  N.of_nat (length (v_tokens v)) <= INVALID -> v_cls v <> INVALID -> v_sep v <> INVALID ->
  Forall2 same_text (v_tokens v) toks -> has_cont toks ->
  Forall2 same_text (map (bv_token v) (specials v)) never ->
  same_text text s -> utf16 ncs (i_nfc k s) -> no_wide_special k f ncs ->
  words_of (kind_for k f) ncs ws ->
  Forall2 (looked_up (t_accents f) (t_punct f) (i_mark k) (i_nfd k) (i_nfc k) (punct_char (i_punct k)) never) ws pss ->
  Forall2 utf16 (concat pss) uss ->
  text_run toks (v_unk v) AtStart uss ids m ->
  berts_ids k v text = Ok ([v_cls v] ++ ids ++ [v_sep v]).
Proof. exact berts_ids_run. Qed.
Print Assumptions C145_tokenize_exact.

(** The steps of C145 exist for every text: what it needs of the outside world is
    that texts and tokens are UTF-8 and that normalization keeps strings well-formed. *)
Theorem C145_tokenize_total : forall k v text,
  let f := v_cond v in
  (forall us, (exists cs, utf16 cs us) -> exists cs, utf16 cs (i_nfd k us)) ->
  (forall us, (exists cs, utf16 cs us) -> exists cs, utf16 cs (i_nfc k us)) ->
  t_lower f = false -> t_rm_ctrl f = true -> t_norm_ws f = true ->
  N.of_nat (length (v_tokens v)) <= INVALID -> v_cls v <> INVALID -> v_sep v <> INVALID ->
  Forall valid_utf8 (v_tokens v) -> valid_utf8 text ->
  (exists t r, In t (v_tokens v) /\ t = u "##" ++ r) ->
  exists toks never s ncs ws pss uss ids m,
    Forall2 same_text (v_tokens v) toks /\ has_cont toks /\
    Forall2 same_text (map (bv_token v) (specials v)) never /\
    same_text text s /\ utf16 ncs (i_nfc k s) /\ no_wide_special k f ncs /\
    words_of (kind_for k f) ncs ws /\
    Forall2 (looked_up (t_accents f) (t_punct f) (i_mark k) (i_nfd k) (i_nfc k) (punct_char (i_punct k)) never) ws pss /\
    Forall2 utf16 (concat pss) uss /\
    text_run toks (v_unk v) AtStart uss ids m /\
    berts_ids k v text = Ok ([v_cls v] ++ ids ++ [v_sep v]).
Proof.
  intros k v text f HD HC HL HR HW HS Hc Hp VT VX (ct & r & Hct & Er).
  assert (A : forall l, Forall valid_utf8 l -> exists us, Forall2 same_text l us /\ Forall (fun _ => True) us).
  { intros l F. apply Forall2_exists. intros a Ha. rewrite Forall_forall in F. apply F, valid_utf8_iff in Ha as [us Hu].
    exists us. split; [apply same_text_iff; exact Hu|exact I]. }
  destruct (A _ VT) as (toks & HT & _).
  assert (VN : Forall valid_utf8 (map (bv_token v) (specials v))).
  { apply Forall_forall. intros t Ht. apply in_map_iff in Ht as (i & <- & _). unfold bv_token.
    destruct (nth_in_or_default (N.to_nat i) (v_tokens v) []) as [H| ->].
    - rewrite Forall_forall in VT. apply VT, H.
    - exists []. exists []. split; constructor. }
  destruct (A _ VN) as (never & HN & _).
  destruct (proj1 (valid_utf8_iff text) VX) as [s Hs]. apply same_text_iff in Hs.
  destruct (HC s) as [ncs NC]; [destruct Hs as (cs & _ & U); eauto|].
  pose proof (ref_words_ok (kind_for k f) ncs) as W.
  pose proof (words_scalar _ _ _ W (utf16_scalars _ _ NC)) as WS.
  destruct (Forall2_exists (looked_up (t_accents f) (t_punct f) (i_mark k) (i_nfd k) (i_nfc k) (punct_char (i_punct k)) never)
    (Forall (Forall scalar_value)) (ref_words (kind_for k f) ncs)) as (pss & LP & SP).
  { intros w Hw. rewrite Forall_forall in WS. apply looked_up_total; auto. }
  assert (HCont : has_cont toks).
  { apply In_nth_error in Hct as [j Hj]. clear -HT Hj Er.
    revert j Hj. induction HT as [|b us l ls HB HT IH]; intros j Hj; [destruct j; discriminate|].
    destruct j as [|j].
    - injection Hj as ->. exists us. split; [left; reflexivity|].
      destruct HB as (cs & (bss & F & E) & U). rewrite Er in E. cbn in E. clear Er. symmetry in E. rename E into Er.
      inversion F as [|c1 b1 cs1 bs1 C1 F1]; subst; [discriminate|].
      assert (K : forall c bs tl x, utf8_char c bs -> (bs ++ tl = 35 :: x) -> c = 35 /\ bs = [35] /\ tl = x).
      { clear. intros c bs tl x H Q. inversion H; subst; cbn in Q; injection Q; intros; subst; auto; lia. }
      cbn in Er. destruct (K _ _ _ _ C1 Er) as (-> & -> & Er1).
      inversion F1 as [|c2 b2 cs2 bs2 C2 F2]; subst; [discriminate|].
      cbn in Er1. destruct (K _ _ _ _ C2 Er1) as (-> & -> & _).
      apply utf16_enc16s in U as [_ ->]. exists (enc16s cs2). reflexivity.
    - destruct (IH j Hj) as (w & Hw & P). exists w. split; [right; exact Hw|exact P]. }
  assert (SM : small toks) by (unfold small; rewrite <- (Forall2_len _ _ _ HT); exact HS).
  destruct (Forall2_exists utf16 (fun _ => True) (concat pss)) as (uss & HU & _).
  { intros p Hp'. exists (enc16s p). split; [|exact I]. apply enc16s_spec.
    apply in_concat in Hp' as (ps & P1 & P2). rewrite Forall_forall in SP. specialize (SP ps P1).
    rewrite Forall_forall in SP. apply SP, P2. }
  destruct (text_run_total toks (v_unk v) uss SM HCont) as (ids & m & T).
  exists toks, never, s, ncs, (ref_words (kind_for k f) ncs), pss, uss, ids, m.
  assert (NW : no_wide_special k f ncs) by (apply no_wide_basic; assumption).
  repeat (split; [assumption|]).
  eapply berts_ids_run; eassumption.
Qed.
Print Assumptions C145_tokenize_total.

(** "a[combining acute]z b." with accents stripped: a, [UNK]; then b is still read
    as ##b. *)
Example C145_example :
  let v := demo_bv (make_info false true true true) in
  t_lower (v_cond v) = false /\ t_accents (v_cond v) = true /\ t_rm_ctrl (v_cond v) = true /\
  Forall valid_utf8 (v_tokens v) /\
  (exists t r, In t (v_tokens v) /\ t = u "##" ++ r) /\
  valid_utf8 ([97; 0xcc; 0x81; 122; 32; 98; 46]) /\
  (forall us, (exists cs, utf16 cs us) -> exists cs, utf16 cs (i_nfd demo_icu us)) /\
  berts_ids demo_icu v [97; 0xcc; 0x81; 122; 32; 98; 46] = Ok [0; 5; 4; 6; 8; 1].
Proof.
  cbv zeta. repeat (split; [reflexivity|]).
  split; [apply C12_hypotheses|].
  split; [exists (u "##b"), (u "b"); split; [simpl; auto 10|reflexivity]|].
  split; [apply valid_utf8_iff; exists [97; 0x301; 122; 32; 98; 46]; vm_compute; reflexivity|].
  split; [intros us H; exact H|vm_compute; reflexivity].
Qed.
