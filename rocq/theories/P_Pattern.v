(** C153-C155: the words of the RoBERTa tokenizer, with its pattern. *)
From Coq Require Import Permutation.
From Verif Require Import Base Utf_model Utf_spec Utf_proofs Ustr_model Ustr_spec Ustr_proofs Bpe_model Bpe_spec Bpe_proofs.
From Verif Require Import Bert_model Bpe_load_proofs.
From Verif Require Import Vocab_model Vocab_spec Vocab_proofs Roberta_model Roberta_spec Roberta_proofs Rtext_spec Rtext_proofs P_Roberta P_Rtext.
From Verif Require Import Pattern_model Pattern_spec Pattern_proofs.
Local Open Scope N_scope.

(** * C153 *)

(** Any sequence of 16-bit units: the pattern matches everywhere, so nothing is lost, no
    piece is empty and every piece is a match. *)
Theorem C153_no_gap : forall letter digit blank us, classes letter digit blank ->
  exists ps,
    regex_split us (engine (word_pattern letter digit blank) us) = (ps, length ps) /\
    concat ps = us /\ ~ In [] ps /\
    ps = map (fun m => slice us (fst m) (snd m)) (occurrences (word_pattern letter digit blank) us).
Proof.
  intros letter digit blank us CL. destruct (pattern_split letter digit blank us CL) as (gss & C & W & O & P).
  destruct (split_loop_spec us _ 0 O) as (ps & E & EC & PS). rewrite <- (pieces_once _ _ _ _ _ P PS) in *.
  exists (map (@concat N) gss). split; [unfold regex_split, engine; rewrite E; reflexivity|]. split; [exact EC|]. split.
  - intros H. apply in_map_iff in H as (g & E0 & Hg).
    assert (NE : g <> []).
    { intros ->. clear - W Hg CL. assert (X : In [] (map (map point) gss)) by exact (in_map (map point) gss [] Hg). clear Hg.
      induction W as [|w rest ws Hw W IH]; [exact X|]. destruct X as [->|X]; [|exact (IH X)]. exact (word_nonempty letter digit blank _ _ Hw eq_refl). }
    assert (PN : forall g, In g (points us) -> g <> []).
    { clear. intros g. assert (G : forall n us, (length us <= n)%nat -> In g (points us) -> g <> []).
      { induction n as [|n IH]; intros [|c vs] L H; try (cbn in H; contradiction); [cbn in L; lia|]. rewrite points_cons in H. cbn [length] in L.
        destruct vs as [|l vs]; [destruct H as [<-|[]]; discriminate|]. cbn [length] in L.
        destruct (is_high c && is_low l); (destruct H as [<-|H]; [discriminate|]); (eapply IH; [|exact H]); cbn [length]; lia. }
      exact (G (length us) us (le_n _)). }
    destruct g as [|x g]; [congruence|]. cbn [concat] in E0. apply app_eq_nil in E0 as (-> & _).
    apply (PN []); [|reflexivity]. rewrite <- C. apply in_concat. exists ([] :: g). split; [exact Hg|left; reflexivity].
  - clear - C W CL. rewrite (occurrences_words letter digit blank us _ CL W), map_map.
    assert (G : forall gss a, points us = a ++ concat gss ->
      map (@concat N) gss = map (fun m => slice us (fst (let '(x, y) := m in (offset (points us) x, offset (points us) y)))
        (snd (let '(x, y) := m in (offset (points us) x, offset (points us) y)))) (spans (length a) (map (map point) gss))).
    { clear C W gss. induction gss as [|g gss IH]; intros a E; [reflexivity|]. cbn [map spans concat] in *. rewrite map_length. f_equal.
      - cbn [fst snd]. rewrite E. symmetry. apply slice_points. rewrite <- E. apply points_concat.
      - rewrite <- (app_length a g). apply IH. rewrite <- app_assoc. exact E. }
    specialize (G gss [] (eq_sym C)). cbn [length] in G. exact G.
Qed.
Print Assumptions C153_no_gap.

(** A text: the pieces are exactly its words. *)
Theorem C153_words_exact : forall letter digit blank cs us ws, classes letter digit blank -> utf16 cs us ->
  (words letter digit blank cs ws <->
   exists ps, regex_split us (engine (word_pattern letter digit blank) us) = (ps, length ps) /\ Forall2 utf16 ws ps).
Proof.
  intros letter digit blank cs us ws CL U. destruct (pattern_split letter digit blank us CL) as (gss & C & W & O & P).
  destruct (split_loop_spec us _ 0 O) as (ps & E & EC & PS). rewrite <- (pieces_once _ _ _ _ _ P PS) in *.
  rewrite (points_utf16 _ _ U) in W.
  assert (SC := utf16_scalars _ _ U). apply utf16_enc16s in U as (_ & Eu).
  assert (C' : concat gss = map enc16 cs) by (rewrite C, Eu; apply points_enc16, SC).
  assert (F : Forall2 utf16 (map (map point) gss) (map (@concat N) gss)).
  { clear - C' SC. revert cs C' SC. induction gss as [|g gss IH]; intros cs C' SC; [constructor|]. cbn [concat map] in *.
    assert (X : exists a b, cs = a ++ b /\ g = map enc16 a /\ concat gss = map enc16 b).
    { exists (firstn (length g) cs), (skipn (length g) cs). rewrite firstn_skipn, <- firstn_map, <- skipn_map, <- C'.
      rewrite firstn_app, Nat.sub_diag, firstn_all, skipn_app, skipn_all, Nat.sub_diag. cbn [firstn skipn app]. rewrite app_nil_r. auto. }
    destruct X as (a & b & -> & -> & E2). apply Forall_app in SC as (S1 & S2). constructor; [|exact (IH b E2 S2)].
    assert (M : map point (map enc16 a) = a).
    { rewrite <- points_enc16 by exact S1. apply points_utf16, enc16s_spec, S1. }
    rewrite M. rewrite <- flat_map_concat_map. apply enc16s_spec, S1. }
  assert (ES : regex_split us (engine (word_pattern letter digit blank) us) = (map (@concat N) gss, length (map (@concat N) gss)))
    by (unfold regex_split, engine; rewrite E; reflexivity).
  split.
  - intros W'. rewrite (words_once letter digit blank CL _ _ _ W' W). exists (map (@concat N) gss). auto.
  - intros (qs & E' & F'). rewrite ES in E'. injection E' as <-. enough (ws = map (map point) gss) by (subst; exact W).
    clear - F F'. remember (map (map point) gss) as l eqn:El. clear El. revert ws F'. induction F as [|x y l r H F IH]; intros ws F'; inversion F' as [|x' y' l' r' H' F'']; subst; [reflexivity|].
    f_equal; [|apply IH, F'']. rewrite <- (points_utf16 _ _ H'), <- (points_utf16 _ _ H). reflexivity.
Qed.
Print Assumptions C153_words_exact.

(** Every text has words, and only in one way. *)
Theorem C153_words_unique : forall letter digit blank cs, classes letter digit blank ->
  exists ws, words letter digit blank cs ws /\ concat ws = cs /\ forall ws', words letter digit blank cs ws' -> ws' = ws.
Proof.
  intros letter digit blank cs CL. destruct (words_exist letter digit blank CL cs) as (ws & W). exists ws. split; [exact W|].
  split; [exact (words_concat _ _ _ _ _ W)|]. intros ws' W'. exact (words_once letter digit blank CL _ _ _ W' W).
Qed.
Print Assumptions C153_words_unique.

(** The classes on 7-bit characters. *)
Definition az (c : N) : bool := ((65 <=? c) && (c <=? 90)) || ((97 <=? c) && (c <=? 122)).
Definition num (c : N) : bool := (48 <=? c) && (c <=? 57).
Definition white (c : N) : bool := ((9 <=? c) && (c <=? 13)) || (c =? 32).
Lemma ascii_classes : classes az num white.
Proof. split; unfold az, num, white; intros; lia. Qed.

Local Notation P7 := (word_pattern az num white).
Example C153_example :
  fst (regex_split (u "I'll say  'x2y' isn't  ") (engine P7 (u "I'll say  'x2y' isn't  "))) =
    [u "I"; u "'ll"; u " say"; u " "; u " '"; u "x"; u "2"; u "y"; u "'"; u " isn"; u "'t"; u "  "] /\
  fst (regex_split [97; 9; 0xd83d; 0xde00; 0xde00; 98] (engine P7 [97; 9; 0xd83d; 0xde00; 0xde00; 98])) =
    [[97]; [9]; [0xd83d; 0xde00; 0xde00]; [98]] /\
  utf16 [0x1f600; 98] [0xd83d; 0xde00; 98] /\ words az num white [0x1f600; 98] [[0x1f600]; [98]].
Proof.
  split; [vm_compute; reflexivity|]. split; [vm_compute; reflexivity|].
  assert (U : utf16 [0x1f600; 98] [0xd83d; 0xde00; 98]).
  { apply utf16_sup; [unfold hi_sur; lia|unfold lo_sur; lia|reflexivity|]. apply utf16_bmp; [left; lia|lia|constructor]. }
  split; [exact U|]. apply (C153_words_exact az num white _ _ _ ascii_classes U).
  exists [[0xd83d; 0xde00]; [98]]. split; [vm_compute; reflexivity|]. apply Forall2_cons; [|apply Forall2_cons; [|apply Forall2_nil]].
  - apply utf16_sup; [unfold hi_sur; lia|unfold lo_sur; lia|reflexivity|constructor].
  - apply utf16_bmp; [left; lia|lia|constructor].
Qed.

(** * C154 *)

(** The ids of a 7-bit text, with the pattern of the code: nothing is left to an engine. *)
Theorem C154_tokens_exact : forall letter digit blank trimmed pick sporder order g l lens data ts rv keep mask text,
  classes letter digit blank ->
  (forall x, Permutation x (order x)) -> layout lens data ts -> N.of_nat (length ts) < 2 ^ 32 ->
  roberta_init_vocab order g (Some (mkt 1 T_I8 lens)) (Some (mkt 1 T_I8 data)) (Some (mkt 1 T_I32 (triples l))) = Ok rv ->
  removes_maximal Bpe_model.entry_lt pick -> (forall x k, In k (sporder x) <-> In k x) ->
  Forall2 (fun k t => plain_token ts (roberta_special (rv_sp rv) k) t) roberta_keys keep ->
  entry ts (r_mask (rv_sp rv)) mask ->
  Forall (fun c => c < 0x80) text ->
  exists parts ids,
    cut keep text parts /\
    r_tokenize (engine (word_pattern letter digit blank)) trimmed pick sporder rv text = Some (Ok ids) /\
    text_tokens letter digit blank ts (map fst l) (r_unk (rv_sp rv)) mask trimmed parts ids.
Proof.
  intros letter digit blank trimmed pick sporder order g l lens data ts rv keep mask text CL HO LY B H HP HS HK HM HT.
  destruct (C133_byte_pair_encoding (engine (word_pattern letter digit blank)) (occurrences (word_pattern letter digit blank))
    trimmed pick sporder order g l lens data ts rv keep mask text HO LY B H) as (parts & ids & C & T & R); auto.
  { intros s. split; [reflexivity|]. destruct (pattern_split letter digit blank s CL) as (gss & _ & _ & O & _). exact O. }
  exists parts, ids. split; [exact C|]. split; [exact T|]. apply (text_iff letter digit blank CL); [|exact R].
  apply Forall_forall. intros s Hs. destruct (cut_parts _ _ _ C s Hs) as ((a & b & E) & _). rewrite E in HT.
  apply Forall_app in HT as (_ & HT). apply Forall_app in HT. apply HT.
Qed.
Print Assumptions C154_tokens_exact.

Theorem C154_unique : forall letter digit blank ts ms unk mask trimmed keep text ps ps' ids ids',
  classes letter digit blank -> NoDup ts -> prefix_free keep -> ~ In [] keep -> Forall (fun c => c < 0x80) text ->
  cut keep text ps -> cut keep text ps' ->
  text_tokens letter digit blank ts ms unk mask trimmed ps ids -> text_tokens letter digit blank ts ms unk mask trimmed ps' ids' -> ids = ids'.
Proof.
  intros letter digit blank ts ms unk mask trimmed keep text ps ps' ids ids' CL ND PF NE HT C C' T T'.
  rewrite <- (cut_fun keep PF NE text ps C ps' C') in T'.
  assert (A : Forall (fun s => Forall (fun c => c < 0x80) (snd s)) ps).
  { apply Forall_forall. intros s Hs. destruct (cut_parts _ _ _ C s Hs) as ((a & b & E) & _). rewrite E in HT.
    apply Forall_app in HT as (_ & HT). apply Forall_app in HT. apply HT. }
  apply (text_iff letter digit blank CL) in T; [|exact A]. apply (text_iff letter digit blank CL) in T'; [|exact A].
  exact (text_ids_once ts ms unk mask trimmed _ ND ps ids T ids' T').
Qed.
Print Assumptions C154_unique.

Example C154_example :
  r_tokenize (engine P7) is_space pick_max (fun l => l) r_demo (u "<s>ab a<mask>b!  a</s>") = Some (Ok [0; 7; 8; 9; 5; 11; 6; 8; 2]) /\
  r_tokenize (engine P7) is_space pick_max (fun l => l) r_demo (u "a!b a b") = Some (Ok [4; 11; 5; 8; 6; 5]).
Proof. split; vm_compute; reflexivity. Qed.

(** * C155 *)

(** Texts that meet at a blank are tokenized one after the other. *)
Theorem C155_words_independent : forall letter digit blank trimmed pick sporder order g l lens data ts rv keep a b,
  classes letter digit blank -> (forall c, trimmed c = true -> blank c = true) ->
  (forall x, Permutation x (order x)) -> layout lens data ts -> N.of_nat (length ts) < 2 ^ 32 ->
  roberta_init_vocab order g (Some (mkt 1 T_I8 lens)) (Some (mkt 1 T_I8 data)) (Some (mkt 1 T_I32 (triples l))) = Ok rv ->
  removes_maximal Bpe_model.entry_lt pick -> (forall x k, In k (sporder x) <-> In k x) ->
  Forall2 (fun k t => plain_token ts (roberta_special (rv_sp rv) k) t) roberta_keys keep -> prefix_free keep ->
  Forall (fun c => c < 0x80) a -> Forall (fun c => c < 0x80) b -> meet blank a b ->
  let tok := r_tokenize (engine (word_pattern letter digit blank)) trimmed pick sporder rv in
  exists ia ib, tok a = Some (Ok ia) /\ tok b = Some (Ok ib) /\ tok (a ++ b) = Some (Ok (ia ++ ib)).
Proof.
  intros letter digit blank trimmed pick sporder order g l lens data ts rv keep a b CL TR HO LY B H HP HS HK PF HA HB M tok.
  assert (HM : exists mask, entry ts (r_mask (rv_sp rv)) mask).
  { clear - HK. unfold roberta_keys in HK. do 3 (inversion HK as [|? ? ? ? _ HK']; subst; clear HK; rename HK' into HK).
    inversion HK as [|? t ? ? PT]; subst. cbn [roberta_special] in PT. destruct PT as (E & _). eauto. }
  destruct HM as (mask & HM).
  assert (X : forall t, Forall (fun c => c < 0x80) t -> exists parts ids, cut keep t parts /\ tok t = Some (Ok ids) /\
    text_tokens letter digit blank ts (map fst l) (r_unk (rv_sp rv)) mask trimmed parts ids).
  { intros t Ht. exact (C154_tokens_exact letter digit blank trimmed pick sporder order g l lens data ts rv keep mask t CL HO LY B H HP HS HK HM Ht). }
  assert (HKI : forall k, In k keep -> k <> [] /\ Forall (fun c => blank c = false) k).
  { clear - HK CL. induction HK as [|k t ks keep (E & NE & S7) HK IH]; [intros k []|]. intros k' [<-|Hk']; [|auto].
    split; [exact NE|]. eapply Forall_impl; [|exact S7]. intros c. apply (cl_visible _ _ _ CL). }
  assert (NE : ~ In [] keep) by (intros Hn; destruct (HKI [] Hn) as (Q & _); congruence).
  assert (HAB : Forall (fun c => c < 0x80) (a ++ b)) by (apply Forall_app; auto).
  destruct (X a HA) as (pa & ia & Ca & Ta & Ra). destruct (X b HB) as (pb & ib & Cb & Tb & Rb). destruct (X (a ++ b) HAB) as (pab & iab & Cab & Tab & Rab).
  exists ia, ib. split; [exact Ta|]. split; [exact Tb|]. rewrite Tab. do 2 f_equal.
  assert (ND : NoDup ts).
  { assert (LD := po_loaded _ _ _ _ (roberta_parts order g l lens data ts rv HO LY H)). destruct (ld_voc _ _ _ LD) as (_ & ND & _). exact ND. }
  assert (FO : pb = [] \/ exists q pb', pb = (false, q) :: pb' /\ q <> []).
  { destruct (first_ordinary blank keep HKI b pb Cb (proj2 M)) as [->|(q & pb' & ->)]; [auto|]. right. exists q, pb'. split; [reflexivity|].
    inversion Cb; subst. assumption. }
  apply (C154_unique letter digit blank ts (map fst l) (r_unk (rv_sp rv)) mask trimmed keep (a ++ b) pab (joined pa pb)); auto.
  - exact (cut_joined blank keep HKI a pa Ca b pb Cb (proj2 M)).
  - exact (tokens_joined letter digit blank CL ts (map fst l) (r_unk (rv_sp rv)) mask trimmed TR pa ia Ra a b pb ib (cut_concat _ _ _ Ca) (cut_concat _ _ _ Cb) FO M Rb).
Qed.
Print Assumptions C155_words_independent.

(** Without the blank the words run into each other. *)
Example C155_example :
  (forall c, is_space c = true -> white c = true) /\ meet white (u "<s>a!") (u " ab<mask>") /\
  let tok := r_tokenize (engine P7) is_space pick_max (fun l => l) r_demo in
  tok (u "<s>a!") = Some (Ok [0; 4; 11]) /\ tok (u " ab<mask>") = Some (Ok [6; 7; 9]) /\
  tok (u "<s>a! ab<mask>") = Some (Ok [0; 4; 11; 6; 7; 9]) /\
  tok (u "a") = Some (Ok [4]) /\ tok (u "b") = Some (Ok [5]) /\ tok (u "ab") = Some (Ok [7]).
Proof.
  split; [unfold is_space, white; intros; lia|]. split.
  { split; intros x y E; [|injection E as <- _; reflexivity].
    change (u "<s>a!") with ([60; 115; 62; 97] ++ [33]) in E. apply app_inj_tail in E as (_ & <-). reflexivity. }
  cbv zeta. split; [vm_compute; reflexivity|]. split; [vm_compute; reflexivity|]. split; [vm_compute; reflexivity|].
  split; [vm_compute; reflexivity|]. split; vm_compute; reflexivity.
Qed.

(** * C156 *)

(** [regex::test] says whether some part of the text is a text of the expression; for an
    empty text it is false whatever the expression. *)
Theorem C156_test_iff : forall r cs us, utf16 cs us ->
  regex_test None us = false /\
  (regex_test (Some r) us = true <-> cs <> [] /\ exists w t t', cs = w ++ t /\ accepts (length cs) r t t').
Proof.
  intros r cs us U. split; [reflexivity|]. unfold regex_test, occurrences.
  destruct cs as [|c0 cs0]; [inversion U; split; [discriminate|intros (H & _); congruence]|]. set (cs := c0 :: cs0) in *.
  transitivity (exists w t t', cs = w ++ t /\ accepts (length cs) r t t'); [|split; [intros H; split; [discriminate|exact H]|intros (_ & H); exact H]].
  destruct us as [|u0 us0]; [inversion U|]. set (us := u0 :: us0) in *. rewrite (points_utf16 _ _ U).
  replace (length (points us)) with (length cs) by (rewrite <- (points_utf16 _ _ U); apply map_length).
  destruct (find_all (length cs) r (S (length cs)) cs) as [|[x y] ms] eqn:E.
  - split; [discriminate|]. intros (w & t & t' & E' & A). exfalso. exact (nothing_found _ r _ cs (Nat.lt_succ_diag_r _) E w t t' E' A).
  - split; [intros _|reflexivity]. destruct (found_in_order r cs (S (length cs)) [] cs eq_refl (Nat.lt_succ_diag_r _)) as (_ & M).
    exists (firstn x cs), (skipn x cs), (skipn y cs). split; [symmetry; apply firstn_skipn|]. apply M. rewrite E. left. reflexivity.
Qed.
Print Assumptions C156_test_iff.

(** Every reported place is a match of the expression, in whole characters. *)
Theorem C156_places : forall r cs us x y, utf16 cs us -> In (x, y) (occurrences r us) ->
  exists a m b, cs = a ++ m ++ b /\ utf16 a (firstn x us) /\ utf16 m (slice us x y) /\ accepts (length cs) r (m ++ b) b.
Proof.
  intros r cs us x y U H. assert (SC := utf16_scalars _ _ U). assert (U' := U). apply utf16_enc16s in U' as (_ & Eu).
  assert (PT : points us = map enc16 cs) by (rewrite Eu; apply points_enc16, SC).
  unfold occurrences in H. destruct us as [|u0 us0]; [destruct H|]. set (us := u0 :: us0) in *. rewrite (points_utf16 _ _ U) in H. rewrite PT, map_length in H.
  apply in_map_iff in H as ((i & j) & E & H).
  destruct (found_in_order r cs (S (length cs)) [] cs eq_refl (Nat.lt_succ_diag_r _)) as (O & M).
  assert (A := M i j H).
  assert (IJ : (i <= j <= length cs)%nat).
  { rewrite Nat.sub_diag in O. clear - O H. revert O H. generalize (find_all (length cs) r (S (length cs)) cs) as ms. generalize 0%nat as k.
    intros k ms. revert k. induction ms as [|[p q] ms IH]; intros k O H; [destruct H|]. cbn [ordered] in O. destruct O as ((O1 & O2) & O3).
    assert (Q : forall ms k, ordered k (length cs) ms -> (k <= length cs)%nat).
    { induction ms0 as [|[? ?] ms0 IH0]; intros k0 X; cbn [ordered] in X; [exact X|]. destruct X as ((X1 & X2) & X3). apply IH0 in X3. lia. }
    destruct H as [H|H]; [injection H as <- <-; specialize (Q _ _ O3); lia|exact (IH _ O3 H)]. }
  assert (OF : forall k, offset (map enc16 cs) k = length (enc16s (firstn k cs))).
  { intros k. unfold offset, enc16s. rewrite flat_map_concat_map, firstn_map. reflexivity. }
  assert (CS : cs = firstn i cs ++ firstn (j - i) (skipn i cs) ++ skipn j cs).
  { rewrite <- (firstn_skipn i cs) at 1. f_equal. rewrite <- (firstn_skipn (j - i) (skipn i cs)) at 1. f_equal.
    rewrite skipn_skipn. f_equal. lia. }
  set (a := firstn i cs) in *. set (m := firstn (j - i) (skipn i cs)) in *. set (b := skipn j cs) in *.
  exists a, m, b. split; [exact CS|]. rewrite CS in SC. apply Forall_app in SC as (Sa & SC). apply Forall_app in SC as (Sm & Sb).
  injection E as <- <-. rewrite !OF.
  assert (FJ : firstn j cs = a ++ m).
  { unfold a, m. replace j with (i + (j - i))%nat at 1 by lia. generalize (j - i)%nat as d. clear. intros d. revert cs. induction i as [|i IH]; intros [|c cs]; cbn [firstn skipn app Nat.add]; rewrite ?firstn_nil; try reflexivity.
    f_equal. apply IH. }
  rewrite FJ. fold a. rewrite enc16s_app, app_length. rewrite Eu. rewrite CS. rewrite !enc16s_app. split; [|split].
  - rewrite firstn_app, Nat.sub_diag, firstn_all. cbn [firstn]. rewrite app_nil_r. apply enc16s_spec, Sa.
  - unfold slice. rewrite skipn_app, skipn_all, Nat.sub_diag. cbn [skipn app].
    replace (length (enc16s a) + length (enc16s m) - length (enc16s a))%nat with (length (enc16s m)) by lia.
    rewrite firstn_app, Nat.sub_diag, firstn_all. cbn [firstn]. rewrite app_nil_r. apply enc16s_spec, Sm.
  - rewrite <- CS. assert (SI : skipn i cs = m ++ b).
    { apply (app_inv_head a). rewrite <- CS. apply firstn_skipn. }
    rewrite <- SI. exact A.
Qed.
Print Assumptions C156_places.

(** Splitting loses nothing, whatever the expression. *)
Theorem C156_split_any : forall r us, exists ps,
  regex_split us (engine r us) = (ps, length ps) /\ concat ps = us /\ pieces_spec us 0 (occurrences r us) ps.
Proof.
  intros r us. destruct (split_loop_spec us (occurrences r us) 0 (occurrences_ordered r us)) as (ps & E & C & P).
  exists ps. split; [unfold regex_split, engine; rewrite E; reflexivity|]. split; [exact C|exact P].
Qed.
Print Assumptions C156_split_any.

(** "(a|c)+" *)
Definition ac : rx := Plus (Alt (lit 97) (lit 99)).
Example C156_example :
  utf16 (u "bacd") (u "bacd") /\ occurrences ac (u "bacd") = [(1, 3)]%nat /\ accepts 4 ac (u "acd") (u "d") /\
  regex_test (Some ac) (u "bacd") = true /\ regex_test (Some ac) (u "bd") = false /\
  regex_test (Some (Opt (lit 97))) (u "b") = true /\ regex_test (Some (Opt (lit 97))) [] = false.
Proof.
  split; [change (u "bacd") with [98; 97; 99; 100]; repeat (apply utf16_bmp; [left; lia|lia|]); constructor|].
  split; [vm_compute; reflexivity|]. split; [|vm_compute; repeat split; reflexivity].
  apply matches_iff. vm_compute. left. reflexivity.
Qed.
