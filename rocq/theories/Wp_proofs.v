From Verif Require Import Base Utf_model Utf_spec Utf_proofs Trie_model Trie_spec Trie_proofs
  Bert_model Bert_spec Bert_proofs Wp_spec.
Local Open Scope nat_scope.

Lemma prefix_le (p s : list N) : prefix p s -> length p <= length s.
Proof. intros [r ->]. rewrite app_length. lia. Qed.

Lemma prefix_of_le (p q s : list N) : prefix p s -> prefix q s -> length p <= length q -> prefix p q.
Proof.
  intros [a ->] [b Hb] Hl. revert q Hb Hl. induction p as [|x p IH]; intros q Hb Hl; [exists q; reflexivity|].
  destruct q as [|y q]; [simpl in Hl; lia|]. injection Hb as <- Hb.
  destruct (IH q Hb) as [r ->]; [simpl in Hl; lia|]. exists r. reflexivity.
Qed.

Lemma prefix_same_len (p q s : list N) : prefix p s -> prefix q s -> length p = length q -> p = q.
Proof.
  intros Hp Hq Hl. destruct (prefix_of_le p q s Hp Hq) as [r Hr]; [lia|].
  subst q. rewrite app_length in Hl. destruct r; [rewrite app_nil_r; reflexivity|simpl in Hl; lia].
Qed.

Lemma longest_entry_unique vocab pre s p q :
  longest_entry vocab pre s p -> longest_entry vocab pre s q -> p = q.
Proof.
  intros (A & B & C & D) (A' & B' & C' & D'). apply (prefix_same_len p q s B B').
  pose proof (D q A' B' C'). pose proof (D' p A B C). lia.
Qed.

Lemma longest_begun_unique vocab pre s p q :
  longest_begun vocab pre s p -> longest_begun vocab pre s q -> p = q.
Proof.
  intros (B & C & D) (B' & C' & D'). apply (prefix_same_len p q s B B').
  pose proof (D q B' C'). pose proof (D' p B C). lia.
Qed.

Lemma longest_entry_ne vocab pre s p : longest_entry vocab pre s p -> s <> [].
Proof. intros (A & [x ->] & _) Q. apply app_eq_nil in Q. tauto. Qed.

Lemma word_run_fun vocab unk m s ids1 m1 :
  word_run vocab unk m s ids1 m1 -> forall ids2 m2, word_run vocab unk m s ids2 m2 -> ids1 = ids2 /\ m1 = m2.
Proof.
  induction 1 as [m|m s Hs Hn|m s p f r i ids m' L E B S R IH]; intros ids2 m2 H2.
  - inversion H2 as [|? ? K|? ? p f r i ids m' L E B S R]; subst; [auto|contradiction|].
    apply longest_entry_ne in L. congruence.
  - inversion H2 as [|? ? K|? ? p f r i ids m' L E B S R]; subst; [contradiction|auto|].
    destruct L as (A & P & I & _). destruct (Hn p A P I).
  - inversion H2 as [? Z|? ? K Kn|? ? p2 f2 r2 i2 ids2' m2' L2 E2 B2 S2 R2]; subst ids2 m2; try subst s.
    + apply longest_entry_ne in L. congruence.
    + destruct L as (A & P & I & _). destruct (Kn p A P I).
    + pose proof (longest_entry_unique _ _ _ _ _ L L2) as <-.
      pose proof (longest_begun_unique _ _ _ _ _ B B2) as <-.
      apply app_inv_head in S2. subst r2.
      pose proof (entry_fun _ _ _ _ E E2) as <-.
      destruct (IH _ _ R2) as [<- <-]. auto.
Qed.

Lemma text_run_fun vocab unk m ws ids1 m1 :
  text_run vocab unk m ws ids1 m1 -> forall ids2 m2, text_run vocab unk m ws ids2 m2 -> ids1 = ids2 /\ m1 = m2.
Proof.
  induction 1 as [m|m w ws ids ids' m' m'' W T IH]; intros ids2 m2 H2; inversion H2; subst; [auto|].
  match goal with H : word_run _ _ _ w _ _ |- _ => destruct (word_run_fun _ _ _ _ _ _ W _ _ H) as [<- <-] end.
  match goal with H : text_run _ _ _ ws _ _ |- _ => destruct (IH _ _ H) as [<- <-] end. auto.
Qed.

(** The search below the node of a place. *)
Lemma search_place vocab m n s : small vocab -> at_path vocab (under m) n ->
  match search_trie_substr n s with
  | (id, Some (f, r)) => s = f ++ r /\ longest_begun vocab (under m) s f /\
      exists p, longest_entry vocab (under m) s p /\ entry vocab (under m ++ p) id
  | (_, None) => forall p, p <> [] -> prefix p s -> ~ In (under m ++ p) vocab
  end.
Proof.
  intros Hs Hn. pose proof (search_substr_vocab vocab (under m) n s Hs Hn) as H.
  destruct (search_trie_substr n s) as [id [[f r]|]]; [|apply H].
  destruct H as (S & Hf & Hr & p & P1 & P2 & P3 & P4). split; [exact S|].
  assert (Pf : f <> []) by (intros ->; destruct P2 as [x Hx]; symmetry in Hx; apply app_eq_nil in Hx; tauto).
  split.
  - split; [exists r; exact S|]. split; [exact (Hf Pf)|].
    intros f' F1 (v & V1 & V2). destruct (le_lt_dec (length f') (length f)) as [L|L]; [exact L|exfalso].
    destruct (prefix_of_le f f' s) as [t Ht]; [exists r; exact S|exact F1|lia|].
    destruct t as [|c t]; [rewrite app_nil_r in Ht; subst f'; lia|].
    subst f'. destruct F1 as [q Hq]. rewrite S, <- app_assoc in Hq. apply app_inv_head in Hq.
    apply (Hr c (t ++ q) v Hq V1). destruct V2 as [y Hy]. exists (t ++ y).
    rewrite Hy, <- !app_assoc. reflexivity.
  - exists p. split; [|exact P3]. split; [exact P1|]. split; [|split; [eapply entry_In; exact P3|exact P4]].
    destruct P2 as [x Hx]. exists (x ++ r). rewrite S, Hx, <- app_assoc. reflexivity.
Qed.

Definition node_of (vocab : list (list N)) (cont : trie_node) (m : place) : trie_node :=
  match m with AtStart => build_trie vocab | Inside => cont end.

Lemma node_of_path vocab cont m : at_path vocab cont_prefix cont -> at_path vocab (under m) (node_of vocab cont m).
Proof. destruct m; [intros _; apply at_path_root|auto]. Qed.

Lemma wp_word_run vocab cont unk : small vocab -> at_path vocab cont_prefix cont ->
  forall fuel m s, length s < fuel -> exists ids m',
    word_run vocab unk m s ids m' /\
    wp_word fuel (build_trie vocab) cont (node_of vocab cont m) unk s = Some (ids, node_of vocab cont m').
Proof.
  intros Hs Hc. induction fuel as [|fuel IH]; intros m s Hl; [lia|].
  cbn [wp_word]. destruct s as [|c s]; [exists [], m; split; [constructor|reflexivity]|].
  pose proof (search_place vocab m (node_of vocab cont m) (c :: s) Hs (node_of_path vocab cont m Hc)) as H.
  destruct (search_trie_substr (node_of vocab cont m) (c :: s)) as [id [[f r]|]].
  - destruct H as (S & B & p & L & E).
    assert (Hf : f <> []).
    { intros ->. destruct L as (P1 & P2 & P3 & _). destruct B as (_ & _ & B).
      specialize (B p P2 (ex_intro _ _ (conj P3 (ex_intro _ [] (eq_sym (app_nil_r _)))))).
      destruct p; [contradiction|simpl in B; lia]. }
    assert (Hlr : length r < fuel).
    { apply (f_equal (@length N)) in S. rewrite app_length in S. destruct f; [contradiction|]. simpl in *; lia. }
    destruct (IH (match r with [] => AtStart | _ => Inside end) r Hlr) as (ids & m' & R & Q).
    exists (id :: ids), m'. split; [exact (run_piece vocab unk m (c :: s) p f r id ids m' L E B S R)|].
    assert (Q' : wp_word fuel (build_trie vocab) cont (match r with [] => build_trie vocab | _ :: _ => cont end) unk r
      = Some (ids, node_of vocab cont m')) by (rewrite <- Q; destruct r; reflexivity).
    rewrite Q'. reflexivity.
  - exists [unk], m. split; [|reflexivity]. apply run_unknown; [discriminate|exact H].
Qed.

Lemma wp_words_run vocab cont unk : small vocab -> at_path vocab cont_prefix cont ->
  forall ws m, exists ids m', text_run vocab unk m ws ids m' /\
    wp_words (build_trie vocab) cont (node_of vocab cont m) unk ws = Some ids.
Proof.
  intros Hs Hc. induction ws as [|w ws IH]; intros m; [exists [], m; split; [constructor|reflexivity]|].
  destruct (wp_word_run vocab cont unk Hs Hc (S (length w)) m w (Nat.lt_succ_diag_r _)) as (ids & m1 & R & E).
  destruct (IH m1) as (ids' & m2 & T & E').
  exists (ids ++ ids'), m2. split; [econstructor; eassumption|].
  cbn [wp_words]. rewrite E, E'. reflexivity.
Qed.

Lemma wordpiece_run vocab unk ws : small vocab -> has_cont vocab ->
  exists ids m, text_run vocab unk AtStart ws ids m /\ wordpiece vocab unk ws = WpOk ids.
Proof.
  intros Hs Hc. destruct (cont_node_exists vocab Hc) as (cont & E & P).
  destruct (wp_words_run vocab cont unk Hs P ws AtStart) as (ids & m & T & W).
  exists ids, m. split; [exact T|]. unfold wordpiece. rewrite E. cbn [node_of] in W. rewrite W. reflexivity.
Qed.

Lemma wordpiece_exact vocab unk ws ids : small vocab -> has_cont vocab ->
  (wordpiece vocab unk ws = WpOk ids <-> exists m, text_run vocab unk AtStart ws ids m).
Proof.
  intros Hs Hc. destruct (wordpiece_run vocab unk ws Hs Hc) as (ids0 & m0 & T & E). rewrite E. split.
  - intros H. injection H as <-. exists m0. exact T.
  - intros (m & T'). destruct (text_run_fun _ _ _ _ _ _ T _ _ T') as [<- _]. reflexivity.
Qed.

Lemma text_run_app vocab unk m ws1 ws2 ids1 m1 ids2 m2 :
  text_run vocab unk m ws1 ids1 m1 -> text_run vocab unk m1 ws2 ids2 m2 ->
  text_run vocab unk m (ws1 ++ ws2) (ids1 ++ ids2) m2.
Proof.
  induction 1 as [m|m w ws ids ids' m' m'' W T IH]; intros H; [exact H|].
  cbn [app]. rewrite <- app_assoc. econstructor; [exact W|]. apply IH, H.
Qed.

(** ** Against the reference *)

Lemma greedy_nil_inv vocab pre w ids : greedy vocab pre w ids -> w = [] -> ids = [].
Proof. intros G E. destruct G as [|pre p w i ids Hp]; [reflexivity|]. apply app_eq_nil in E. tauto. Qed.

Lemma greedy_none vocab pre w ids : greedy vocab pre w ids -> ids = [] -> w = [].
Proof. intros G E. destruct G; [reflexivity|discriminate]. Qed.

Lemma word_run_nil_inv vocab unk m w ids m' : word_run vocab unk m w ids m' -> w = [] -> ids = [].
Proof.
  intros R E. destruct R as [|m s Hs|m s p f r i ids m' L]; [reflexivity|contradiction|].
  destruct (longest_entry_ne _ _ _ _ L E).
Qed.

Lemma greedy_step vocab pre s ids : greedy vocab pre s ids -> s <> [] ->
  exists p w i ids', s = p ++ w /\ ids = i :: ids' /\ longest_entry vocab pre s p /\
    entry vocab (pre ++ p) i /\ greedy vocab cont_prefix w ids'.
Proof.
  intros G Hs. destruct G as [|pre p w i ids' A B C D]; [contradiction|].
  exists p, w, i, ids'. repeat split; auto; [exists w; reflexivity|eapply entry_In; exact B].
Qed.

Lemma segments_greedy vocab pre w ids : segments vocab pre w ids -> greedy vocab pre w ids.
Proof. induction 1; econstructor; eauto. Qed.

Lemma greedy_fun vocab pre w ids1 : greedy vocab pre w ids1 -> forall ids2, greedy vocab pre w ids2 -> ids1 = ids2.
Proof.
  induction 1 as [pre|pre p w i ids A B C D IH]; intros ids2 H2.
  - apply greedy_nil_inv in H2; auto.
  - destruct (greedy_step _ _ _ _ H2) as (p2 & w2 & i2 & ids2' & E2 & -> & L2 & B2 & D2).
    { intros Q. apply app_eq_nil in Q. tauto. }
    assert (L : longest_entry vocab pre (p ++ w) p).
    { split; [exact A|]. split; [exists w; reflexivity|]. split; [eapply entry_In; exact B|exact C]. }
    pose proof (longest_entry_unique _ _ _ _ _ L L2) as <-.
    apply app_inv_head in E2. subst w2. rewrite (entry_fun _ _ _ _ B B2), (IH _ D2). reflexivity.
Qed.

(** A run that skips characters cannot put out the ids of the whole word. *)
Lemma run_covers vocab unk m w ids m' : m = Inside ->
  (forall v, entry vocab v unk -> ~ prefix cont_prefix v) ->
  word_run vocab unk m w ids m' -> forall w2, greedy vocab cont_prefix w2 ids -> length w2 <= length w.
Proof.
  intros HM HU R. induction R as [m|m s Hs Hn|m s p f r i ids m' L E B S R IH]; intros w2 G; subst m.
  - inversion G; subst; simpl; lia.
  - inversion G as [|? p w i ids' A E C D]; subst.
    destruct (HU _ E). exists p. reflexivity.
  - inversion G as [|? p2 w i2 ids2 A E2 C D]; subst.
    assert (p2 = p) as -> by (apply (app_inv_head cont_prefix); exact (entry_inj _ _ _ _ E2 E)).
    assert (P : length p <= length f).
    { destruct L as (L1 & L2 & L3 & _). destruct B as (_ & _ & B). apply (B p L2).
      exists (cont_prefix ++ p). split; [exact L3|exists []; rewrite app_nil_r; reflexivity]. }
    rewrite !app_length.
    assert (length w <= length r); [|lia].
    destruct r as [|c r]; [|apply IH; auto].
    apply word_run_nil_inv in R; [|reflexivity]. apply greedy_none in D; [|exact R]. subst w. simpl; lia.
Qed.

Lemma run_greedy_segments vocab unk m w ids m' :
  (forall v, entry vocab v unk -> ~ prefix cont_prefix v) ->
  word_run vocab unk m w ids m' -> greedy vocab (under m) w ids -> segments vocab (under m) w ids.
Proof.
  intros HU R. induction R as [m|m s Hs Hn|m s p f r i ids m' L E B S R IH]; intros G.
  - constructor.
  - destruct (greedy_step _ _ _ _ G Hs) as (p & w & i & ids' & -> & I & (L1 & L2 & L3 & _) & _).
    destruct (Hn p L1 L2 L3).
  - destruct (greedy_step _ _ _ _ G (longest_entry_ne _ _ _ _ L)) as (p2 & w & i2 & ids2 & S2 & I & L2 & E2 & G2).
    pose proof (longest_entry_unique _ _ _ _ _ L L2) as <-. injection I as <- <-.
    assert (P : length p <= length f).
    { destruct L as (L1 & L3 & L4 & _). destruct B as (_ & _ & B). apply (B p L3).
      exists (under m ++ p). split; [exact L4|exists []; rewrite app_nil_r; reflexivity]. }
    assert (Q : length w <= length r).
    { destruct r as [|c r]; [|eapply run_covers; [reflexivity|exact HU|exact R|exact G2]].
      apply word_run_nil_inv in R; [|reflexivity]. apply greedy_none in G2; [|exact R]. subst w. simpl; lia. }
    assert (f = p) as ->.
    { symmetry. apply (prefix_same_len p f s); [apply L|apply B|].
      apply (f_equal (@length N)) in S. apply (f_equal (@length N)) in S2.
      rewrite app_length in S, S2. lia. }
    pose proof S as S'. rewrite S2 in S'. apply app_inv_head in S'. subst w.
    rewrite S in *. apply seg_cons; [apply L|exact E|intros p' X Y Z; apply L; assumption| |].
    + intros c s' v Hc Hv Hp. apply app_inv_head in Hc. subst r.
      destruct B as (_ & _ & B). specialize (B (p ++ [c])). rewrite app_length in B. simpl in B.
      assert (length p + 1 <= length p); [|lia]. apply B; [exists s'; rewrite <- app_assoc; reflexivity|].
      exists v. auto.
    + destruct r as [|c r]; [|apply IH; exact G2].
      apply greedy_nil_inv in G2; [|reflexivity]. subst ids. constructor.
Qed.

Lemma word_run_nonempty vocab unk m w ids m' : word_run vocab unk m w ids m' -> ids = [] -> w = [].
Proof. intros R ->. inversion R; reflexivity. Qed.

Lemma run_inv vocab unk m w ids m' : word_run vocab unk m w ids m' ->
  (w = [] /\ ids = [] /\ m' = m) \/
  (w <> [] /\ (forall p, p <> [] -> prefix p w -> ~ In (under m ++ p) vocab) /\ ids = [unk] /\ m' = m) \/
  exists p f r i ids', longest_entry vocab (under m) w p /\ entry vocab (under m ++ p) i /\
    longest_begun vocab (under m) w f /\ w = f ++ r /\ ids = i :: ids' /\
    word_run vocab unk (match r with [] => AtStart | _ => Inside end) r ids' m'.
Proof.
  intros R. destruct R as [m|m s A B|m s p f r i ids m' L E B S R]; [left; auto|right; left; auto|].
  right; right. exists p, f, r, i, ids. auto 10.
Qed.

Lemma reference_clean vocab unk w ids : small vocab -> has_cont vocab -> unk_apart vocab unk w ->
  reference vocab unk w ids ->
  (wordpiece vocab unk [w] = WpOk ids <-> clean_word vocab w).
Proof.
  intros Hs Hc HU HR. rewrite (wordpiece_exact vocab unk [w] ids Hs Hc). split.
  - intros (m & T). inversion T as [|? ? ? ids1 ids2 m1 ? R T2]; subst. inversion T2; subst.
    rewrite app_nil_r in HR. clear T T2.
    destruct HR as [G|(-> & NG)].
    + left. exists ids1. apply (run_greedy_segments vocab unk AtStart w ids1 m (fun v H => proj1 (HU v H)) R G).
    + destruct (run_inv _ _ _ _ _ _ R) as [(_ & Q & _)|[(A & B & _ & _)|(p & f & r & i & ids' & L & E & B & S & I & R2)]].
      * discriminate Q.
      * right. split; [exact A|exact B].
      * injection I as <- <-. apply word_run_nonempty in R2; [|reflexivity]. subst r.
        destruct (HU _ E) as [_ K]. cbn [under app] in K, E, L.
        assert (p = w) as -> by (apply K, L).
        destruct (NG [unk]). rewrite <- (app_nil_r w).
        apply greedy_cons; [apply L|exact E| |constructor].
        intros p' A1 A2 A3. rewrite app_nil_r in A2. apply L; assumption.
  - intros [(ids0 & Sg)|(Hne & Hn)].
    + pose proof (wordpiece_greedy vocab unk [w] [ids0] Hs Hc) as W.
      specialize (W (Forall2_cons _ _ Sg (Forall2_nil _))). cbn [concat] in W. rewrite app_nil_r in W.
      apply (wordpiece_exact vocab unk [w] ids0 Hs Hc) in W.
      apply segments_greedy in Sg. destruct HR as [G|(_ & NG)]; [|destruct (NG _ Sg)].
      rewrite (greedy_fun _ _ _ _ G _ Sg). exact W.
    + assert (NG : forall ids', ~ greedy vocab [] w ids').
      { intros ids' G. destruct (greedy_step vocab [] w ids' G Hne) as (p & _ & _ & _ & _ & _ & (L1 & L2 & L3 & _) & _).
        exact (Hn p L1 L2 L3). }
      destruct HR as [G|(-> & _)]; [destruct (NG _ G)|].
      exists AtStart. change [unk] with ([unk] ++ []). econstructor; [|constructor].
      apply run_unknown; assumption.
Qed.

(** ** Whole texts *)
Local Open Scope N_scope.

Lemma basic_word_looked_up k f never w us ps :
  t_lower f = false -> utf16 w us ->
  looked_up (t_accents f) (t_punct f) (i_mark k) (i_nfd k) (i_nfc k) (punct_char (i_punct k)) never w ps ->
  Forall (Forall scalar_value) ps /\ basic_word k f never us = map enc16s ps.
Proof.
  intros HL HU (us' & HU' & H). pose proof (utf16_functional _ _ _ HU' HU) as ->.
  unfold basic_word. rewrite HL.
  destruct (mem_word us never) eqn:M.
  - destruct H as [(_ & ->)|(N & _)]; [|apply mem_word_iff in M; tauto].
    apply utf16_enc16s in HU as [Hs ->]. split; [constructor; [exact Hs|constructor]|reflexivity].
  - destruct H as [(I & _)|(_ & w' & A & P)]; [apply mem_word_iff in I; congruence|].
    assert (W2 : Forall scalar_value w' /\ (if t_accents f then strip_accents k us else us) = enc16s w').
    { destruct (t_accents f).
      - destruct A as (d & s & D1 & D2 & D3). apply utf16_enc16s in D3 as [Hs E]. split; [exact Hs|].
        unfold strip_accents. rewrite (codepoints_utf16 true _ _ D1).
        apply utf16_enc16s in D2 as [Hd ->]. rewrite of_cps_enc by exact Hd. exact E.
      - subst w'. apply utf16_enc16s in HU. exact HU. }
    destruct W2 as [Hs E]. cbv zeta. rewrite E.
    destruct (t_punct f).
    + rewrite codepoints_enc16s by exact Hs. rewrite punct_split_ref by exact Hs.
      pose proof (punct_pieces_unique _ _ _ _ (ref_punct_ok _ w' [] (Forall_nil _)) P) as Q.
      rewrite Q. split; [|reflexivity]. apply Forall_concat_iff. destruct P as (-> & _). exact Hs.
    + subst ps. split; [constructor; [exact Hs|constructor]|reflexivity].
Qed.

(** The strings that reach WordPiece. *)
Lemma basic_tokenize_looked_up k f never s ncs ws pss uss :
  t_lower f = false -> utf16 ncs (i_nfc k s) -> no_wide_special k f ncs ->
  words_of (kind_for k f) ncs ws ->
  Forall2 (looked_up (t_accents f) (t_punct f) (i_mark k) (i_nfd k) (i_nfc k) (punct_char (i_punct k)) never) ws pss ->
  Forall2 utf16 (concat pss) uss ->
  basic_tokenize k f never s = uss.
Proof.
  intros HL HN16 NW HW HPs HU.
  unfold basic_tokenize. destruct (utf16_reads _ _ HN16) as (is & R & Hf & Hm).
    pose proof (utf16_scalars _ _ HN16) as Hs.
    assert (Hu : Forall unit16 (i_nfc k s)).
    { clear -HN16. induction HN16; constructor; auto; unfold unit16, hi_sur, lo_sur in *; try lia. constructor; auto; lia. }
    rewrite (clean_words k f _ is Hu R) by (rewrite Hm; exact NW). rewrite Hm.
    rewrite (words_of_unique _ _ _ _ (ref_words_ok _ _) HW).
    assert (WS : Forall (Forall scalar_value) ws) by (eapply words_scalar; eauto).
    clear -HPs WS HL HU. revert uss HU. induction HPs as [|w ps ws pss H F IH]; intros uss HU; [inversion HU; reflexivity|].
    inversion WS as [|? ? W1 W2]; subst. cbn [concat] in HU. apply Forall2_app_inv_l in HU as (u1 & u2 & U1 & U2 & ->).
    cbn [map flat_map]. rewrite (IH W2 u2 U2). f_equal.
    destruct (basic_word_looked_up k f never w (enc16s w) ps HL (enc16s_spec w W1) H) as [_ ->].
    clear -U1. induction U1 as [|p u ps us P F IH]; [reflexivity|]. cbn [map]. rewrite IH.
    apply utf16_enc16s in P as [_ ->]. reflexivity.
Qed.

Lemma berts_ids_run k v text toks never s ncs ws pss uss ids m :
  let f := v_cond v in
  t_lower f = false ->
  N.of_nat (length (v_tokens v)) <= INVALID -> v_cls v <> INVALID -> v_sep v <> INVALID ->
  Forall2 same_text (v_tokens v) toks -> has_cont toks ->
  Forall2 same_text (map (bv_token v) (specials v)) never ->
  same_text text s -> utf16 ncs (i_nfc k s) -> no_wide_special k f ncs ->
  words_of (kind_for k f) ncs ws ->
  Forall2 (looked_up (t_accents f) (t_punct f) (i_mark k) (i_nfd k) (i_nfc k) (punct_char (i_punct k)) never) ws pss ->
  Forall2 utf16 (concat pss) uss ->
  text_run toks (v_unk v) AtStart uss ids m ->
  berts_ids k v text = Ok ([v_cls v] ++ ids ++ [v_sep v]).
Proof.
  intros f HL HS HC HSep HT HCont HN HX HN16 NW HW HPs HU HR.
  unfold berts_ids.
  replace (v_cls v =? INVALID) with false by (symmetry; apply N.eqb_neq; exact HC).
  replace (v_sep v =? INVALID) with false by (symmetry; apply N.eqb_neq; exact HSep).
  unfold model_tokenize. fold (specials v).
  assert (A : forall (A B : Type) (g : A -> option B) l bs, Forall2 (fun a b => g a = Some b) l bs -> all_some (map g l) = Some bs).
  { clear. induction 1 as [|a b l bs Hab F IH]; [reflexivity|]. simpl. rewrite Hab, IH. reflexivity. }
  assert (E1 : all_some (map from_utf8 (v_tokens v)) = Some toks).
  { apply A. clear -HT. induction HT; constructor; auto. apply same_text_iff; assumption. }
  assert (E2 : all_some (map (fun id => from_utf8 (bv_token v id)) (specials v)) = Some never).
  { apply A. clear -HN. revert never HN. generalize (specials v). intros l; induction l as [|a l IH]; intros never H; inversion H; subst; constructor; auto.
    apply same_text_iff; assumption. }
  apply same_text_iff in HX. rewrite E1, E2, HX.
  assert (SM : small toks) by (unfold small; rewrite <- (Forall2_len _ _ _ HT); exact HS).
  assert (B : basic_tokenize k (v_cond v) never s = uss) by (eapply basic_tokenize_looked_up; eauto).
  rewrite B.
  rewrite (proj2 (wordpiece_exact toks (v_unk v) uss ids SM HCont) (ex_intro _ m HR)). reflexivity.
Qed.

(** Every word, text, and therefore every call has such a run. *)
Lemma looked_up_total accents split mark nfd nfc punct never w :
  (forall us, (exists cs, utf16 cs us) -> exists cs, utf16 cs (nfd us)) ->
  (forall us, (exists cs, utf16 cs us) -> exists cs, utf16 cs (nfc us)) ->
  Forall scalar_value w -> exists ps, looked_up accents split mark nfd nfc punct never w ps /\ Forall (Forall scalar_value) ps.
Proof.
  intros HD HC Hw. pose proof (enc16s_spec w Hw) as U.
  destruct (in_dec list_N_eq_dec (enc16s w) never) as [I|I].
  { exists [w]. split; [exists (enc16s w); auto|constructor; auto]. }
  assert (W : exists w', (if accents then stripped mark nfd nfc (enc16s w) w' else w' = w) /\ Forall scalar_value w').
  { destruct accents; [|exists w; auto].
    destruct (HD (enc16s w) (ex_intro _ w U)) as [d D].
    assert (F : Forall scalar_value (filter (fun c => negb (mark c)) d)).
    { apply utf16_scalars in D. rewrite Forall_forall in D |- *. intros x Hx. apply filter_In in Hx. apply D, Hx. }
    destruct (HC _ (ex_intro _ _ (enc16s_spec _ F))) as [w' W'].
    exists w'. split; [exists d, (enc16s (filter (fun c => negb (mark c)) d)); auto using enc16s_spec|].
    eapply utf16_scalars; eauto. }
  destruct W as (w' & W & S).
  destruct split.
  - pose proof (ref_punct_ok punct w' [] (Forall_nil _)) as P.
    exists (ref_punct punct [] w'). split.
    + exists (enc16s w). split; [exact U|]. right. split; [exact I|]. exists w'. auto.
    + apply Forall_concat_iff. destruct P as (-> & _). exact S.
  - exists [w']. split; [|constructor; auto].
    exists (enc16s w). split; [exact U|]. right. split; [exact I|]. exists w'. auto.
Qed.

Lemma text_run_total vocab unk ws : small vocab -> has_cont vocab ->
  exists ids m, text_run vocab unk AtStart ws ids m.
Proof. intros A B. destruct (wordpiece_run vocab unk ws A B) as (ids & m & H & _). eauto. Qed.

Lemma Forall2_exists {A B} (R : A -> B -> Prop) (Q : B -> Prop) l :
  (forall a, In a l -> exists b, R a b /\ Q b) -> exists bs, Forall2 R l bs /\ Forall Q bs.
Proof.
  induction l as [|a l IH]; intros H; [exists []; auto|].
  destruct (H a (or_introl eq_refl)) as (b & Hb & Qb).
  destruct IH as (bs & F & G); [intros x Hx; apply H; right; exact Hx|]. exists (b :: bs). auto.
Qed.

(** ** When words are independent *)
Local Open Scope nat_scope.

Lemma place_differs vocab unk : small vocab -> has_cont vocab ->
  (forall v, entry vocab v unk -> ~ prefix cont_prefix v) ->
  exists w, forall ids1 m1 ids2 m2, word_run vocab unk AtStart w ids1 m1 -> word_run vocab unk Inside w ids2 m2 -> ids1 <> ids2.
Proof.
  intros Hs Hc HU.
  assert (K : forall n x, length x < n -> x <> [] -> In (cont_prefix ++ x) vocab ->
    exists w, forall ids1 m1 ids2 m2, word_run vocab unk AtStart w ids1 m1 -> word_run vocab unk Inside w ids2 m2 -> ids1 <> ids2).
  { induction n as [|n IH]; intros x Hl Hx Hi; [lia|].
    destruct (list_eq_dec list_N_eq_dec (filter (fun v => if prefix_dec (cont_prefix ++ []) v then Nat.ltb 2 (length v) && Nat.ltb (length v) (2 + length x) else false) vocab) []) as [E|E].
    - exists x. intros ids1 m1 ids2 m2 R1 R2 <-.
      destruct (run_inv _ _ _ _ _ _ R2) as [(Q & _)|[(_ & B & _)|(p1 & f1 & r1 & i1 & is1 & L1 & E1 & _ & _ & I1 & _)]].
      + contradiction.
      + exact (B x Hx (ex_intro _ [] (eq_sym (app_nil_r x))) Hi).
      + destruct (run_inv _ _ _ _ _ _ R1) as [(Q & _)|[(_ & _ & I2 & _)|(p2 & f2 & r2 & i2 & is2 & L2 & E2 & _ & _ & I2 & _)]].
        * contradiction.
        * rewrite I2 in I1. injection I1 as <- _. apply (HU _ E1). exists p1. reflexivity.
        * rewrite I2 in I1. injection I1 as -> _.
          pose proof (entry_inj _ _ _ _ E1 E2) as Q. cbn [under app] in Q.
          cut (In (cont_prefix ++ p1) []); [intros []|].
          rewrite <- E. apply filter_In. split; [eapply entry_In; exact E1|].
          destruct (prefix_dec (cont_prefix ++ []) (cont_prefix ++ p1)) as [_|N0]; [|destruct N0; exists p1; reflexivity].
          destruct L1 as (Z & _). destruct L2 as (_ & P2 & _). apply prefix_le in P2.
          rewrite <- Q in P2. rewrite app_length in *. cbn [length cont_prefix app] in *.
          destruct p1; [contradiction|]. cbn [length] in *.
          apply andb_true_intro; split; apply Nat.ltb_lt; lia.
    - destruct (filter _ vocab) as [|v l] eqn:F; [congruence|].
      assert (V : In v (v :: l)) by (left; reflexivity). rewrite <- F in V. apply filter_In in V as [V1 V2].
      destruct (prefix_dec (cont_prefix ++ []) v) as [[y Hy]|]; [|discriminate].
      rewrite app_nil_r in Hy. subst v. apply andb_prop in V2 as [A B]. apply Nat.ltb_lt in A, B.
      rewrite app_length in A, B. cbn [length cont_prefix] in A, B.
      apply (IH y); [lia|intros ->; simpl in A; lia|exact V1]. }
  destruct Hc as (v & Hv & [x ->]). destruct x as [|c x].
  2: { exact (K (S (length (c :: x))) (c :: x) (Nat.lt_succ_diag_r _) ltac:(discriminate) Hv). }
  destruct (list_eq_dec list_N_eq_dec (filter (fun v => if prefix_dec cont_prefix v then Nat.ltb 2 (length v) else false) vocab) []) as [E|E].
  - exists cont_prefix. intros ids1 m1 ids2 m2 R1 R2 <-. rewrite app_nil_r in Hv.
    destruct (run_inv _ _ _ _ _ _ R2) as [(Q & _)|[(_ & B & I1 & _)|(p1 & f1 & r1 & i1 & is1 & L1 & E1 & _ & _ & I1 & _)]]; [discriminate Q| |].
    + destruct (run_inv _ _ _ _ _ _ R1) as [(Q & _)|[(_ & B2 & _)|(p2 & f2 & r2 & i2 & is2 & L2 & E2 & _ & _ & I2 & _)]]; [discriminate Q| |].
      * apply (B2 cont_prefix); [discriminate|exists []; reflexivity|exact Hv].
      * rewrite I1 in I2. injection I2 as <- _. destruct L2 as (_ & P & _ & M).
        assert (p2 = cont_prefix) as ->.
        { apply (prefix_same_len p2 cont_prefix cont_prefix P); [exists []; reflexivity|].
          apply Nat.le_antisymm; [apply prefix_le, P|]. apply M; [discriminate|exists []; reflexivity|exact Hv]. }
        apply (HU _ E2). exists []. reflexivity.
    + cut (In (cont_prefix ++ p1) []); [intros []|].
      rewrite <- E. apply filter_In. split; [eapply entry_In; exact E1|].
      destruct (prefix_dec cont_prefix (cont_prefix ++ p1)) as [_|N0]; [|destruct N0; exists p1; reflexivity].
      destruct L1 as (Z & _). rewrite app_length. destruct p1; [contradiction|]. reflexivity.
  - destruct (filter _ vocab) as [|v l] eqn:F; [congruence|].
    assert (V : In v (v :: l)) by (left; reflexivity). rewrite <- F in V. apply filter_In in V as [V1 V2].
    destruct (prefix_dec cont_prefix v) as [[y Hy]|]; [|discriminate]. subst v.
    apply Nat.ltb_lt in V2. rewrite app_length in V2. cbn [length cont_prefix] in V2.
    apply (K (S (length y)) y); [lia|intros ->; simpl in V2; lia|exact V1].
Qed.

Lemma independent_iff vocab unk ws1 ids1 m1 : small vocab -> has_cont vocab ->
  (forall v, entry vocab v unk -> ~ prefix cont_prefix v) ->
  text_run vocab unk AtStart ws1 ids1 m1 ->
  ((forall ws2 ids2, wordpiece vocab unk ws2 = WpOk ids2 -> wordpiece vocab unk (ws1 ++ ws2) = WpOk (ids1 ++ ids2))
   <-> m1 = AtStart).
Proof.
  intros Hs Hc HU T. split.
  - intros H. destruct m1; [reflexivity|exfalso].
    destruct (place_differs vocab unk Hs Hc HU) as (w & D).
    destruct (cont_node_exists vocab Hc) as (cont & _ & P).
    destruct (wp_word_run vocab cont unk Hs P (S (length w)) AtStart w (Nat.lt_succ_diag_r _)) as (a & ma & Ra & _).
    destruct (wp_word_run vocab cont unk Hs P (S (length w)) Inside w (Nat.lt_succ_diag_r _)) as (b & mb & Rb & _).
    apply (D _ _ _ _ Ra Rb).
    assert (Ta : wordpiece vocab unk [w] = WpOk a).
    { apply wordpiece_exact; auto. exists ma. rewrite <- (app_nil_r a). econstructor; [exact Ra|constructor]. }
    apply H in Ta. apply wordpiece_exact in Ta; auto. destruct Ta as (m & Ta).
    assert (Tb : text_run vocab unk Inside [w] (b ++ []) mb) by (econstructor; [exact Rb|constructor]).
    destruct (text_run_fun _ _ _ _ _ _ Ta _ _ (text_run_app _ _ _ _ _ _ _ _ _ T Tb)) as [E _].
    apply app_inv_head in E. rewrite app_nil_r in E. exact E.
  - intros -> ws2 ids2 H. apply wordpiece_exact in H; auto. destruct H as (m & H).
    apply wordpiece_exact; auto. exists m. eapply text_run_app; eassumption.
Qed.
