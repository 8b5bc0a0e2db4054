(** Proofs about what is written to the log. *)
From Verif Require Import Base Utf_model Trie_model Bert_model Vocab_model Log_model Says_model.
From Verif Require Import Trie_spec Utf_spec Bert_spec Wp_spec Log_spec Says_spec.
From Verif Require Import Utf_proofs Trie_proofs Bert_proofs Wp_proofs P_Log.
Local Open Scope N_scope.

(** ** Traces and logs *)

Definition message_of (c : log_call) : message :=
  match c with
  | Plain s m => (rank s, m)
  | Formatted s m => (Z.min (guard s) (rank s), m)
  | _ => (0%Z, [])
  end.
Definition says (c : log_call) : Prop := match c with Plain _ _ | Formatted _ _ => True | _ => False end.

Lemma cut_c_str m : cut_at_nul m (c_str m).
Proof.
  induction m as [|b m (H & E)]; [split; [auto|left; reflexivity]|]. cbn [c_str].
  destruct (N.eqb_spec b 0) as [Z|Z].
  - subst b. split; [intros []|]. right. exists m. reflexivity.
  - split; [intros [K|K]; [congruence|contradiction]|].
    destruct E as [E|(r & E)]; [left|right; exists r]; cbn [app]; congruence.
Qed.

Lemma cut_fun m t : cut_at_nul m t -> t = c_str m.
Proof.
  intros (H & [->|(r & ->)]); [symmetry; apply c_str_clean, H|].
  induction t as [|b t IH]; [reflexivity|]. cbn [app c_str].
  destruct (N.eqb_spec b 0) as [Z|Z]; [elim H; left; exact Z|].
  f_equal. apply IH. intros K. apply H. right. exact K.
Qed.

Lemma escaped_fun m p : escaped m p -> fprintf m = Ok p.
Proof.
  induction 1 as [|m o H IH|b m o Hb H IH]; [reflexivity| |].
  - cbn. rewrite IH. reflexivity.
  - cbn [fprintf]. apply N.eqb_neq in Hb. rewrite Hb, IH. reflexivity.
Qed.

Lemma write_ok l m o : write (mkls l true) m = Ok o <-> exists t p, cut_at_nul m t /\ escaped t p /\ o = p ++ [10].
Proof.
  unfold write. cbn [has_file]. split.
  - intros H. destruct (fprintf_cases (c_str m)) as [(p & E & Hp)|(E & _)]; rewrite E in H; [|discriminate].
    exists (c_str m), p. split; [apply cut_c_str|]. split; [exact Hp|]. cbn in H. congruence.
  - intros (t & p & C & Hp & ->). apply cut_fun in C. subst t. rewrite (escaped_fun _ _ Hp). reflexivity.
Qed.

Lemma write_cases l m : (exists o, write (mkls l true) m = Ok o) \/ write (mkls l true) m = UB.
Proof.
  unfold write. cbn [has_file]. destruct (fprintf_cases (c_str m)) as [(p & E & Hp)|(E & _)]; rewrite E;
    [left; eexists; reflexivity|right; reflexivity].
Qed.

Lemma call_message l c : says c ->
  call (mkls l true) c = if (l <=? fst (message_of c))%Z
                         then obind (write (mkls l true) (snd (message_of c))) (fun o => Ok (mkls l true, o))
                         else Ok (mkls l true, []).
Proof.
  destruct c as [|f|s m|s m]; cbn [says]; try contradiction; intros _; cbn [call message_of fst snd].
  - unfold plain. cbn [lvl]. destruct (l <=? rank s)%Z; reflexivity.
  - unfold formatted, is_logging, plain. cbn [lvl].
    destruct (l <=? guard s)%Z eqn:E1; destruct (l <=? rank s)%Z eqn:E2;
      destruct (l <=? Z.min (guard s) (rank s))%Z eqn:E3; try reflexivity; lia.
Qed.

Lemma log_cons l r m ms o : log_of l ((r, m) :: ms) o ->
  ((r < l)%Z /\ log_of l ms o) \/
  ((l <= r)%Z /\ exists t p o', cut_at_nul m t /\ escaped t p /\ log_of l ms o' /\ o = p ++ [10] ++ o').
Proof. intros H. inversion H; subst; [left; auto|right]. split; [assumption|]. exists t, p, o0. auto. Qed.

Lemma calls_log l tr : Forall says tr ->
  (forall o, calls (mkls l true) tr = Ok (mkls l true, o) <-> log_of l (map message_of tr) o) /\
  ((exists o, calls (mkls l true) tr = Ok (mkls l true, o)) \/ calls (mkls l true) tr = UB).
Proof.
  induction 1 as [|c tr Hc H (IH & D)]; cbn [calls map].
  - split; [|left; eexists; reflexivity]. intros o. split; intros E.
    + assert (o = []) as -> by congruence. constructor.
    + inversion E. reflexivity.
  - rewrite (call_message l c Hc). destruct (message_of c) as [r m]. cbn [fst snd].
    destruct (l <=? r)%Z eqn:E.
    + destruct (write_cases l m) as [(o1 & W)|W].
      * rewrite W. cbn [obind fst snd].
        assert (W' := W). apply write_ok in W' as (t & p & C & Hp & ->).
        split.
        -- intros o. destruct D as [(o2 & D)|D]; rewrite D; cbn [obind fst snd].
           ++ split; intros K.
              ** assert (o = (p ++ [10]) ++ o2) as -> by congruence. rewrite <- app_assoc.
                 eapply log_line; [lia|exact C|exact Hp|]. apply IH, D.
              ** apply log_cons in K as [(K & _)|(_ & t' & p' & o' & C' & P' & K & ->)]; [lia|].
                 apply cut_fun in C, C'. subst t t'. apply escaped_fun in Hp, P'.
                 apply IH in K. rewrite D in K. assert (o' = o2) as -> by congruence. assert (p' = p) as -> by congruence.
                 rewrite <- app_assoc. reflexivity.
           ++ split; [discriminate|]. intros K.
              apply log_cons in K as [(K & _)|(_ & t' & p' & o' & C' & P' & K & ->)]; [lia|].
              apply IH in K. rewrite D in K. discriminate.
        -- destruct D as [(o2 & D)|D]; rewrite D; [left; eexists; reflexivity|right; reflexivity].
      * rewrite W. cbn [obind]. split; [|right; reflexivity]. intros o. split; [discriminate|]. intros K.
        apply log_cons in K as [(K & _)|(_ & t' & p' & o' & C' & P' & K & ->)]; [lia|].
        assert (X : write (mkls l true) m = Ok (p' ++ [10])) by (apply write_ok; exists t', p'; auto).
        congruence.
    + cbn [obind fst snd app]. split.
      * intros o. destruct D as [(o2 & D)|D]; rewrite D; cbn [obind fst snd].
        -- split; intros K.
           ++ assert (o = o2) as -> by congruence. apply log_skip; [lia|]. apply IH, D.
           ++ apply log_cons in K as [(_ & K)|(K & _)]; [|lia]. apply IH in K. rewrite D in K. congruence.
        -- split; [discriminate|]. intros K. apply log_cons in K as [(_ & K)|(K & _)]; [|lia]. apply IH in K. congruence.
      * destruct D as [(o2 & D)|D]; rewrite D; [left; eexists; reflexivity|right; reflexivity].
Qed.

Lemma calls_no_file l tr : Forall says tr -> calls (mkls l false) tr = Ok (mkls l false, []).
Proof.
  induction 1 as [|c tr Hc H IH]; [reflexivity|]. cbn [calls].
  assert (E : call (mkls l false) c = Ok (mkls l false, [])).
  { destruct c as [|f|s m|s m]; cbn [says] in Hc; try contradiction; cbn [call].
    - unfold plain, write. cbn [has_file]. destruct (lvl (mkls l false) <=? rank s)%Z; reflexivity.
    - unfold formatted, plain, write. cbn [has_file]. destruct (is_logging (mkls l false) (guard s)), (lvl (mkls l false) <=? rank s)%Z; reflexivity. }
  rewrite E. cbn [obind fst snd]. rewrite IH. reflexivity.
Qed.

(** A run's log at a level is decided by the messages of that level. *)
Lemma log_filter l ms o : log_of l ms o <-> log_of l (filter (fun x : message => (l <=? fst x)%Z) ms) o.
Proof.
  revert o. induction ms as [|[r m] ms IH]; intros o; [reflexivity|]. cbn [filter fst].
  destruct (l <=? r)%Z eqn:E.
  - split; intros K; apply log_cons in K as [(K & _)|(_ & t & p & o' & C & P & K & ->)]; try lia;
      (eapply log_line; [lia|exact C|exact P|apply IH; exact K]).
  - split; intros K.
    + apply log_cons in K as [(_ & K)|(K & _)]; [|lia]. apply IH, K.
    + apply log_skip; [lia|]. apply IH, K.
Qed.

Lemma log_exists l ms : (exists o, log_of l ms o) <-> Forall (fun x => (l <= fst x)%Z -> printable_text (snd x)) ms.
Proof.
  induction ms as [|[r m] ms IH]; [split; [constructor|exists []; constructor]|]. split.
  - intros (o & K). apply log_cons in K as [(L & K)|(L & t & p & o' & C & P & K & ->)].
    + constructor; [cbn [fst]; lia|]. apply IH. exists o. exact K.
    + constructor; [intros _; exists t, p; auto|]. apply IH. exists o'. exact K.
  - intros F. inversion F as [|? ? F1 F2]; subst. apply IH in F2 as (o & K). cbn [fst snd] in F1.
    destruct (Z.leb_spec l r) as [L|L].
    + destruct (F1 L) as (t & p & C & P). exists (p ++ [10] ++ o). eapply log_line; eauto.
    + exists o. apply log_skip; [lia|exact K].
Qed.

Lemma log_fun l ms o o' : log_of l ms o -> log_of l ms o' -> o = o'.
Proof.
  revert o o'. induction ms as [|[r m] ms IH]; intros o o' H H'.
  - inversion H; inversion H'; reflexivity.
  - apply log_cons in H as [(L & H)|(L & t & p & o1 & C & P & H & ->)];
    apply log_cons in H' as [(L' & H')|(L' & t' & p' & o1' & C' & P' & H' & ->)]; try lia; [apply IH; assumption|].
    apply cut_fun in C, C'. subst t t'. apply escaped_fun in P, P'.
    assert (p' = p) as -> by congruence. rewrite (IH _ _ H H'). reflexivity.
Qed.

Lemma log_app l a b oa ob : log_of l a oa -> log_of l b ob -> log_of l (a ++ b) (oa ++ ob).
Proof.
  induction 1 as [|r m ms o L H IH|r m ms t p o L C P H IH]; intros K; [exact K| |]; cbn [app].
  - apply log_skip; auto.
  - replace ((p ++ 10 :: o) ++ ob) with (p ++ [10] ++ (o ++ ob)) by (rewrite <- app_assoc; reflexivity).
    eapply log_line; eauto.
Qed.

(** A log state: with a file or without. *)
Lemma logged_says {A} st (a : A) tr : Forall says tr ->
  (forall r o, logged st (Ok (a, tr)) = Ok (r, o) -> r = a) /\
  ((exists o, logged st (Ok (a, tr)) = Ok (a, o)) \/ logged st (Ok (a, tr)) = UB).
Proof.
  intros H. destruct st as [l f]. unfold logged. cbn [obind fst snd]. destruct f.
  - destruct (calls_log l tr H) as (_ & [(o & E)|E]); rewrite E; cbn [obind fst snd]; split;
      try (intros r o' K; congruence); [left; eexists; reflexivity|right; reflexivity].
  - rewrite (calls_no_file l tr H). cbn [obind fst snd]. split; [intros; congruence|left; eexists; reflexivity].
Qed.

Lemma logged_log {A} l (a : A) tr o : Forall says tr ->
  (logged (mkls l true) (Ok (a, tr)) = Ok (a, o) <-> log_of l (map message_of tr) o).
Proof.
  intros H. unfold logged. cbn [obind fst snd]. destruct (calls_log l tr H) as (I & D).
  rewrite <- (I o). destruct D as [(o2 & E)|E]; rewrite E; cbn [obind fst snd]; split; intros K; congruence.
Qed.

(** ** WordPiece *)

Lemma dec16_utf16 us : Forall unit16 us -> forall cs, dec16 us = Some cs -> utf16 cs us.
Proof.
  intros Hu. assert (X : forall n us cs, (length us <= n)%nat -> Forall unit16 us -> dec16 us = Some cs -> utf16 cs us).
  { clear. induction n as [|n IH]; intros us cs Hn Hu H.
    - destruct us; [|simpl in Hn; lia]. cbn in H. assert (cs = []) as -> by congruence. constructor.
    - destruct us as [|c us]; [cbn in H; assert (cs = []) as -> by congruence; constructor|].
      inversion Hu as [|? ? Hc Hu']; subst. cbn [dec16] in H.
      destruct (is_low c) eqn:EL; [discriminate|]. unfold is_low in EL.
      destruct (is_high c) eqn:EH; unfold is_high in EH.
      + destruct us as [|l us]; [discriminate|]. inversion Hu' as [|? ? Hl Hu'']; subst.
        destruct (is_low l) eqn:EL'; [|discriminate]. unfold is_low in EL'.
        destruct (dec16 us) as [cs'|] eqn:D; [|discriminate]. cbn [option_map] in H.
        assert (cs = pair_value c l :: cs') as -> by congruence.
        assert (U : utf16 cs' us) by (apply IH; [simpl in Hn; lia|assumption|assumption]).
        assert (Sh : hi_sur c) by (unfold hi_sur; lia). assert (Sl : lo_sur l) by (unfold lo_sur; lia).
        eapply utf16_sup; [exact Sh|exact Sl|apply pair_value_eq; assumption|exact U].
      + destruct (dec16 us) as [cs'|] eqn:D; [|discriminate]. cbn [option_map] in H.
        assert (cs = c :: cs') as -> by congruence.
        unfold unit16 in Hc. apply utf16_bmp; [unfold scalar_value; lia|lia|].
        apply IH; [simpl in Hn; lia|assumption|exact D]. }
  intros cs. apply (X (length us)); auto.
Qed.

Lemma shown_encode us : Forall unit16 us -> shown us (encode us).
Proof.
  intros Hu. unfold encode. destruct (dec16 us) as [cs|] eqn:D.
  - left. pose proof (dec16_utf16 us Hu cs D) as U. exists cs. split; [|exact U].
    apply utf8_enc8s. split; [eapply utf16_scalars; eauto|reflexivity].
  - right. split; [|reflexivity]. intros b (cs & _ & U). apply utf16_enc16s in U as [Hs ->].
    rewrite dec16_enc16s in D by exact Hs. discriminate.
Qed.

Lemma shown_fun us b b' : shown us b -> shown us b' -> b = b'.
Proof.
  intros [H|(H & ->)] [H'|(H' & ->)]; [|elim (H' _ H)|elim (H _ H')|reflexivity].
  destruct H as (cs & A & B), H' as (cs' & A' & B').
  apply utf8_enc8s in A as [_ ->], A' as [_ ->]. apply utf16_enc16s in B as [S ->], B' as [S' E].
  f_equal. apply (f_equal dec16) in E. rewrite !dec16_enc16s in E by assumption. congruence.
Qed.

Lemma heard_line_fun h x y : heard_line h x -> heard_line h y -> x = y.
Proof.
  intros H H'. inversion H; subst; inversion H'; subst;
    match goal with A : shown ?u ?b, B : shown ?u ?b' |- _ => rewrite (shown_fun _ _ _ A B) end; reflexivity.
Qed.

Lemma Forall_app_r {A} (P : A -> Prop) a b : Forall P (a ++ b) -> Forall P a /\ Forall P b.
Proof. apply Forall_app. Qed.

Lemma wp_word_hears vocab cont : small vocab -> at_path vocab cont_prefix cont ->
  forall fuel m s, (length s < fuel)%nat -> Forall unit16 s -> exists hs m' tr,
    word_hears vocab m s hs m' /\
    wp_word_says fuel (build_trie vocab) cont (node_of vocab cont m) s = (tr, node_of vocab cont m') /\
    Forall says tr /\ Forall2 heard_line hs (map message_of tr).
Proof.
  intros Hs Hc. induction fuel as [|fuel IH]; intros m s Hl Hu; [lia|].
  cbn [wp_word_says]. destruct s as [|c s]; [exists [], m, []; split; [constructor|]; split; [reflexivity|]; split; constructor|].
  pose proof (search_place vocab m (node_of vocab cont m) (c :: s) Hs (node_of_path vocab cont m Hc)) as H.
  destruct (search_trie_substr (node_of vocab cont m) (c :: s)) as [id [[f r]|]].
  - destruct H as (S & B & p & L & E).
    assert (Hf : f <> []).
    { intros ->. destruct L as (P1 & P2 & P3 & _). destruct B as (_ & _ & B).
      specialize (B p P2 (ex_intro _ _ (conj P3 (ex_intro _ [] (eq_sym (app_nil_r _)))))).
      destruct p; [contradiction|simpl in B; lia]. }
    assert (Hlr : (length r < fuel)%nat).
    { apply (f_equal (@length N)) in S. rewrite app_length in S. destruct f; [contradiction|]. simpl in *; lia. }
    rewrite S in Hu. apply Forall_app_r in Hu as [Hf' Hr].
    destruct (IH (match r with [] => AtStart | _ => Inside end) r Hlr Hr) as (hs & m' & tr & R & Q & T & F).
    exists (Known f id :: hs), m', (Formatted Debug (u "  token: " ++ encode f ++ u " (" ++ decimal id ++ u ")") :: tr).
    split; [exact (hear_piece vocab m (c :: s) p f r id hs m' L E B S R)|].
    assert (Q' : wp_word_says fuel (build_trie vocab) cont (match r with [] => build_trie vocab | _ :: _ => cont end) r
      = (tr, node_of vocab cont m')) by (rewrite <- Q; destruct r; reflexivity).
    rewrite Q'. split; [reflexivity|]. split; [constructor; [exact I|exact T]|].
    cbn [map]. constructor; [|exact F]. apply (known_line f id (encode f)), shown_encode, Hf'.
  - exists [Unknown (c :: s)], m, [Formatted Warn (u "  unknown token: " ++ encode (c :: s))].
    split; [apply hear_unknown; [discriminate|exact H]|]. split; [reflexivity|].
    split; [constructor; [exact I|constructor]|]. cbn [map]. constructor; [|constructor].
    apply (unknown_line (c :: s) (encode (c :: s))), shown_encode, Hu.
Qed.

Lemma wp_words_hears vocab cont : small vocab -> at_path vocab cont_prefix cont ->
  forall ws m, Forall (Forall unit16) ws -> exists hs m',
    text_hears vocab m ws hs m' /\
    Forall says (wp_words_says (build_trie vocab) cont (node_of vocab cont m) ws) /\
    Forall2 heard_line hs (map message_of (wp_words_says (build_trie vocab) cont (node_of vocab cont m) ws)).
Proof.
  intros Hs Hc. induction ws as [|w ws IH]; intros m Hu; [exists [], m; split; [constructor|]; split; constructor|].
  inversion Hu as [|? ? Hw Hu']; subst.
  destruct (wp_word_hears vocab cont Hs Hc (S (length w)) m w (Nat.lt_succ_diag_r _) Hw) as (hs & m1 & tr & R & E & T & F).
  destruct (IH m1 Hu') as (hs' & m2 & R' & T' & F').
  exists (hs ++ hs'), m2. split; [econstructor; eassumption|].
  cbn [wp_words_says]. rewrite E. rewrite map_app.
  split; [apply Forall_app; auto|apply Forall2_app; assumption].
Qed.

(** What is heard goes with the ids put out, and is determined. *)
Lemma word_hears_run vocab unk m w hs m' : word_hears vocab m w hs m' -> word_run vocab unk m w (map (heard_id unk) hs) m'.
Proof. induction 1; cbn [map heard_id]; [constructor|constructor; assumption|econstructor; eassumption]. Qed.

Lemma text_hears_run vocab unk m ws hs m' : text_hears vocab m ws hs m' -> text_run vocab unk m ws (map (heard_id unk) hs) m'.
Proof. induction 1; [constructor|]. rewrite map_app. econstructor; [eapply word_hears_run|]; eassumption. Qed.

Lemma word_hears_fun vocab m s h1 m1 :
  word_hears vocab m s h1 m1 -> forall h2 m2, word_hears vocab m s h2 m2 -> h1 = h2 /\ m1 = m2.
Proof.
  induction 1 as [m|m s Hs Hn|m s p f r i hs m' L E B S R IH]; intros h2 m2 H2.
  - inversion H2 as [|? ? K|? ? p f r i hs m' L E B S R]; subst; [auto|contradiction|].
    apply longest_entry_ne in L. congruence.
  - inversion H2 as [|? ? K|? ? p f r i hs m' L E B S R]; subst; [contradiction|auto|].
    destruct L as (A & P & I & _). destruct (Hn p A P I).
  - inversion H2 as [? Z|? ? K Kn|? ? p2 f2 r2 i2 hs2 m2' L2 E2 B2 S2 R2]; subst h2 m2; try subst s.
    + apply longest_entry_ne in L. congruence.
    + destruct L as (A & P & I & _). destruct (Kn p A P I).
    + pose proof (longest_entry_unique _ _ _ _ _ L L2) as <-.
      pose proof (longest_begun_unique _ _ _ _ _ B B2) as <-.
      apply app_inv_head in S2. subst r2.
      pose proof (entry_fun _ _ _ _ E E2) as <-.
      destruct (IH _ _ R2) as [<- <-]. auto.
Qed.

Lemma text_hears_fun vocab m ws h1 m1 :
  text_hears vocab m ws h1 m1 -> forall h2 m2, text_hears vocab m ws h2 m2 -> h1 = h2 /\ m1 = m2.
Proof.
  induction 1 as [m|m w ws hs hs' m' m'' W T IH]; intros h2 m2 H2; inversion H2; subst; [auto|].
  match goal with H : word_hears _ _ w _ _ |- _ => destruct (word_hears_fun _ _ _ _ _ W _ _ H) as [<- <-] end.
  match goal with H : text_hears _ _ ws _ _ |- _ => destruct (IH _ _ H) as [<- <-] end. auto.
Qed.

(** ** Tokenizing *)

Lemma clean_says_says f C : Forall says (clean_says f C).
Proof.
  unfold clean_says. cbv zeta.
  destruct (cp_c C =? 0); [destruct (t_rm_null f); repeat constructor|].
  destruct (cp_c C =? 0xfffd); [destruct (t_rm_repl f); repeat constructor|constructor].
Qed.

Lemma clean_messages f ncs us : utf16 ncs us ->
  map message_of (flat_map (clean_says f) (each_cp false us)) = flat_map (clean_lines (t_rm_null f) (t_rm_repl f)) ncs.
Proof.
  unfold each_cp. induction 1 as [|c cs us Hs Hc H IH|c h l cs us Hh Hl E H IH]; [reflexivity| |].
  - cbn [each_cp_from]. replace (is_low c) with false by (unfold is_low, scalar_value in *; lia).
    cbn [N.eqb app]. replace (is_high c) with false by (unfold is_high, scalar_value in *; lia).
    cbn [flat_map]. rewrite map_app, IH. f_equal. unfold clean_says, clean_lines. cbn [cp_c cp_unit is_pair cp_hi cp_lo].
    destruct (c =? 0); [destruct (t_rm_null f); reflexivity|].
    destruct (c =? 0xfffd); [destruct (t_rm_repl f); reflexivity|reflexivity].
  - cbn [each_cp_from]. replace (is_low h) with false by (unfold is_low, hi_sur in *; lia).
    cbn [N.eqb app]. replace (is_high h) with true by (unfold is_high, hi_sur in *; lia).
    cbn [each_cp_from]. replace (is_low l) with true by (unfold is_low, lo_sur in *; lia).
    replace (h =? 0) with false by (symmetry; apply N.eqb_neq; unfold hi_sur in *; lia).
    cbn [flat_map]. rewrite map_app, IH. f_equal. rewrite (pair_value_eq _ _ Hh Hl), <- E.
    unfold clean_says, clean_lines. cbn [cp_c].
    replace (c =? 0) with false by (symmetry; apply N.eqb_neq; unfold hi_sur in *; lia).
    replace (c =? 0xfffd) with false by (symmetry; apply N.eqb_neq; unfold hi_sur in *; lia). reflexivity.
Qed.

Lemma id_says_says tokens id : Forall says (id_to_token_says tokens id).
Proof. unfold id_to_token_says. destruct (_ <=? _); repeat constructor. Qed.

Lemma id_messages tokens ids :
  map message_of (flat_map (id_to_token_says tokens) ids) = id_lines (length tokens) ids.
Proof.
  induction ids as [|i ids IH]; [reflexivity|]. cbn [flat_map]. rewrite map_app, IH. unfold id_lines. cbn [flat_map]. f_equal.
  unfold id_to_token_says. destruct (_ <=? _); reflexivity.
Qed.

Lemma Forall_flat_map {A B} (P : B -> Prop) (g : A -> list B) l : (forall a, Forall P (g a)) -> Forall P (flat_map g l).
Proof. intros H. induction l as [|a l IH]; [constructor|]. cbn [flat_map]. apply Forall_app; auto. Qed.

Lemma all_some_Forall2 (A B : Type) (g : A -> option B) l bs :
  Forall2 (fun a b => g a = Some b) l bs -> all_some (map g l) = Some bs.
Proof. induction 1 as [|a b l bs Hab F IH]; [reflexivity|]. simpl. rewrite Hab, IH. reflexivity. Qed.

Lemma utf16_units cs us : utf16 cs us -> Forall unit16 us.
Proof. induction 1; constructor; auto; unfold unit16, hi_sur, lo_sur in *; try lia. constructor; auto; lia. Qed.

Lemma tokenize_trace k v max text toks never s ncs ws pss uss ids m hs m' lines :
  let f := v_cond v in
  t_lower f = false ->
  N.of_nat (length (v_tokens v)) <= INVALID -> v_cls v <> INVALID -> v_sep v <> INVALID ->
  Forall2 same_text (v_tokens v) toks -> has_cont toks ->
  Forall2 same_text (map (bv_token v) (specials v)) never ->
  same_text text s -> utf16 ncs (i_nfc k s) -> no_wide_special k f ncs ->
  words_of (kind_for k f) ncs ws ->
  Forall2 (looked_up (t_accents f) (t_punct f) (i_mark k) (i_nfd k) (i_nfc k) (punct_char (i_punct k)) never) ws pss ->
  Forall2 utf16 (concat pss) uss ->
  text_run toks (v_unk v) AtStart uss ids m -> text_hears toks AtStart uss hs m' -> Forall2 heard_line hs lines ->
  exists tr,
    berts_tokenize_logged k v max text = Ok (Some ([v_cls v] ++ ids ++ [v_sep v]), tr) /\ Forall says tr /\
    map message_of tr = tokenize_messages (id_lines (length (v_tokens v)) (specials v))
      (flat_map (clean_lines (t_rm_null f) (t_rm_repl f)) ncs) lines
      (count_lines max (N.of_nat (length ids) + 2)).
Proof.
  intros f HL HS HC HSep HT HCont HN HX HN16 NW HW HPs HU HR HH HLn.
  pose proof (berts_ids_run k v text toks never s ncs ws pss uss ids m HL HS HC HSep HT HCont HN HX HN16 NW HW HPs HU HR) as HI.
  assert (B : basic_tokenize k (v_cond v) never s = uss) by (eapply basic_tokenize_looked_up; eauto).
  unfold berts_ids in HI. unfold berts_tokenize_logged.
  replace (v_cls v =? INVALID) with false in * by (symmetry; apply N.eqb_neq; exact HC).
  replace (v_sep v =? INVALID) with false in * by (symmetry; apply N.eqb_neq; exact HSep).
  assert (EI : model_tokenize k v text = Ok ids).
  { destruct (model_tokenize k v text) as [x| | |]; cbn [obind] in HI; try discriminate.
    assert (Q : [v_cls v] ++ x ++ [v_sep v] = [v_cls v] ++ ids ++ [v_sep v]) by congruence.
    apply app_inv_head in Q. apply app_inv_tail in Q. congruence. }
  assert (E1 : all_some (map from_utf8 (v_tokens v)) = Some toks).
  { apply all_some_Forall2. clear -HT. induction HT; constructor; auto. apply same_text_iff; assumption. }
  assert (E2 : all_some (map (fun id => from_utf8 (bv_token v id)) (specials v)) = Some never).
  { apply all_some_Forall2. clear -HN. revert never HN. generalize (specials v).
    intros l; induction l as [|a l IH]; intros never H; inversion H; subst; constructor; auto.
    apply same_text_iff; assumption. }
  apply same_text_iff in HX. unfold model_tokenize_logged. fold (specials v). rewrite E1, E2, HX, EI, B. cbn [obind fst snd].
  assert (SM : small toks) by (unfold small; rewrite <- (Forall2_len _ _ _ HT); exact HS).
  destruct (cont_node_exists toks HCont) as (cont & EC & PC).
  assert (HU16 : Forall (Forall unit16) uss).
  { clear -HU. induction HU; constructor; auto. eapply utf16_units; eauto. }
  destruct (wp_words_hears toks cont SM PC uss AtStart HU16) as (hs2 & m2 & H2 & T2 & F2). cbn [node_of] in T2, F2.
  destruct (text_hears_fun _ _ _ _ _ HH _ _ H2) as [<- _].
  assert (EL : map message_of (wp_words_says (build_trie toks) cont (build_trie toks) uss) = lines).
  { clear -HLn F2. revert F2. generalize (map message_of (wp_words_says (build_trie toks) cont (build_trie toks) uss)).
    revert lines HLn. induction hs as [|h hs IH]; intros lines H l' H'; inversion H; inversion H'; subst; [reflexivity|].
    f_equal; [eapply heard_line_fun; eauto|apply IH; assumption]. }
  eexists. split; [reflexivity|]. split.
  - apply Forall_app; split; [|destruct (_ <? _); repeat constructor].
    apply Forall_app; split; [apply Forall_flat_map; intros a; apply id_says_says|].
    constructor; [exact I|]. apply Forall_app; split.
    + constructor; [exact I|]. apply Forall_app; split; [|repeat constructor].
      apply Forall_flat_map; intros a; apply clean_says_says.
    + apply Forall_app; split; [|repeat constructor].
      unfold wordpiece_says. rewrite EC. constructor; [exact I|]. apply Forall_app; split; [exact T2|repeat constructor].
  - unfold basic_says, wordpiece_says, tokenize_messages. rewrite EC. rewrite !map_app, id_messages, (clean_messages _ ncs _ HN16), EL.
    fold f.
    assert (EC' : map message_of (if max <? N.of_nat (length ([v_cls v] ++ ids ++ [v_sep v]))
       then [Formatted Warn (u "Token count (" ++ decimal (N.of_nat (length ([v_cls v] ++ ids ++ [v_sep v]))) ++
               u ") is larger than the max_position_embeddings (" ++ decimal max ++
               u "). Calling eval() with this sequence will cause a failure.")]
       else []) = count_lines max (N.of_nat (length ids) + 2)).
    { unfold count_lines. replace (N.of_nat (length ([v_cls v] ++ ids ++ [v_sep v]))) with (N.of_nat (length ids) + 2)
        by (rewrite !app_length; cbn [length]; lia).
      destruct (_ <? _); reflexivity. }
    rewrite EC'. cbn [map message_of rank]. cbn [app]. repeat (rewrite <- app_assoc; cbn [app]). reflexivity.
Qed.

(** Everything heard has its line. *)
Lemma hears_lines toks uss hs m : small toks -> has_cont toks -> Forall (Forall unit16) uss ->
  text_hears toks AtStart uss hs m -> exists lines, Forall2 heard_line hs lines.
Proof.
  intros SM HC HU H. destruct (cont_node_exists toks HC) as (cont & EC & PC).
  destruct (wp_words_hears toks cont SM PC uss AtStart HU) as (hs2 & m2 & H2 & T2 & F2).
  destruct (text_hears_fun _ _ _ _ _ H _ _ H2) as [<- _]. eexists. exact F2.
Qed.

Lemma hears_total toks uss : small toks -> has_cont toks -> Forall (Forall unit16) uss ->
  exists hs m, text_hears toks AtStart uss hs m.
Proof.
  intros SM HC HU. destruct (cont_node_exists toks HC) as (cont & EC & PC).
  destruct (wp_words_hears toks cont SM PC uss AtStart HU) as (hs2 & m2 & H2 & T2 & F2). eauto.
Qed.

Lemma Forall2_units pss uss : Forall2 utf16 pss uss -> Forall (Forall unit16) uss.
Proof. induction 1; constructor; auto. eapply utf16_units; eauto. Qed.

(** ** Texts printf accepts *)

Lemma cut_app a b t : ~ In 0 a -> cut_at_nul b t -> cut_at_nul (a ++ b) (a ++ t).
Proof.
  intros Ha (H & E). split; [intros K; apply in_app_or in K; tauto|].
  destruct E as [->|(r & ->)]; [left; reflexivity|right; exists r; rewrite app_assoc; reflexivity].
Qed.

Lemma escaped_app a b p : ~ In 37 a -> escaped b p -> escaped (a ++ b) (a ++ p).
Proof.
  induction a as [|c a IH]; intros Ha H; [exact H|]. cbn [app]. constructor.
  - intros E. apply Ha. left. congruence.
  - apply IH; [intros K; apply Ha; right; exact K|exact H].
Qed.

Lemma escaped_app_inv a b p : ~ In 37 a -> escaped (a ++ b) p -> exists p', p = a ++ p' /\ escaped b p'.
Proof.
  revert p. induction a as [|c a IH]; intros p Ha H; [exists p; auto|]. cbn [app] in H.
  inversion H as [|m o H1 E1|c' m o Hc H1 E1]; subst; [elim Ha; left; reflexivity|].
  destruct (IH o) as (p' & -> & K); [intros K; apply Ha; right; exact K|exact H1|]. exists p'. auto.
Qed.

Lemma printable_app a b : harmless a -> (printable_text (a ++ b) <-> printable_text b).
Proof.
  intros (H1 & H2). split.
  - intros (t & p & C & P).
    assert (E : t = a ++ c_str b).
    { rewrite (cut_fun _ _ C). symmetry. apply cut_fun, cut_app; [exact H2|apply cut_c_str]. }
    rewrite E in P. apply escaped_app_inv in P as (p' & _ & P); [|exact H1]. exists (c_str b), p'. split; [apply cut_c_str|exact P].
  - intros (t & p & C & P). exists (a ++ t), (a ++ p). split; [apply cut_app; assumption|apply escaped_app; assumption].
Qed.

Lemma printable_free m : ~ In 37 m -> printable_text m.
Proof.
  intros H. exists (c_str m), (c_str m). split; [apply cut_c_str|].
  rewrite <- (app_nil_r (c_str m)). apply escaped_app; [|constructor].
  intros K. apply H. eapply c_str_sub; eauto.
Qed.

Lemma digits_free fuel : forall n, ~ In 37 (digits fuel n).
Proof.
  induction fuel as [|fuel IH]; intros n; [intros []|]. cbn [digits]. destruct (N.ltb_spec n 10) as [L|L].
  - intros [K|[]]. lia.
  - intros K. apply in_app_or in K as [K|[K|[]]]; [exact (IH _ K)|]. pose proof (N.mod_lt n 10). lia.
Qed.

Lemma decimal_free n : ~ In 37 (decimal n).
Proof. apply digits_free. Qed.

Lemma enc8_free c : c <> 37 -> ~ In 37 (enc8 c).
Proof.
  intros H. unfold enc8.
  pose proof (N.mod_lt c 64 ltac:(discriminate)). pose proof (N.mod_lt (c / 64) 64 ltac:(discriminate)).
  pose proof (N.mod_lt (c / 4096) 64 ltac:(discriminate)).
  destruct (N.ltb_spec c 0x80); [intros [K|[]]; congruence|].
  destruct (N.ltb_spec c 0x800); [intros [K|[K|[]]]; lia|].
  destruct (N.ltb_spec c 0x10000); [intros [K|[K|[K|[]]]]; lia|intros [K|[K|[K|[K|[]]]]]; lia].
Qed.

Lemma shown_free us b : ~ In 37 us -> shown us b -> ~ In 37 b.
Proof.
  intros H [(cs & H8 & H16)|(_ & ->)]; [|intros []].
  apply utf8_enc8s in H8 as [_ ->].
  assert (C : ~ In 37 cs).
  { clear -H H16. induction H16 as [|c cs us Hs Hc H16 IH|c h l cs us Hh Hl E H16 IH]; [intros []| |].
    - intros [K|K]; [apply H; left; exact K|]. apply IH; [intros K'; apply H; right; exact K'|exact K].
    - unfold hi_sur, lo_sur in *. intros [K|K]; [lia|]. apply IH; [intros K'; apply H; right; right; exact K'|exact K]. }
  clear H H16. induction cs as [|c cs IH]; [intros []|]. unfold enc8s. cbn [flat_map].
  intros K. apply in_app_or in K as [K|K].
  - revert K. apply enc8_free. intros E. apply C. left. exact E.
  - apply IH; [intros K'; apply C; right; exact K'|exact K].
Qed.

Lemma suffix_free (f r : list N) : ~ In 37 (f ++ r) -> ~ In 37 f /\ ~ In 37 r.
Proof. intros H. split; intros K; apply H, in_or_app; auto. Qed.

(** Pieces and remainders are parts of the strings looked up. *)
Definition heard_text (h : heard) : list N := match h with Known f _ => f | Unknown r => r end.

Lemma word_hears_free vocab m w hs m' : word_hears vocab m w hs m' -> ~ In 37 w ->
  Forall (fun h => ~ In 37 (heard_text h)) hs.
Proof.
  induction 1 as [m|m s Hs Hn|m s p f r i hs m' L E B S R IH]; intros H; [constructor|constructor; [exact H|constructor]|].
  rewrite S in H. apply suffix_free in H as (Hf & Hr). constructor; [exact Hf|apply IH, Hr].
Qed.

Lemma text_hears_free vocab m ws hs m' : text_hears vocab m ws hs m' -> Forall (fun w => ~ In 37 w) ws ->
  Forall (fun h => ~ In 37 (heard_text h)) hs.
Proof.
  induction 1 as [m|m w ws hs hs' m' m'' W T IH]; intros H; [constructor|]. inversion H; subst.
  apply Forall_app. split; [eapply word_hears_free; eauto|auto].
Qed.

Lemma app_free (a b : list N) : ~ In 37 a -> ~ In 37 b -> ~ In 37 (a ++ b).
Proof. intros A B K. apply in_app_or in K as [K|K]; auto. Qed.

Lemma lines_free hs lines : Forall2 heard_line hs lines -> Forall (fun h => ~ In 37 (heard_text h)) hs ->
  Forall (fun x => ~ In 37 (snd x)) lines.
Proof.
  induction 1 as [|h x hs lines H F IH]; intros K; [constructor|]. inversion K as [|? ? K1 K2]; subst.
  constructor; [|apply IH, K2]. inversion H as [f i b Hb|r b Hb]; subst; cbn [snd heard_text] in *.
  - pose proof (shown_free _ _ K1 Hb). pose proof (decimal_free i).
    apply app_free; [vm_compute; intuition discriminate|]. apply app_free; [assumption|].
    apply app_free; [vm_compute; intuition discriminate|]. apply app_free; [assumption|vm_compute; intuition discriminate].
  - pose proof (shown_free _ _ K1 Hb). apply app_free; [vm_compute; intuition discriminate|assumption].
Qed.
