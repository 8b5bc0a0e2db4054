(** The RoBERTa tokenizer is byte-level byte-pair encoding. *)
From Coq Require Import Permutation FinFun.
From Verif Require Import Base Assoc Utf_model Utf_spec Utf_proofs Ustr_model Ustr_spec Ustr_proofs Bert_model.
From Verif Require Import Bpe_model Bpe_spec Bpe_proofs Bpe_load_proofs.
From Verif Require Import Vocab_model Vocab_spec Vocab_proofs Roberta_model Roberta_spec Roberta_proofs Rtext_spec.
Local Open Scope N_scope.

Lemma pieces_map t : pieces [] [] t = map (fun c => [c]) t.
Proof.
  assert (R : forall t, rest_pieces [] [] t = map (fun c => [c]) t).
  { intros u. induction u as [|c u IH]; [reflexivity|]. destruct u as [|d u]; [reflexivity|].
    change (rest_pieces [] [] (c :: d :: u)) with ([c] :: rest_pieces [] [] (d :: u)). rewrite IH. reflexivity. }
  destruct t as [|c [|d t]]; [reflexivity|reflexivity|].
  change (pieces [] [] (c :: d :: t)) with ([c] :: rest_pieces [] [] (d :: t)). rewrite R. reflexivity.
Qed.

Lemma combine_seq_in {A} (l : list A) : forall k c i, In (c, i) (combine l (map N.of_nat (seq k (length l)))) <->
  exists j, nth_error l j = Some c /\ i = N.of_nat (k + j).
Proof.
  induction l as [|a l IH]; intros k c i; cbn [length seq map combine In].
  - split; [tauto|]. intros ([|j] & H & _); discriminate H.
  - rewrite IH. split.
    + intros [E|(j & H & ->)]; [injection E as -> <-; exists 0%nat; split; [reflexivity|f_equal; lia]|].
      exists (S j). split; [exact H|f_equal; lia].
    + intros ([|j] & H & ->); [left; injection H as ->; repeat f_equal; lia|right; exists j; split; [exact H|f_equal; lia]].
Qed.

Lemma Forall2_nth_l {A B} (P : A -> B -> Prop) l r j x : Forall2 P l r -> nth_error l j = Some x -> exists y, nth_error r j = Some y /\ P x y.
Proof. intros F. revert j. induction F as [|a b l r Hab F IH]; intros [|j] H; try discriminate H; [injection H as ->; eexists; split; [reflexivity|exact Hab]|exact (IH j H)]. Qed.
Lemma Forall2_nth_r {A B} (P : A -> B -> Prop) l r j y : Forall2 P l r -> nth_error r j = Some y -> exists x, nth_error l j = Some x /\ P x y.
Proof. intros F. revert j. induction F as [|a b l r Hab F IH]; intros [|j] H; try discriminate H; [injection H as ->; eexists; split; [reflexivity|exact Hab]|exact (IH j H)]. Qed.

(** What is in a loaded model, including the byte-pair encoder. *)
Record parts_of (g : gguf) (ts : list (list N)) (ms : list (N * N)) (rv : rvocab) : Prop := {
  po_loaded : loaded g ts rv;
  po_bpe : exists ub unk vs, r_id_to_token (rv_voc rv) (r_unk (rv_sp rv)) = Ok ub /\ dec8 ub = Some unk /\
    NoDup (map fst vs) /\ NoDup (map snd vs) /\ load_vocab (fresh unk DZero true [] []) vs ms = (true, rv_bpe rv) /\
    forall c i, In (c, i) vs <-> exists t, utf8 c t /\ entry ts i t
}.

Lemma roberta_parts order g l lens data ts rv :
  (forall x, Permutation x (order x)) -> layout lens data ts ->
  roberta_init_vocab order g (Some (mkt 1 T_I8 lens)) (Some (mkt 1 T_I8 data)) (Some (mkt 1 T_I32 (triples l))) = Ok rv ->
  parts_of g ts (map fst l) rv.
Proof.
  intros HO LY H. assert (LD := roberta_loaded _ _ _ _ _ _ _ HO LY H). constructor; [exact LD|]. unfold roberta_init_vocab in H.
  destruct (read_vocab _ _) as [v| | |] eqn:R; try discriminate. cbn [obind] in H.
  unfold roberta_vocab_init in H.
  destruct (roberta_specials g (r_find v)) as [sp| | |] eqn:ES; try discriminate. cbn [obind] in H.
  destruct (r_id_to_token v (r_unk sp)) as [ub| | |] eqn:EU; try discriminate. cbn [obind] in H.
  destruct (dec8 ub) as [unk|] eqn:ED; [|discriminate].
  destruct (bpe_words v) as [words|] eqn:EW; [|discriminate].
  rewrite read_merges_triples in H. cbn [obind] in H.
  destruct (load_vocab (bpe_new unk DZero true) (order words) (map fst l)) as [[] b] eqn:EL; [|discriminate].
  injection H as <-. cbn [rv_voc rv_sp rv_bpe] in *.
  assert (V := ld_voc _ _ _ LD). cbn [rv_voc] in V. destruct V as (Ei & ND & _).
  unfold bpe_words in EW. rewrite Ei in EW. destruct (all_some (map dec8 ts)) as [cps|] eqn:EC; [|discriminate]. cbn [option_map] in EW.
  injection EW as <-. pose proof (dec8_all _ _ EC) as F.
  set (words := combine cps (map N.of_nat (seq 0 (length cps)))) in *.
  assert (L : length cps = length (map N.of_nat (seq 0 (length cps)))) by (rewrite map_length, seq_length; reflexivity).
  exists ub, unk, (order words). split; [exact EU|]. split; [exact ED|]. split; [|split; [|split; [exact EL|]]].
  - eapply Permutation_NoDup; [apply Permutation_map; apply HO|]. unfold words. rewrite combine_fst by exact L. eapply cps_nodup; eauto.
  - eapply Permutation_NoDup; [apply Permutation_map; apply HO|]. unfold words. rewrite combine_snd by exact L.
    apply Injective_map_NoDup; [|apply seq_NoDup]. intros x y E. apply Nat2N.inj; exact E.
  - intros c i. split.
    + intros Hc. apply (Permutation_in _ (Permutation_sym (HO words))) in Hc. apply combine_seq_in in Hc as (j & Hj & ->).
      destruct (Forall2_nth_l _ _ _ _ _ F Hj) as (t & Ht & U). exists t. split; [exact U|]. unfold entry. rewrite Nat2N.id. exact Ht.
    + intros (t & U & Ht). apply (Permutation_in _ (HO words)). apply combine_seq_in.
      destruct (Forall2_nth_r _ _ _ _ _ F Ht) as (c' & Hc & U'). exists (N.to_nat i). rewrite (utf8_fun2 _ _ _ U U').
      split; [exact Hc|lia].
Qed.

Section Loaded.
  Variable engine : list N -> list (option (nat * nat)).
  Variable matches : list N -> list (nat * nat).
  Hypothesis HE : forall s, engine s = map Some (matches s) /\ ordered 0 (length s) (matches s).
  Variable ws : N -> bool.
  Variable pick : picker.
  Hypothesis HP : removes_maximal Bpe_model.entry_lt pick.
  Variables (g : gguf) (ts : list (list N)) (ms : list (N * N)) (rv : rvocab).
  Hypothesis PO : parts_of g ts ms rv.
  Hypothesis BD : N.of_nat (length ts) < 4294967296.
  Variable tu : list N.
  Hypothesis HU : plain_token ts (r_unk (rv_sp rv)) tu.

  Lemma engine_fine : engine_ok engine.
  Proof. intros s. exists (matches s). apply HE. Qed.

  Lemma entry_fun i j t : entry ts i t -> entry ts j t -> i = j.
  Proof.
    intros H1 H2. destruct (ld_voc _ _ _ (po_loaded _ _ _ _ PO)) as (_ & ND & _). unfold entry in *.
    assert (N.to_nat i = N.to_nat j); [|lia].
    apply (proj1 (NoDup_nth_error ts) ND); [apply nth_error_Some; congruence|congruence].
  Qed.

  Lemma plain_utf8 i t : plain_token ts i t -> utf8 t t.
  Proof. intros (_ & _ & H). assert (X := seven_bit_spelling t H). unfold spelling in X. rewrite seven_bit_symbols in X by exact H. exact X. Qed.

  Lemma plain_decoded i t : plain_token ts i t -> r_id_to_token (rv_voc rv) i = Ok t.
  Proof.
    intros (H1 & H2 & H3). unfold r_id_to_token. rewrite (voc_i2t _ ts i (ld_voc _ _ _ (po_loaded _ _ _ _ PO))).
    unfold entry in H1. rewrite H1. apply decode_seven_bit. exact H3.
  Qed.

  (** One word *)
  Lemma word_encoded s r : Forall (fun c => c < 0x80) s -> encoded pick (rv_bpe rv) s r ->
    exists ids, word_ids ts ms (r_unk (rv_sp rv)) s ids /\ ids_of (rv_voc rv) r = Ok ids.
  Proof.
    intros A E. destruct (po_bpe _ _ _ _ PO) as (ub & unk & vs & EU & ED & N1 & N2 & HL & W).
    rewrite (plain_decoded _ _ HU) in EU. injection EU as <-.
    assert (UU := plain_utf8 _ _ HU).
    assert (unk = tu). { apply utf8_enc8s in UU as (SV & X). rewrite X in ED. rewrite dec8_enc8s in ED by exact SV. congruence. }
    subst unk.
    destruct (load_fresh_table tu [] [] DZero true vs ms N1 N2 _ HL) as (HR & Hlk & _).
    set (lk := bpe_token_to_id (rv_bpe rv)) in *.
    destruct (loaded_result tu [] [] DZero true vs ms (rv_bpe rv) N1 N2 HL (bpe_merge (rv_bpe rv)) lk (map byte_symbol s))
      as (out & tks & CN & F & T).
    { discriminate. }
    { exact HR. }
    { intros a b. apply Hlk. }
    { destruct HU as (_ & X & _). destruct tu; [congruence|right; right; simpl; lia]. }
    assert (Er : r = tks).
    { unfold encoded in E. assert (X := T pick always (S (4 * length s)) HP). rewrite map_length in X. specialize (X ltac:(lia)). congruence. }
    subst tks. exists out. split.
    - exists (bpe_merge (rv_bpe rv)), (start_ids lk (unk_id lk tu) true None (pieces [] [] (map byte_symbol s))).
      split; [|split; [|exact CN]].
      + intros x y rk z. unfold describes in HR. rewrite (HR x y rk z). unfold rule.
        split; intros (HK & tx & ty & X1 & X2 & X3); (split; [exact HK|]).
        * apply W in X1 as (rx & U1 & E1), X2 as (ry & U2 & E2), X3 as (rz & U3 & E3). exists rx, ry. split; [exact E1|]. split; [exact E2|].
          replace (rx ++ ry) with rz; [exact E3|]. unfold joined in U3. cbn [length skipn] in U3.
          apply utf8_enc8s in U1 as (_ & ->), U2 as (_ & ->), U3 as (_ & ->). unfold enc8s. rewrite flat_map_app. reflexivity.
        * destruct (ld_utf8 _ _ _ (po_loaded _ _ _ _ PO)) as (cps & FU).
          destruct (Forall2_nth_r _ _ _ _ _ FU X1) as (cx & _ & U1). destruct (Forall2_nth_r _ _ _ _ _ FU X2) as (cy & _ & U2).
          exists cx, cy. split; [apply W; eauto|]. split; [apply W; eauto|]. apply W. unfold joined. cbn [length skipn].
          exists (tx ++ ty). split; [|exact X3]. apply utf8_enc8s in U1 as (S1 & ->), U2 as (S2 & ->).
          apply utf8_enc8s. split; [apply Forall_app; auto|]. unfold enc8s. rewrite flat_map_app. reflexivity.
      + assert (UK : unk_id lk tu = Some (r_unk (rv_sp rv))).
        { assert (HU' := HU). destruct HU' as (X1 & X2 & _). unfold unk_id. destruct tu as [|c tu']; [congruence|].
          apply Hlk. apply W. eexists. split; [exact UU|exact X1]. }
        rewrite UK, pieces_map, map_map.
        assert (NB : forall b i, lk [byte_symbol b] = Some i <-> named_byte ts b i).
        { intros b i. rewrite (Hlk [byte_symbol b] i), W. unfold named_byte, spelling. cbn [map]. split; intros (t & X1 & X2); eauto. }
        clear - NB A. generalize (@None N) as last. induction A as [|b s Hb A IH]; intros last; [constructor|].
        cbn [map start_ids]. destruct (lk [byte_symbol b]) as [i|] eqn:EL.
        * apply by_named; [apply NB; exact EL|apply IH].
        * assert (NN : forall i, ~ named_byte ts b i) by (intros i Hi; apply NB in Hi; congruence).
          cbn [andb]. destruct last as [l|]; [destruct (N.eqb_spec l (r_unk (rv_sp rv))) as [->|Hne]|].
          -- apply by_again; [exact NN|apply IH].
          -- apply by_unknown; [exact NN|congruence|apply IH].
          -- apply by_unknown; [exact NN|congruence|apply IH].
    - destruct (voc_find _ ts (ld_voc _ _ _ (po_loaded _ _ _ _ PO)) BD) as [F1 _].
      clear - F F1 W. induction F as [|t i tks out Hti F IH]; [reflexivity|]. apply W in Hti as (raw & U & En).
      destruct (F1 i raw En) as (X1 & X2). apply utf8_enc8s in U as (_ & ->). cbn [ids_of]. rewrite X1.
      apply N.eqb_neq in X2. rewrite X2, IH. reflexivity.
  Qed.

  Lemma ids_of_app a b x y : ids_of (rv_voc rv) a = Ok x -> ids_of (rv_voc rv) b = Ok y -> ids_of (rv_voc rv) (a ++ b) = Ok (x ++ y).
  Proof.
    revert x. induction a as [|t a IH]; intros x Ha Hb; [injection Ha as <-; exact Hb|]. cbn [ids_of app] in *.
    destruct (_ =? INVALID); [discriminate|]. destruct (ids_of (rv_voc rv) a) as [x'| | |]; try discriminate. cbn [obind] in *.
    injection Ha as <-. rewrite (IH x' eq_refl Hb). reflexivity.
  Qed.

  Lemma words_encoded wss rs : Forall (Forall (fun c => c < 0x80)) wss -> Forall2 (encoded pick (rv_bpe rv)) wss rs ->
    exists idss, Forall2 (word_ids ts ms (r_unk (rv_sp rv))) wss idss /\ ids_of (rv_voc rv) (concat rs) = Ok (concat idss).
  Proof.
    intros A F. induction F as [|s r wss rs E F IH]; [exists []; split; [constructor|reflexivity]|].
    inversion A as [|? ? A1 A2]; subst. destruct (IH A2) as (idss & X1 & X2). destruct (word_encoded s r A1 E) as (ids & Y1 & Y2).
    exists (ids :: idss). split; [constructor; assumption|]. cbn [concat]. apply ids_of_app; assumption.
  Qed.

  (** The loop over the parts *)
  Definition fine_part (p : bool * list N) : Prop :=
    Forall (fun c => c < 0x80) (snd p) /\ (fst p = true -> In (snd p) ts).

  Lemma parts_encoded mask : forall parts cache, Forall fine_part parts -> csound pick (rv_bpe rv) cache ->
    exists ids, do_parts engine ws pick rv mask cache parts = Ok ids /\
      text_ids ts ms (r_unk (rv_sp rv)) mask ws matches parts ids.
  Proof.
    assert (LD := po_loaded _ _ _ _ PO).
    destruct (voc_find _ ts (ld_voc _ _ _ LD) BD) as [F1 _].
    induction parts as [|[sp p] parts IH]; intros cache A HS.
    { exists []. split; [reflexivity|constructor]. }
    inversion A as [|x y A1 A2]; subst. destruct A1 as (AS & AI). cbn [fst snd] in AS, AI. cbn [do_parts].
    set (q := match parts with (true, p0) :: _ => list_N_eqb p0 mask | _ => false end).
    rewrite from_utf8_ascii by exact AS.
    destruct (strip_ascii ws q p AS) as (kept & run & E & Ep & M1 & M2). rewrite E.
    destruct sp.
    - destruct (in_entry ts p (AI eq_refl)) as [n Hn]. destruct (F1 n p Hn) as [T V].
      rewrite T. apply N.eqb_neq in V. rewrite V.
      destruct (IH cache A2 HS) as (ids & Q & R). rewrite Q. cbn [obind].
      exists (n :: ids). split; [reflexivity|]. constructor; assumption.
    - assert (AK0 : ascii kept) by (unfold ascii; rewrite Ep in AS; apply Forall_app in AS; tauto).
      assert (EP := engine_pieces engine kept engine_fine).
      assert (AK : Forall ascii (fst (regex_split kept (engine kept)))) by (apply Forall_concat; rewrite EP; exact AK0).
      destruct (bpe_pieces_ascii pick HP (rv_bpe rv) (rv_dropout g ts rv LD) _ AK cache HS) as (rs & cache' & Q & HS' & F).
      rewrite Q. cbn [obind].
      destruct (words_encoded _ rs AK F) as (idss & W1 & W2). rewrite W2. cbn [obind].
      destruct (IH cache' A2 HS') as (ids2 & Q2 & R2). rewrite Q2. cbn [obind].
      exists (concat idss ++ ids2). split; [reflexivity|].
      assert (PI : part_ids ts ms (r_unk (rv_sp rv)) matches kept (concat idss)).
      { exists (fst (regex_split kept (engine kept))), idss. split; [|split; [exact W1|reflexivity]].
        destruct (HE kept) as (-> & O). destruct (split_loop_spec kept (matches kept) 0 O) as (ps & Es & _ & PS).
        unfold regex_split. rewrite Es. exact PS. }
      destruct q eqn:Eq.
      + apply before_mask_iff in Eq. destruct Eq as [ps ->]. eapply tx_before_mask; eauto.
      + rewrite (M2 eq_refl) in PI. apply tx_plain; [|exact PI|exact R2]. intros ps ->. unfold q in Eq.
        rewrite list_N_eqb_refl in Eq. discriminate.
  Qed.
End Loaded.

(** ** The specification determines the ids *)

Lemma pieces_once s : forall m from a b, pieces_spec s from m a -> pieces_spec s from m b -> a = b.
Proof.
  induction m as [|[st en] m IH]; intros from a b H1 H2; cbn [pieces_spec] in *.
  - destruct H1 as [(X & ->)|(X & ->)], H2 as [(Y & ->)|(Y & ->)]; try reflexivity; lia.
  - destruct H1 as (r1 & P1 & H1), H2 as (r2 & P2 & H2). rewrite (IH _ _ _ P1 P2) in *.
    destruct H1 as [(X & ->)|(X & ->)], H2 as [(Y & ->)|(Y & ->)]; try reflexivity; lia.
Qed.

Section Unique.
  Variables (ts : list (list N)) (ms : list (N * N)) (unk : N) (mask : list N) (ws : N -> bool) (matches : list N -> list (nat * nat)).
  Hypothesis ND : NoDup ts.

  Lemma entry_once i j t : entry ts i t -> entry ts j t -> i = j.
  Proof.
    intros H1 H2. unfold entry in *. assert (N.to_nat i = N.to_nat j); [|lia].
    apply (proj1 (NoDup_nth_error ts) ND); [apply nth_error_Some; congruence|congruence].
  Qed.
  Lemma named_once b i j : named_byte ts b i -> named_byte ts b j -> i = j.
  Proof. intros (t & S1 & E1) (t' & S2 & E2). rewrite (utf8_fun1 _ _ _ S2 S1) in E2. eapply entry_once; eauto. Qed.

  Lemma byte_ids_once last bs a : byte_ids ts unk last bs a -> forall b, byte_ids ts unk last bs b -> a = b.
  Proof.
    induction 1 as [last|last b i bs is H1 H2 IH|last b bs is H1 H2 H3 IH|b bs is H1 H2 IH]; intros x Hx; inversion Hx; subst.
    all: try reflexivity; try congruence; try (exfalso; match goal with H : forall i, ~ named_byte ts ?b i, K : named_byte ts ?b ?j |- _ => exact (H j K) end).
    - match goal with K : named_byte ts b ?j |- _ => rewrite (named_once b i j H1 K) in * end. f_equal. apply IH. assumption.
    - f_equal. apply IH. assumption.
    - apply IH. assumption.
  Qed.

  Lemma rules_once R R' : merge_rules ts ms R -> merge_rules ts ms R' -> forall p, R p = R' p.
  Proof.
    intros H H' [x y]. destruct (R (x, y)) as [[r z]|] eqn:E; [apply H in E; apply H' in E; congruence|].
    destruct (R' (x, y)) as [[r z]|] eqn:E'; [|reflexivity]. apply H' in E'. apply H in E'. congruence.
  Qed.

  Lemma canonical_ext R R' w o : (forall p, R p = R' p) -> canonical R w o -> canonical R' w o.
  Proof.
    intros H (C & I). split.
    - clear I. induction C as [a b (p & x & y & q & r & z & E1 & E2 & E3 & E4)| |].
      + apply Relation_Operators.rt_step. exists p, x, y, q, r, z. rewrite <- H. split; [exact E1|]. split; [exact E2|]. split; [exact E3|].
        intros a' x' y' b' r' z' W X. rewrite <- H in X. eapply E4; eauto.
      + apply Relation_Operators.rt_refl.
      + eapply Relation_Operators.rt_trans; eauto.
    - intros p x y q E. rewrite <- H. eapply I; eauto.
  Qed.

  Lemma word_ids_once w a b : word_ids ts ms unk w a -> word_ids ts ms unk w b -> a = b.
  Proof.
    intros (R & s & H1 & H2 & H3) (R' & s' & H1' & H2' & H3').
    rewrite <- (byte_ids_once _ _ _ H2 _ H2') in H3'. apply (canonical_ext R' R) in H3'; [|intros p; symmetry; eapply rules_once; eauto].
    eapply canonical_functional; eauto.
  Qed.

  Lemma part_ids_once p a b : part_ids ts ms unk matches p a -> part_ids ts ms unk matches p b -> a = b.
  Proof.
    intros (w & i & P1 & F1 & ->) (w' & i' & P2 & F2 & ->). rewrite <- (pieces_once _ _ _ _ _ P1 P2) in F2. clear P1 P2 w'. f_equal.
    revert i' F2. induction F1 as [|x y w i H F IH]; intros i' F2; inversion F2; subst; [reflexivity|].
    f_equal; [eapply word_ids_once; eauto|apply IH; assumption].
  Qed.

  Lemma run_once p k r k' r' : maximal_trailing_run ws p k r -> maximal_trailing_run ws p k' r' -> k = k'.
  Proof.
    intros (E & F & M) (E' & F' & M'). subst p. revert r' k' E' F' M'. induction r as [|c r IH] using rev_ind; intros r' k' E' F' M'.
    - rewrite app_nil_r in E'. destruct r' as [|c r'] using rev_ind; [rewrite app_nil_r in E'; exact E'|].
      exfalso. subst k. rewrite app_assoc, rev_unit in M. apply Forall_app in F' as (_ & F'). inversion F'; subst. congruence.
    - apply Forall_app in F as (F1 & F2). inversion F2; subst. destruct r' as [|c' r'] using rev_ind.
      + rewrite app_nil_r in E'. subst k'. rewrite app_assoc, rev_unit in M'. congruence.
      + rewrite !app_assoc in E'. apply app_inj_tail in E' as (E' & ->). apply Forall_app in F' as (F1' & _). exact (IH F1 r' k' E' F1' M').
  Qed.

  Lemma text_ids_once ps a : text_ids ts ms unk mask ws matches ps a -> forall b, text_ids ts ms unk mask ws matches ps b -> a = b.
  Proof.
    induction 1 as [|k i ps ids H1 H2 IH|p kept run is ps ids H1 H2 H3 IH|p is ps ids H1 H2 H3 IH]; intros x Hx; inversion Hx; subst.
    - reflexivity.
    - match goal with K : entry ts ?j k |- _ => rewrite (entry_once i j k H1 K) end. f_equal. apply IH. assumption.
    - match goal with K : maximal_trailing_run ws p ?k' ?r' |- _ => rewrite (run_once p kept run k' r' H1 K) in * end.
      f_equal; [eapply part_ids_once; eauto|apply IH; assumption].
    - exfalso. match goal with K : forall ps', (true, mask) :: ps <> (true, mask) :: ps' |- _ => exact (K ps eq_refl) end.
    - exfalso. eapply H1. reflexivity.
    - f_equal; [eapply part_ids_once; eauto|apply IH; assumption].
  Qed.
End Unique.
