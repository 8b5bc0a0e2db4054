(** Proofs about code point iteration and the encodings. *)
From Verif Require Import Base Utf_model Utf_spec.
Open Scope N_scope.

Ltac Zify.zify_post_hook ::= Z.div_mod_to_equations.

Lemma lor_shift a b n : b < 2 ^ n -> N.lor (N.shiftl a n) b = a * 2 ^ n + b.
Proof.
  intros Hb. rewrite N.shiftl_mul_pow2.
  assert (HL : N.land (a * 2 ^ n) b = 0).
  { apply N.bits_inj; intros m. rewrite N.land_spec, N.bits_0.
    destruct (N.lt_ge_cases m n) as [Hm|Hm].
    - rewrite N.mul_pow2_bits_low by exact Hm. reflexivity.
    - replace (N.testbit b m) with false; [apply andb_false_r|].
      symmetry. destruct (N.eq_dec b 0) as [->|Hb0]; [apply N.bits_0|].
      apply N.bits_above_log2. apply N.log2_lt_pow2; [lia|].
      eapply N.lt_le_trans; [exact Hb|]. apply N.pow_le_mono_r; lia. }
  rewrite N.add_nocarry_lxor by exact HL.
  symmetry. apply N.lxor_lor. exact HL.
Qed.

Lemma pair_value_eq h l : hi_sur h -> lo_sur l ->
  pair_value h l = 0x10000 + (h - 0xd800) * 0x400 + (l - 0xdc00).
Proof.
  intros [Hh1 Hh2] [Hl1 Hl2]. unfold pair_value.
  rewrite lor_shift by (change (2 ^ 10) with 1024; lia).
  change (2 ^ 10) with 1024. lia.
Qed.

Lemma is_low_iff c : is_low c = true <-> lo_sur c.
Proof. unfold is_low, lo_sur; rewrite andb_true_iff, N.leb_le, N.ltb_lt; tauto. Qed.
Lemma is_high_iff c : is_high c = true <-> hi_sur c.
Proof. unfold is_high, hi_sur; rewrite andb_true_iff, N.leb_le, N.ltb_lt; tauto. Qed.
Lemma is_low_false c : ~ lo_sur c -> is_low c = false.
Proof. intros H; destruct (is_low c) eqn:E; [|reflexivity]; apply is_low_iff in E; tauto. Qed.
Lemma is_high_false c : ~ hi_sur c -> is_high c = false.
Proof. intros H; destruct (is_high c) eqn:E; [|reflexivity]; apply is_high_iff in E; tauto. Qed.
Lemma hi_not_lo c : hi_sur c -> ~ lo_sur c.
Proof. unfold hi_sur, lo_sur; lia. Qed.
Lemma lo_not_hi c : lo_sur c -> ~ hi_sur c.
Proof. unfold hi_sur, lo_sur; lia. Qed.
Lemma hi_nonzero c : hi_sur c -> (c =? 0) = false.
Proof. unfold hi_sur; lia. Qed.

(** How an item is handed to the callback. *)
Definition item_cp (i : item) : cp :=
  match i with
  | Char c h l => mkcp c h l
  | Lone c => if is_high c then mkcp 0xfffd c 0 else mkcp 0xfffd 0 c
  end.

Definition visible (skip : bool) (is : list item) : list item :=
  if skip then filter is_char is else is.

Lemma visible_char skip c h l is : visible skip (Char c h l :: is) = Char c h l :: visible skip is.
Proof. destruct skip; reflexivity. Qed.
Lemma visible_lone skip c is :
  visible skip (Lone c :: is) = (if skip then [] else [Lone c]) ++ visible skip is.
Proof. destruct skip; reflexivity. Qed.

Lemma each_cp_reads skip us is : reads us is ->
  each_cp skip us = map item_cp (visible skip is).
Proof.
  unfold each_cp. induction 1 as [|c us is Hh Hl R IH|h l us is Hh Hl R IH|h us is Hh Hn R IH|l us is Hl R IH].
  - destruct skip; reflexivity.
  - rewrite visible_char. simpl.
    rewrite (is_low_false _ Hl), (is_high_false _ Hh). simpl. rewrite IH. reflexivity.
  - rewrite visible_char. cbn [each_cp_from].
    rewrite (is_low_false _ (hi_not_lo _ Hh)).
    rewrite (proj2 (is_high_iff h) Hh). cbn [N.eqb app].
    rewrite (proj2 (is_low_iff l) Hl), (hi_nonzero _ Hh). simpl.
    rewrite IH, (pair_value_eq _ _ Hh Hl). reflexivity.
  - rewrite visible_lone. cbn [each_cp_from].
    rewrite (is_low_false _ (hi_not_lo _ Hh)), (proj2 (is_high_iff h) Hh). cbn [N.eqb app].
    assert (E : each_cp_from skip h us =
                (if skip then [] else [mkcp 0xfffd h 0]) ++ each_cp_from skip 0 us).
    { destruct us as [|c us].
      - simpl. rewrite (hi_nonzero _ Hh). destruct skip; reflexivity.
      - assert (Hc : ~ lo_sur c) by (intros Hc; apply Hn; exists c, us; auto).
        cbn [each_cp_from]. rewrite (is_low_false _ Hc), (hi_nonzero _ Hh).
        cbn [N.eqb app]. reflexivity. }
    rewrite E, IH, map_app. f_equal.
    destruct skip; simpl; [reflexivity|]. rewrite (proj2 (is_high_iff h) Hh). reflexivity.
  - rewrite visible_lone, map_app. cbn [each_cp_from].
    rewrite (proj2 (is_low_iff l) Hl). cbn [N.eqb]. rewrite IH. f_equal.
    destruct skip; simpl; [reflexivity|]. rewrite (is_high_false _ (lo_not_hi _ Hl)). reflexivity.
Qed.

Lemma reads_total us : exists is, reads us is.
Proof.
  assert (H : forall n us, (length us <= n)%nat -> exists is, reads us is).
  { clear. induction n as [|n IH]; intros us HL.
    - destruct us; simpl in HL; [|lia]. exists []; constructor.
    - destruct us as [|c us]; [exists []; constructor|].
      simpl in HL. destruct (IH us ltac:(lia)) as [is His].
      destruct (is_low c) eqn:El.
      { apply is_low_iff in El. exists (Lone c :: is). apply reads_lone_lo; auto. }
      destruct (is_high c) eqn:Eh.
      + apply is_high_iff in Eh. destruct us as [|l us].
        * exists (Lone c :: is). apply reads_lone_hi; auto. intros (l & r & E & _); discriminate.
        * destruct (is_low l) eqn:Ell.
          -- apply is_low_iff in Ell. simpl in HL.
             destruct (IH us ltac:(lia)) as [is2 His2].
             eexists. apply reads_pair; eauto.
          -- exists (Lone c :: is). apply reads_lone_hi; auto.
             intros (l' & r & E & Hl'). inversion E; subst.
             apply is_low_iff in Hl'. congruence.
      + exists (Char c 0 0 :: is). apply reads_bmp; auto.
        * intros Hc; apply is_high_iff in Hc; congruence.
        * intros Hc; apply is_low_iff in Hc; congruence. }
  apply (H (length us)); lia.
Qed.

Lemma reads_functional us is1 is2 : reads us is1 -> reads us is2 -> is1 = is2.
Proof.
  intros R1; revert is2.
  induction R1 as [|c us is Hh Hl R IH|h l us is Hh Hl R IH|h us is Hh Hn R IH|l us is Hl R IH];
    intros is2 R2; inversion R2; subst; clear R2;
    try reflexivity;
    try (f_equal; apply IH; assumption);
    try (exfalso;
         repeat match goal with
           | H : hi_sur ?c |- _ => pose proof (hi_not_lo _ H); revert H end; intros;
         try tauto;
         match goal with H : ~ starts_low _ |- _ => apply H; eexists; eexists; split; [reflexivity|assumption] end).
Qed.

Lemma reads_units us is : reads us is -> flat_map item_units is = us.
Proof.
  induction 1 as [|c us is Hh Hl R IH|h l us is Hh Hl R IH|h us is Hh Hn R IH|l us is Hl R IH];
    simpl; try (rewrite IH); try reflexivity.
  destruct h; [destruct Hh; lia|]. reflexivity.
Qed.

Lemma utf16_reads cs us : utf16 cs us ->
  exists is, reads us is /\ forallb is_char is = true /\ map item_char is = cs.
Proof.
  induction 1 as [|c cs us Hs Hc _ (is & R & Hf & Hm)|c h l cs us Hh Hl -> _ (is & R & Hf & Hm)].
  - exists []; repeat split; constructor.
  - exists (Char c 0 0 :: is). repeat split.
    + apply reads_bmp; [| |exact R]; unfold hi_sur, lo_sur, scalar_value in *; lia.
    + exact Hf.
    + simpl; rewrite Hm; reflexivity.
  - exists (Char (0x10000 + (h - 0xd800) * 0x400 + (l - 0xdc00)) h l :: is). repeat split.
    + apply reads_pair; assumption.
    + exact Hf.
    + simpl; rewrite Hm; reflexivity.
Qed.

Lemma filter_all {A} (f : A -> bool) l : forallb f l = true -> filter f l = l.
Proof.
  induction l as [|a l IH]; simpl; [reflexivity|].
  rewrite andb_true_iff; intros [-> H]; rewrite IH by exact H; reflexivity.
Qed.

Lemma map_cp_c_items is : map cp_c (map item_cp is) = map item_char is.
Proof.
  induction is as [|[c h l|c] is IH]; simpl; [reflexivity| |]; rewrite IH; [reflexivity|].
  destruct (is_high c); reflexivity.
Qed.

Lemma codepoints_utf16 skip cs us : utf16 cs us -> codepoints_of skip us = cs.
Proof.
  intros H. destruct (utf16_reads _ _ H) as (is & R & Hf & Hm).
  unfold codepoints_of. rewrite (each_cp_reads skip _ _ R).
  assert (visible skip is = is) as ->.
  { destruct skip; [apply filter_all; exact Hf|reflexivity]. }
  rewrite map_cp_c_items. exact Hm.
Qed.

(** ** enc16 against the specification *)

Lemma scalar_iff c : scalar c = true <-> scalar_value c.
Proof.
  unfold scalar, scalar_value.
  rewrite orb_true_iff, andb_true_iff, !N.ltb_lt, N.leb_le; tauto.
Qed.

Lemma enc16s_spec cs : Forall scalar_value cs -> utf16 cs (enc16s cs).
Proof.
  induction 1 as [|c cs Hc _ IH]; [constructor|].
  unfold enc16s; cbn [flat_map]; fold (enc16s cs). unfold enc16.
  destruct (c <? 0x10000) eqn:E; cbn [app].
  - apply utf16_bmp; [exact Hc|lia|exact IH].
  - apply N.ltb_ge in E. assert (c < 0x110000) by (unfold scalar_value in Hc; lia).
    pose proof (N.div_mod (c - 0x10000) 1024 ltac:(lia)) as Hdm.
    pose proof (N.mod_lt (c - 0x10000) 1024 ltac:(lia)) as Hm.
    set (q := (c - 0x10000) / 1024) in *. set (m := (c - 0x10000) mod 1024) in *.
    clearbody q m.
    apply utf16_sup; [unfold hi_sur; lia|unfold lo_sur; lia|lia|exact IH].
Qed.

Lemma utf16_functional cs us1 us2 : utf16 cs us1 -> utf16 cs us2 -> us1 = us2.
Proof.
  intros H1; revert us2.
  induction H1 as [|c cs us Hs Hc H IH|c h l cs us Hh Hl Ec H IH]; intros us2 H2;
    inversion H2; subst us2; clear H2.
  - reflexivity.
  - subst. f_equal; auto.
  - exfalso. unfold hi_sur, lo_sur in *; lia.
  - exfalso. unfold hi_sur, lo_sur in *; lia.
  - assert (h = h0 /\ l = l0) as [-> ->] by (unfold hi_sur, lo_sur in *; lia).
    f_equal; f_equal; auto.
Qed.

Lemma utf16_scalars cs us : utf16 cs us -> Forall scalar_value cs.
Proof.
  induction 1 as [|c cs us Hs Hc H IH|c h l cs us Hh Hl -> H IH]; constructor; auto.
  unfold hi_sur, lo_sur, scalar_value in *; lia.
Qed.

Lemma utf16_enc16s cs us : utf16 cs us <-> Forall scalar_value cs /\ us = enc16s cs.
Proof.
  split.
  - intros H; split; [eapply utf16_scalars; eauto|].
    eapply utf16_functional; [exact H|]. apply enc16s_spec. eapply utf16_scalars; eauto.
  - intros [H ->]. apply enc16s_spec; exact H.
Qed.

Lemma from_utf32_some cs : Forall scalar_value cs -> from_utf32 cs = Some (enc16s cs).
Proof.
  intros H. unfold from_utf32.
  replace (forallb scalar cs) with true; [reflexivity|].
  symmetry; apply forallb_forall. intros c Hc. apply scalar_iff.
  rewrite Forall_forall in H; auto.
Qed.

Lemma codepoints_enc16s skip cs : Forall scalar_value cs -> codepoints_of skip (enc16s cs) = cs.
Proof. intros H; apply codepoints_utf16, enc16s_spec, H. Qed.

Lemma enc16s_app a b : enc16s (a ++ b) = enc16s a ++ enc16s b.
Proof. apply flat_map_app. Qed.

(** Reported code points are always scalar values, for any 16-bit data. *)
Lemma codepoints_scalar skip us : Forall unit16 us -> Forall scalar_value (codepoints_of skip us).
Proof.
  intros Hu. destruct (reads_total us) as [is R].
  unfold codepoints_of. rewrite (each_cp_reads skip _ _ R), map_cp_c_items.
  assert (H : Forall scalar_value (map item_char is)).
  { clear skip. induction R as [|c us is Hh Hl R IH|h l us is Hh Hl R IH|h us is Hh Hn R IH|l us is Hl R IH];
      cbn [map item_char]; [apply Forall_nil| | | |];
      repeat match goal with H : Forall unit16 (_ :: _) |- _ => inversion H; subst; clear H end;
      apply Forall_cons; auto; unfold hi_sur, lo_sur, scalar_value, unit16 in *; lia. }
  destruct skip; [|exact H]. unfold visible.
  clear -H. induction is as [|i is IH]; simpl; [constructor|].
  inversion H; subst. destruct (is_char i); simpl; auto.
Qed.

(** ** dec16 *)

Lemma dec16_enc16s cs : Forall scalar_value cs -> dec16 (enc16s cs) = Some cs.
Proof.
  intros H. apply enc16s_spec in H.
  induction H as [|c cs us Hs Hc H IH|c h l cs us Hh Hl -> H IH]; simpl.
  - reflexivity.
  - rewrite is_low_false, is_high_false; [rewrite IH; reflexivity| |];
      unfold hi_sur, lo_sur, scalar_value in *; lia.
  - rewrite (is_low_false _ (hi_not_lo _ Hh)), (proj2 (is_high_iff h) Hh), (proj2 (is_low_iff l) Hl), IH.
    simpl. rewrite pair_value_eq by assumption. reflexivity.
Qed.

(** ** UTF-8 *)

Definition byte (b : N) : Prop := b < 256.

Lemma dec8_enc8 c r : scalar_value c -> dec8 (enc8 c ++ r) = option_map (cons c) (dec8 r).
Proof.
  intros Hc. unfold enc8.
  destruct (c <? 0x80) eqn:E1.
  { cbn [app dec8]. rewrite E1. reflexivity. }
  destruct (c <? 0x800) eqn:E2.
  { cbn [app dec8].
    replace (0xc0 + c / 64 <? 0x80) with false by lia.
    replace (0xc2 <=? 0xc0 + c / 64) with true by lia.
    replace (0xc0 + c / 64 <? 0xe0) with true by lia. cbn [andb].
    replace (is_trail (0x80 + c mod 64)) with true by (unfold is_trail; lia).
    f_equal. f_equal. lia. }
  destruct (c <? 0x10000) eqn:E3.
  { cbn [app dec8].
    replace (0xe0 + c / 4096 <? 0x80) with false by lia.
    replace (0xe0 + c / 4096 <? 0xe0) with false by lia. rewrite andb_false_r.
    replace (0xe0 <=? 0xe0 + c / 4096) with true by lia.
    replace (0xe0 + c / 4096 <? 0xf0) with true by lia. cbn [andb].
    replace (is_trail (0x80 + (c / 64) mod 64)) with true by (unfold is_trail; lia).
    replace (is_trail (0x80 + c mod 64)) with true by (unfold is_trail; lia).
    replace ((0xe0 + c / 4096 - 0xe0) * 4096 + (0x80 + (c / 64) mod 64 - 0x80) * 64 + (0x80 + c mod 64 - 0x80))
      with c by lia.
    rewrite (proj2 (scalar_iff c) Hc). replace (0x800 <=? c) with true by lia. reflexivity. }
  { cbn [app dec8]. unfold scalar_value in Hc.
    replace (0xf0 + c / 262144 <? 0x80) with false by lia.
    replace (0xf0 + c / 262144 <? 0xe0) with false by lia. rewrite andb_false_r.
    replace (0xf0 + c / 262144 <? 0xf0) with false by lia. rewrite andb_false_r.
    replace (0xf0 <=? 0xf0 + c / 262144) with true by lia.
    replace (0xf0 + c / 262144 <? 0xf5) with true by lia. cbn [andb].
    replace (is_trail (0x80 + (c / 4096) mod 64)) with true by (unfold is_trail; lia).
    replace (is_trail (0x80 + (c / 64) mod 64)) with true by (unfold is_trail; lia).
    replace (is_trail (0x80 + c mod 64)) with true by (unfold is_trail; lia).
    replace ((0xf0 + c / 262144 - 0xf0) * 262144 + (0x80 + (c / 4096) mod 64 - 0x80) * 4096 +
             (0x80 + (c / 64) mod 64 - 0x80) * 64 + (0x80 + c mod 64 - 0x80)) with c by lia.
    rewrite (proj2 (scalar_iff c) Hc). replace (0x10000 <=? c) with true by lia. reflexivity. }
Qed.

Lemma dec8_enc8s cs : Forall scalar_value cs -> dec8 (enc8s cs) = Some cs.
Proof.
  induction 1 as [|c cs Hc _ IH]; [reflexivity|].
  unfold enc8s; cbn [flat_map]; fold (enc8s cs). rewrite dec8_enc8 by exact Hc. rewrite IH. reflexivity.
Qed.

Lemma option_map_cons_some {A} (c : A) o r : option_map (cons c) o = Some r ->
  exists r', o = Some r' /\ r = c :: r'.
Proof. destruct o; simpl; intros H; inversion H; eauto. Qed.

Lemma dec8_some bs cs : dec8 bs = Some cs -> enc8s cs = bs /\ Forall scalar_value cs.
Proof.
  assert (H : forall n bs cs, (length bs <= n)%nat -> dec8 bs = Some cs ->
                              enc8s cs = bs /\ Forall scalar_value cs).
  { clear. induction n as [|n IH]; intros bs cs HL HD.
    { destruct bs; simpl in HL; [|lia]. simpl in HD; inversion HD; split; constructor. }
    destruct bs as [|b0 r0]; [simpl in HD; inversion HD; split; constructor|].
    cbn [dec8] in HD. simpl in HL.
    assert (step : forall c bs1 r, dec8 r = Some bs1 -> (length r <= n)%nat -> scalar_value c ->
              enc8s (c :: bs1) = enc8 c ++ r /\ Forall scalar_value (c :: bs1)).
    { intros c bs1 r Hr Hlen Hc. destruct (IH _ _ Hlen Hr) as [E F].
      split; [unfold enc8s; cbn [flat_map]; fold (enc8s bs1); rewrite E; reflexivity|constructor; auto]. }
    destruct (b0 <? 0x80) eqn:E0.
    { apply option_map_cons_some in HD as (r' & Hr & ->).
      destruct (step b0 r' r0 Hr ltac:(lia)) as [E F]; [unfold scalar_value; lia|].
      split; [|exact F]. rewrite E. unfold enc8. rewrite E0. reflexivity. }
    destruct r0 as [|b1 r1]; [discriminate|]. simpl in HL.
    destruct ((0xc2 <=? b0) && (b0 <? 0xe0)) eqn:E1.
    { destruct (is_trail b1) eqn:T1; [|discriminate]. unfold is_trail in T1.
      apply option_map_cons_some in HD as (r' & Hr & ->).
      destruct (step ((b0 - 0xc0) * 64 + (b1 - 0x80)) r' r1 Hr ltac:(lia)) as [E F]; [unfold scalar_value; lia|].
      split; [|exact F]. rewrite E. unfold enc8.
      replace (_ <? 0x80) with false by lia. replace (_ <? 0x800) with true by lia.
      cbn [app]. f_equal; [lia|]. f_equal. lia. }
    destruct r1 as [|b2 r2]; [discriminate|]. simpl in HL.
    destruct ((0xe0 <=? b0) && (b0 <? 0xf0)) eqn:E2.
    { cbv zeta in HD. set (c := (b0 - 0xe0) * 4096 + (b1 - 0x80) * 64 + (b2 - 0x80)) in *.
      destruct (is_trail b1 && is_trail b2 && (0x800 <=? c) && scalar c) eqn:T; [|discriminate].
      apply andb_true_iff in T as [T Hs]. apply andb_true_iff in T as [T Hc].
      apply andb_true_iff in T as [T1 T2]. unfold is_trail in T1, T2.
      apply option_map_cons_some in HD as (r' & Hr & ->).
      apply scalar_iff in Hs.
      destruct (step c r' r2 Hr ltac:(lia) Hs) as [E F].
      split; [|exact F]. rewrite E. unfold enc8.
      assert (c < 0x10000) by (subst c; lia).
      replace (c <? 0x80) with false by lia. replace (c <? 0x800) with false by lia.
      replace (c <? 0x10000) with true by lia.
      subst c. cbn [app]. f_equal; [lia|]. f_equal; [lia|]. f_equal; lia. }
    destruct r2 as [|b3 r3]; [discriminate|]. simpl in HL.
    destruct ((0xf0 <=? b0) && (b0 <? 0xf5)) eqn:E3; [|discriminate].
    cbv zeta in HD.
    set (c := (b0 - 0xf0) * 262144 + (b1 - 0x80) * 4096 + (b2 - 0x80) * 64 + (b3 - 0x80)) in *.
    destruct (is_trail b1 && is_trail b2 && is_trail b3 && (0x10000 <=? c) && scalar c) eqn:T; [|discriminate].
    apply andb_true_iff in T as [T Hs]. apply andb_true_iff in T as [T Hc].
    apply andb_true_iff in T as [T T3]. apply andb_true_iff in T as [T1 T2].
    unfold is_trail in T1, T2, T3.
    apply option_map_cons_some in HD as (r' & Hr & ->).
    apply scalar_iff in Hs.
    destruct (step c r' r3 Hr ltac:(lia) Hs) as [E F].
    split; [|exact F]. rewrite E. unfold enc8.
    replace (c <? 0x80) with false by lia. replace (c <? 0x800) with false by lia.
    replace (c <? 0x10000) with false by lia.
    subst c. cbn [app]. f_equal; [lia|]. f_equal; [lia|]. f_equal; [lia|]. f_equal; lia. }
  apply (H (length bs)); lia.
Qed.

Lemma from_utf8_encode bs us : from_utf8 bs = Some us ->
  encode us = bs /\ exists cs, utf16 cs us /\ dec8 bs = Some cs.
Proof.
  unfold from_utf8. destruct (dec8 bs) as [cs|] eqn:E; simpl; intros H; inversion H; subst.
  destruct (dec8_some _ _ E) as [He Hs].
  split; [unfold encode; rewrite dec16_enc16s by exact Hs; exact He|].
  exists cs; split; [apply enc16s_spec; exact Hs|reflexivity].
Qed.

Lemma encode_from_utf8 cs us : utf16 cs us -> from_utf8 (encode us) = Some us.
Proof.
  intros H. apply utf16_enc16s in H as [Hs ->].
  unfold encode. rewrite dec16_enc16s by exact Hs.
  unfold from_utf8. rewrite dec8_enc8s by exact Hs. reflexivity.
Qed.

(** 7-bit text is the same in all three encodings. *)
Lemma enc16s_ascii bs : Forall (fun b => b < 0x80) bs -> enc16s bs = bs.
Proof.
  induction 1 as [|b bs Hb _ IH]; [reflexivity|].
  unfold enc16s; cbn [flat_map]; fold (enc16s bs). unfold enc16.
  replace (b <? 0x10000) with true by lia. rewrite IH. reflexivity.
Qed.
Lemma enc8s_ascii bs : Forall (fun b => b < 0x80) bs -> enc8s bs = bs.
Proof.
  induction 1 as [|b bs Hb _ IH]; [reflexivity|].
  unfold enc8s; cbn [flat_map]; fold (enc8s bs). unfold enc8.
  replace (b <? 0x80) with true by lia. rewrite IH. reflexivity.
Qed.
Lemma dec8_ascii bs : Forall (fun b => b < 0x80) bs -> dec8 bs = Some bs.
Proof.
  induction 1 as [|b bs Hb _ IH]; [reflexivity|].
  cbn [dec8]. replace (b <? 0x80) with true by lia. rewrite IH. reflexivity.
Qed.
Lemma from_utf8_ascii bs : Forall (fun b => b < 0x80) bs -> from_utf8 bs = Some bs.
Proof. intros H; unfold from_utf8; rewrite dec8_ascii by exact H; simpl; rewrite enc16s_ascii by exact H; reflexivity. Qed.

(** ** Well-formed UTF-8 by its bit patterns *)

Lemma utf8_char_enc8 c bs : utf8_char c bs <-> scalar_value c /\ bs = enc8 c.
Proof.
  split.
  - intros [c0 H|c0 a b H1 H2 Ha Hb E|c0 a b d H1 H2 Hs Ha Hb Hd E|c0 a b d e H1 H2 Ha Hb Hd He E];
      (split; [unfold scalar_value; lia|]); unfold enc8.
    + replace (c0 <? 0x80) with true by lia. reflexivity.
    + replace (c0 <? 0x80) with false by lia. replace (c0 <? 0x800) with true by lia.
      assert (D : c0 / 64 = a) by (symmetry; apply (N.div_unique _ _ _ b); lia).
      assert (M : c0 mod 64 = b) by (symmetry; apply (N.mod_unique _ _ a); lia).
      rewrite D, M. reflexivity.
    + replace (c0 <? 0x80) with false by lia. replace (c0 <? 0x800) with false by lia.
      replace (c0 <? 0x10000) with true by lia.
      assert (D0 : c0 / 4096 = a) by (symmetry; apply (N.div_unique _ _ _ (b * 64 + d)); lia).
      assert (D : c0 / 64 = a * 64 + b) by (symmetry; apply (N.div_unique _ _ _ d); lia).
      assert (D' : (a * 64 + b) mod 64 = b) by (symmetry; apply (N.mod_unique _ _ a); lia).
      assert (M : c0 mod 64 = d) by (symmetry; apply (N.mod_unique _ _ (a * 64 + b)); lia).
      rewrite D0, D, D', M. reflexivity.
    + replace (c0 <? 0x80) with false by lia. replace (c0 <? 0x800) with false by lia.
      replace (c0 <? 0x10000) with false by lia.
      assert (D0 : c0 / 262144 = a) by (symmetry; apply (N.div_unique _ _ _ (b * 4096 + d * 64 + e)); lia).
      assert (D1 : c0 / 4096 = a * 64 + b) by (symmetry; apply (N.div_unique _ _ _ (d * 64 + e)); lia).
      assert (D1' : (a * 64 + b) mod 64 = b) by (symmetry; apply (N.mod_unique _ _ a); lia).
      assert (D : c0 / 64 = (a * 64 + b) * 64 + d) by (symmetry; apply (N.div_unique _ _ _ e); lia).
      assert (D' : ((a * 64 + b) * 64 + d) mod 64 = d) by (symmetry; apply (N.mod_unique _ _ (a * 64 + b)); lia).
      assert (M : c0 mod 64 = e) by (symmetry; apply (N.mod_unique _ _ ((a * 64 + b) * 64 + d)); lia).
      rewrite D0, D1, D1', D, D', M. reflexivity.
  - intros [Hs ->]. unfold enc8, scalar_value in *.
    destruct (c <? 0x80) eqn:E1; [constructor; lia|].
    pose proof (N.div_mod c 64). pose proof (N.mod_lt c 64).
    destruct (c <? 0x800) eqn:E2.
    { apply utf8_2; lia. }
    pose proof (N.div_mod (c / 64) 64). pose proof (N.mod_lt (c / 64) 64).
    assert (Q1 : c / 4096 = c / 64 / 64) by (rewrite N.div_div by lia; reflexivity).
    destruct (c <? 0x10000) eqn:E3.
    { apply utf8_3; lia. }
    pose proof (N.div_mod (c / 4096) 64). pose proof (N.mod_lt (c / 4096) 64).
    assert (Q2 : c / 262144 = c / 4096 / 64) by (rewrite N.div_div by lia; reflexivity).
    apply utf8_4; lia.
Qed.

Lemma utf8_enc8s cs bs : utf8 cs bs <-> Forall scalar_value cs /\ bs = enc8s cs.
Proof.
  split.
  - intros (bss & F & ->). induction F as [|c b cs bss H F [IH1 IH2]]; [split; constructor|].
    apply utf8_char_enc8 in H as [Hs ->]. split; [constructor; auto|]. simpl. rewrite IH2. reflexivity.
  - intros [Hs ->]. exists (map enc8 cs). split.
    + induction Hs; simpl; constructor; auto. apply utf8_char_enc8; auto.
    + unfold enc8s. rewrite flat_map_concat_map. reflexivity.
Qed.

Lemma same_text_iff bs us : same_text bs us <-> from_utf8 bs = Some us.
Proof.
  unfold same_text, from_utf8. split.
  - intros (cs & H8 & H16). apply utf8_enc8s in H8 as [Hs ->]. apply utf16_enc16s in H16 as [_ ->].
    rewrite dec8_enc8s by exact Hs. reflexivity.
  - intros H. destruct (dec8 bs) as [cs|] eqn:E; [|discriminate]. inversion H; subst.
    apply dec8_some in E as [<- Hs]. exists cs. split; [apply utf8_enc8s; auto|apply enc16s_spec, Hs].
Qed.

Lemma valid_utf8_iff bs : valid_utf8 bs <-> exists us, from_utf8 bs = Some us.
Proof.
  split.
  - intros [cs H]. pose proof H as H8. apply utf8_enc8s in H8 as [Hs _].
    exists (enc16s cs). apply same_text_iff. exists cs. split; [exact H|apply enc16s_spec, Hs].
  - intros [us H]. apply same_text_iff in H as (cs & H & _). exists cs; exact H.
Qed.
