From Coq Require Import FinFun.
From Verif Require Import Base Utf_model Bert_model Assoc Vocab_model Vocab_spec.
Local Open Scope N_scope.

(** * Layouts *)

Lemma tok_len_layout (t : list N) :
  (1 <= length t <= 256)%nat -> tok_len (N.of_nat (length t) mod 256) = N.of_nat (length t).
Proof.
  intros H. unfold tok_len. destruct (Nat.eq_dec (length t) 256) as [E|E].
  - rewrite E. reflexivity.
  - rewrite N.mod_small by lia. destruct (N.eqb_spec (N.of_nat (length t)) 0); lia.
Qed.

Lemma layout_data lens data ts : layout lens data ts -> data = concat ts.
Proof. induction 1; simpl; congruence. Qed.

Lemma layout_fun lens data ts : layout lens data ts -> forall ts', layout lens data ts' -> ts' = ts.
Proof.
  induction 1 as [|t ls d ts HL H IH]; intros ts' H'.
  - inversion H'; reflexivity.
  - inversion H' as [|t' ls' d' ts1 HL' H1 E1 E2]; subst.
    assert (EL : length t' = length t).
    { apply (f_equal tok_len) in E1. rewrite !tok_len_layout in E1 by assumption. lia. }
    assert (E : t' = t /\ d' = d).
    { apply (f_equal (firstn (length t))) in E2 as F.
      apply (f_equal (skipn (length t))) in E2 as S.
      rewrite <- EL in F at 1. rewrite <- EL in S at 1.
      rewrite !firstn_app, !Nat.sub_diag, !firstn_all, !firstn_O, !app_nil_r in F.
      rewrite !skipn_app, !Nat.sub_diag, !skipn_all in S. simpl in S. split; assumption. }
    destruct E as [-> ->]. f_equal. apply IH; assumption.
Qed.

Lemma layout_app l1 d1 t1 l2 d2 t2 :
  layout l1 d1 t1 -> layout l2 d2 t2 -> layout (l1 ++ l2) (d1 ++ d2) (t1 ++ t2).
Proof.
  induction 1; intros H2; simpl; [exact H2|]. rewrite <- app_assoc. constructor; auto.
Qed.

Lemma layout_snoc l d ts b t :
  layout l d ts -> b < 256 -> N.of_nat (length t) = tok_len b ->
  layout (l ++ [b]) (d ++ t) (ts ++ [t]).
Proof.
  intros H Hb E. apply layout_app; [exact H|].
  replace b with (N.of_nat (length t) mod 256).
  - rewrite <- (app_nil_r t) at 2. constructor; [|constructor].
    unfold tok_len in E. destruct (N.eqb_spec b 0); lia.
  - rewrite E. unfold tok_len. destruct (N.eqb_spec b 0); [subst; reflexivity|].
    apply N.mod_small. lia.
Qed.

(** * The invariant of the vocabulary under construction *)

Definition voc_ok (v : voc) (ts : list (list N)) : Prop :=
  i2t v = ts /\ NoDup ts /\
  forall t, lookup list_N_eqb t (t2i v) =
            match find (fun p => list_N_eqb t (snd p)) (combine (seq 0 (length ts)) ts) with
            | Some (i, _) => Some (N.of_nat i mod 4294967296)
            | None => None
            end.

Lemma voc_ok0 : voc_ok voc0 [].
Proof. split; [reflexivity|split; [constructor|reflexivity]]. Qed.

Lemma find_combine_none t ts s :
  find (fun p => list_N_eqb t (snd p)) (combine (seq s (length ts)) ts) = None <-> ~ In t ts.
Proof.
  revert s; induction ts as [|x ts IH]; intros s; simpl; [tauto|].
  destruct (list_N_eqb t x) eqn:E.
  - apply list_N_eqb_eq in E; subst. split; [discriminate|tauto].
  - apply list_N_eqb_neq in E. rewrite IH. split; [intros H [K|K]; [congruence|tauto]|tauto].
Qed.

Lemma find_combine_some t ts s i x :
  NoDup ts ->
  (find (fun p => list_N_eqb t (snd p)) (combine (seq s (length ts)) ts) = Some (i, x) <->
   x = t /\ (s <= i)%nat /\ nth_error ts (i - s) = Some t).
Proof.
  revert s; induction ts as [|y ts IH]; intros s ND; simpl.
  - split; [discriminate|]. intros (_ & _ & H). destruct (i - s)%nat; discriminate.
  - inversion ND as [|? ? Hn ND']; subst.
    destruct (list_N_eqb t y) eqn:E.
    + apply list_N_eqb_eq in E; subst y. split.
      * intros H; inversion H; subst. rewrite Nat.sub_diag. auto.
      * intros (-> & L & H). destruct (i - s)%nat as [|m] eqn:Em.
        -- replace i with s by lia. reflexivity.
        -- simpl in H. exfalso. apply Hn. eapply nth_error_In; eauto.
    + apply list_N_eqb_neq in E. rewrite (IH (S s) ND'). split; intros (-> & L & H).
      * repeat split; [lia|]. replace (i - s)%nat with (S (i - S s)) by lia. exact H.
      * destruct (i - s)%nat as [|m] eqn:Em; [simpl in H; congruence|].
        repeat split; [lia|]. replace (i - S s)%nat with m by lia. exact H.
Qed.

Lemma combine_seq_snoc (ts : list (list N)) t s :
  combine (seq s (length (ts ++ [t]))) (ts ++ [t]) =
  combine (seq s (length ts)) ts ++ [((s + length ts)%nat, t)].
Proof.
  revert s; induction ts as [|x ts IH]; intros s; simpl; [rewrite Nat.add_0_r; reflexivity|].
  rewrite IH, Nat.add_succ_r. reflexivity.
Qed.

Lemma find_app' {A} (f : A -> bool) l1 l2 :
  find f (l1 ++ l2) = match find f l1 with Some x => Some x | None => find f l2 end.
Proof. induction l1; simpl; [reflexivity|]. destruct (f a); auto. Qed.

Lemma has_token_in v ts t : voc_ok v ts -> (has_token v t = true <-> In t ts).
Proof.
  intros (E & ND & L). unfold has_token. rewrite L.
  destruct (find _ _) as [[i x]|] eqn:F.
  - apply (find_combine_some t ts 0 i x ND) in F. destruct F as (_ & _ & F).
    split; [|reflexivity]. intros _. eapply nth_error_In; eauto.
  - apply (find_combine_none t ts 0) in F. split; [discriminate|tauto].
Qed.

Lemma add_token_ok v ts t v' :
  voc_ok v ts -> add_token v t = Some v' -> voc_ok v' (ts ++ [t]) /\ ~ In t ts.
Proof.
  intros V H. unfold add_token in H. destruct (has_token v t) eqn:E; [discriminate|].
  assert (Hn : ~ In t ts).
  { intros K. apply (has_token_in v ts t V) in K. congruence. }
  split; [|exact Hn]. injection H as <-. destruct V as (E1 & ND & L). repeat split; simpl.
  - congruence.
  - apply NoDup_rev in ND; rewrite <- (rev_involutive (ts ++ [t])).
    apply NoDup_rev; rewrite rev_app_distr; simpl; constructor; [rewrite <- in_rev; exact Hn|exact ND].
  - intros t'. rewrite combine_seq_snoc, find_app'. simpl.
    destruct (list_N_eqb t' t) eqn:Et.
    + apply list_N_eqb_eq in Et; subst t'.
      destruct (find _ _) as [[i x]|] eqn:F.
      * apply (find_combine_some t ts 0 i x ND) in F. destruct F as (_ & _ & F).
        exfalso. apply Hn. eapply nth_error_In; eauto.
      * rewrite E1. reflexivity.
    + rewrite lookup_remove_other; [|exact list_N_eqb_eq|apply list_N_eqb_neq; exact Et].
      rewrite L. destruct (find _ _) as [[i x]|]; reflexivity.
Qed.

Lemma add_token_none v ts t : voc_ok v ts -> (add_token v t = None <-> In t ts).
Proof.
  intros V. unfold add_token. rewrite <- (has_token_in v ts t V).
  destruct (has_token v t); split; congruence.
Qed.

(** What the finished tables answer. *)
Lemma voc_i2t v ts n : voc_ok v ts ->
  id_to_token v n = match nth_error ts (N.to_nat n) with Some t => t | None => [] end.
Proof.
  intros (E & _ & _). unfold id_to_token. rewrite E.
  destruct (N.leb_spec (N.of_nat (length ts)) n) as [H|H].
  - destruct (nth_error ts (N.to_nat n)) eqn:F; [|reflexivity].
    assert (K : (N.to_nat n < length ts)%nat) by (apply nth_error_Some; congruence). lia.
  - destruct (nth_error ts (N.to_nat n)) as [t|] eqn:F.
    + apply nth_error_nth; exact F.
    + apply nth_error_None in F. lia.
Qed.

Lemma voc_t2i_in v ts n t : voc_ok v ts -> (N.of_nat (length ts) < 4294967296) ->
  entry ts n t -> token_to_id v t = n.
Proof.
  intros (E & ND & L) B H. unfold token_to_id. rewrite L. unfold entry in H.
  assert (F : find (fun p => list_N_eqb t (snd p)) (combine (seq 0 (length ts)) ts) = Some (N.to_nat n, t)).
  { apply (find_combine_some t ts 0 (N.to_nat n) t ND). repeat split; [lia|].
    rewrite Nat.sub_0_r. exact H. }
  rewrite F. assert (K : (N.to_nat n < length ts)%nat) by (apply nth_error_Some; congruence).
  rewrite N2Nat.id. apply N.mod_small. lia.
Qed.

Lemma voc_t2i_out v ts t : voc_ok v ts -> ~ In t ts -> token_to_id v t = INVALID.
Proof.
  intros (E & ND & L) H. unfold token_to_id. rewrite L.
  apply (find_combine_none t ts 0) in H. rewrite H. reflexivity.
Qed.

(** * The loading loop *)

Definition bytes_ok (l : list N) : Prop := Forall (fun b => b < 256) l.

Lemma read_tokens_inv : forall lens data p v ts l1 d1,
  bytes_ok lens -> voc_ok v ts -> layout l1 d1 ts ->
  (exists d2, data = d1 ++ d2) -> p = N.of_nat (length d1) ->
  match read_tokens lens data p v with
  | Ok (p', v') => exists ts' d', voc_ok v' ts' /\ layout (l1 ++ lens) d' ts' /\
                     (exists d2, data = d' ++ d2) /\ p' = N.of_nat (length d')
  | Fail => exists lens1 b lens2 d' d2 ts',
              lens = lens1 ++ b :: lens2 /\ data = d' ++ d2 /\ layout (l1 ++ lens1 ++ [b]) d' ts' /\ ~ NoDup ts'
  | UB => exists lens1 b lens2 d' d2 ts',
              lens = lens1 ++ b :: lens2 /\ data = d' ++ d2 /\ layout (l1 ++ lens1) d' ts' /\ NoDup ts' /\
              N.of_nat (length d2) < (if b =? 0 then 256 else b)
  | Abort => False
  end.
Proof.
  induction lens as [|b lens IH]; intros data p v ts l1 d1 B V L [d2 E] P; simpl.
  - exists ts, d1. rewrite app_nil_r. repeat split; try apply V; try assumption. exists d2; exact E.
  - assert (Hb : b < 256) by (inversion B; assumption). assert (B' : bytes_ok lens) by (inversion B; assumption).
    destruct (N.ltb_spec (N.of_nat (length data)) (p + tok_len b)) as [H|H].
    + exists [], b, lens, d1, d2, ts. rewrite app_nil_r. repeat split; try assumption; try apply V.
      change (N.of_nat (length d2) < tok_len b). rewrite E, app_length in H. lia.
    + set (t := firstn (N.to_nat (tok_len b)) (skipn (N.to_nat p) data)).
      assert (Hs : skipn (N.to_nat p) data = d2).
      { rewrite E, P, Nat2N.id, skipn_app, skipn_all, Nat.sub_diag. reflexivity. }
      assert (Lt : N.of_nat (length t) = tok_len b).
      { unfold t. rewrite Hs, firstn_length_le; [lia|]. rewrite E, app_length in H. lia. }
      assert (L' : layout (l1 ++ [b]) (d1 ++ t) (ts ++ [t])) by (apply layout_snoc; assumption).
      assert (E' : data = (d1 ++ t) ++ skipn (N.to_nat (tok_len b)) d2).
      { rewrite <- app_assoc, E. f_equal. unfold t. rewrite Hs. symmetry. apply firstn_skipn. }
      destruct (add_token v t) as [v'|] eqn:A.
      * destruct (add_token_ok v ts t v' V A) as [V' Hn].
        specialize (IH data (p + tok_len b) v' (ts ++ [t]) (l1 ++ [b]) (d1 ++ t) B' V' L'
                       (ex_intro _ _ E')).
        assert (P' : p + tok_len b = N.of_nat (length (d1 ++ t))) by (rewrite app_length; lia).
        specialize (IH P').
        destruct (read_tokens lens data (p + tok_len b) v') as [[p' v2]| | |].
        -- rewrite <- app_assoc in IH. exact IH.
        -- destruct IH as (x1 & c & x2 & d' & d3 & ts' & E1 & E2 & L2 & N2).
           exists (b :: x1), c, x2, d', d3, ts'. rewrite <- app_assoc in L2.
           repeat split; try assumption. rewrite E1; reflexivity.
        -- destruct IH as (x1 & c & x2 & d' & d3 & ts' & E1 & E2 & L2 & N2 & S2).
           exists (b :: x1), c, x2, d', d3, ts'. rewrite <- app_assoc in L2.
           repeat split; try assumption. rewrite E1; reflexivity.
        -- exact IH.
      * apply (add_token_none v ts t V) in A.
        exists [], b, lens, (d1 ++ t), (skipn (N.to_nat (tok_len b)) d2), (ts ++ [t]).
        repeat split; try assumption. intros ND. apply NoDup_remove_2 in ND.
        rewrite app_nil_r in ND. tauto.
Qed.

Definition i8 (l : list N) : option tensor := Some (mkt 1 T_I8 l).

Lemma read_vocab_ok lens data v :
  bytes_ok lens -> read_vocab (i8 lens) (i8 data) = Ok v ->
  exists ts, layout lens data ts /\ voc_ok v ts.
Proof.
  intros B H. unfold read_vocab, i8 in H. simpl in H.
  pose proof (read_tokens_inv lens data 0 voc0 [] [] [] B voc_ok0 lay_nil
                (ex_intro _ data eq_refl) eq_refl) as R.
  destruct (read_tokens lens data 0 voc0) as [[p w]| | |]; try discriminate.
  destruct (N.eqb_spec p (N.of_nat (length data))) as [E|E]; [|discriminate].
  injection H as <-. destruct R as (ts & d' & V & L & [d2 D] & P).
  exists ts. split; [|exact V].
  assert (length d2 = 0)%nat by (rewrite D, app_length in E; lia).
  destruct d2; [|discriminate]. rewrite app_nil_r in D. subst. exact L.
Qed.

Lemma layout_len lens data ts : layout lens data ts -> length lens = length ts.
Proof. induction 1; simpl; congruence. Qed.

(** A layout prefix is determined by the lengths. *)
Lemma layout_prefix l1 d1 t1 : layout l1 d1 t1 ->
  forall l2 d2 data ts, layout (l1 ++ l2) data ts -> data = d1 ++ d2 ->
  exists t2, ts = t1 ++ t2 /\ layout l2 d2 t2.
Proof.
  induction 1 as [|t ls d ts0 HL H IH]; intros l2 d2 data ts L E; simpl in *.
  - subst. exists ts. auto.
  - inversion L as [|t' ls' d' ts1 HL' H1 E1 E2]; subst.
    assert (EL : length t' = length t).
    { apply (f_equal tok_len) in E1. rewrite !tok_len_layout in E1 by assumption. lia. }
    rewrite <- app_assoc in E2.
    assert (F : t' = t /\ d' = d ++ d2).
    { apply (f_equal (firstn (length t))) in E2 as F.
      apply (f_equal (skipn (length t))) in E2 as S.
      rewrite <- EL in F at 1. rewrite <- EL in S at 1.
      rewrite !firstn_app, !Nat.sub_diag, !firstn_all, !firstn_O, !app_nil_r in F.
      rewrite !skipn_app, !Nat.sub_diag, !skipn_all in S. simpl in S. split; assumption. }
    destruct F as [-> ->]. destruct (IH l2 d2 _ _ H1 eq_refl) as (t2 & -> & L2).
    exists t2. auto.
Qed.

Lemma NoDup_app_l {A} (l1 l2 : list A) : NoDup (l1 ++ l2) -> NoDup l1.
Proof.
  induction l1; simpl; intros H; [constructor|]. inversion H; subst.
  constructor; [|auto]. intros K. apply H2. apply in_or_app; auto.
Qed.

Lemma layout_bytes lens data ts : layout lens data ts -> bytes_ok lens.
Proof.
  induction 1; constructor; [|assumption]. apply N.mod_lt. lia.
Qed.

Lemma read_vocab_layout lens data ts :
  layout lens data ts -> NoDup ts ->
  exists v, read_vocab (i8 lens) (i8 data) = Ok v /\ voc_ok v ts.
Proof.
  intros L ND. pose proof (layout_bytes _ _ _ L) as B.
  unfold read_vocab, i8. simpl.
  pose proof (read_tokens_inv lens data 0 voc0 [] [] [] B voc_ok0 lay_nil
                (ex_intro _ data eq_refl) eq_refl) as R.
  destruct (read_tokens lens data 0 voc0) as [[p w]| | |].
  - destruct R as (ts' & d' & V & L' & [d2 D] & P). simpl in L'.
    pose proof (layout_prefix lens d' ts' L' [] d2 data ts) as K.
    rewrite app_nil_r in K. destruct (K L D) as (t2 & E & L2). inversion L2; subst.
    rewrite app_nil_r. rewrite N.eqb_refl. exists w. rewrite app_nil_r. auto.
  - destruct R as (x1 & b & x2 & d' & d2 & ts' & E1 & E2 & L' & N'). simpl in L'.
    pose proof (layout_prefix _ d' ts' L' x2 d2 data ts) as K.
    rewrite <- app_assoc in K. simpl in K. rewrite <- E1 in K.
    destruct (K L E2) as (t2 & E & _). subst ts. exfalso. apply N'.
    eapply NoDup_app_l; exact ND.
  - destruct R as (x1 & b & x2 & d' & d2 & ts' & E1 & E2 & L' & N' & S). simpl in L'.
    pose proof (layout_prefix _ d' ts' L' (b :: x2) d2 data ts) as K.
    rewrite <- E1 in K. destruct (K L E2) as (t2 & E & L2).
    inversion L2 as [|t ls d ts2 HL H2 Eb Ed]; subst. exfalso.
    change (N.of_nat (length (t ++ d)) < tok_len (N.of_nat (length t) mod 256)) in S.
    rewrite tok_len_layout, app_length in S by assumption. lia.
  - contradiction.
Qed.

(** * Exact description of every outcome *)

Lemma read_vocab_ub lens data :
  bytes_ok lens -> (read_vocab (i8 lens) (i8 data) = UB <-> overruns lens data).
Proof.
  intros B. unfold read_vocab, i8. simpl.
  pose proof (read_tokens_inv lens data 0 voc0 [] [] [] B voc_ok0 lay_nil
                (ex_intro _ data eq_refl) eq_refl) as R.
  assert (NF : forall l1 b l2 d1 d2 ts, lens = l1 ++ b :: l2 -> data = d1 ++ d2 -> layout l1 d1 ts ->
     N.of_nat (length d2) < (if b =? 0 then 256 else b) ->
     forall x1 y x2 d' d3 ts', lens = x1 ++ y :: x2 -> data = d' ++ d3 -> layout (x1 ++ [y]) d' ts' ->
     exists z, ts = ts' ++ z).
  { intros l1 b l2 d1 d2 ts E D L S x1 y x2 d' d3 ts' E' D' L'.
    destruct (le_lt_dec (length (x1 ++ [y])) (length l1)) as [Hl|Hl].
    - assert (P : exists q, l1 = (x1 ++ [y]) ++ q).
      { apply (prefix_total (x1 ++ [y]) l1 lens);
          [exists x2; rewrite <- app_assoc; exact E'|exists (b :: l2); exact E|exact Hl]. }
      destruct P as [q ->].
      assert (PD : exists r, d1 = d' ++ r).
      { destruct (le_lt_dec (length d') (length d1)) as [Hd|Hd].
        - apply (prefix_total d' d1 data); [exists d3; exact D'|exists d2; exact D|exact Hd].
        - assert (PD : exists r, d' = d1 ++ r).
          { apply (prefix_total d1 d' data); [exists d2; exact D|exists d3; exact D'|lia]. }
          destruct PD as [r ->]. exfalso.
          assert (G : forall l d ts, layout l d ts -> forall q e te, layout (l ++ q) e te ->
                    (length d <= length e)%nat).
          { clear. induction 1 as [|t ls d ts HL H IH]; intros q e te L2; simpl; [lia|].
            inversion L2 as [|t' ls' d' ts1 HL' H1 E1 E2]; subst.
            apply (f_equal tok_len) in E1. rewrite !tok_len_layout in E1 by assumption.
            specialize (IH q d' ts1 H1). rewrite !app_length. lia. }
          specialize (G _ _ _ L' q d1 ts L). lia. }
      destruct PD as [r ->].
      destruct (layout_prefix _ _ _ L' q r _ ts L eq_refl) as (z & -> & _). exists z; reflexivity.
    - exfalso.
      assert (P : exists q, x1 ++ [y] = (l1 ++ [b]) ++ q).
      { apply (prefix_total (l1 ++ [b]) (x1 ++ [y]) lens).
        - exists l2; rewrite <- app_assoc; exact E.
        - exists x2; rewrite <- app_assoc; exact E'.
        - rewrite !app_length in *; simpl in *; lia. }
      destruct P as [q Eq]. rewrite Eq, <- app_assoc in L'. simpl in L'.
      assert (G : forall l d ts, layout l d ts -> forall q e te, layout (l ++ q) e te ->
         forall rest full, full = d ++ rest -> (exists o, full = e ++ o) -> (exists e2, e = d ++ e2 /\ exists o, rest = e2 ++ o)).
      { clear. induction 1 as [|t ls d ts HL H IH]; intros q e te L2 rest full F [o O]; simpl.
        - exists e. split; [reflexivity|]. exists o. simpl in F. congruence.
        - inversion L2 as [|t' ls' d' ts1 HL' H1 E1 E2]; subst.
          apply (f_equal tok_len) in E1. rewrite !tok_len_layout in E1 by assumption.
          assert (EL : length t' = length t) by lia.
          rewrite <- !app_assoc in O.
          assert (K : t = t' /\ d ++ rest = d' ++ o).
          { apply (f_equal (firstn (length t))) in O as F1.
            apply (f_equal (skipn (length t))) in O as S1.
            rewrite <- EL in F1 at 2. rewrite <- EL in S1 at 2.
            rewrite !firstn_app, !Nat.sub_diag, !firstn_all, !firstn_O, !app_nil_r in F1.
            rewrite !skipn_app, !Nat.sub_diag, !skipn_all in S1. simpl in S1. split; assumption. }
          destruct K as [-> K]. 
          destruct (IH q d' ts1 H1 rest (d ++ rest) eq_refl (ex_intro _ o K)) as (e2 & -> & R).
          exists e2. split; [apply app_assoc|exact R]. }
      destruct (G _ _ _ L _ _ _ L' d2 data D (ex_intro _ d3 D')) as (e2 & Ee & [o Eo]).
      destruct (layout_prefix _ _ _ L (b :: q) e2 _ _ L' Ee) as (t2 & _ & L2).
      inversion L2 as [|t ls d ts2 HL H2 Eb Ed]; subst.
      change (N.of_nat (length ((t ++ d) ++ o)) < tok_len (N.of_nat (length t) mod 256)) in S.
      rewrite tok_len_layout, !app_length in S by assumption. lia. }
  split.
  - intros H. destruct (read_tokens lens data 0 voc0) as [[p w]| | |]; try discriminate.
    + destruct (p =? _); discriminate.
    + destruct R as (x1 & b & x2 & d' & d2 & ts' & E1 & E2 & L' & N' & S). 
      exists x1, b, x2, d', d2, ts'. auto 8.
  - intros (l1 & b & l2 & d1 & d2 & ts & E & D & L & ND & S).
    destruct (read_tokens lens data 0 voc0) as [[p w]| | |].
    + exfalso. destruct R as (ts' & d' & V & L' & [d3 D'] & P). simpl in L'.
      destruct (exists_last (l := lens)) as (x1 & y & Ex); [rewrite E; destruct l1; discriminate|].
      rewrite Ex in L'.
      assert (D0 : exists z, ts = ts' ++ z) by (eapply (NF l1 b l2 d1 d2 ts E D L S x1 y [] d' d3 ts'); eauto).
      destruct D0 as [z ->]. apply layout_len in L, L'.
      rewrite E in Ex. rewrite <- Ex in L'. rewrite !app_length in *. simpl in *. lia.
    + exfalso. destruct R as (x1 & y & x2 & d' & d3 & ts' & E1 & E2 & L' & N'). simpl in L'.
      destruct (NF l1 b l2 d1 d2 ts E D L S x1 y x2 d' d3 ts' E1 E2 L') as [z ->].
      apply N'. eapply NoDup_app_l; exact ND.
    + reflexivity.
    + contradiction.
Qed.

Lemma read_vocab_no_abort vs vd : read_vocab vs vd <> Abort.
Proof.
  unfold read_vocab. destruct vs as [s|]; [|discriminate]. destruct vd as [d|]; [|discriminate].
  destruct (_ || _); [discriminate|]. destruct (t_type s); try discriminate.
  destruct (t_type d); try discriminate.
  assert (G : forall l dd p v, read_tokens l dd p v <> Abort).
  { induction l as [|b l IH]; intros dd p v; simpl; [discriminate|].
    destruct (_ <? _); [discriminate|]. destruct (add_token _ _); [apply IH|discriminate]. }
  specialize (G (t_data s) (t_data d) 0 voc0).
  destruct (read_tokens _ _ _ _) as [[p w]| | |]; try discriminate; [destruct (p =? _); discriminate|tauto].
Qed.

(** * Special ids *)

Definition stored (g : gguf) (k : key) : option N :=
  match g k with Some (KU32 n) => Some n | _ => None end.
Definition typed_u32 (g : gguf) (k : key) : Prop :=
  match g k with Some (KU32 _) | None => True | _ => False end.

Lemma entry_lt ts n t : entry ts n t -> (N.to_nat n < length ts)%nat.
Proof. intros H. apply nth_error_Some. unfold entry in H. congruence. Qed.

Lemma entry_in ts n t : entry ts n t -> In t ts.
Proof. apply nth_error_In. Qed.

Lemma in_entry (ts : list (list N)) t : In t ts -> exists n, entry ts n t.
Proof.
  intros H. apply In_nth_error in H. destruct H as [i H]. exists (N.of_nat i).
  unfold entry. rewrite Nat2N.id. exact H.
Qed.

Lemma try_alternates_spec (find : list N -> N) ts alts :
  (forall n t, entry ts n t -> find t = n /\ n <> INVALID) ->
  (forall t, ~ In t ts -> find t = INVALID) ->
  (try_alternates find alts = INVALID /\ (forall x, In x alts -> ~ In x ts)) \/
  (exists pre a post n, alts = pre ++ a :: post /\ (forall x, In x pre -> ~ In x ts) /\ entry ts n a /\
     try_alternates find alts = n /\ n <> INVALID).
Proof.
  intros F1 F2. induction alts as [|a alts IH]; simpl; [left; split; [reflexivity|tauto]|].
  destruct (in_dec list_N_eq_dec a ts) as [H|H].
  - right. destruct (in_entry ts a H) as [n Hn]. destruct (F1 n a Hn) as [E1 E2].
    exists [], a, alts, n. rewrite E1. destruct (N.eqb_spec n INVALID); [tauto|].
    repeat split; auto.
  - rewrite (F2 a H). rewrite N.eqb_refl.
    destruct IH as [[E K]|(pre & b & post & n & E & K & Hn & T & V)].
    + left. split; [exact E|]. intros x [->|Hx]; auto.
    + right. exists (a :: pre), b, post, n. subst alts. repeat split; auto.
      intros x [->|Hx]; auto.
Qed.

Lemma special_id_fun st ts alts n m :
  NoDup ts -> special_id st ts alts n -> special_id st ts alts m -> n = m.
Proof.
  intros ND H1 H2. inversion H1 as [k al S1 V1|pre a post k S1 P1 E1]; subst.
  - inversion H2 as [k al S2 V2|pre a post k S2 P2 E2]; subst; [congruence|].
    destruct S2 as [S2|S2]; congruence.
  - inversion H2 as [k al S2 V2|pre2 a2 post2 k S2 P2 E2 Ee]; subst.
    + destruct S1 as [S1|S1]; congruence.
    + assert (A : a2 = a).
      { clear -Ee P1 P2 E1 E2. revert pre2 Ee P2. induction pre as [|x pre IH]; intros [|y pre2] Ee P2; simpl in Ee.
        - congruence.
        - injection Ee as -> _. exfalso. apply (P2 a); [left; reflexivity|eapply entry_in; eauto].
        - injection Ee as -> _. exfalso. apply (P1 x); [left; reflexivity|eapply entry_in; eauto].
        - injection Ee as -> Ee. apply (IH (fun z Hz => P1 z (or_intror Hz)) pre2 Ee).
          intros z Hz. apply P2. right; exact Hz. }
      subst a2. unfold entry in *. apply N2Nat.inj.
      apply (proj1 (NoDup_nth_error ts) ND); [apply nth_error_Some; congruence|congruence].
Qed.

Section GetId.
  Variable g : gguf.
  Variable find : list N -> N.
  Variable ts : list (list N).
  Hypothesis F1 : forall n t, entry ts n t -> find t = n /\ n <> INVALID.
  Hypothesis F2 : forall t, ~ In t ts -> find t = INVALID.

  Lemma get_token_id_ok k alts : typed_u32 g k ->
    exists i, get_token_id g find k alts = Ok i /\
      ((i <> INVALID /\ special_id (stored g k) ts alts i) \/
       (i = INVALID /\ forall j, ~ special_id (stored g k) ts alts j)).
  Proof.
    intros T. unfold get_token_id, gguf_u32, stored, typed_u32 in *.
    assert (C : forall st, st = None \/ st = Some INVALID ->
       (try_alternates find alts <> INVALID /\ special_id st ts alts (try_alternates find alts)) \/
       (try_alternates find alts = INVALID /\ forall j, ~ special_id st ts alts j)).
    { intros st S. destruct (try_alternates_spec find ts alts F1 F2)
        as [[E K]|(pre & a & post & n & E & K & Hn & T' & V)].
      - right. split; [exact E|]. intros j H. inversion H; subst.
        + destruct S as [S|S]; congruence.
        + apply (K a); [apply in_elt|eapply entry_in; eauto].
      - left. rewrite T'. split; [exact V|]. subst alts. apply from_vocab; assumption. }
    destruct (g k) as [[n|b|]|]; try contradiction; simpl.
    - destruct (N.eqb_spec n INVALID) as [->|Hn].
      + eexists; split; [reflexivity|]. apply C. right; reflexivity.
      + exists n. split; [reflexivity|]. left. split; [exact Hn|]. apply from_file; auto.
    - eexists; split; [reflexivity|]. apply C. left; reflexivity.
  Qed.

  Lemma get_token_id_abort k alts : ~ typed_u32 g k -> get_token_id g find k alts = Abort.
  Proof.
    unfold get_token_id, gguf_u32, typed_u32. destruct (g k) as [[n|b|]|]; simpl; tauto.
  Qed.
End GetId.

(** * Decimal names *)

Definition undigits (l : list N) : N := fold_left (fun a d => 10 * a + (d - 48)) l 0.

Lemma undigits_digits fuel : forall n, n < 2 ^ N.of_nat fuel -> undigits (digits (S fuel) n) = n.
Proof.
  induction fuel as [|f IH]; intros n H.
  - assert (n = 0) by (change (2 ^ N.of_nat 0) with 1 in H; lia). subst. reflexivity.
  - change (digits (S (S f)) n) with
      (if n <? 10 then [48 + n] else digits (S f) (n / 10) ++ [48 + n mod 10]).
    destruct (N.ltb_spec n 10) as [L|L].
    + unfold undigits. cbn [fold_left]. lia.
    + assert (B : n / 10 < 2 ^ N.of_nat f).
      { rewrite Nat2N.inj_succ, N.pow_succ_r' in H. apply N.div_lt_upper_bound; lia. }
      specialize (IH (n / 10) B). unfold undigits in *. rewrite fold_left_app, IH. cbn [fold_left].
      replace (48 + n mod 10 - 48) with (n mod 10) by lia.
      rewrite <- N.div_mod; [reflexivity|lia].
Qed.

Lemma undigits_decimal n : undigits (decimal n) = n.
Proof. apply undigits_digits. rewrite N2Nat.id. apply N.size_gt. Qed.

Lemma decimal_inj a b : decimal a = decimal b -> a = b.
Proof. intros H. rewrite <- (undigits_decimal a), H. apply undigits_decimal. Qed.

Lemma digits_length fuel : forall n, (length (digits fuel n) <= fuel)%nat.
Proof.
  induction fuel as [|f IH]; intros n; simpl; [lia|].
  destruct (n <? 10); simpl; [lia|]. rewrite app_length. simpl. specialize (IH (n / 10)). lia.
Qed.

Lemma unused_name_length k : k < 2 ^ 200 -> (1 <= length (unused_name k) <= 256)%nat.
Proof.
  intros H. unfold unused_name, decimal. rewrite !app_length.
  pose proof (digits_length (S (N.to_nat (N.size k))) k) as L.
  assert (Z : N.size k <= 200).
  { destruct (N.eq_dec k 0) as [->|Hk]; [simpl; lia|].
    rewrite N.size_log2 by exact Hk. apply N.le_succ_l. apply N.log2_lt_pow2; lia. }
  change (length (u "[unused")) with 7%nat. change (length (u "]")) with 1%nat. lia.
Qed.

Lemma unused_name_inj i j : unused_name i = unused_name j -> i = j.
Proof.
  unfold unused_name. intros H. apply app_inv_head in H. apply app_inv_tail in H.
  apply decimal_inj. exact H.
Qed.

(** * The converter's table *)

Lemma put_spec i t slots slots' : put i t slots = Some slots' ->
  nth_error slots i = Some None /\ nth_error slots' i = Some (Some t) /\ length slots' = length slots /\
  (forall j, j <> i -> nth_error slots' j = nth_error slots j).
Proof.
  revert i slots'; induction slots as [|s slots IH]; intros [|i] slots' H; simpl in *; try discriminate.
  - destruct s; [discriminate|]. injection H as <-. repeat split. intros [|j] Hj; [tauto|reflexivity].
  - destruct (put i t slots) as [r|] eqn:E.
    + destruct (IH i r E) as (A & B & C & D).
      assert (H' : slots' = s :: r) by (destruct s; simpl in H; congruence). subst slots'.
      simpl. repeat split; auto. intros [|j] Hj; [reflexivity|]. simpl. apply D. lia.
    + destruct s; simpl in H; discriminate.
Qed.

Lemma put_ok i t slots : nth_error slots i = Some None -> exists slots', put i t slots = Some slots'.
Proof.
  revert i; induction slots as [|s slots IH]; intros [|i] H; simpl in *; try discriminate.
  - injection H as ->. eexists; reflexivity.
  - destruct (IH i H) as [r ->]. destruct s; eexists; reflexivity.
Qed.

Lemma put_all_spec : forall dict slots slots',
  NoDup (map snd dict) -> put_all dict slots = Some slots' ->
  length slots' = length slots /\
  forall j, nth_error slots' j =
    match find (fun p => (N.to_nat (snd p) =? j)%nat) dict with
    | Some (t, _) => Some (Some t)
    | None => nth_error slots j
    end.
Proof.
  induction dict as [|[t i] dict IH]; intros slots slots' ND H; simpl in *.
  - injection H as <-. auto.
  - destruct (put (N.to_nat i) t slots) as [s1|] eqn:E; [|discriminate].
    inversion ND as [|? ? Hn ND']; subst.
    destruct (put_spec _ _ _ _ E) as (A & B & C & D).
    destruct (IH s1 slots' ND' H) as [L K]. split; [congruence|].
    intros j. rewrite K. destruct (Nat.eqb_spec (N.to_nat i) j) as [<-|Hj].
    + destruct (find _ dict) as [[t' i']|] eqn:F; [|exact B].
      apply find_some in F. destruct F as [F1 F2]. apply Nat.eqb_eq in F2. simpl in F2.
      apply N2Nat.inj in F2. subst i'. exfalso. apply Hn. apply in_map_iff. exists (t', i); auto.
    + destruct (find _ dict) as [[t' i']|] eqn:F; [reflexivity|]. apply D. auto.
Qed.

Lemma put_all_ok : forall dict slots,
  NoDup (map snd dict) ->
  (forall t i, In (t, i) dict -> nth_error slots (N.to_nat i) = Some None) ->
  exists slots', put_all dict slots = Some slots'.
Proof.
  induction dict as [|[t i] dict IH]; intros slots ND H; simpl; [eexists; reflexivity|].
  inversion ND as [|? ? Hn ND']; subst.
  destruct (put_ok (N.to_nat i) t slots) as [s1 E]; [apply (H t i); left; reflexivity|].
  rewrite E. apply IH; [exact ND'|]. intros t' i' Hi.
  destruct (put_spec _ _ _ _ E) as (A & B & C & D). rewrite D.
  - apply (H t' i'). right; exact Hi.
  - intros Ei. apply N2Nat.inj in Ei. subst i'. apply Hn. apply in_map_iff. exists (t', i); auto.
Qed.

Lemma slot_mem_iff t slots : slot_mem t slots = true <-> In (Some t) slots.
Proof.
  unfold slot_mem. rewrite existsb_exists. split.
  - intros (s & Hs & E). destruct s as [t'|]; [|discriminate].
    apply list_N_eqb_eq in E. subst. exact Hs.
  - intros H. exists (Some t). split; [exact H|apply list_N_eqb_refl].
Qed.

Lemma next_unused_spec fuel slots i j :
  next_unused fuel slots i = Some j ->
  i <= j /\ ~ In (Some (unused_name j)) slots /\ j < i + N.of_nat fuel.
Proof.
  revert i; induction fuel as [|f IH]; intros i H; simpl in H; [discriminate|].
  destruct (slot_mem (unused_name i) slots) eqn:E.
  - destruct (IH (i + 1) H) as (A & B & C). repeat split; [lia|assumption|lia].
  - injection H as <-. repeat split; [lia| |lia]. rewrite <- slot_mem_iff. congruence.
Qed.

(** The search ends: the names tried are all different, the table is finite. *)
Lemma next_unused_total slots i : exists j, next_unused (S (length slots)) slots i = Some j.
Proof.
  assert (G : forall fuel i, next_unused fuel slots i = None ->
              incl (map (fun k => Some (unused_name (i + N.of_nat k))) (seq 0 fuel)) slots).
  { induction fuel as [|f IH]; intros k H; simpl in *; [intros x []|].
    destruct (slot_mem (unused_name k) slots) eqn:E; [|discriminate].
    apply slot_mem_iff in E. intros x [<-|Hx].
    - rewrite N.add_0_r. exact E.
    - apply (IH (k + 1) H). apply in_map_iff in Hx. destruct Hx as (m & <- & Hm).
      apply in_seq in Hm. apply in_map_iff. exists (m - 1)%nat. split; [|apply in_seq; lia].
      do 2 f_equal. lia. }
  destruct (next_unused (S (length slots)) slots i) as [j|] eqn:E; [eexists; reflexivity|].
  exfalso. apply G in E. apply NoDup_incl_length in E.
  - rewrite map_length, seq_length in E. lia.
  - apply FinFun.Injective_map_NoDup; [|apply seq_NoDup].
    intros a b H. assert (H1 : unused_name (i + N.of_nat a) = unused_name (i + N.of_nat b)) by congruence. apply unused_name_inj in H1. lia.
Qed.

Lemma fill_spec all : forall slots i tokens,
  incl slots all -> NoDup (filter (fun s => match s with Some _ => true | None => false end) slots) ->
  fill all slots i = Some tokens ->
  length tokens = length slots /\
  (forall j t, nth_error slots j = Some (Some t) -> nth_error tokens j = Some t) /\
  (forall j, nth_error slots j = Some None -> exists k, i <= k /\ nth_error tokens j = Some (unused_name k) /\
                                               ~ In (Some (unused_name k)) all /\
     k < i + N.of_nat (length slots) * (N.of_nat (length all) + 2)) /\
  NoDup tokens.
Proof.
  induction slots as [|s slots IH]; intros i tokens I ND H; simpl in *.
  - injection H as <-. repeat split; try (intros [|]; discriminate). constructor.
  - assert (I' : incl slots all) by (intros x Hx; apply I; right; exact Hx).
    destruct s as [t|].
    + simpl in ND. inversion ND as [|? ? Hn ND']; subst.
      destruct (fill all slots i) as [r|] eqn:E; [|discriminate]. injection H as <-.
      destruct (IH i r I' ND' E) as (L & A & B & D). repeat split.
      * simpl. congruence.
      * intros [|j] t' Hj; simpl in *; [congruence|auto].
      * intros [|j] Hj; simpl in *; [discriminate|].
        destruct (B j Hj) as (k & K1 & K2 & K3 & K4). exists k. repeat split; auto. lia.
      * constructor; [|exact D]. intros K. apply In_nth_error in K. destruct K as [j Hj].
        assert (Lj : (j < length slots)%nat) by (rewrite <- L; apply nth_error_Some; congruence).
        destruct (nth_error slots j) as [[t'|]|] eqn:Ej.
        -- rewrite (A j t' Ej) in Hj. injection Hj as ->. apply Hn. apply filter_In.
           split; [eapply nth_error_In; eauto|reflexivity].
        -- destruct (B j Ej) as (k & _ & Hk & Nk & _). rewrite Hj in Hk. injection Hk as ->.
           apply Nk. apply I. left; reflexivity.
        -- apply nth_error_None in Ej. lia.
    + destruct (next_unused_total all i) as [j Ej]. simpl in Ej. rewrite Ej in H.
      destruct (next_unused_spec (S (length all)) all i j Ej) as (Lij & Nj & Bj).
      destruct (fill all slots (j + 1)) as [r|] eqn:E; [|discriminate]. injection H as <-.
      destruct (IH (j + 1) r I' ND E) as (L & A & B & D). repeat split.
      * simpl. congruence.
      * intros [|m] t' Hm; simpl in *; [discriminate|auto].
      * intros [|m] Hm; simpl in *; [exists j; repeat split; auto; lia|].
        destruct (B m Hm) as (k & Lk & Hk & Nk & Bk). exists k. repeat split; auto; lia.
      * constructor; [|exact D]. intros K. apply In_nth_error in K. destruct K as [m Hm].
        assert (Lm : (m < length slots)%nat) by (rewrite <- L; apply nth_error_Some; congruence).
        destruct (nth_error slots m) as [[t'|]|] eqn:Em.
        -- rewrite (A m t' Em) in Hm. injection Hm as ->. apply Nj. apply I. right.
           eapply nth_error_In; eauto.
        -- destruct (B m Em) as (k & Lk & Hk & Nk & _). rewrite Hm in Hk. apply (f_equal (fun o => match o with Some x => x | None => [] end)) in Hk.
           apply unused_name_inj in Hk. lia.
        -- apply nth_error_None in Em. lia.
Qed.

Lemma fill_total all : forall slots i, exists tokens, fill all slots i = Some tokens.
Proof.
  induction slots as [|s slots IH]; intros i; simpl; [eexists; reflexivity|].
  destruct s as [t|].
  - destruct (IH i) as [r ->]. eexists; reflexivity.
  - destruct (next_unused_total all i) as [j Ej]. simpl in Ej. rewrite Ej.
    destruct (IH (j + 1)) as [r ->]. eexists; reflexivity.
Qed.

Lemma stored_len_layout t : (1 <= length t <= 256)%nat -> stored_len t = Some (N.of_nat (length t) mod 256).
Proof.
  intros H. unfold stored_len. destruct (N.eqb_spec (N.of_nat (length t)) 256) as [E|E].
  - rewrite E. reflexivity.
  - destruct (N.ltb_spec 256 (N.of_nat (length t))); [lia|]. rewrite N.mod_small by lia. reflexivity.
Qed.

Lemma write_tokens_ok ts :
  (forall t, In t ts -> (1 <= length t <= 256)%nat) ->
  exists lens, write_tokens ts = Some (mkt 1 T_I8 lens, mkt 1 T_I8 (concat ts)) /\ layout lens (concat ts) ts.
Proof.
  intros H. unfold write_tokens.
  assert (G : exists lens, all_some (map stored_len ts) = Some lens /\ layout lens (concat ts) ts).
  { induction ts as [|t ts IH]; simpl; [exists []; split; [reflexivity|constructor]|].
    destruct IH as (lens & E & L); [intros t' Ht; apply H; right; exact Ht|].
    rewrite stored_len_layout by (apply H; left; reflexivity). rewrite E. simpl.
    eexists; split; [reflexivity|]. constructor; [apply H; left; reflexivity|exact L]. }
  destruct G as (lens & -> & L). exists lens. auto.
Qed.

Lemma slots_nodup n dict slots :
  NoDup (map fst dict) -> NoDup (map snd dict) -> put_all dict (repeat None n) = Some slots ->
  NoDup (filter (fun s => match s with Some _ => true | None => false end) slots).
Proof.
  intros N1 N2 H. destruct (put_all_spec _ _ _ N2 H) as [L K].
  assert (G : forall a b t, nth_error slots a = Some (Some t) -> nth_error slots b = Some (Some t) -> a = b).
  { assert (Q : forall a t, nth_error slots a = Some (Some t) -> exists i, In (t, i) dict /\ N.to_nat i = a).
    { intros a t Ha. rewrite K in Ha. destruct (find _ dict) as [[t' i']|] eqn:F.
      - apply find_some in F. destruct F as [F1 F2]. apply Nat.eqb_eq in F2. simpl in F2.
        injection Ha as ->. exists i'; auto.
      - apply nth_error_In in Ha. apply repeat_spec in Ha. discriminate. }
    intros a b t Ha Hb. destruct (Q a t Ha) as (i & I1 & <-). destruct (Q b t Hb) as (j & I2 & <-).
    f_equal. assert (M : forall (d : list (list N * N)) x p q, NoDup (map fst d) -> In (x, p) d -> In (x, q) d -> p = q).
    { clear. induction d as [|[y r] d IH]; intros x p q ND; simpl; [tauto|].
      inversion ND as [|? ? Hn ND']; subst. intros [A|A] [B|B].
      - congruence.
      - injection A as -> ->. exfalso. apply Hn. apply in_map_iff. exists (x, q); auto.
      - injection B as -> ->. exfalso. apply Hn. apply in_map_iff. exists (x, p); auto.
      - eauto. }
    eapply M; eauto. }
  clear -G. induction slots as [|s slots IH]; simpl; [constructor|].
  assert (G' : forall a b t, nth_error slots a = Some (Some t) -> nth_error slots b = Some (Some t) -> a = b).
  { intros a b t Ha Hb. apply eq_add_S. eapply G; simpl; eauto. }
  destruct s as [t|]; [|apply IH; exact G']. constructor; [|apply IH; exact G'].
  rewrite filter_In. intros [K _]. apply In_nth_error in K. destruct K as [j Hj].
  specialize (G 0%nat (S j) t eq_refl Hj). discriminate.
Qed.

Lemma write_vocab_ok n dict :
  NoDup (map fst dict) -> NoDup (map snd dict) ->
  (forall t i, In (t, i) dict -> i < N.of_nat n /\ (1 <= length t <= 256)%nat) ->
  N.of_nat n < 4294967296 ->
  exists ts lens,
    write_vocab n dict = Some (mkt 1 T_I8 lens, mkt 1 T_I8 (concat ts)) /\
    layout lens (concat ts) ts /\ NoDup ts /\ length ts = n /\
    (forall t i, In (t, i) dict -> entry ts i t) /\
    (forall i, i < N.of_nat n -> ~ In i (map snd dict) ->
       exists k, entry ts i (unused_name k) /\ ~ In (unused_name k) (map fst dict)).
Proof.
  intros N1 N2 H B. unfold write_vocab.
  destruct (put_all_ok dict (repeat None n) N2) as [slots E].
  { intros t i Hi. destruct (H t i Hi) as [Li _].
    assert (Hl : (N.to_nat i < length (repeat (@None (list N)) n))%nat) by (rewrite repeat_length; lia).
    destruct (nth_error (repeat (@None (list N)) n) (N.to_nat i)) as [x|] eqn:Ex.
    - apply nth_error_In in Ex. apply repeat_spec in Ex. congruence.
    - apply nth_error_None in Ex. lia. }
  rewrite E. destruct (put_all_spec _ _ _ N2 E) as [L K]. rewrite repeat_length in L.
  destruct (fill_total slots slots 0) as [ts F]. rewrite F.
  destruct (fill_spec slots slots 0 ts (incl_refl _) (slots_nodup _ _ _ N1 N2 E) F) as (Lt & A & U & ND).
  assert (SD : forall t, In (Some t) slots <-> In t (map fst dict)).
  { intros t. split.
    - intros Ht. apply In_nth_error in Ht. destruct Ht as [j Hj]. rewrite K in Hj.
      destruct (find _ dict) as [[t' i']|] eqn:Fd.
      + apply find_some in Fd. destruct Fd as [Fd _]. injection Hj as ->.
        apply in_map_iff. exists (t, i'); auto.
      + apply nth_error_In, repeat_spec in Hj. discriminate.
    - intros Ht. apply in_map_iff in Ht. destruct Ht as ([t' i] & E1 & Hi). simpl in E1; subst t'.
      apply (nth_error_In slots (N.to_nat i)). rewrite K.
      destruct (find (fun p => (N.to_nat (snd p) =? N.to_nat i)%nat) dict) as [[t' i']|] eqn:Fd.
      + apply find_some in Fd. destruct Fd as [F1 F2]. apply Nat.eqb_eq in F2. simpl in F2.
        apply N2Nat.inj in F2. subst i'. do 2 f_equal.
        clear -N2 Hi F1. induction dict as [|[y r] d IH]; simpl in *; [contradiction|].
        inversion N2 as [|? ? Hn ND']; subst. destruct Hi as [Hi|Hi], F1 as [F1|F1]; auto.
        * congruence.
        * injection Hi as -> ->. exfalso. apply Hn. apply in_map_iff. exists (t', i); auto.
        * injection F1 as -> ->. exfalso. apply Hn. apply in_map_iff. exists (t, i); auto.
      + exfalso. apply (find_none _ _ Fd) in Hi. simpl in Hi. rewrite Nat.eqb_refl in Hi. discriminate. }
  assert (SE : forall t i, In (t, i) dict -> nth_error slots (N.to_nat i) = Some (Some t)).
  { intros t i Hi. rewrite K.
    destruct (find (fun p => (N.to_nat (snd p) =? N.to_nat i)%nat) dict) as [[t' i']|] eqn:Fd.
    + apply find_some in Fd. destruct Fd as [F1 F2]. apply Nat.eqb_eq in F2. simpl in F2.
      apply N2Nat.inj in F2. subst i'. do 2 f_equal.
      clear -N2 Hi F1. induction dict as [|[y r] d IH]; simpl in *; [contradiction|].
      inversion N2 as [|? ? Hn ND']; subst. destruct Hi as [Hi|Hi], F1 as [F1|F1]; auto.
      * congruence.
      * injection Hi as -> ->. exfalso. apply Hn. apply in_map_iff. exists (t', i); auto.
      * injection F1 as -> ->. exfalso. apply Hn. apply in_map_iff. exists (t, i); auto.
    + exfalso. apply (find_none _ _ Fd) in Hi. simpl in Hi. rewrite Nat.eqb_refl in Hi. discriminate. }
  assert (LN : forall t, In t ts -> (1 <= length t <= 256)%nat).
  { intros t Ht. apply In_nth_error in Ht. destruct Ht as [j Hj].
    assert (Lj : (j < length slots)%nat) by (rewrite <- Lt; apply nth_error_Some; congruence).
    destruct (nth_error slots j) as [[t'|]|] eqn:Ej.
    - rewrite (A j t' Ej) in Hj. injection Hj as ->.
      assert (I : In t (map fst dict)) by (apply SD; eapply nth_error_In; eauto).
      apply in_map_iff in I. destruct I as ([t2 i] & E2 & Hi). simpl in E2; subst t2. apply (H t i Hi).
    - destruct (U j Ej) as (k & _ & Hk & _ & Bk). rewrite Hj in Hk.
      apply (f_equal (fun o => match o with Some x => x | None => [] end)) in Hk. rewrite Hk.
      apply unused_name_length. rewrite L in Bk.
      assert (M : N.of_nat n * (N.of_nat n + 2) <= 4294967296 * 4294967298) by (apply N.mul_le_mono; lia).
      assert (M2 : 4294967296 * 4294967298 < 2 ^ 200) by reflexivity. lia.
    - apply nth_error_None in Ej. lia. }
  destruct (write_tokens_ok ts LN) as (lens & W & LY).
  exists ts, lens. repeat split; auto.
  - congruence.
  - intros t i Hi. unfold entry. apply A. apply SE. exact Hi.
  - intros i Li Hn.
    assert (Ei : nth_error slots (N.to_nat i) = Some None).
    { rewrite K. destruct (find _ dict) as [[t' i']|] eqn:Fd.
      - apply find_some in Fd. destruct Fd as [F1 F2]. apply Nat.eqb_eq in F2. simpl in F2.
        apply N2Nat.inj in F2. subst i'. exfalso. apply Hn. apply in_map_iff. exists (t', i); auto.
      - destruct (nth_error (repeat (@None (list N)) n) (N.to_nat i)) as [x|] eqn:Ex.
        + apply nth_error_In in Ex. apply repeat_spec in Ex. congruence.
        + apply nth_error_None in Ex. rewrite repeat_length in Ex. lia. }
    destruct (U _ Ei) as (k & _ & Hk & Nk & _). exists k. split; [exact Hk|].
    rewrite <- SD. exact Nk.
Qed.

(** * The special ids of a BERT file *)

Definition typed_bool (g : gguf) (k : key) : Prop :=
  match g k with Some (KBool _) | None => True | _ => False end.

Lemma gguf_bool_ok g k d : typed_bool g k -> exists b, gguf_bool g k d = Ok b.
Proof. unfold typed_bool, gguf_bool. destruct (g k) as [[]|]; try contradiction; eexists; reflexivity. Qed.

Lemma voc_find v ts : voc_ok v ts -> N.of_nat (length ts) < 4294967296 ->
  (forall n t, entry ts n t -> token_to_id v t = n /\ n <> INVALID) /\
  (forall t, ~ In t ts -> token_to_id v t = INVALID).
Proof.
  intros V B. split.
  - intros n t H. split; [eapply voc_t2i_in; eauto|].
    apply entry_lt in H. unfold INVALID. lia.
  - intros t H. eapply voc_t2i_out; eauto.
Qed.

Definition bert_special (b : bvocab) (k : key) : N :=
  match k with
  | K_cls => v_cls b | K_mask => v_mask b | K_pad => v_pad b | K_sep => v_sep b | K_unk => v_unk b
  | _ => INVALID
  end.

Lemma bert_vocab_init_spec g v ts (spell : key -> list (list N)) :
  spell K_cls = [s_CLS; s_s] -> spell K_mask = [s_MASK; s_mask] -> spell K_pad = [s_PAD; s_pad] ->
  spell K_sep = [s_SEP; s_es] -> spell K_unk = [s_UNK; s_unk] ->
  voc_ok v ts -> N.of_nat (length ts) < 4294967296 -> ts <> [] ->
  Forall (fun t => from_utf8 t <> None) ts ->
  (forall k, In k [K_cls; K_mask; K_pad; K_sep; K_unk] -> typed_u32 g k) ->
  (forall k, In k [K_lower; K_basic; K_cjk; K_accent] -> typed_bool g k) ->
  match bert_vocab_init g v with
  | Ok b => v_tokens b = ts /\
            forall k, In k [K_cls; K_mask; K_pad; K_sep; K_unk] ->
              special_id (stored g k) ts (spell k) (bert_special b k)
  | Fail => exists k, In k [K_cls; K_mask; K_pad; K_sep; K_unk] /\
              forall n, ~ special_id (stored g k) ts (spell k) n
  | _ => False
  end.
Proof.
  intros S1 S2 S3 S4 S5 V B NE U8 T1 T2.
  destruct (voc_find v ts V B) as [F1 F2].
  assert (G : forall k, In k [K_cls; K_mask; K_pad; K_sep; K_unk] ->
            exists i, get_token_id g (token_to_id v) k (spell k) = Ok i /\
      ((i <> INVALID /\ special_id (stored g k) ts (spell k) i) \/
       (i = INVALID /\ forall j, ~ special_id (stored g k) ts (spell k) j))).
  { intros k Hk. apply (get_token_id_ok g (token_to_id v) ts F1 F2 k (spell k) (T1 k Hk)). }
  unfold bert_vocab_init.
  destruct (G K_cls) as (i1 & E1 & C1); [simpl; tauto|].
  destruct (G K_mask) as (i2 & E2 & C2); [simpl; tauto|].
  destruct (G K_pad) as (i3 & E3 & C3); [simpl; tauto|].
  destruct (G K_sep) as (i4 & E4 & C4); [simpl; tauto|].
  destruct (G K_unk) as (i5 & E5 & C5); [simpl; tauto|].
  rewrite <- S1, E1. cbn [obind]. rewrite <- S2, E2. cbn [obind].
  rewrite <- S3, E3. cbn [obind]. rewrite <- S4, E4. cbn [obind]. rewrite <- S5, E5. cbn [obind].
  destruct C1 as [[N1 D1]|[-> D1]];
    [|rewrite N.eqb_refl; simpl; exists K_cls; split; [simpl; tauto|exact D1]].
  destruct C2 as [[N2 D2]|[-> D2]];
    [|rewrite N.eqb_refl, !orb_true_r; simpl; exists K_mask; split; [simpl; tauto|exact D2]].
  destruct C3 as [[N3 D3]|[-> D3]];
    [|rewrite N.eqb_refl, !orb_true_r; simpl; exists K_pad; split; [simpl; tauto|exact D3]].
  destruct C4 as [[N4 D4]|[-> D4]];
    [|rewrite N.eqb_refl, !orb_true_r; simpl; exists K_sep; split; [simpl; tauto|exact D4]].
  destruct C5 as [[N5 D5]|[-> D5]];
    [|rewrite N.eqb_refl, !orb_true_r; simpl; exists K_unk; split; [simpl; tauto|exact D5]].
  apply N.eqb_neq in N1, N2, N3, N4, N5. rewrite N1, N2, N3, N4, N5. cbn [orb].
  destruct (gguf_bool_ok g K_lower true) as [b1 Q1]; [apply T2; simpl; tauto|].
  destruct (gguf_bool_ok g K_basic true) as [b2 Q2]; [apply T2; simpl; tauto|].
  destruct (gguf_bool_ok g K_cjk true) as [b3 Q3]; [apply T2; simpl; tauto|].
  destruct (gguf_bool_ok g K_accent b1) as [b4 Q4]; [apply T2; simpl; tauto|].
  rewrite Q1. cbn [obind]. rewrite Q2. cbn [obind]. rewrite Q3. cbn [obind]. rewrite Q4. cbn [obind].
  destruct V as (E & _). rewrite E.
  assert (A : exists r, all_some (map from_utf8 ts) = Some r).
  { clear -U8. induction U8 as [|t ts H _ IH]; simpl; [eexists; reflexivity|].
    destruct IH as [r ->]. destruct (from_utf8 t); [eexists; reflexivity|congruence]. }
  destruct A as [r ->].
  destruct (Nat.eqb_spec (length ts) 0) as [Z|Z]; [destruct ts; [tauto|discriminate]|].
  split; [reflexivity|]. intros k [<-|[<-|[<-|[<-|[<-|[]]]]]]; assumption.
Qed.

Lemma put_all_ids : forall dict slots slots', put_all dict slots = Some slots' ->
  NoDup (map snd dict) /\ forall t i, In (t, i) dict -> nth_error slots (N.to_nat i) = Some None.
Proof.
  induction dict as [|[t i] dict IH]; intros slots slots' H; simpl in *; [split; [constructor|tauto]|].
  destruct (put (N.to_nat i) t slots) as [s1|] eqn:E; [|discriminate].
  destruct (put_spec _ _ _ _ E) as (A & B & C & D). destruct (IH _ _ H) as [ND K].
  assert (Hn : forall t' i', In (t', i') dict -> i' <> i).
  { intros t' i' Hi ->. specialize (K t' i Hi). congruence. }
  split.
  - constructor; [|exact ND]. intros Hi. apply in_map_iff in Hi. destruct Hi as ([t' i'] & E1 & Hi).
    simpl in E1. subst. eapply Hn; eauto.
  - intros t' i' [Hi|Hi]; [injection Hi as <- <-; exact A|].
    rewrite <- (D (N.to_nat i')); [eapply K; eauto|].
    intros Ei. apply N2Nat.inj in Ei. eapply Hn; eauto.
Qed.

Definition total_len (lens : list N) : N := fold_right (fun b a => tok_len b + a) 0 lens.

Lemma layout_total lens data ts : layout lens data ts -> N.of_nat (length data) = total_len lens.
Proof.
  induction 1 as [|t ls d ts HL H IH]; simpl; [reflexivity|].
  rewrite tok_len_layout by assumption. rewrite app_length. lia.
Qed.

Lemma stored_lens_bytes : forall ts lens, all_some (map stored_len ts) = Some lens ->
  bytes_ok lens /\ (In [] ts -> N.of_nat (length (concat ts)) + 256 <= total_len lens).
Proof.
  assert (G : forall ts lens, all_some (map stored_len ts) = Some lens ->
    bytes_ok lens /\ N.of_nat (length (concat ts)) <= total_len lens /\
    (In [] ts -> N.of_nat (length (concat ts)) + 256 <= total_len lens)).
  { induction ts as [|t ts IH]; intros lens H; simpl in H.
    - injection H as <-. split; [constructor|]. split; [simpl; lia|]. intros [].
    - destruct (stored_len t) as [b|] eqn:E; [|discriminate].
      destruct (all_some (map stored_len ts)) as [r|]; [|discriminate]. injection H as <-.
      destruct (IH r eq_refl) as (B & L & S).
      assert (K : b < 256 /\ N.of_nat (length t) <= tok_len b /\ (t = [] -> tok_len b = 256)).
      { unfold stored_len in E. unfold tok_len.
        destruct (N.eqb_spec (N.of_nat (length t)) 256) as [E1|E1].
        - injection E as <-. simpl. lia.
        - destruct (N.ltb_spec 256 (N.of_nat (length t))); [discriminate|]. injection E as <-.
          destruct (N.eqb_spec (N.of_nat (length t)) 0); repeat split; try lia. intros ->. simpl in *. lia. }
      destruct K as (K1 & K2 & K3). split; [constructor; assumption|].
      simpl. rewrite app_length. split; [lia|]. intros [->|I]; [specialize (K3 eq_refl); simpl; lia|].
      specialize (S I). lia. }
  intros ts lens H. destruct (G ts lens H) as (A & _ & C). auto.
Qed.
