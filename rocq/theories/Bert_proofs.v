(** Proofs about the BERT tokenizer. *)
From Verif Require Import Base Utf_model Utf_spec Utf_proofs Trie_model Trie_spec Trie_proofs Bert_model Bert_spec.
Open Scope N_scope.

Lemma firstn_app_exact {A} (l r : list A) : firstn (length l) (l ++ r) = l.
Proof. rewrite firstn_app, Nat.sub_diag, firstn_all. simpl. apply app_nil_r. Qed.

(** ** The words of a text *)

Section Words.
  Variable kind_of : N -> kind.
  Notation kp := (kept kind_of).

  Definition flush (cur : list N) : list (list N) := match cur with [] => [] | _ => [cur] end.

  Definition step (st : list (list N) * list N) (c : N) : list (list N) * list N :=
    let '(d, cur) := st in
    match kind_of c with
    | Dropped => (d, cur)
    | Separator => (d ++ flush cur, [])
    | Alone => (d ++ flush cur ++ [[c]], [])
    | Part => (d, cur ++ [c])
    end.

  Definition finish (st : list (list N) * list N) : list (list N) := fst st ++ flush (snd st).
  Definition ref_words (cs : list N) : list (list N) := finish (fold_left step cs ([], [])).

  Lemma concat_flush cur : concat (flush cur) = cur.
  Proof. destruct cur; [reflexivity|]. simpl. rewrite app_nil_r. reflexivity. Qed.

  Lemma step_inv d cur c : let '(d', cur') := step (d, cur) c in
    concat d' ++ cur' = concat d ++ cur ++ filter kp [c] /\
    (Forall (fun w => w <> []) d -> Forall (fun w => w <> []) d').
  Proof.
    unfold step, kept. simpl. destruct (kind_of c).
    - rewrite app_nil_r. tauto.
    - rewrite concat_app, concat_flush, !app_nil_r. split; [reflexivity|].
      intros H. apply Forall_app; split; [exact H|]. destruct cur; constructor; [discriminate|constructor].
    - rewrite !concat_app, concat_flush. simpl. rewrite app_nil_r. split; [reflexivity|].
      intros H. apply Forall_app; split; [exact H|]. apply Forall_app; split.
      + destruct cur; constructor; [discriminate|constructor].
      + constructor; [discriminate|constructor].
    - tauto.
  Qed.

  Lemma fold_inv cs : forall d cur, let '(d', cur') := fold_left step cs (d, cur) in
    concat d' ++ cur' = concat d ++ cur ++ filter kp cs /\
    (Forall (fun w => w <> []) d -> Forall (fun w => w <> []) d').
  Proof.
    induction cs as [|c cs IH]; intros d cur; cbn [fold_left].
    { simpl. rewrite app_nil_r. tauto. }
    pose proof (step_inv d cur c) as S. destruct (step (d, cur) c) as [d1 cur1]. destruct S as [S1 S2].
    specialize (IH d1 cur1). destruct (fold_left step cs (d1, cur1)) as [d2 cur2]. destruct IH as [I1 I2].
    split; [|tauto]. rewrite I1, app_assoc, S1.
    change (c :: cs) with ([c] ++ cs). rewrite filter_app, <- !app_assoc. reflexivity.
  Qed.

  Lemma fold_frame cs : forall d cur,
    fold_left step cs (d, cur) = (d ++ fst (fold_left step cs ([], cur)), snd (fold_left step cs ([], cur))).
  Proof.
    induction cs as [|c cs IH]; intros d cur; cbn [fold_left].
    { simpl. rewrite app_nil_r. reflexivity. }
    unfold step at 2 4 6. destruct (kind_of c).
    - apply IH.
    - rewrite IH, (IH ([] ++ flush cur)). cbn [fst snd app]. rewrite app_assoc. reflexivity.
    - rewrite IH, (IH ([] ++ flush cur ++ [[c]])). cbn [fst snd app]. rewrite <- !app_assoc. reflexivity.
    - apply IH.
  Qed.

  (** Later characters only extend the current word or add words. *)
  Lemma fold_grow cs : forall d cur, cur <> [] -> exists r rest,
    finish (fold_left step cs (d, cur)) = d ++ (cur ++ r) :: rest.
  Proof.
    induction cs as [|c cs IH]; intros d cur H.
    { exists [], []. unfold finish; simpl. destruct cur; [tauto|]. rewrite app_nil_r. reflexivity. }
    cbn [fold_left]. unfold step at 2. destruct (kind_of c).
    - apply IH, H.
    - exists []. rewrite fold_frame. unfold finish. destruct cur; [tauto|].
      eexists. cbn [flush fst snd]. rewrite app_nil_r, <- !app_assoc. reflexivity.
    - exists []. rewrite fold_frame. unfold finish. destruct cur; [tauto|].
      eexists. cbn [flush fst snd]. rewrite app_nil_r, <- !app_assoc. reflexivity.
    - destruct (IH d (cur ++ [c])) as (r & rest & E); [destruct cur; discriminate|].
      exists (c :: r), rest. rewrite E, <- app_assoc. reflexivity.
  Qed.

  Lemma sep_dec m : (exists s, In s m /\ sep kind_of s) \/ ~ (exists s, In s m /\ sep kind_of s).
  Proof.
    induction m as [|a m IH]; [right; intros (? & [] & _)|].
    destruct IH as [(s & Hi & Hs)|IH]; [left; exists s; simpl; auto|].
    destruct (kind_of a) eqn:E; try (right; intros (s & [<-|Hi] & Hs); [unfold sep in Hs; congruence|apply IH; eauto]).
    left; exists a; simpl; auto.
  Qed.

  (** A stretch without kept characters closes the word iff it has a separator. *)
  Lemma fold_gap m : forall d cur, filter kp m = [] ->
    ((exists s, In s m /\ sep kind_of s) -> fold_left step m (d, cur) = (d ++ flush cur, [])) /\
    (~ (exists s, In s m /\ sep kind_of s) -> fold_left step m (d, cur) = (d, cur)).
  Proof.
    induction m as [|c m IH]; intros d cur Hm.
    { split; [intros (s & [] & _)|reflexivity]. }
    cbn [fold_left]. change (c :: m) with ([c] ++ m) in Hm. rewrite filter_app in Hm.
    apply app_eq_nil in Hm as [Hc Hm]. unfold step at 2 4. unfold kept in Hc. simpl in Hc.
    destruct (kind_of c) eqn:K; try discriminate Hc.
    - destruct (IH d cur Hm) as [I1 I2]. split.
      + intros (s & [<-|Hi] & Hs); [unfold sep in Hs; congruence|]. apply I1. exists s; auto.
      + intros H. apply I2. intros (s & Hi & Hs). apply H. exists s; simpl; auto.
    - destruct (IH (d ++ flush cur) [] Hm) as [I1 I2]. split.
      + intros _. destruct (in_dec (fun a b : nat => Nat.eq_dec a b) 0%nat []) as [[]|_].
        destruct (sep_dec m) as [D|D]; [rewrite (I1 D)|rewrite (I2 D)]; simpl; rewrite ?app_nil_r; reflexivity.
      + intros H. exfalso; apply H. exists c; split; [left; reflexivity|exact K].
  Qed.

  Lemma boundary_inside d w rest n :
    (length (concat d) < n)%nat -> (n < length (concat d) + length w)%nat -> ~ boundary (d ++ w :: rest) n.
  Proof.
    intros H1 H2 (ws1 & ws2 & E & L).
    assert (P : (exists t, d = ws1 ++ t) \/ (exists t, ws1 = (d ++ [w]) ++ t)).
    { clear -E. revert d E; induction ws1 as [|a ws1 IH]; intros d E.
      - left; exists d; reflexivity.
      - destruct d as [|b d]; simpl in E; inversion E; subst.
        + right. exists ws1. reflexivity.
        + destruct (IH d H1) as [[t ->]|[t ->]]; [left; exists t; reflexivity|right; exists t; reflexivity]. }
    destruct P as [[t ->]|[t ->]].
    - rewrite concat_app, app_length in H1. lia.
    - rewrite !concat_app, !app_length in L. simpl in L. rewrite app_nil_r in L. lia.
  Qed.

  Lemma finish_frame cs d : exists t, finish (fold_left step cs (d, [])) = d ++ t.
  Proof. rewrite fold_frame. unfold finish; cbn [fst snd]. eexists. rewrite <- app_assoc. reflexivity. Qed.

  Lemma ref_words_ok text : words_of kind_of text (ref_words text).
  Proof.
    split; [|split].
    - unfold ref_words. pose proof (fold_inv text [] []) as F.
      destruct (fold_left step text ([], [])) as [d cur]. destruct F as [_ F].
      unfold finish; simpl. apply Forall_app; split; [apply F; constructor|].
      destruct cur; constructor; [discriminate|constructor].
    - unfold ref_words. pose proof (fold_inv text [] []) as F.
      destruct (fold_left step text ([], [])) as [d cur]. destruct F as [F _].
      unfold finish; simpl in *. rewrite concat_app, concat_flush. exact F.
    - intros a x m y b -> Hx Hy Hm. unfold ref_words.
      replace (a ++ x :: m ++ y :: b) with ((a ++ [x]) ++ m ++ [y] ++ b) by (rewrite <- app_assoc; reflexivity).
      rewrite !fold_left_app.
      pose proof (fold_inv (a ++ [x]) [] []) as F. rewrite fold_left_app in F.
      set (n := length (filter kp (a ++ [x]))) in *.
      destruct (fold_left step a ([], [])) as [d0 cur0]. cbn [fold_left] in *.
      destruct (step (d0, cur0) x) as [d cur] eqn:Sx.
      destruct F as [F _]. simpl in F.
      assert (N1 : (length (concat d) + length cur)%nat = n).
      { unfold n. rewrite <- F, app_length. reflexivity. }
      destruct (fold_gap m d cur Hm) as [G1 G2].
      pose proof (sep_dec m) as D.
      (* the boundary exists as soon as the current word was closed before y *)
      assert (B : forall t, boundary ((d ++ flush cur) ++ t) n).
      { intros t. exists (d ++ flush cur), t. split; [reflexivity|].
        rewrite concat_app, concat_flush, app_length. exact N1. }
      destruct D as [D|D].
      { rewrite (G1 D). split; [intros _; left; exact D|intros _].
        change (fold_left step b (step (d ++ flush cur, []) y)) with (fold_left step (y :: b) (d ++ flush cur, [])).
        rewrite fold_frame. unfold finish; cbn [fst snd]. rewrite <- app_assoc. apply B. }
      rewrite (G2 D). unfold step at 2. unfold kept in Hy.
      destruct (kind_of y) eqn:Ky; try discriminate Hy.
      { split; [intros _; right; right; exact Ky|intros _].
        rewrite fold_frame. unfold finish; cbn [fst snd].
        replace (d ++ flush cur ++ [[y]]) with ((d ++ flush cur) ++ [[y]]) by (rewrite <- app_assoc; reflexivity).
        rewrite <- !app_assoc. rewrite app_assoc. apply B. }
      unfold step in Sx. unfold kept in Hx. destruct (kind_of x) eqn:Kx; try discriminate Hx; inversion Sx; subst d cur; clear Sx.
      { split; [intros _; right; left; exact Kx|intros _].
        rewrite fold_frame. unfold finish; cbn [fst snd]. specialize (B (fst (fold_left step b ([], [] ++ [y])) ++ flush (snd (fold_left step b ([], [] ++ [y]))))).
        cbn [flush] in B. rewrite app_nil_r in B. rewrite <- app_assoc. exact B. }
      split.
      + intros HB. exfalso.
        destruct (fold_grow b d0 ((cur0 ++ [x]) ++ [y])) as (r & rest & E); [destruct cur0; discriminate|].
        rewrite E in HB. revert HB. apply boundary_inside; rewrite ?app_length in *; simpl in *; lia.
      + intros [D'|[Ax|Ay]]; [tauto| |]; unfold alone in *; congruence.
  Qed.

  (** The three conditions determine the words. *)
  Lemma same_boundaries ws1 : forall ws2,
    Forall (fun w => w <> []) ws1 -> Forall (fun w => w <> []) ws2 -> concat ws1 = concat ws2 ->
    (forall n, (0 < n)%nat -> (n < length (concat ws1))%nat -> (boundary ws1 n <-> boundary ws2 n)) -> ws1 = ws2.
  Proof.
    induction ws1 as [|w1 r1 IH]; intros ws2 F1 F2 E B.
    - destruct ws2 as [|w2 r2]; [reflexivity|]. inversion F2; subst. simpl in E.
      destruct w2; [tauto|discriminate].
    - inversion F1 as [|? ? N1 F1']; subst. destruct ws2 as [|w2 r2].
      { simpl in E. destruct w1; [tauto|discriminate]. }
      inversion F2 as [|? ? N2 F2']; subst.
      assert (L1 : (0 < length w1)%nat) by (destruct w1; [tauto|simpl; lia]).
      assert (L2 : (0 < length w2)%nat) by (destruct w2; [tauto|simpl; lia]).
      assert (EL : length (concat (w1 :: r1)) = length (concat (w2 :: r2))) by (rewrite E; reflexivity).
      simpl in EL. rewrite !app_length in EL.
      assert (LE : length w1 = length w2).
      { destruct (Nat.lt_trichotomy (length w1) (length w2)) as [H|[H|H]]; [|exact H|]; exfalso.
        - assert (Bd : boundary (w2 :: r2) (length w1)).
          { apply B; [lia|simpl; rewrite app_length; lia|]. exists [w1], r1. split; [reflexivity|simpl; rewrite app_nil_r; reflexivity]. }
          revert Bd. apply (boundary_inside [] w2 r2); simpl; lia.
        - assert (Bd : boundary (w1 :: r1) (length w2)).
          { apply B; [lia|simpl; rewrite app_length; lia|]. exists [w2], r2. split; [reflexivity|simpl; rewrite app_nil_r; reflexivity]. }
          revert Bd. apply (boundary_inside [] w1 r1); simpl; lia. }
      simpl in E.
      assert (w1 = w2) as ->.
      { rewrite <- (firstn_all w1), <- (firstn_all w2), LE.
        rewrite <- (firstn_app_exact w2 (concat r2)), <- E, <- LE, firstn_app_exact. rewrite firstn_all. reflexivity. }
      f_equal. apply app_inv_head in E. apply IH; auto.
      intros n Hn1 Hn2.
      assert (S : forall r, boundary (w2 :: r) (length w2 + n) <-> boundary r n).
      { intros r. split.
        - intros (ws1 & ws2 & E1 & E2). destruct ws1 as [|w ws1]; [simpl in E2; lia|].
          simpl in E1. inversion E1; subst. exists ws1, ws2. split; [reflexivity|].
          simpl in E2. rewrite app_length in E2. lia.
        - intros (ws1 & ws2 & -> & E2). exists (w2 :: ws1), ws2. split; [reflexivity|].
          simpl. rewrite app_length. lia. }
      rewrite <- !S. apply B; simpl; rewrite ?app_length; lia.
  Qed.

  Lemma cut_kept text : forall n, (0 < n)%nat -> (n < length (filter kp text))%nat ->
    exists a x m y b, text = a ++ x :: m ++ y :: b /\ kp x = true /\ kp y = true /\ filter kp m = [] /\
      length (filter kp (a ++ [x])) = n.
  Proof.
    induction text as [|c text IH]; intros n H1 H2; [simpl in H2; lia|].
    cbn [filter] in H2. destruct (kp c) eqn:K.
    - destruct n as [|[|n]]; [lia| |].
      + (* the cut is right after c *)
        assert (G : exists m y b, text = m ++ y :: b /\ kp y = true /\ filter kp m = []).
        { simpl in H2. clear -H2. induction text as [|d t IH]; [simpl in H2; lia|].
          destruct (kp d) eqn:K; [exists [], d, t; auto|].
          cbn [filter] in H2. rewrite K in H2. destruct (IH H2) as (m & y & b & -> & Hy & Hm).
          exists (d :: m), y, b. cbn [filter]. rewrite K. auto. }
        destruct G as (m & y & b & -> & Hy & Hm). exists [], c, m, y, b. simpl. rewrite K. auto.
      + destruct (IH (S n)) as (a & x & m & y & b & -> & Hx & Hy & Hm & L); [lia|simpl in H2; lia|].
        exists (c :: a), x, m, y, b. simpl. rewrite K. simpl. rewrite L. auto.
    - destruct (IH n H1 H2) as (a & x & m & y & b & -> & Hx & Hy & Hm & L).
      exists (c :: a), x, m, y, b. simpl. rewrite K. auto.
  Qed.

  Lemma words_of_unique text ws1 ws2 : words_of kind_of text ws1 -> words_of kind_of text ws2 -> ws1 = ws2.
  Proof.
    intros (F1 & C1 & B1) (F2 & C2 & B2). apply same_boundaries; auto; [congruence|].
    intros n H1 H2. rewrite C1 in H2.
    destruct (cut_kept text n H1 H2) as (a & x & m & y & b & E & Hx & Hy & Hm & <-).
    rewrite (B1 _ _ _ _ _ E Hx Hy Hm), (B2 _ _ _ _ _ E Hx Hy Hm). reflexivity.
  Qed.
End Words.

(** ** clean_text_and_split *)

Definition kind_for (k : icu) (f : tok_info) : N -> kind :=
  char_kind (t_rm_null f) (t_rm_repl f) (t_rm_ctrl f) (t_norm_ws f) (t_cjk f)
            (control_char (i_print k)) (white_char (i_blank k)) han.

Lemma layout_eq c : existsb (N.eqb c) layout_chars = layout c.
Proof. unfold layout_chars, layout; simpl. destruct (c =? 32), (c =? 9), (c =? 10), (c =? 13); reflexivity. Qed.
Lemma CTRL_eq k c : CTRL k c = control_char (i_print k) c.
Proof. unfold CTRL, control_char. rewrite layout_eq. reflexivity. Qed.
Lemma WS_eq k c : WS k c = white_char (i_blank k) c.
Proof. unfold WS, white_char. rewrite layout_eq. reflexivity. Qed.
Lemma CJK_eq c : CJK c = han c.
Proof. unfold CJK, han, han_ranges; cbn [existsb fst snd]. rewrite orb_false_r, !orb_assoc. reflexivity. Qed.

(** An item of well-formed shape. *)
Definition good_item (i : item) : Prop :=
  match i with
  | Char c h l => (h = 0 /\ l = 0 /\ c < 0x10000) \/
                  (hi_sur h /\ lo_sur l /\ c = 0x10000 + (h - 0xd800) * 0x400 + (l - 0xdc00))
  | Lone c => hi_sur c \/ lo_sur c
  end.

Lemma reads_good us is : Forall unit16 us -> reads us is -> Forall good_item is.
Proof.
  intros Hu R. revert Hu. induction R as [|c us is Hh Hl R IH|h l us is Hh Hl R IH|h us is Hh Hn R IH|l us is Hl R IH];
    intros Hu; [constructor| | | |]; inversion Hu as [|? ? U1 U2]; subst.
  - constructor; [left; auto|auto].
  - inversion U2; subst. constructor; [right; auto|auto].
  - constructor; [left; auto|auto].
  - constructor; [right; auto|auto].
Qed.

Lemma good_units i : good_item i -> is_char i = true ->
  (if is_pair (item_cp i) then [cp_hi (item_cp i); cp_lo (item_cp i)] else [cp_c (item_cp i) mod 65536])
  = enc16 (item_char i).
Proof.
  destruct i as [c h l|c]; [|discriminate]. intros [(-> & -> & H)|(Hh & Hl & E)] _; cbn [item_cp is_pair cp_hi cp_lo cp_c item_char].
  - unfold is_pair; simpl. unfold enc16. replace (c <? 0x10000) with true by lia. rewrite N.mod_small by lia. reflexivity.
  - unfold is_pair. cbn [cp_hi cp_lo]. replace (h =? 0) with false by (symmetry; apply hi_nonzero; exact Hh).
    cbn [negb orb]. unfold enc16. assert (C1 : (c <? 0x10000) = false) by lia. rewrite C1.
    unfold hi_sur, lo_sur in *.
    assert (D : (c - 0x10000) / 1024 = h - 0xd800) by (symmetry; apply (N.div_unique _ _ _ (l - 0xdc00)); lia).
    assert (M : (c - 0x10000) mod 1024 = l - 0xdc00) by (symmetry; apply (N.mod_unique _ _ (h - 0xd800)); lia).
    rewrite D, M. f_equal; [lia|f_equal; lia].
Qed.

Lemma enc16_nonnil c : enc16 c <> [].
Proof. unfold enc16; destruct (c <? 0x10000); discriminate. Qed.

Lemma enc16s_nil cs : enc16s cs = [] <-> cs = [].
Proof.
  split; [|intros ->; reflexivity]. destruct cs as [|c cs]; [reflexivity|].
  unfold enc16s; simpl. intros H. apply app_eq_nil in H as [H _]. destruct (enc16_nonnil _ H).
Qed.

Definition no_wide_special (k : icu) (f : tok_info) (cs : list N) : Prop :=
  forall c, In c cs -> kept (kind_for k f) c = true ->
    control_char (i_print k) c = true \/ white_char (i_blank k) c = true -> c < 0x10000.

Lemma no_wide_basic k f cs : t_rm_ctrl f = true -> t_norm_ws f = true -> no_wide_special k f cs.
Proof.
  intros R W c _ K H. unfold kept, kind_for, char_kind in K. rewrite R, W in K. cbn [orb] in K.
  destruct (N.eqb_spec c 0) as [E|_]; [lia|]. destruct (N.eqb_spec c 0xfffd) as [E|_]; [lia|].
  destruct (control_char _ c); [discriminate|]. destruct H as [H|H]; [discriminate|]. rewrite H in K. discriminate.
Qed.

(** One separator, one plain unit, one character. *)
Lemma split_space d cur cs :
  map enc16s d ++ split_cleaned (enc16s cur) (cp_unit 32 :: cs) =
  map enc16s (d ++ flush cur) ++ split_cleaned (enc16s []) cs.
Proof.
  cbn [split_cleaned cp_unit cp_c]. change (32 =? 32) with true. cbv iota.
  rewrite map_app, <- app_assoc. f_equal.
  destruct cur as [|c cur]; [reflexivity|].
  destruct (enc16s (c :: cur)) as [|x xs] eqn:E; [apply (proj1 (enc16s_nil _)) in E; discriminate|].
  cbn [flush map app]. rewrite E. reflexivity.
Qed.

Lemma split_unit cur c cs : c < 0x10000 -> c <> 32 ->
  split_cleaned (enc16s cur) (narrow c :: cs) = split_cleaned (enc16s (cur ++ [c])) cs.
Proof.
  intros Hc H32. unfold narrow. rewrite N.mod_small by lia. cbn [split_cleaned cp_unit cp_c].
  replace (c =? 32) with false by lia. unfold is_pair; cbn [cp_hi cp_lo cp_unit]. cbn [N.eqb negb orb].
  rewrite enc16s_app. unfold enc16s at 3. cbn [flat_map]. unfold enc16.
  replace (c <? 0x10000) with true by lia. rewrite N.mod_small by lia. reflexivity.
Qed.

Lemma split_char cur i cs : good_item i -> is_char i = true -> item_char i <> 32 ->
  split_cleaned (enc16s cur) (item_cp i :: cs) = split_cleaned (enc16s (cur ++ [item_char i])) cs.
Proof.
  intros G C H32. pose proof (good_units i G C) as U. cbn [split_cleaned].
  assert (E : cp_c (item_cp i) = item_char i) by (destruct i; [reflexivity|discriminate]).
  replace (cp_c (item_cp i) =? 32) with false by (rewrite E; lia).
  rewrite U. rewrite enc16s_app. unfold enc16s at 3. cbn [flat_map]. rewrite app_nil_r. reflexivity.
Qed.

Lemma item_cp_c i : cp_c (item_cp i) = item_char i.
Proof. destruct i as [c h l|c]; [reflexivity|]. simpl. destruct (is_high c); reflexivity. Qed.

Lemma white_or_control_32 k : white_char (i_blank k) 32 = true /\ control_char (i_print k) 32 = false.
Proof. split; reflexivity. Qed.

Lemma clean_step k f i d cur cs :
  good_item i -> no_wide_special k f [item_char i] ->
  map enc16s d ++ split_cleaned (enc16s cur) (clean_cp k f (item_cp i) ++ cs) =
  map enc16s (fst (step (kind_for k f) (d, cur) (item_char i))) ++
  split_cleaned (enc16s (snd (step (kind_for k f) (d, cur) (item_char i)))) cs.
Proof.
  intros G NW. unfold clean_cp. rewrite item_cp_c. specialize (NW (item_char i) (or_introl eq_refl)).
  unfold step, kind_for, char_kind. rewrite CTRL_eq, WS_eq, CJK_eq.
  set (c := item_char i) in *.
  destruct (c =? 0) eqn:E0.
  { destruct (t_rm_null f); cbn [app fst snd]; [reflexivity|].
    rewrite split_unit by lia. reflexivity. }
  destruct (c =? 0xfffd) eqn:E1.
  { destruct (t_rm_repl f); cbn [app fst snd]; [reflexivity|].
    rewrite split_unit by lia. reflexivity. }
  destruct (control_char (i_print k) c) eqn:EC.
  { destruct (t_rm_ctrl f) eqn:R; cbn [app fst snd]; [reflexivity|].
    assert (c <> 32) by (intros H; rewrite H in EC; destruct (white_or_control_32 k); congruence).
    rewrite split_unit; [reflexivity| |assumption].
    apply NW; [unfold kept, kind_for, char_kind; rewrite E0, E1, EC, R; reflexivity|auto]. }
  destruct (white_char (i_blank k) c) eqn:EW.
  { destruct (t_norm_ws f) eqn:R; cbn [app fst snd orb].
    - apply split_space.
    - destruct (c =? 32) eqn:E32.
      + apply N.eqb_eq in E32. rewrite E32. change (narrow 32) with (cp_unit 32). apply split_space.
      + cbn [fst snd]. rewrite split_unit; [reflexivity| |lia].
        apply NW; [unfold kept, kind_for, char_kind; rewrite E0, E1, EC, EW, R, E32; reflexivity|auto]. }
  assert (C32 : c <> 32) by (intros H; rewrite H in EW; destruct (white_or_control_32 k); congruence).
  assert (IC : is_char i = true).
  { destruct i as [x h l|x]; [reflexivity|]. unfold c in E1. discriminate E1. }
  destruct (han c && t_cjk f); cbn [app fst snd].
  - rewrite split_space. rewrite (split_char [] i) by assumption.
    cbn [app]. rewrite split_space. cbn [flush]. rewrite <- app_assoc. reflexivity.
  - rewrite (split_char cur i) by assumption. reflexivity.
Qed.

Lemma clean_fold k f is : forall d cur,
  Forall good_item is -> no_wide_special k f (map item_char is) ->
  map enc16s d ++ split_cleaned (enc16s cur) (flat_map (clean_cp k f) (map item_cp is)) =
  map enc16s (finish (fold_left (step (kind_for k f)) (map item_char is) (d, cur))).
Proof.
  induction is as [|i is IH]; intros d cur G NW.
  - cbn [map flat_map fold_left split_cleaned]. unfold finish; cbn [fst snd]. rewrite map_app. f_equal.
    destruct cur as [|c cur]; [reflexivity|].
    destruct (enc16s (c :: cur)) as [|x xs] eqn:E; [apply (proj1 (enc16s_nil _)) in E; discriminate|].
    cbn [flush map]. rewrite E. reflexivity.
  - inversion G; subst. cbn [map flat_map fold_left].
    rewrite clean_step; [|assumption|intros c [<-|[]] H; apply NW; [left; reflexivity|exact H]].
    destruct (step (kind_for k f) (d, cur) (item_char i)) as [d' cur']. cbn [fst snd].
    apply IH; [assumption|intros c Hc; apply NW; right; exact Hc].
Qed.

Lemma visible_false is : visible false is = is.
Proof. reflexivity. Qed.

Lemma clean_words k f us is : Forall unit16 us -> reads us is ->
  no_wide_special k f (map item_char is) ->
  clean_text_and_split k f us = map enc16s (ref_words (kind_for k f) (map item_char is)).
Proof.
  intros Hu R NW. unfold clean_text_and_split. rewrite (each_cp_reads false _ _ R).
  unfold ref_words. rewrite <- clean_fold; [|eapply reads_good; eauto|exact NW]. reflexivity.
Qed.

Lemma step_incl K : forall cs d cur c, In c (concat (fst (fold_left (step K) cs (d, cur))) ++ snd (fold_left (step K) cs (d, cur))) ->
  In c (concat d ++ cur) \/ In c cs.
Proof.
  intros cs d cur c H. pose proof (fold_inv K cs d cur) as F.
  destruct (fold_left (step K) cs (d, cur)) as [d' cur']. destruct F as [F _]. simpl in H.
  rewrite F, app_assoc in H. apply in_app_iff in H as [H|H]; [left; exact H|right].
  apply filter_In in H. tauto.
Qed.

Lemma Forall_concat_iff {A} (P : A -> Prop) ls : Forall P (concat ls) <-> Forall (Forall P) ls.
Proof.
  induction ls as [|l ls IH]; simpl; [split; constructor|].
  rewrite Forall_app, IH. split; [intros [? ?]; constructor; auto|intros H; inversion H; auto].
Qed.

Lemma words_scalar K text ws : words_of K text ws -> Forall scalar_value text -> Forall (Forall scalar_value) ws.
Proof.
  intros (_ & C & _) H. apply Forall_concat_iff. rewrite C.
  apply Forall_forall. intros c Hc. apply filter_In in Hc as [Hc _]. rewrite Forall_forall in H. auto.
Qed.

Lemma items_scalar us is : Forall unit16 us -> reads us is -> Forall scalar_value (map item_char is).
Proof.
  intros Hu R. rewrite <- map_cp_c_items, <- (visible_false is), <- (each_cp_reads false _ _ R).
  apply codepoints_scalar, Hu.
Qed.

Lemma Forall2_utf16 ws : Forall (Forall scalar_value) ws -> Forall2 utf16 ws (map enc16s ws).
Proof. induction 1; simpl; constructor; auto. apply enc16s_spec; assumption. Qed.

Lemma clean_words_ok k f us is : Forall unit16 us -> reads us is ->
  no_wide_special k f (map item_char is) ->
  exists ws, words_of (kind_for k f) (map item_char is) ws /\
             Forall2 utf16 ws (clean_text_and_split k f us).
Proof.
  intros Hu R NW. exists (ref_words (kind_for k f) (map item_char is)).
  pose proof (ref_words_ok (kind_for k f) (map item_char is)) as W. split; [exact W|].
  rewrite (clean_words k f us is Hu R NW). apply Forall2_utf16.
  eapply words_scalar; [exact W|]. eapply items_scalar; eauto.
Qed.

(** The condition is exact: a wide character that is copied through one unit makes the result
    shorter than the text it should have. *)
Definition cp_width (C : cp) : nat := if cp_c C =? 32 then 0%nat else if is_pair C then 2%nat else 1%nat.
Fixpoint sum_of {A} (w : A -> nat) (l : list A) : nat := match l with [] => 0%nat | a :: l' => (w a + sum_of w l')%nat end.

Lemma sum_app {A} (w : A -> nat) a b : sum_of w (a ++ b) = (sum_of w a + sum_of w b)%nat.
Proof. induction a as [|x a IH]; [reflexivity|]. cbn [app sum_of]. lia. Qed.

Lemma split_width cs : forall cur, length (concat (split_cleaned cur cs)) = (length cur + sum_of cp_width cs)%nat.
Proof.
  induction cs as [|C cs IH]; intros cur; cbn [split_cleaned sum_of].
  - destruct cur as [|c cur]; [reflexivity|]. cbn [concat]. rewrite app_nil_r. lia.
  - unfold cp_width at 1. destruct (cp_c C =? 32).
    + destruct cur as [|c cur]; [rewrite IH; reflexivity|]. cbn [concat]. rewrite app_length, IH. cbn [length]. lia.
    + rewrite IH, app_length. destruct (is_pair C); cbn [length]; lia.
Qed.

Definition char_width (c : N) : nat := if c <? 0x10000 then 1%nat else 2%nat.

Lemma enc16s_width cs : length (enc16s cs) = sum_of char_width cs.
Proof.
  induction cs as [|c cs IH]; [reflexivity|]. unfold enc16s in *. cbn [flat_map sum_of]. rewrite app_length, IH.
  unfold enc16, char_width at 2. destruct (c <? 0x10000); reflexivity.
Qed.

Lemma words_width ws out : Forall2 utf16 ws out -> length (concat out) = sum_of char_width (concat ws).
Proof.
  induction 1 as [|w o ws out U F IH]; [reflexivity|]. cbn [concat]. rewrite app_length, sum_app, IH.
  apply utf16_enc16s in U as [_ ->]. rewrite enc16s_width. reflexivity.
Qed.

Definition altered (k : icu) (f : tok_info) (c : N) : bool :=
  kept (kind_for k f) c && (control_char (i_print k) c || white_char (i_blank k) c) && negb (c <? 0x10000).

Lemma narrow_width c : (cp_width (narrow c) <= 1)%nat.
Proof. unfold narrow, cp_width, is_pair. cbn [cp_unit cp_c cp_hi cp_lo]. destruct (_ =? 32); cbn; lia. Qed.

Lemma clean_width k f i : good_item i ->
  let need := if kept (kind_for k f) (item_char i) then char_width (item_char i) else 0%nat in
  let made := sum_of cp_width (clean_cp k f (item_cp i)) in
  (made <= need)%nat /\ (altered k f (item_char i) = true -> (made < need)%nat).
Proof.
  intros G. cbv zeta. unfold clean_cp. rewrite item_cp_c. unfold altered, kept, kind_for, char_kind. rewrite CTRL_eq, WS_eq, CJK_eq.
  assert (NW := narrow_width (item_char i)).
  set (c := item_char i) in *.
  assert (W1 : (1 <= char_width c)%nat) by (unfold char_width; destruct (c <? 0x10000); lia).
  assert (W2 : (c <? 0x10000) = false -> char_width c = 2%nat) by (intros E; unfold char_width; rewrite E; reflexivity).
  destruct (c =? 0) eqn:E0.
  { destruct (t_rm_null f); cbn [sum_of]; cbn [andb]; (split; [lia|]); [discriminate|].
    intros H. apply andb_prop in H as [_ H]. rewrite negb_true_iff in H. specialize (W2 H). lia. }
  destruct (c =? 0xfffd) eqn:E1.
  { destruct (t_rm_repl f); cbn [sum_of]; cbn [andb]; (split; [lia|]); [discriminate|].
    intros H. apply andb_prop in H as [_ H]. rewrite negb_true_iff in H. specialize (W2 H). lia. }
  destruct (control_char (i_print k) c) eqn:EC.
  { destruct (t_rm_ctrl f); cbn [sum_of]; cbn [andb]; (split; [lia|]); [discriminate|].
    intros H. apply andb_prop in H as [_ H]. rewrite negb_true_iff in H. specialize (W2 H). lia. }
  destruct (white_char (i_blank k) c) eqn:EW.
  { destruct (t_norm_ws f); cbn [orb].
    - cbn. split; [lia|discriminate].
    - destruct (c =? 32) eqn:E32.
      + apply N.eqb_eq in E32. rewrite E32. cbn. split; [lia|discriminate].
      + cbn [sum_of andb orb]. split; [lia|].
        intros H. rewrite negb_true_iff in H. specialize (W2 H). lia. }
  assert (IC : is_char i = true).
  { destruct i as [x h l|x]; [reflexivity|]. unfold c in E1. discriminate E1. }
  assert (WC : (cp_width (item_cp i) <= char_width c)%nat).
  { unfold cp_width. rewrite item_cp_c. fold c. destruct (c =? 32); [lia|].
    assert (U := good_units i G IC). fold c in U. assert (L := f_equal (@length N) U).
    unfold char_width. unfold enc16 in L. destruct (is_pair (item_cp i)), (c <? 0x10000); cbn [length] in L; lia. }
  cbn [orb]. destruct (han c && t_cjk f); rewrite andb_false_r; cbn [andb]; (split; [|discriminate]).
  - change (sum_of cp_width ([cp_unit 32] ++ [item_cp i] ++ [cp_unit 32])) with (0 + (cp_width (item_cp i) + (0 + 0)))%nat. lia.
  - change (sum_of cp_width ([] ++ [item_cp i] ++ [])) with (cp_width (item_cp i) + 0)%nat. lia.
Qed.

Lemma clean_exact k f us is ws : Forall unit16 us -> reads us is ->
  Forall2 utf16 ws (clean_text_and_split k f us) -> concat ws = filter (kept (kind_for k f)) (map item_char is) ->
  no_wide_special k f (map item_char is).
Proof.
  intros Hu R F E. assert (L := words_width _ _ F). rewrite E in L.
  unfold clean_text_and_split in L. rewrite (each_cp_reads false _ _ R) in L. rewrite split_width in L. cbn [length plus] in L.
  assert (G := reads_good us is Hu R). clear -L G.
  assert (V : forall l, filter (fun i : item => true) l = l) by (intros l; induction l; cbn; congruence).
  unfold visible in L. cbn [negb orb] in L.
  assert (K : (sum_of cp_width (flat_map (clean_cp k f) (map item_cp is)) <= sum_of char_width (filter (kept (kind_for k f)) (map item_char is)))%nat /\
    (existsb (fun i => altered k f (item_char i)) is = true ->
     (sum_of cp_width (flat_map (clean_cp k f) (map item_cp is)) < sum_of char_width (filter (kept (kind_for k f)) (map item_char is)))%nat)).
  { clear L V. induction G as [|i is Gi G IH]; [split; [cbn; lia|discriminate]|].
    cbn [map flat_map filter existsb]. rewrite sum_app. destruct (clean_width k f i Gi) as (A & B). cbv zeta in A, B.
    destruct IH as (C & D).
    assert (S : sum_of char_width (if kept (kind_for k f) (item_char i) then item_char i :: filter (kept (kind_for k f)) (map item_char is) else filter (kept (kind_for k f)) (map item_char is))
      = ((if kept (kind_for k f) (item_char i) then char_width (item_char i) else 0) + sum_of char_width (filter (kept (kind_for k f)) (map item_char is)))%nat)
      by (destruct (kept (kind_for k f) (item_char i)); reflexivity).
    rewrite S. split; [lia|]. intros H. apply orb_prop in H as [H|H]; [specialize (B H)|specialize (D H)]; lia. }
  destruct K as (_ & K).
  intros c Hc KC W. destruct (c <? 0x10000) eqn:E; [lia|]. exfalso.
  apply in_map_iff in Hc as (i & <- & Hi).
  assert (X : existsb (fun i => altered k f (item_char i)) is = true).
  { apply existsb_exists. exists i. split; [exact Hi|]. unfold altered. rewrite KC, E. cbn [negb andb].
    rewrite andb_true_r. apply orb_true_iff. exact W. }
  specialize (K X). lia.
Qed.

(** ** Words around whitespace are independent *)

Lemma each_cp_from_app skip w b : is_low w = false -> is_high w = false -> forall a sur,
  each_cp_from skip sur (a ++ w :: b) = each_cp_from skip sur a ++ cp_unit w :: each_cp_from skip 0 b.
Proof.
  intros L H. induction a as [|c a IH]; intros sur.
  - cbn [app each_cp_from]. rewrite L, H. destruct (sur =? 0); [reflexivity|destruct skip; reflexivity].
  - cbn [app each_cp_from]. destruct (is_low c).
    + destruct (sur =? 0).
      * destruct skip; simpl; rewrite IH; reflexivity.
      * rewrite IH. reflexivity.
    + destruct (is_high c); rewrite ?IH, <- ?app_assoc; reflexivity.
Qed.

Lemma split_cleaned_app cur a b : split_cleaned cur (a ++ cp_unit 32 :: b) =
  split_cleaned cur a ++ split_cleaned [] b.
Proof.
  revert cur; induction a as [|C a IH]; intros cur; cbn [app split_cleaned].
  - change (cp_c (cp_unit 32) =? 32) with true. cbv iota. destruct cur; reflexivity.
  - destruct (cp_c C =? 32).
    + destruct cur; rewrite IH; reflexivity.
    + apply IH.
Qed.

Lemma clean_independent k f a w b :
  is_low w = false -> is_high w = false -> w < 0x10000 ->
  kind_for k f w = Separator ->
  clean_text_and_split k f (a ++ w :: b) = clean_text_and_split k f a ++ clean_text_and_split k f b.
Proof.
  intros L H Hw K. unfold clean_text_and_split, each_cp. rewrite each_cp_from_app by assumption.
  rewrite flat_map_app. cbn [flat_map].
  replace (clean_cp k f (cp_unit w)) with [cp_unit 32].
  { cbn [app]. apply split_cleaned_app. }
  unfold clean_cp. cbn [cp_unit cp_c]. rewrite CTRL_eq, WS_eq, CJK_eq.
  unfold kind_for, char_kind in K.
  destruct (w =? 0); [destruct (t_rm_null f); discriminate|].
  destruct (w =? 0xfffd); [destruct (t_rm_repl f); discriminate|].
  destruct (control_char (i_print k) w); [destruct (t_rm_ctrl f); discriminate|].
  destruct (white_char (i_blank k) w).
  - destruct (t_norm_ws f); [reflexivity|]. cbn [orb] in K.
    destruct (w =? 32) eqn:E; [|discriminate]. apply N.eqb_eq in E. rewrite E. reflexivity.
  - destruct (han w && t_cjk f); discriminate.
Qed.

(** ** Punctuation *)

Lemma is_punct_eq k c : is_punct k c = punct_char (i_punct k) c.
Proof.
  unfold is_punct, punct_char. f_equal.
  apply Bool.eq_iff_eq_true.
  rewrite !orb_true_iff, !andb_true_iff, negb_true_iff, !orb_false_iff, !andb_false_iff, !N.leb_le, !N.leb_gt. lia.
Qed.

Fixpoint ref_punct (P : N -> bool) (temp cs : list N) : list (list N) :=
  match cs with
  | [] => flush temp
  | c :: cs' => if P c then flush temp ++ [[c]] ++ ref_punct P [] cs' else ref_punct P (temp ++ [c]) cs'
  end.

Lemma of_cps_enc cs : Forall scalar_value cs -> of_cps cs = enc16s cs.
Proof. intros H. unfold of_cps. rewrite from_utf32_some by exact H. reflexivity. Qed.

Lemma punct_split_ref k cs : forall temp, Forall scalar_value (temp ++ cs) ->
  punct_split k temp cs = map enc16s (ref_punct (punct_char (i_punct k)) temp cs).
Proof.
  induction cs as [|c cs IH]; intros temp H; cbn [punct_split ref_punct].
  - rewrite app_nil_r in H. destruct temp as [|t temp]; [reflexivity|]. cbn [flush map].
    rewrite of_cps_enc by exact H. reflexivity.
  - rewrite is_punct_eq. apply Forall_app in H as [Ht H]. inversion H; subst.
    destruct (punct_char (i_punct k) c).
    + rewrite !map_app, IH by assumption. f_equal.
      * destruct temp as [|t temp]; [reflexivity|]. cbn [flush map]. rewrite of_cps_enc by exact Ht. reflexivity.
      * f_equal. cbn [map]. rewrite of_cps_enc by (constructor; [assumption|constructor]). reflexivity.
    + apply IH. rewrite <- app_assoc. apply Forall_app; split; [exact Ht|exact H].
Qed.

Lemma mark_not_run P p : mark P p -> ~ run P p.
Proof. intros (c & -> & H) (_ & F). inversion F; congruence. Qed.

Lemma ref_punct_ok P cs : forall temp, Forall (fun c => P c = false) temp ->
  punct_pieces P (temp ++ cs) (ref_punct P temp cs).
Proof.
  assert (R : forall temp, Forall (fun c => P c = false) temp -> temp <> [] -> run P temp) by (split; assumption).
  assert (Hd : forall cs temp, Forall (fun c => P c = false) temp -> concat (ref_punct P temp cs) = temp ++ cs /\
     Forall (fun p => mark P p \/ run P p) (ref_punct P temp cs) /\ no_two_runs P (ref_punct P temp cs)).
  { clear cs. induction cs as [|c cs IH]; intros temp Ht; cbn [ref_punct].
    - rewrite app_nil_r, concat_flush. split; [reflexivity|].
      destruct temp; simpl; [split; constructor|]. split; [|exact I].
      constructor; [right; apply R; [exact Ht|discriminate]|constructor].
    - destruct (P c) eqn:E.
      + destruct (IH [] (Forall_nil _)) as (C & F & N2). rewrite !concat_app, concat_flush, C.
        split; [reflexivity|].
        assert (M : mark P [c]) by (exists c; auto).
        assert (NR : ~ run P [c]) by (apply mark_not_run; exact M).
        assert (N3 : no_two_runs P ([c] :: ref_punct P [] cs)).
        { cbn [no_two_runs]. destruct (ref_punct P [] cs); [exact I|]. split; [tauto|exact N2]. }
        destruct temp as [|t temp]; cbn [flush app].
        * split; [constructor; auto|exact N3].
        * split.
          -- constructor; [right; apply R; [exact Ht|discriminate]|]. constructor; auto.
          -- cbn [no_two_runs] in N3 |- *. split; [tauto|]. exact N3.
      + destruct (IH (temp ++ [c])) as (C & F & N2).
        { apply Forall_app; split; [exact Ht|]. constructor; [exact E|constructor]. }
        rewrite C, <- app_assoc. auto. }
  intros temp Ht. apply Hd, Ht.
Qed.

Lemma punct_head P w : forall ps, punct_pieces P w ps ->
  match ps with
  | [] => w = []
  | p :: ps' => exists t, w = p ++ t /\ punct_pieces P t ps' /\
      (mark P p \/ (run P p /\ forall c t', t = c :: t' -> P c = true))
  end.
Proof.
  intros ps (C & F & N2). destruct ps as [|p ps].
  { simpl in C. auto. }
  inversion F as [|? ? Hp Fp]; subst. exists (concat ps). split; [reflexivity|]. split.
  - split; [reflexivity|]. split; [exact Fp|]. destruct ps; [exact I|]. apply N2.
  - destruct Hp as [Hp|Hp]; [left; exact Hp|right]. split; [exact Hp|].
    intros c t' E. destruct ps as [|q ps]; [discriminate|].
    destruct N2 as [N2 _]. inversion Fp as [|? ? Hq _]; subst.
    destruct Hq as [(d & -> & Hd)|Hq]; [|tauto]. simpl in E. inversion E; subst; exact Hd.
Qed.

Lemma punct_pieces_unique P ps1 : forall w ps2, punct_pieces P w ps1 -> punct_pieces P w ps2 -> ps1 = ps2.
Proof.
  induction ps1 as [|p ps1 IH]; intros w ps2 H1 H2.
  - apply punct_head in H1. subst w. apply punct_head in H2. destruct ps2 as [|q ps2]; [reflexivity|].
    destruct H2 as (t & E & _ & [(c & -> & _)|((Hn & _) & _)]); [discriminate|].
    symmetry in E. apply app_eq_nil in E as [E _]. tauto.
  - pose proof (punct_head _ _ _ H1) as (t & E & T1 & K1).
    pose proof (punct_head _ _ _ H2) as K2. destruct ps2 as [|q ps2].
    { subst w. apply app_eq_nil in K2 as [-> _].
      destruct K1 as [(c & D & _)|((Hn & _) & _)]; [discriminate|tauto]. }
    destruct K2 as (t2 & E2 & T2 & K2). rewrite E in E2.
    assert (p = q /\ t = t2) as [-> ->].
    { clear -K1 K2 E2. destruct K1 as [(c & -> & Hc)|((Hn & Fp) & Hp)], K2 as [(d & -> & Hd)|((Hm & Fq) & Hq)].
      - simpl in E2. inversion E2; auto.
      - destruct q as [|x q]; [tauto|]. simpl in E2. inversion E2; subst. inversion Fq; congruence.
      - destruct p as [|x p]; [tauto|]. simpl in E2. inversion E2; subst. inversion Fp; congruence.
      - revert q t t2 Hm Fq Hq E2 Hp. clear Hn. induction p as [|x p IHp]; intros q t t2 Hm Fq Hq E2 Hp.
        + destruct q as [|y q]; [tauto|]. exfalso. simpl in E2.
          inversion Fq. specialize (Hp _ _ E2). congruence.
        + inversion Fp; subst. destruct q as [|y q]; [tauto|]. simpl in E2. inversion E2; subst.
          inversion Fq; subst.
          destruct q as [|z q].
          * destruct p as [|x' p]; [simpl in *; split; [reflexivity|auto]|]. exfalso.
            simpl in H3. specialize (Hq x' _ (eq_sym H3)). inversion H2; congruence.
          * destruct (IHp H2 (z :: q) t t2) as [-> ->]; auto; discriminate. }
    f_equal. eapply IH; eauto.
Qed.

Lemma chars_scalar us is : Forall unit16 us -> reads us is ->
  codepoints_of true us = map item_char (filter is_char is) /\
  Forall scalar_value (map item_char (filter is_char is)).
Proof.
  intros Hu R. assert (E : codepoints_of true us = map item_char (filter is_char is)).
  { unfold codepoints_of. rewrite (each_cp_reads true _ _ R), map_cp_c_items. reflexivity. }
  split; [exact E|]. rewrite <- E. apply codepoints_scalar, Hu.
Qed.

Lemma punct_word_ok k f never us is :
  Forall unit16 us -> reads us is -> ~ In us never ->
  t_lower f = false -> t_accents f = false -> t_punct f = true ->
  exists ps, punct_pieces (punct_char (i_punct k)) (map item_char (filter is_char is)) ps /\
             Forall2 utf16 ps (basic_word k f never us).
Proof.
  intros Hu R Hn HL HA HP. destruct (chars_scalar us is Hu R) as [E S].
  unfold basic_word. rewrite HL, HA, HP.
  replace (mem_word us never) with false.
  2: { symmetry. unfold mem_word. apply Bool.not_true_is_false. rewrite existsb_exists.
       intros (x & Hx & Ex). apply list_N_eqb_eq in Ex. subst x. tauto. }
  rewrite E. rewrite punct_split_ref by exact S.
  pose proof (ref_punct_ok (punct_char (i_punct k)) (map item_char (filter is_char is)) [] (Forall_nil _)) as P.
  exists (ref_punct (punct_char (i_punct k)) [] (map item_char (filter is_char is))). split; [exact P|].
  apply Forall2_utf16. apply Forall_concat_iff. destruct P as (-> & _). exact S.
Qed.

(** ** The whole tokenizer *)

Lemma all_some_some {A B} (g : A -> option B) l : (forall a, In a l -> exists b, g a = Some b) ->
  exists bs, all_some (map g l) = Some bs /\ Forall2 (fun a b => g a = Some b) l bs.
Proof.
  induction l as [|a l IH]; intros H; [exists []; split; constructor|].
  destruct (H a (or_introl eq_refl)) as [b Hb].
  destruct IH as (bs & E & F); [intros x Hx; apply H; right; exact Hx|].
  exists (b :: bs). cbn [map all_some]. rewrite Hb, E. split; [reflexivity|constructor; auto].
Qed.

Lemma prefix_dec (p s : list N) : {prefix p s} + {~ prefix p s}.
Proof.
  revert s; induction p as [|c p IH]; intros s; [left; apply prefix_nil|].
  destruct s as [|d s]; [right; intros H; apply prefix_nil_r in H; discriminate|].
  destruct (N.eq_dec c d) as [<-|N0]; [|right; intros H; apply prefix_cons_inv in H; tauto].
  destruct (IH s) as [H|H]; [left; apply prefix_cons; exact H|right; intros K; apply H; exact (proj1 (prefix_cons _ _ _) K)].
Qed.

Lemma has_cont_dec vocab : has_cont vocab \/ ~ has_cont vocab.
Proof.
  unfold has_cont. induction vocab as [|v vocab IH]; [right; intros (v & [] & _)|].
  destruct (prefix_dec cont_prefix v) as [P|P]; [left; exists v; simpl; auto|].
  destruct IH as [(w & Hw & Pw)|IH]; [left; exists w; simpl; auto|right].
  intros (w & [<-|Hw] & Pw); [tauto|apply IH; eauto].
Qed.

Lemma entry_below vocab v i : entry vocab v i -> i < N.of_nat (length vocab).
Proof. apply entry_lt. Qed.

Definition specials (v : bvocab) : list N := [v_cls v; v_mask v; v_pad v; v_sep v; v_unk v].

Lemma tokens_decode v : Forall valid_utf8 (v_tokens v) ->
  exists toks never,
    all_some (map from_utf8 (v_tokens v)) = Some toks /\
    all_some (map (fun id => from_utf8 (bv_token v id)) (specials v)) = Some never /\
    Forall2 (fun a b => from_utf8 a = Some b) (v_tokens v) toks /\
    Forall2 (fun id b => from_utf8 (bv_token v id) = Some b) (specials v) never.
Proof.
  intros H. rewrite Forall_forall in H.
  destruct (all_some_some from_utf8 (v_tokens v)) as (toks & E1 & F1).
  { intros a Ha. apply valid_utf8_iff, H, Ha. }
  destruct (all_some_some (fun id => from_utf8 (bv_token v id)) (specials v)) as (never & E2 & F2).
  { intros id _. unfold bv_token. destruct (nth_in_or_default (N.to_nat id) (v_tokens v) []) as [Hi| ->].
    - apply valid_utf8_iff, H, Hi.
    - exists []. reflexivity. }
  exists toks, never. auto.
Qed.

Lemma Forall2_len {A B} (R : A -> B -> Prop) l m : Forall2 R l m -> length l = length m.
Proof. induction 1; simpl; congruence. Qed.

Lemma model_tokenize_total k v text :
  Forall valid_utf8 (v_tokens v) -> N.of_nat (length (v_tokens v)) <= INVALID -> valid_utf8 text ->
  exists ids, model_tokenize k v text = Ok ids /\
    Forall (fun i => i < N.of_nat (length (v_tokens v)) \/ i = v_unk v) ids.
Proof.
  intros HT HS HX. destruct (tokens_decode v HT) as (toks & never & E1 & E2 & F1 & _).
  apply valid_utf8_iff in HX as [s E3].
  pose proof (Forall2_len _ _ _ F1) as L.
  assert (SM : small toks) by (unfold small; rewrite <- L; exact HS).
  unfold model_tokenize. fold (specials v). rewrite E1, E2, E3.
  destruct (wordpiece_total toks (v_unk v) (basic_tokenize k (v_cond v) never s) SM) as [W1 W2].
  destruct (has_cont_dec toks) as [C|C].
  - destruct (W1 C) as (ids & -> & F & _). exists ids. split; [reflexivity|].
    eapply Forall_impl; [|exact F]. intros i [->|(e & He)]; [right; reflexivity|left].
    rewrite L. eapply entry_below; eauto.
  - rewrite (W2 C). exists []. split; [reflexivity|constructor].
Qed.

Lemma berts_ids_total k v text :
  Forall valid_utf8 (v_tokens v) -> N.of_nat (length (v_tokens v)) <= INVALID ->
  v_cls v <> INVALID -> v_sep v <> INVALID -> valid_utf8 text ->
  exists ids, berts_ids k v text = Ok ([v_cls v] ++ ids ++ [v_sep v]) /\
    Forall (fun i => i < N.of_nat (length (v_tokens v)) \/ i = v_unk v) ids.
Proof.
  intros HT HS HC HP HX. destruct (model_tokenize_total k v text HT HS HX) as (ids & E & F).
  exists ids. split; [|exact F]. unfold berts_ids.
  replace (v_cls v =? INVALID) with false by (symmetry; apply N.eqb_neq; exact HC).
  replace (v_sep v =? INVALID) with false by (symmetry; apply N.eqb_neq; exact HP).
  rewrite E. reflexivity.
Qed.

Lemma invalid_text_ub k v text : v_cls v <> INVALID -> v_sep v <> INVALID -> ~ valid_utf8 text ->
  berts_ids k v text = UB.
Proof.
  intros HC HP HX. unfold berts_ids.
  replace (v_cls v =? INVALID) with false by (symmetry; apply N.eqb_neq; exact HC).
  replace (v_sep v =? INVALID) with false by (symmetry; apply N.eqb_neq; exact HP).
  unfold model_tokenize. destruct (from_utf8 text) as [s|] eqn:E.
  - exfalso. apply HX, valid_utf8_iff. eauto.
  - destruct (all_some (map from_utf8 (v_tokens v))); [|reflexivity].
    match goal with |- context [match ?x with Some _ => _ | None => _ end] => destruct x end; reflexivity.
Qed.

(** ** Lower-casing *)

Lemma wordpiece_empties vocab unk ws : small vocab -> Forall (fun w => w = []) ws ->
  wordpiece vocab unk ws = WpOk [] \/ wordpiece vocab unk ws = WpNoCont.
Proof.
  intros S F. destruct (has_cont_dec vocab) as [C|C].
  - left. rewrite (wordpiece_greedy vocab unk ws (map (fun _ => []) ws) S C).
    + f_equal. induction ws; simpl; [reflexivity|]. inversion F; auto.
    + clear S. induction F as [|w ws -> F IH]; simpl; constructor; auto. constructor.
  - right. apply wordpiece_total; assumption.
Qed.

Lemma lower_word_gone k f never w :
  i_nfc k [] = [] -> i_nfd k [] = [] -> t_lower f = true -> ~ In w never ->
  Forall (fun p => p = []) (basic_word k f never w).
Proof.
  intros HC HD HL HN. unfold basic_word.
  replace (mem_word w never) with false.
  2: { symmetry. unfold mem_word. apply Bool.not_true_is_false. rewrite existsb_exists.
       intros (x & Hx & Ex). apply list_N_eqb_eq in Ex. subst x. tauto. }
  rewrite HL.
  assert (E : snd (to_lower k w) = ([] : list N)) by (unfold to_lower; destruct w as [|c w]; [|destruct (i_lower k (c :: w))]; reflexivity).
  rewrite E. unfold strip_accents. rewrite HD. cbn [codepoints_of]. unfold of_cps, codepoints_of; simpl. rewrite HC.
  destruct (t_accents f), (t_punct f); simpl; repeat constructor.
Qed.

Lemma lower_text_gone k v text never s :
  i_nfc k [] = [] -> i_nfd k [] = [] ->
  Forall valid_utf8 (v_tokens v) -> N.of_nat (length (v_tokens v)) <= INVALID ->
  t_lower (v_cond v) = true -> from_utf8 text = Some s ->
  all_some (map (fun id => from_utf8 (bv_token v id)) (specials v)) = Some never ->
  Forall (fun w => ~ In w never) (clean_text_and_split k (v_cond v) (i_nfc k s)) ->
  model_tokenize k v text = Ok [].
Proof.
  intros HC HD HT HS HL HX HE HN.
  destruct (tokens_decode v HT) as (toks & never' & E1 & E2 & F1 & _).
  rewrite HE in E2. inversion E2; subst never'; clear E2.
  unfold model_tokenize. fold (specials v). rewrite E1, HE, HX.
  assert (SM : small toks) by (unfold small; rewrite <- (Forall2_len _ _ _ F1); exact HS).
  assert (F : Forall (fun p => p = []) (basic_tokenize k (v_cond v) never s)).
  { unfold basic_tokenize. induction HN as [|w ws Hw HN IH]; simpl; [constructor|].
    apply Forall_app; split; [apply lower_word_gone; assumption|exact IH]. }
  destruct (wordpiece_empties toks (v_unk v) _ SM F) as [-> | ->]; reflexivity.
Qed.

(** ** End to end, without lower-casing and accent stripping *)

Lemma mem_word_iff w l : mem_word w l = true <-> In w l.
Proof.
  unfold mem_word. rewrite existsb_exists. split.
  - intros (x & Hx & E). apply list_N_eqb_eq in E. subst; exact Hx.
  - intros H. exists w. split; [exact H|apply list_N_eqb_refl].
Qed.

Lemma basic_word_pieces k f never w us ps :
  t_lower f = false -> t_accents f = false -> t_punct f = true ->
  utf16 w us -> word_pieces (punct_char (i_punct k)) never w ps ->
  basic_word k f never us = map enc16s ps.
Proof.
  intros HL HA HP HU (us' & HU' & H). pose proof (utf16_functional _ _ _ HU' HU) as ->.
  apply utf16_enc16s in HU as [Hs ->]. unfold basic_word. rewrite HL, HA, HP.
  destruct (mem_word (enc16s w) never) eqn:M.
  - destruct H as [(_ & ->)|(N & _)]; [reflexivity|]. apply mem_word_iff in M. tauto.
  - destruct H as [(I & _)|(_ & P)]; [apply mem_word_iff in I; congruence|].
    rewrite codepoints_enc16s by exact Hs. rewrite punct_split_ref by exact Hs. f_equal.
    eapply punct_pieces_unique; [|exact P]. apply (ref_punct_ok _ w []). constructor.
Qed.

Lemma end_to_end k v text toks never s ncs ws pss idss :
  let f := v_cond v in
  t_lower f = false -> t_accents f = false -> t_punct f = true ->
  N.of_nat (length (v_tokens v)) <= INVALID -> v_cls v <> INVALID -> v_sep v <> INVALID ->
  Forall2 same_text (v_tokens v) toks -> has_cont toks ->
  Forall2 same_text (map (bv_token v) (specials v)) never ->
  same_text text s -> utf16 ncs (i_nfc k s) ->
  no_wide_special k f ncs ->
  words_of (kind_for k f) ncs ws ->
  Forall2 (word_pieces (punct_char (i_punct k)) never) ws pss ->
  Forall2 (fun p ids => exists us, utf16 p us /\ segments toks [] us ids) (concat pss) idss ->
  berts_ids k v text = Ok ([v_cls v] ++ concat idss ++ [v_sep v]).
Proof.
  intros f HL HA HP HS HC HSep HT HCont HN HX HN16 NW HW HPs HSeg.
  unfold berts_ids.
  replace (v_cls v =? INVALID) with false by (symmetry; apply N.eqb_neq; exact HC).
  replace (v_sep v =? INVALID) with false by (symmetry; apply N.eqb_neq; exact HSep).
  unfold model_tokenize. fold (specials v).
  assert (A : forall (A B : Type) (g : A -> option B) l bs, Forall2 (fun a b => g a = Some b) l bs -> all_some (map g l) = Some bs).
  { clear. induction 1 as [|a b l bs Hab F IH]; [reflexivity|]. simpl. rewrite Hab, IH. reflexivity. }
  assert (E1 : all_some (map from_utf8 (v_tokens v)) = Some toks).
  { apply A. clear -HT. induction HT; constructor; auto. apply same_text_iff; assumption. }
  assert (E2 : all_some (map (fun id => from_utf8 (bv_token v id)) (specials v)) = Some never).
  { apply A. clear -HN. revert never HN. generalize (specials v). intros l; induction l as [|a l IH]; intros never H; inversion H; subst; constructor; auto.
    apply same_text_iff; assumption. }
  apply same_text_iff in HX. rewrite E1, E2, HX.
  assert (SM : small toks) by (unfold small; rewrite <- (Forall2_len _ _ _ HT); exact HS).
  assert (B : basic_tokenize k (v_cond v) never s = map enc16s (concat pss)).
  { unfold basic_tokenize. destruct (utf16_reads _ _ HN16) as (is & R & Hf & Hm).
    pose proof (utf16_scalars _ _ HN16) as Hs.
    assert (Hu : Forall unit16 (i_nfc k s)).
    { clear -HN16. induction HN16; constructor; auto; unfold unit16, hi_sur, lo_sur in *; try lia. constructor; auto; lia. }
    fold f. rewrite (clean_words k f _ is Hu R) by (rewrite Hm; exact NW). rewrite Hm.
    rewrite (words_of_unique _ _ _ _ (ref_words_ok _ _) HW).
    assert (WS : Forall (Forall scalar_value) ws) by (eapply words_scalar; eauto).
    clear -HPs WS HL HA HP. induction HPs as [|w ps ws pss H F IH]; [reflexivity|].
    inversion WS; subst. simpl. rewrite map_app, <- IH by assumption. f_equal.
    apply (basic_word_pieces k f never w); auto. apply enc16s_spec; assumption. }
  rewrite B.
  rewrite (wordpiece_greedy toks (v_unk v) _ idss SM HCont); [reflexivity|].
  clear -HSeg. induction HSeg as [|p ids ps idss (us & U & S) F IH]; simpl; constructor; auto.
  apply utf16_enc16s in U as [_ ->]. exact S.
Qed.
