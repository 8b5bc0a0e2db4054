(** Theorems about logging. *)
From Verif Require Import Base Log_model Log_spec.

Lemma c_str_clean m : ~ In 0%N m -> c_str m = m.
Proof.
  induction m as [|b m IH]; intros H; [reflexivity|]. simpl.
  destruct (b =? 0)%N eqn:E; [apply N.eqb_eq in E; subst; elim H; left; reflexivity|].
  rewrite IH; [reflexivity|]. intros Hin. apply H. right. exact Hin.
Qed.

Lemma c_str_sub m b : In b (c_str m) -> In b m.
Proof. induction m as [|c m IH]; [auto|]. simpl. destruct (c =? 0)%N; simpl; tauto. Qed.

Lemma fprintf_two m : forall n, length m < n -> (exists o, fprintf m = Ok o /\ escaped m o) \/
  (fprintf m = UB /\ forall o, ~ escaped m o).
Proof.
  intros n. revert m. induction n as [|n IH]; intros m Hn; [lia|].
  destruct m as [|b m]; [left; exists []; split; [reflexivity|constructor]|]. cbn [fprintf].
  destruct (b =? 37)%N eqn:E.
  - apply N.eqb_eq in E. subst b. destruct m as [|c m].
    + right. split; [reflexivity|]. intros o H. inversion H; subst. congruence.
    + destruct (c =? 37)%N eqn:E'.
      * apply N.eqb_eq in E'. subst c.
        destruct (IH m) as [(o & Eo & Ho)|(Eo & Ho)]; [simpl in Hn; lia| |].
        -- left. exists (37%N :: o). rewrite Eo. split; [reflexivity|constructor; exact Ho].
        -- right. rewrite Eo. split; [reflexivity|]. intros o H. inversion H; subst; [eapply Ho; eassumption|congruence].
      * apply N.eqb_neq in E'. right. split; [reflexivity|]. intros o H. inversion H; subst; congruence.
  - apply N.eqb_neq in E. destruct (IH m) as [(o & Eo & Ho)|(Eo & Ho)]; [simpl in Hn; lia| |].
    + left. exists (b :: o). rewrite Eo. split; [reflexivity|constructor; assumption].
    + right. rewrite Eo. split; [reflexivity|]. intros o H. inversion H; subst; [congruence|eapply Ho; eassumption].
Qed.

Lemma fprintf_cases m : (exists o, fprintf m = Ok o /\ escaped m o) \/ (fprintf m = UB /\ forall o, ~ escaped m o).
Proof. apply (fprintf_two m (S (length m))). lia. Qed.

Lemma fprintf_harmless m : ~ In 37%N m -> fprintf m = Ok m.
Proof.
  induction m as [|b m IH]; intros H; [reflexivity|]. cbn [fprintf].
  destruct (b =? 37)%N eqn:E; [apply N.eqb_eq in E; subst; elim H; left; reflexivity|].
  rewrite IH; [reflexivity|]. intros Hin. apply H. right. exact Hin.
Qed.

Lemma wanted_rank l s : wanted l s <-> (l <= rank s)%Z.
Proof. destruct s; reflexivity. Qed.

(** C60.  A plain message appears exactly when its severity is wanted, as one line. *)
Theorem C60_written_iff st s msg :
  has_file st = true -> harmless msg ->
  (wanted (lvl st) s -> plain st s msg = Ok (msg ++ [10%N])) /\
  (~ wanted (lvl st) s -> plain st s msg = Ok []).
Proof.
  intros Hf (H1 & H2). unfold plain, write. rewrite Hf, (c_str_clean msg H2), (fprintf_harmless msg H1).
  rewrite wanted_rank. split; intros H.
  - replace (lvl st <=? rank s)%Z with true by lia. reflexivity.
  - replace (lvl st <=? rank s)%Z with false by lia. reflexivity.
Qed.
Print Assumptions C60_written_iff.

(** Raising the level only removes messages, whatever the text, formatted or not. *)
Theorem C60_monotone f l l' s msg :
  (l <= l')%Z ->
  (plain (mkls l' f) s msg = Ok [] \/ plain (mkls l' f) s msg = plain (mkls l f) s msg) /\
  (formatted (mkls l' f) s msg = Ok [] \/ formatted (mkls l' f) s msg = formatted (mkls l f) s msg).
Proof.
  intros H.
  assert (HP : plain (mkls l' f) s msg = Ok [] \/ plain (mkls l' f) s msg = plain (mkls l f) s msg).
  { unfold plain. cbn [lvl]. destruct (l' <=? rank s)%Z eqn:E; [|left; reflexivity].
    right. replace (l <=? rank s)%Z with true by lia. reflexivity. }
  split; [exact HP|]. unfold formatted, is_logging. cbn [lvl].
  destruct (l' <=? guard s)%Z eqn:E; [|left; reflexivity].
  replace (l <=? guard s)%Z with true by lia. exact HP.
Qed.
Print Assumptions C60_monotone.

(** At the quiet level nothing is written and nothing can go wrong. *)
Theorem C60_quiet st s msg :
  (LOG_QUIET <= lvl st)%Z -> plain st s msg = Ok [] /\ formatted st s msg = Ok [].
Proof.
  unfold LOG_QUIET. intros H. assert (E : plain st s msg = Ok []).
  { unfold plain. replace (lvl st <=? rank s)%Z with false by (destruct s; cbn [rank]; lia). reflexivity. }
  split; [exact E|]. unfold formatted. rewrite E. destruct (is_logging st (guard s)); reflexivity.
Qed.
Print Assumptions C60_quiet.

Lemma calls_level cs : forall st st' out, calls st cs = Ok (st', out) -> lvl st' = level_after (lvl st) cs.
Proof.
  induction cs as [|c cs IH]; intros st st' out H; [injection H as <- <-; reflexivity|].
  cbn [calls] in H. destruct (call st c) as [[st1 o1]| | |] eqn:E1; try discriminate. cbn [obind fst snd] in H.
  destruct (calls st1 cs) as [[st2 o2]| | |] eqn:E2; try discriminate. injection H as <- <-.
  rewrite (IH _ _ _ E2).
  destruct c as [l|f|s m|s m]; cbn [call] in E1.
  - injection E1 as <- <-. reflexivity.
  - injection E1 as <- <-. reflexivity.
  - destruct (plain st s m); try discriminate. injection E1 as <- <-. reflexivity.
  - destruct (formatted st s m); try discriminate. injection E1 as <- <-. reflexivity.
Qed.

(** The level in force is always the last one set (WARN at first), so after any history
    the rule above applies with it. *)
Theorem C60_histories cs st out s msg :
  calls log_start cs = Ok (st, out) -> has_file st = true -> harmless msg ->
  exists st' out', calls log_start (cs ++ [Plain s msg]) = Ok (st', out') /\
    (wanted (level_after 2 cs) s -> out' = out ++ msg ++ [10%N]) /\
    (~ wanted (level_after 2 cs) s -> out' = out).
Proof.
  intros H Hf Hm. pose proof (calls_level _ _ _ _ H) as HL. cbn [log_start lvl] in HL. unfold LOG_DEFAULT in HL.
  assert (HA : forall cs st0 c r o, calls st0 cs = Ok (r, o) ->
    calls st0 (cs ++ [c]) = obind (call r c) (fun x => Ok (fst x, o ++ snd x))).
  { clear. induction cs as [|c0 cs IH]; intros st0 c r o H.
    - injection H as <- <-. simpl. destruct (call st0 c) as [[a b]| | |]; [cbn; rewrite app_nil_r|..]; reflexivity.
    - cbn [app calls] in *. destruct (call st0 c0) as [[st1 o1]| | |]; try discriminate. cbn [obind fst snd] in *.
      destruct (calls st1 cs) as [[st2 o2]| | |] eqn:E; try discriminate. injection H as <- <-.
      rewrite (IH _ c _ _ E). destruct (call st2 c) as [[a b]| | |]; cbn; [rewrite app_assoc|..]; reflexivity. }
  destruct (C60_written_iff st s msg Hf Hm) as (W1 & W2). rewrite HL in W1, W2.
  rewrite (HA _ _ (Plain s msg) _ _ H). cbn [call].
  assert (D : wanted (level_after 2 cs) s \/ ~ wanted (level_after 2 cs) s).
  { rewrite wanted_rank. lia. }
  destruct D as [D|D].
  - rewrite (W1 D). eexists _, _. split; [reflexivity|]. split; [reflexivity|tauto].
  - rewrite (W2 D). eexists _, _. split; [reflexivity|]. cbn [snd]. rewrite app_nil_r. split; [tauto|reflexivity].
Qed.
Print Assumptions C60_histories.

Example C60_example :
  calls log_start [Plain Info (u "a"); SetLevel 1; Plain Info (u "b"); SetLevel 3; Plain Warn (u "c"); Plain Error (u "d")] =
  Ok (mkls 3 true, u "b" ++ [10%N] ++ u "d" ++ [10%N]) /\ harmless (u "d").
Proof. split; [reflexivity|]. split; simpl; intuition discriminate. Qed.

(** C61.  Errors with arguments are tested against INFO. *)
Theorem C61_errors_visible_refuted :
  exists l msg, (l <= 3)%Z /\ l = LOG_DEFAULT /\ harmless msg /\ formatted (mkls l true) Error msg = Ok [].
Proof. exists 2%Z, (u "failed to open x"). repeat split; try lia; simpl; intuition discriminate. Qed.
Print Assumptions C61_errors_visible_refuted.

Theorem C61_errors_visible_partial l msg :
  harmless msg ->
  (formatted (mkls l true) Error msg = Ok (msg ++ [10%N]) <-> (l <= 1)%Z) /\
  (plain (mkls l true) Error msg = Ok (msg ++ [10%N]) <-> (l <= 3)%Z).
Proof.
  intros Hm.
  assert (NE : @Ok (list N) [] <> Ok (msg ++ [10%N])) by (intros H; injection H; destruct msg; discriminate).
  destruct (C60_written_iff (mkls l true) Error msg eq_refl Hm) as (W1 & W2). cbn [wanted lvl] in *.
  split; split; intros H.
  - destruct (Z_le_gt_dec l 1) as [D|D]; [exact D|]. exfalso. apply NE. rewrite <- H.
    unfold formatted, is_logging. cbn [lvl guard]. replace (l <=? 1)%Z with false by lia. reflexivity.
  - unfold formatted, is_logging. cbn [lvl guard]. replace (l <=? 1)%Z with true by lia. apply W1. lia.
  - destruct (Z_le_gt_dec l 3) as [D|D]; [exact D|]. exfalso. apply NE. rewrite <- H. symmetry. apply W2. lia.
  - apply W1. exact H.
Qed.
Print Assumptions C61_errors_visible_partial.

(** Debug, info and warning texts behave the same with and without arguments. *)
Theorem C61_other_severities st s msg : s <> Error -> formatted st s msg = plain st s msg.
Proof.
  intros H. unfold formatted, is_logging, plain. destruct s; cbn [guard rank]; try congruence;
    destruct (lvl st <=? _)%Z; reflexivity.
Qed.
Print Assumptions C61_other_severities.

Example C61_example : formatted (mkls 1 true) Error (u "x") = Ok (u "x" ++ [10%N]) /\ formatted (mkls 2 true) Error (u "x") = Ok [].
Proof. split; reflexivity. Qed.

(** C62.  The message is the format string of fprintf. *)
Theorem C62_logging_defined_iff st s msg :
  (plain st s msg <> UB <->
   has_file st = false \/ ~ wanted (lvl st) s \/ exists o, escaped (c_str msg) o).
Proof.
  unfold plain. rewrite wanted_rank. destruct (lvl st <=? rank s)%Z eqn:E.
  - unfold write. destruct (has_file st); [|split; [auto|discriminate]].
    destruct (fprintf_cases (c_str msg)) as [(o & Eo & Ho)|(Eo & Ho)]; rewrite Eo; cbn [obind].
    + split; [intros _; right; right; eauto|discriminate].
    + split; [congruence|]. intros [H|[H|(o & H)]]; [discriminate|lia|elim (Ho o H)].
  - split; [intros _; right; left; lia|discriminate].
Qed.
Print Assumptions C62_logging_defined_iff.

Theorem C62_logging_safe_refuted :
  exists msg, plain (mkls LOG_DEFAULT true) Warn msg = UB /\ Forall (fun b => 32 <= b <= 126)%N msg.
Proof. exists (u "  token %s already exists"). split; [reflexivity|repeat constructor; discriminate]. Qed.
Print Assumptions C62_logging_safe_refuted.

(** Text without '%' is safe and printed as it is. *)
Theorem C62_logging_safe_partial st s msg :
  ~ In 37%N msg -> plain st s msg <> UB /\ formatted st s msg <> UB /\
  (has_file st = true -> wanted (lvl st) s -> plain st s msg = Ok (c_str msg ++ [10%N])).
Proof.
  intros H. assert (F : fprintf (c_str msg) = Ok (c_str msg)).
  { apply fprintf_harmless. intros Hin. apply H, c_str_sub, Hin. }
  assert (P : plain st s msg <> UB).
  { unfold plain, write. rewrite F. destruct (lvl st <=? rank s)%Z; [destruct (has_file st)|]; discriminate. }
  split; [exact P|]. split.
  - unfold formatted. destruct (is_logging st (guard s)); [exact P|discriminate].
  - intros Hf Hw. unfold plain, write. rewrite wanted_rank in Hw. replace (lvl st <=? rank s)%Z with true by lia.
    rewrite Hf, F. reflexivity.
Qed.
Print Assumptions C62_logging_safe_partial.

(** model_base.hpp:136-143: looking up an unknown token writes it into the log.  With
    logging at INFO or below the look-up is undefined for tokens with a single '%'. *)
Definition unknown_token_message (t : list N) : list N := u "token " ++ t ++ u " is not found".

Theorem C62_unknown_token l t :
  ~ In 0%N t ->
  (formatted (mkls l true) Error (unknown_token_message t) <> UB <-> (1 < l)%Z \/ exists o, escaped (t ++ u " is not found") o).
Proof.
  intros H0. unfold formatted, is_logging. cbn [lvl guard]. destruct (l <=? 1)%Z eqn:E.
  - rewrite C62_logging_defined_iff. cbn [has_file lvl wanted].
    assert (C : c_str (unknown_token_message t) = unknown_token_message t).
    { apply c_str_clean. unfold unknown_token_message. rewrite !in_app_iff.
      intros [H|[H|H]]; [|exact (H0 H)|]; simpl in H; intuition discriminate. }
    rewrite C. unfold unknown_token_message.
    assert (EE : forall m o, (~ In 37%N m) -> forall r, escaped (m ++ r) o -> exists o', escaped r o').
    { clear. induction m as [|b m IH]; intros o Hm r He; [exists o; exact He|].
      simpl in He. inversion He; subst.
      - elim Hm. left. reflexivity.
      - apply (IH o0); [|assumption]. intros Hin. apply Hm. right. exact Hin. }
    assert (EI : forall m r o, (~ In 37%N m) -> escaped r o -> exists o', escaped (m ++ r) o').
    { clear. induction m as [|b m IH]; intros r o Hm He; [exists o; exact He|].
      destruct (IH r o) as (o' & Ho'); [intros Hin; apply Hm; right; exact Hin|exact He|].
      exists (b :: o'). simpl. constructor; [|exact Ho']. intros ->. apply Hm. left. reflexivity. }
    split.
    + intros [H|[H|(o & H)]]; [discriminate|lia|]. right. apply (EE (u "token ") o); [simpl; intuition discriminate|exact H].
    + intros [H|(o & H)]; [lia|]. right. right. apply (EI (u "token ") _ o); [simpl; intuition discriminate|exact H].
  - split; [intros _; left; lia|discriminate].
Qed.
Print Assumptions C62_unknown_token.

Example C62_example :
  formatted (mkls 0 true) Error (unknown_token_message (u "100%")) = UB /\
  (exists o, escaped (u "100%%" ++ u " is not found") o) /\
  plain (mkls 0 true) Info (u "100%%") = Ok (u "100%" ++ [10%N]).
Proof.
  split; [reflexivity|]. split; [|reflexivity].
  eexists. simpl. repeat first [apply esc_pair | apply esc_char; [discriminate|] | apply esc_nil].
Qed.
