(** Proofs about the quantization tool. *)
From Verif Require Import Base Loader_model Quantize_spec Tool_model Tool_spec.
Local Open Scope nat_scope.

(** ** Capitals *)

Lemma capital_idem c : capital (capital c) = capital c.
Proof. unfold capital. destruct ((97 <=? c) && (c <=? 122))%N eqn:E; [|rewrite E; reflexivity]. 
  replace ((97 <=? c - 32) && (c - 32 <=? 122))%N with false by lia. reflexivity.
Qed.

Lemma upper_ok s : Forall (fun c => (c < 256)%N) s -> ~ Exists negative_char s -> upper s = Ok (map capital s).
Proof.
  induction s as [|c s IH]; intros Hb Hn; [reflexivity|]. inversion Hb; subst.
  cbn [upper map]. assert (Hc : ~ negative_char c) by (intros H; apply Hn; left; exact H).
  rewrite IH; [|assumption|intros H; apply Hn; right; exact H].
  unfold toupper, negative_char in *.
  destruct (N.eqb_spec c 255) as [->|]; [reflexivity|].
  replace (128 <=? c)%N with false by lia. unfold capital. destruct ((97 <=? c) && (c <=? 122))%N; reflexivity.
Qed.

Lemma upper_bad s : Exists negative_char s -> Forall (fun c => (c < 256)%N) s -> upper s = UB.
Proof.
  induction 1 as [c s H|c s H IH]; intros Hb; inversion Hb; subst; cbn [upper]; unfold toupper, negative_char in *.
  - replace (c =? 255)%N with false by lia. replace (128 <=? c)%N with true by lia. reflexivity.
  - rewrite IH by assumption. destruct (c =? 255)%N; [reflexivity|]. destruct (128 <=? c)%N; [reflexivity|].
    destruct ((97 <=? c) && (c <=? 122))%N; reflexivity.
Qed.

(** ** Numbers *)

Definition value_from (acc : N) (s : list N) : N := fold_left (fun a c => (10 * a + (c - 48))%N) s acc.

Lemma digits_iff s v : digits_are s v <-> s <> [] /\ forallb digit s = true /\ v = value_from 0 s.
Proof.
  split.
  - induction 1 as [d Hd|s n d H (H1 & H2 & H3) Hd].
    + split; [discriminate|]. split; [cbn [forallb]; unfold digit; lia|]. cbn. lia.
    + split; [destruct s; discriminate|]. split.
      * rewrite forallb_app, H2. cbn [forallb]. unfold digit. lia.
      * unfold value_from in *. rewrite fold_left_app, <- H3. cbn [fold_left]. lia.
  - revert v. induction s as [|c s IH] using rev_ind; intros v (H1 & H2 & H3); [congruence|].
    rewrite forallb_app in H2. apply andb_true_iff in H2 as (H2 & Hc). cbn [forallb] in Hc. unfold digit in Hc.
    unfold value_from in *. rewrite fold_left_app in H3. cbn [fold_left] in H3.
    replace c with (48 + (c - 48))%N by lia. destruct s as [|c' s].
    + cbn [fold_left app] in *. replace v with (c - 48)%N by lia. constructor. lia.
    + subst v. apply digits_more; [|lia]. apply IH. split; [discriminate|]. split; [exact H2|reflexivity].
Qed.

Definition starts_with_digit (s : list N) : bool := match s with c :: _ => digit c | [] => false end.

Lemma take_digits_app acc ds rest : forallb digit ds = true -> starts_with_digit rest = false ->
  take_digits acc (ds ++ rest) = (length ds, value_from acc ds, rest).
Proof.
  revert acc. induction ds as [|c ds IH]; intros acc Hd Hr.
  - cbn [app length]. destruct rest as [|c rest]; [reflexivity|]. cbn [starts_with_digit take_digits] in *. rewrite Hr. reflexivity.
  - cbn [forallb app take_digits] in *. apply andb_true_iff in Hd as (Hc & Hd). rewrite Hc, (IH _ Hd Hr). reflexivity.
Qed.

Lemma split_digits s : exists ds rest, s = ds ++ rest /\ forallb digit ds = true /\ starts_with_digit rest = false.
Proof.
  induction s as [|c s IH]; [exists [], []; auto|]. destruct (digit c) eqn:E.
  - destruct IH as (ds & rest & -> & H1 & H2). exists (c :: ds), rest. cbn [forallb]. rewrite E, H1. auto.
  - exists [], (c :: s). auto.
Qed.

Lemma digit_prefix ds rest s : forallb digit ds = true -> starts_with_digit rest = false -> forallb digit s = true ->
  s = ds ++ rest -> rest = [].
Proof.
  intros _ Hr Hs ->. rewrite forallb_app in Hs. apply andb_true_iff in Hs as (_ & Hs).
  destruct rest as [|c rest]; [reflexivity|]. cbn [forallb starts_with_digit] in *. rewrite Hr in Hs. discriminate.
Qed.

Lemma not_minus s : forallb digit s = true -> match s with 45%N :: _ => False | _ => True end.
Proof.
  destruct s as [|c s]; [trivial|]. cbn [forallb]. intros H. apply andb_true_iff in H as (H & _). unfold digit in H.
  destruct c as [|p]; [trivial|]. repeat (destruct p as [p|p|]; trivial). cbn in H. discriminate.
Qed.

Definition in_int (z : Z) : bool := ((INT_MIN <=? z) && (z <=? INT_MAX))%Z.

(** What from_chars makes of a string without and with a minus sign. *)
Lemma from_chars_plain ds rest : forallb digit ds = true -> starts_with_digit rest = false ->
  match ds ++ rest with 45%N :: _ => False | _ => True end ->
  from_chars (ds ++ rest) =
  if length ds =? 0 then NoNumber (ds ++ rest)
  else if in_int (Z.of_N (value_from 0 ds)) then Parsed (Z.of_N (value_from 0 ds)) rest else OutOfRange rest.
Proof.
  intros Hd Hr Hm. unfold from_chars.
  assert (E : match ds ++ rest with 45%N :: r => (true, r) | _ => (false, ds ++ rest) end = (false, ds ++ rest)).
  { destruct (ds ++ rest) as [|c s]; [reflexivity|]. destruct c as [|p]; [reflexivity|].
    repeat (destruct p as [p|p|]; try reflexivity). destruct Hm. }
  rewrite E, (take_digits_app _ _ _ Hd Hr). reflexivity.
Qed.

Lemma from_chars_minus ds rest : forallb digit ds = true -> starts_with_digit rest = false ->
  from_chars (45%N :: ds ++ rest) =
  if length ds =? 0 then NoNumber (45%N :: ds ++ rest)
  else if in_int (- Z.of_N (value_from 0 ds)) then Parsed (- Z.of_N (value_from 0 ds)) rest else OutOfRange rest.
Proof. intros Hd Hr. unfold from_chars. rewrite (take_digits_app _ _ _ Hd Hr). reflexivity. Qed.

Lemma numeral_fun s z z' : numeral s z -> numeral s z' -> z = z'.
Proof.
  intros [s1 n1 H1|s1 n1 H1] H; inversion H as [s2 n2 H2|s2 n2 H2]; subst.
  - apply digits_iff in H1 as (_ & _ & ->), H2 as (_ & _ & ->). reflexivity.
  - exfalso. apply digits_iff in H1 as (_ & H1 & _). apply not_minus in H1. exact H1.
  - exfalso. apply digits_iff in H2 as (_ & H2 & _). apply not_minus in H2. exact H2.
  - apply digits_iff in H1 as (_ & _ & ->), H2 as (_ & _ & ->). reflexivity.
Qed.

(** The number the tool compares: that of a numeral, undetermined if it is too large (or
    there is no text at all), and -1 for all other texts. *)
Lemma number_spec s : s <> [] ->
  (exists z, numeral s z /\ number_of s = if in_int z then Some z else None) \/
  ((forall z, ~ numeral s z) /\ number_of s = Some (-1)%Z).
Proof.
  intros Hs. unfold number_of.
  destruct s as [|c s]; [congruence|]. destruct (N.eq_dec c 45) as [->|Hc].
  - destruct (split_digits s) as (ds & rest & -> & Hd & Hr). rewrite (from_chars_minus _ _ Hd Hr).
    destruct (Nat.eqb_spec (length ds) 0) as [E|E].
    + right. split; [|reflexivity]. intros z H. destruct ds; [|discriminate]. cbn [app] in *.
      inversion H as [s n Hn|s n Hn]; subst.
      * apply digits_iff in Hn as (_ & Hn & _). apply not_minus in Hn. exact Hn.
      * apply digits_iff in Hn as (Hn & Hn' & _). destruct rest as [|c rest]; [congruence|].
        cbn [forallb starts_with_digit] in *. rewrite Hr in Hn'. discriminate.
    + destruct rest as [|c rest].
      * left. exists (- Z.of_N (value_from 0 ds))%Z. rewrite app_nil_r. split.
        -- apply numeral_minus, digits_iff. split; [destruct ds; [cbn in E; congruence|discriminate]|auto].
        -- destruct (in_int _); reflexivity.
      * right. split; [|destruct (in_int _); reflexivity]. intros z H. inversion H as [s n Hn|s n Hn]; subst.
        -- apply digits_iff in Hn as (_ & Hn & _). apply not_minus in Hn. exact Hn.
        -- apply digits_iff in Hn as (_ & Hn & _).
           assert (X := digit_prefix ds (c :: rest) _ Hd Hr Hn eq_refl). discriminate.
  - destruct (split_digits (c :: s)) as (ds & rest & Es & Hd & Hr). rewrite Es.
    assert (Hm : match ds ++ rest with 45%N :: _ => False | _ => True end).
    { rewrite <- Es. destruct c as [|p]; [trivial|]. repeat (destruct p as [p|p|]; trivial). congruence. }
    assert (Hn0 : forall z, numeral (ds ++ rest) z -> forallb digit (ds ++ rest) = true).
    { intros z H. inversion H as [s' n Hn|s' n Hn Ex]; subst; [apply digits_iff in Hn; tauto|].
      rewrite <- Ex in Hm. destruct Hm. }
    rewrite (from_chars_plain _ _ Hd Hr Hm). destruct (Nat.eqb_spec (length ds) 0) as [E|E].
    + right. destruct ds; [|discriminate]. cbn [app] in *. subst rest. split; [|reflexivity].
      intros z H. apply Hn0 in H. cbn [forallb starts_with_digit] in *. rewrite Hr in H. discriminate.
    + destruct rest as [|c' rest].
      * left. exists (Z.of_N (value_from 0 ds)). rewrite app_nil_r in *. split.
        -- apply numeral_plain, digits_iff. split; [destruct ds; [cbn in E; congruence|discriminate]|auto].
        -- destruct (in_int _); reflexivity.
      * right. split; [|destruct (in_int _); reflexivity]. intros z H. apply Hn0 in H.
        assert (X := digit_prefix ds (c' :: rest) _ Hd Hr H eq_refl). discriminate.
Qed.

Lemma capital_digit s : forallb digit s = true -> map capital s = s.
Proof.
  induction s as [|c s IH]; [reflexivity|]. cbn [forallb map]. intros H. apply andb_true_iff in H as (H & H').
  rewrite IH by exact H'. unfold digit, capital in *. replace ((97 <=? c) && (c <=? 122))%N with false by lia. reflexivity.
Qed.

Lemma digit_capital s : forallb digit (map capital s) = true -> map capital s = s.
Proof.
  induction s as [|c s IH]; [reflexivity|]. cbn [forallb map]. intros H. apply andb_true_iff in H as (H & H').
  rewrite IH by exact H'. f_equal. unfold digit, capital in *. destruct ((97 <=? c) && (c <=? 122))%N eqn:E; lia.
Qed.

Lemma numeral_capital s z : numeral (map capital s) z <-> numeral s z.
Proof.
  split; intros H.
  - inversion H as [s' n Hn Es|s' n Hn Es]; subst.
    + assert (D := Hn). apply digits_iff in D as (_ & D & _). rewrite (digit_capital s D) in Hn. constructor. exact Hn.
    + destruct s as [|c s]; [discriminate|]. cbn [map] in Es. injection Es as Ec ->.
      assert (D := Hn). apply digits_iff in D as (_ & D & _). rewrite (digit_capital s D) in Hn.
      assert (c = 45%N) as -> by (unfold capital in Ec; destruct ((97 <=? c) && (c <=? 122))%N eqn:E; lia).
      constructor. exact Hn.
  - destruct H as [s n Hn|s n Hn]; assert (D := Hn); apply digits_iff in D as (_ & D & _).
    + rewrite (capital_digit s D). constructor. exact Hn.
    + cbn [map]. rewrite (capital_digit s D). change (capital 45) with 45%N. constructor. exact Hn.
Qed.

(** ** The table *)

Lemma table_types : map o_type quant_types = offered.
Proof. reflexivity. Qed.
Lemma table_names : Forall (fun o => o_name o = type_name (o_type o)) quant_types.
Proof. repeat constructor. Qed.
Lemma code_inj a b : code a = code b -> a = b.
Proof. destruct a, b; cbn; intros H; try reflexivity; discriminate. Qed.

Lemma choose_undetermined o opts name : Forall (fun o => o_name o <> name) (o :: opts) -> choose (o :: opts) name None = UB.
Proof.
  intros H. inversion H; subst. cbn [choose]. replace (list_N_eqb name (o_name o)) with false; [reflexivity|].
  symmetry. apply list_N_eqb_neq. congruence.
Qed.

Lemma choose_some opts name z t : choose opts name (Some z) = Ok (Some t) ->
  exists o, In o opts /\ o_type o = t /\ (o_name o = name \/ z = Z.of_N (code t)).
Proof.
  induction opts as [|o opts IH]; cbn [choose]; [discriminate|].
  destruct (list_N_eqb name (o_name o)) eqn:E.
  - intros H. injection H as H. apply list_N_eqb_eq in E. exists o. split; [left; reflexivity|]. split; [exact H|]. left. congruence.
  - destruct (Z.eqb_spec z (Z.of_N (code (o_type o)))) as [Ez|].
    + intros H. injection H as H. exists o. split; [left; reflexivity|]. split; [exact H|]. right. congruence.
    + intros H. destruct (IH H) as (o' & H1 & H2). exists o'. split; [right; exact H1|exact H2].
Qed.

Lemma choose_none opts name z : choose opts name (Some z) = Ok None <->
  Forall (fun o => o_name o <> name /\ z <> Z.of_N (code (o_type o))) opts.
Proof.
  induction opts as [|o opts IH]; cbn [choose]; [split; [constructor|reflexivity]|].
  destruct (list_N_eqb name (o_name o)) eqn:E.
  - split; [discriminate|]. intros H. inversion H as [|? ? (H1 & H2)]; subst. apply list_N_eqb_eq in E. congruence.
  - apply list_N_eqb_neq in E. destruct (Z.eqb_spec z (Z.of_N (code (o_type o)))) as [Ez|Ez].
    + split; [discriminate|]. intros H. inversion H as [|? ? (H1 & H2)]; subst. congruence.
    + rewrite IH. split; intros H; [constructor; [split; congruence|exact H]|inversion H; assumption].
Qed.

Lemma choose_total opts name z : exists r, choose opts name (Some z) = Ok r.
Proof.
  induction opts as [|o opts (r & IH)]; cbn [choose]; [eauto|].
  destruct (list_N_eqb name (o_name o)); [eauto|]. destruct (Z.eqb z (Z.of_N (code (o_type o)))); eauto.
Qed.

(** Names are no numerals, and no two options share a name or a number. *)
Lemma letter_first t z : In t offered -> ~ numeral (type_name t) z.
Proof.
  intros Ht H. assert (X : match type_name t with c :: _ => (65 <= c <= 90)%N | [] => False end).
  { cbn [offered In] in Ht. intuition subst; cbn; lia. }
  inversion H as [s n Hn Es|s n Hn Es]; subst.
  - apply digits_iff in Hn as (_ & Hn & _). destruct (type_name t) as [|c r]; [destruct X|]. cbn [forallb] in Hn. unfold digit in Hn. lia.
  - rewrite <- Es in X. lia.
Qed.

Lemma names_inj a b : In a offered -> In b offered -> type_name a = type_name b -> a = b.
Proof.
  intros Ha Hb. cbn [offered In] in Ha, Hb.
  intuition (subst; first [reflexivity | vm_compute in *; discriminate]).
Qed.

Lemma names_type_fun s a b : names_type s a -> names_type s b -> a = b.
Proof.
  intros [Ha Na|Ha Na] [Hb Nb|Hb Nb].
  - apply names_inj; congruence.
  - exfalso. apply numeral_capital in Nb. rewrite Na in Nb. exact (letter_first _ _ Ha Nb).
  - exfalso. apply numeral_capital in Na. rewrite Nb in Na. exact (letter_first _ _ Hb Na).
  - assert (E := numeral_fun _ _ _ Na Nb). apply code_inj. lia.
Qed.

Lemma option_of t : In t offered -> exists o, In o quant_types /\ o_type o = t.
Proof. intros H. rewrite <- table_types in H. apply in_map_iff in H as (o & E & H). eauto. Qed.

Lemma option_ok o : In o quant_types -> In (o_type o) offered /\ o_name o = type_name (o_type o).
Proof.
  intros H. split; [rewrite <- table_types; apply in_map, H|].
  assert (X := table_names). rewrite Forall_forall in X. apply X, H.
Qed.

Theorem parse_spec s : s <> [] -> Forall (fun c => (c < 256)%N) s ->
  (parse_ftype s = UB <-> Exists negative_char s \/ too_large s) /\
  (~ Exists negative_char s -> ~ too_large s ->
    (forall t, parse_ftype s = Ok (Some t) <-> names_type s t) /\
    (parse_ftype s = Ok None <-> forall t, ~ names_type s t)).
Proof.
  intros Hs Hb. unfold parse_ftype.
  destruct (Exists_dec negative_char s) as [Hn|Hn].
  { intros c. unfold negative_char. destruct ((128 <=? c) && (c <? 255))%N eqn:E; [left|right]; lia. }
  { rewrite (upper_bad s Hn Hb). cbn [obind]. split; [tauto|]. intros H. elim (H Hn). }
  rewrite (upper_ok s Hb Hn). cbn [obind].
  set (name := map capital s) in *.
  assert (Hne : name <> []) by (unfold name; destruct s; [congruence|discriminate]).
  destruct (number_spec name Hne) as [(z & Hz & Ez)|(Hz & Ez)]; rewrite Ez.
  - assert (Hz' : numeral s z) by (apply numeral_capital; exact Hz).
    destruct (in_int z) eqn:Ei; unfold in_int, INT_MIN, INT_MAX in Ei.
    + assert (Hl : ~ too_large s).
      { intros (z' & H1 & H2). rewrite (numeral_fun _ _ _ H1 Hz') in H2. lia. }
      destruct (choose_total quant_types name z) as (r & Er).
      split; [rewrite Er; split; [discriminate|tauto]|]. intros _ _.
      assert (Hsome : forall t, choose quant_types name (Some z) = Ok (Some t) -> names_type s t).
      { intros t H. destruct (choose_some _ _ _ _ H) as (o & Ho & <- & [E|E]); destruct (option_ok o Ho) as (H1 & H2).
        - apply by_name; [exact H1|]. fold name. congruence.
        - apply by_number; [exact H1|]. rewrite <- E. exact Hz'. }
      assert (Hnone : choose quant_types name (Some z) = Ok None -> forall t, ~ names_type s t).
      { intros H t Ht. apply choose_none in H. rewrite Forall_forall in H. destruct Ht as [Ht Nt|Ht Nt].
        - destruct (option_of t Ht) as (o & Ho & <-). destruct (H o Ho) as (H1 & _). apply H1.
          rewrite (proj2 (option_ok o Ho)). symmetry. exact Nt.
        - destruct (option_of t Ht) as (o & Ho & <-). destruct (H o Ho) as (_ & H2). apply H2.
          exact (numeral_fun _ _ _ Hz' Nt). }
      split.
      * intros t. split; [apply Hsome|]. intros Ht. rewrite Er. destruct r as [t'|].
        -- rewrite (names_type_fun s t t' Ht (Hsome t' Er)). reflexivity.
        -- elim (Hnone Er t Ht).
      * split; [exact Hnone|]. intros Ht. rewrite Er. destruct r as [t'|]; [elim (Ht t' (Hsome t' Er))|reflexivity].
    + assert (Hl : too_large s) by (exists z; split; [exact Hz'|lia]).
      split; [|tauto]. split; [tauto|]. intros _. apply choose_undetermined.
      change (Forall (fun o => o_name o <> name) quant_types).
      apply Forall_forall. intros o Ho E. destruct (option_ok o Ho) as (H1 & H2).
      apply (letter_first (o_type o) z H1). rewrite <- H2, E. exact Hz.
  - assert (Hz' : forall z, ~ numeral s z) by (intros z H; apply (Hz z), numeral_capital, H).
    assert (Hl : ~ too_large s) by (intros (z & H & _); exact (Hz' z H)).
    destruct (choose_total quant_types name (-1)) as (r & Er).
    split; [rewrite Er; split; [discriminate|tauto]|]. intros _ _.
    assert (Hsome : forall t, choose quant_types name (Some (-1)%Z) = Ok (Some t) -> names_type s t).
    { intros t H. destruct (choose_some _ _ _ _ H) as (o & Ho & <- & [E|E]); destruct (option_ok o Ho) as (H1 & H2).
      - apply by_name; [exact H1|]. fold name. congruence.
      - lia. }
    assert (Hnone : choose quant_types name (Some (-1)%Z) = Ok None -> forall t, ~ names_type s t).
    { intros H t Ht. apply choose_none in H. rewrite Forall_forall in H. destruct Ht as [Ht Nt|Ht Nt].
      - destruct (option_of t Ht) as (o & Ho & <-). destruct (H o Ho) as (H1 & _). apply H1.
        rewrite (proj2 (option_ok o Ho)). symmetry. exact Nt.
      - exact (Hz' _ Nt). }
    split.
    + intros t. split; [apply Hsome|]. intros Ht. rewrite Er. destruct r as [t'|].
      * rewrite (names_type_fun s t t' Ht (Hsome t' Er)). reflexivity.
      * elim (Hnone Er t Ht).
    + split; [exact Hnone|]. intros Ht. rewrite Er. destruct r as [t'|]; [elim (Ht t' (Hsome t' Er))|reflexivity].
Qed.
