(** Lemmas about the mask filling tool. *)
From Verif Require Import Base Api_model Ggml_model Encoder_model Encoder_spec Eval_model Eval_spec
  Tool_model Tool_spec Tool_proofs Fill_model Fill_spec P_Api P_Eval.
Local Open Scope nat_scope.

(** ** The number *)

Lemma space_blank c : space c = true <-> blank c.
Proof. unfold space, blank. lia. Qed.

Lemma skip_spaces_app sp c r : Forall blank sp -> ~ blank c -> skip_spaces (sp ++ c :: r) = c :: r.
Proof.
  induction 1 as [|b sp Hb H IH]; intros Hc; cbn [app skip_spaces].
  - destruct (space c) eqn:E; [apply space_blank in E; contradiction|reflexivity].
  - apply space_blank in Hb. rewrite Hb. exact (IH Hc).
Qed.

Lemma skip_spaces_split s : exists sp, s = sp ++ skip_spaces s /\ Forall blank sp.
Proof.
  induction s as [|c s (sp & E & H)]; [exists []; auto|]. cbn [skip_spaces]. destruct (space c) eqn:Hc.
  - exists (c :: sp). split; [cbn [app]; congruence|]. constructor; [apply space_blank, Hc|exact H].
  - exists []. auto.
Qed.

Definition strip (s : list N) : bool * list N :=
  match s with 43%N :: r => (false, r) | 45%N :: r => (true, r) | _ => (false, s) end.

Lemma strip_other c r : c <> 43%N -> c <> 45%N -> strip (c :: r) = (false, c :: r).
Proof.
  intros H1 H2. destruct c as [|p]; [reflexivity|]. unfold strip.
  repeat (destruct p as [p|p|]; try reflexivity); congruence.
Qed.

Lemma stoi_unfold s : stoi s =
  let '(neg, body) := strip (skip_spaces s) in
  let '(n, v, _) := take_digits 0 body in
  if (n =? 0)%nat then Abort
  else
    let z := if neg then (- Z.of_N v)%Z else Z.of_N v in
    if in_int z then Ok z else Abort.
Proof. reflexivity. Qed.

Lemma int_same z : in_int z = true <-> is_int z.
Proof. unfold in_int, INT_MIN, INT_MAX, is_int. lia. Qed.

Lemma no_digit_same s : no_digit_first s <-> starts_with_digit s = false.
Proof. destruct s as [|c s]; cbn [no_digit_first starts_with_digit]; [tauto|]. unfold digit. lia. Qed.

Lemma stoi_reads s z : reads s z -> stoi s = if in_int z then Ok z else Abort.
Proof.
  intros (sp & sg & f & ds & n & rest & -> & Hsp & Hsg & Hds & Hr & ->).
  apply digits_iff in Hds as (Hne & Hd & ->). apply no_digit_same in Hr. rewrite stoi_unfold.
  destruct ds as [|d ds]; [congruence|]. assert (Hdd : digit d = true) by (cbn [forallb] in Hd; apply andb_true_iff in Hd; tauto).
  unfold digit in Hdd. assert (Hb : ~ blank d) by (unfold blank; lia).
  destruct Hsg; cbn [app].
  - rewrite skip_spaces_app by assumption. rewrite strip_other by lia.
    change (d :: ds ++ rest) with ((d :: ds) ++ rest). rewrite take_digits_app by assumption. reflexivity.
  - rewrite skip_spaces_app by (try assumption; unfold blank; lia). cbn [strip].
    change (d :: ds ++ rest) with ((d :: ds) ++ rest). rewrite take_digits_app by assumption. reflexivity.
  - rewrite skip_spaces_app by (try assumption; unfold blank; lia). cbn [strip].
    change (d :: ds ++ rest) with ((d :: ds) ++ rest). rewrite take_digits_app by assumption. reflexivity.
Qed.

Lemma digits_back body n v r : take_digits 0 body = (n, v, r) -> n <> 0 ->
  exists ds, body = ds ++ r /\ digits_are ds v /\ no_digit_first r.
Proof.
  intros H Hn. destruct (split_digits body) as (ds & rest & -> & Hd & Hr).
  rewrite take_digits_app in H by assumption. injection H as <- <- <-.
  exists ds. split; [reflexivity|]. split; [apply digits_iff; split; [intros ->; apply Hn; reflexivity|auto]|].
  apply no_digit_same. exact Hr.
Qed.

Lemma stoi_back s z : stoi s = Ok z -> reads s z /\ is_int z.
Proof.
  rewrite stoi_unfold. destruct (skip_spaces_split s) as (sp & E & Hsp).
  destruct (strip (skip_spaces s)) as (neg & body) eqn:Es. destruct (take_digits 0 body) as [[n v] r] eqn:Et.
  destruct (n =? 0) eqn:En; [discriminate|]. apply Nat.eqb_neq in En. cbv zeta.
  destruct (digits_back _ _ _ _ Et En) as (ds & Eb & Hd & Hr).
  destruct (in_int (if neg then (- Z.of_N v)%Z else Z.of_N v)) eqn:Ei; [|discriminate]. intros H. apply int_same in Ei.
  assert (Hz : z = if neg then (- Z.of_N v)%Z else Z.of_N v) by congruence. split; [|rewrite Hz; exact Ei].
  destruct (skip_spaces s) as [|c q].
  - cbn [strip] in Es. injection Es as <- <-. cbn [take_digits] in Et. congruence.
  - destruct (N.eq_dec c 43) as [->|H1]; [|destruct (N.eq_dec c 45) as [->|H2]].
    + cbn [strip] in Es. injection Es as <- <-. exists sp, [43%N], Z.of_N, ds, v, r.
      rewrite E, Eb. repeat split; auto; constructor.
    + cbn [strip] in Es. injection Es as <- <-. exists sp, [45%N], (fun n => - Z.of_N n)%Z, ds, v, r.
      rewrite E, Eb. repeat split; auto; constructor.
    + rewrite strip_other in Es by assumption. injection Es as <- <-. exists sp, [], Z.of_N, ds, v, r.
      rewrite E, Eb. repeat split; auto; constructor.
Qed.

Lemma stoi_total s : (exists z, stoi s = Ok z) \/ stoi s = Abort.
Proof.
  rewrite stoi_unfold. destruct (strip (skip_spaces s)) as (neg & body). destruct (take_digits 0 body) as [[n v] r].
  destruct (n =? 0); [right; reflexivity|]. cbv zeta.
  destruct (in_int (if neg then (- Z.of_N v)%Z else Z.of_N v)); eauto.
Qed.

Lemma stoi_iff s z : stoi s = Ok z <-> reads s z /\ is_int z.
Proof.
  split; [apply stoi_back|]. intros (H & Hi). rewrite (stoi_reads _ _ H). apply int_same in Hi. rewrite Hi. reflexivity.
Qed.

Lemma reads_taken s z : reads s z -> exists neg body n v r, strip (skip_spaces s) = (neg, body) /\
  take_digits 0 body = (n, v, r) /\ n <> 0 /\ z = if neg then (- Z.of_N v)%Z else Z.of_N v.
Proof.
  intros (sp & sg & f & ds & n & rest & -> & Hsp & Hsg & Hds & Hr & ->).
  apply digits_iff in Hds as (Hne & Hd & ->). apply no_digit_same in Hr.
  destruct ds as [|d ds]; [congruence|]. assert (Hdd : digit d = true) by (cbn [forallb] in Hd; apply andb_true_iff in Hd; tauto).
  unfold digit in Hdd. assert (Hb : ~ blank d) by (unfold blank; lia).
  destruct Hsg; cbn [app]; rewrite skip_spaces_app by (try assumption; unfold blank; lia);
    [rewrite strip_other by lia|cbn [strip]|cbn [strip]];
    change (d :: ds ++ rest) with ((d :: ds) ++ rest);
    (do 5 eexists; split; [reflexivity|]; rewrite take_digits_app by assumption; split; [reflexivity|]; split; [discriminate|]; reflexivity).
Qed.

Lemma reads_fun s z z' : reads s z -> reads s z' -> z = z'.
Proof.
  intros H1 H2. destruct (reads_taken _ _ H1) as (a & b & c & v & r & E1 & E2 & _ & ->), (reads_taken _ _ H2) as (a' & b' & c' & v' & r' & F1 & F2 & _ & ->).
  rewrite F1 in E1. injection E1 as -> ->. rewrite F2 in E2. injection E2 as -> -> ->. reflexivity.
Qed.

(** ** The mask *)

Lemma find_mask_some mask tokens : forall i j, find_mask mask i (Some j) tokens =
  if existsb (fun t => t =? mask)%N tokens then None else Some j.
Proof.
  induction tokens as [|t tokens IH]; intros i j; [reflexivity|]. cbn [find_mask existsb].
  destruct (t =? mask)%N; [reflexivity|]. rewrite IH. reflexivity.
Qed.

Lemma find_mask_none mask tokens : forall i p, find_mask mask i None tokens = Some p <->
  exists q, p = i + q /\ only_at mask tokens q.
Proof.
  induction tokens as [|t tokens IH]; intros i p; cbn [find_mask].
  { split; [discriminate|]. intros (q & _ & H & _). destruct q; discriminate H. }
  destruct (t =? mask)%N eqn:E.
  - apply N.eqb_eq in E. subst t. rewrite find_mask_some.
    destruct (existsb (fun t => t =? mask)%N tokens) eqn:X.
    + split; [discriminate|]. intros (q & _ & _ & Hu). exfalso.
      apply existsb_exists in X as (t & Ht & Et). apply N.eqb_eq in Et. subst t. apply In_nth_error in Ht as (n & Hn).
      assert (A := Hu 0 eq_refl). assert (B := Hu (S n) Hn). congruence.
    + split.
      * intros H. injection H as <-. exists 0. split; [lia|]. split; [reflexivity|]. intros [|n] Hn; [reflexivity|].
        exfalso. cbn [nth_error] in Hn. apply nth_error_In in Hn.
        assert (Y : existsb (fun t => t =? mask)%N tokens = true) by (apply existsb_exists; exists mask; split; [exact Hn|apply N.eqb_refl]).
        congruence.
      * intros (q & -> & _ & Hu). assert (A := Hu 0 eq_refl). subst q. f_equal. lia.
  - apply N.eqb_neq in E. rewrite IH. split; intros (q & Hp & H1 & H2).
    + exists (S q). split; [lia|]. split; [exact H1|]. intros [|n] Hn; [injection Hn as Hn; congruence|]. f_equal. apply H2. exact Hn.
    + destruct q as [|q]; [injection H1 as H1; congruence|]. exists q. split; [lia|]. split; [exact H1|].
      intros n Hn. specialize (H2 (S n) Hn). congruence.
Qed.

Lemma find_mask_iff mask tokens p : find_mask mask 0 None tokens = Some p <-> only_at mask tokens p.
Proof. rewrite find_mask_none. split; [intros (q & -> & H); exact H|intros H; exists p; split; [reflexivity|exact H]]. Qed.

(** ** Buffers *)

Lemma fresh_length {A} (junk : nat -> A) n : length (fresh_cells junk n) = N.to_nat n.
Proof. unfold fresh_cells. rewrite map_length, seq_length. reflexivity. Qed.

Lemma prefix_of {A} (l cells : list A) : length l <= length cells ->
  (forall i, i < length l -> nth_error cells i = nth_error l i) -> firstn (length l) cells = l.
Proof.
  revert cells. induction l as [|x l IH]; intros cells Hl H; [reflexivity|]. destruct cells as [|c cells]; [cbn in Hl; lia|].
  cbn [length firstn] in *. assert (H0 := H 0 ltac:(lia)). injection H0 as ->. f_equal.
  apply IH; [lia|]. intros i Hi. exact (H (S i) ltac:(lia)).
Qed.

Lemma tokenize_ok a prompt ids junk :
  m_cls a <> INVALID -> m_sep a <> INVALID -> token_ids a prompt = Ok ids ->
  exists cells, berts_tokenize (Loaded a) (Some prompt) (Some (fresh_cells junk (N.of_nat (length prompt)))) (Some (N.of_nat (length prompt)))
      = Ok (mkret true (Some cells) (Some (N.of_nat (length ids)))) /\
    length cells = length prompt /\
    (forall i, i < length prompt -> i < length ids -> nth_error cells i = nth_error ids i) /\
    (forall i, length ids <= i -> nth_error cells i = nth_error (fresh_cells junk (N.of_nat (length prompt))) i).
Proof.
  intros H1 H2 H3.
  destruct (C13_tokenize_buffer a prompt ids (fresh_cells junk (N.of_nat (length prompt))) (N.of_nat (length prompt)) H1 H2 H3)
    as (cells & E & L & A & B).
  { rewrite fresh_length. lia. }
  exists cells. rewrite fresh_length in L. split; [exact E|]. split; [lia|]. split; [intros i Hi Hj; apply A; lia|].
  intros i Hi. apply B. right. exact Hi.
Qed.

(** ** The result *)

Lemma concat_rows {A} (d : list A) rows k : Forall (fun r => length r = k) rows -> forall p i, p < length rows -> i < k ->
  nth_error (concat rows) (k * p + i) = nth_error (nth p rows d) i.
Proof.
  induction 1 as [|r rows Hr H IH]; intros p i Hp Hi; [cbn in Hp; lia|]. cbn [concat]. destruct p as [|p].
  - rewrite nth_error_app1 by lia. cbn [nth]. f_equal. lia.
  - rewrite nth_error_app2 by lia. cbn [nth]. rewrite <- (IH p i); [f_equal; lia|cbn in Hp; lia|exact Hi].
Qed.

Lemma nth_combine {A B} (l1 : list A) (l2 : list B) : forall j x, nth_error (combine l1 l2) j = Some x ->
  nth_error l1 j = Some (fst x) /\ nth_error l2 j = Some (snd x).
Proof.
  revert l2. induction l1 as [|a l1 IH]; intros l2 j x H; [destruct j; discriminate H|].
  destruct l2 as [|b l2]; [destruct j; discriminate H|]. destruct j as [|j]; cbn [combine nth_error] in *.
  - injection H as <-. split; reflexivity.
  - exact (IH l2 j x H).
Qed.

Lemma skipn_tail {A} (l : list A) : forall j x r, skipn j l = x :: r -> skipn (S j) l = r.
Proof.
  induction l as [|y l IH]; intros j x r H; [destruct j; discriminate H|].
  destruct j as [|j]; [cbn in *; congruence|]. cbn [skipn] in H. exact (IH j x r H).
Qed.

Section Lines.
Context {V : Type} (a : api_model).

Definition line_of (x : nat * V) (l : line (V := V)) : Prop :=
  li_id l = N.of_nat (fst x) /\ li_score l = snd x /\ m_id_to_token a (N.of_nat (fst x)) = Ok (li_text l).

Lemma result_lines_ok at_ ids scores todo xs :
  (forall id, (id < m_count a)%N -> exists t, m_id_to_token a id = Ok t /\ length t <= 256) ->
  Forall2 (fun i x => nth_error ids (at_ + i) = Some (fst x) /\ nth_error scores (at_ + i) = Some (snd x)) todo xs ->
  Forall (fun x => (N.of_nat (fst x) < m_count a)%N) xs ->
  exists ls, result_lines (Loaded a) at_ todo ids scores = Ok ls /\ Forall2 line_of xs ls.
Proof.
  intros Ht H. induction H as [|i x todo xs (H1 & H2) H IH]; intros Hx; [exists []; split; [reflexivity|constructor]|].
  inversion Hx as [|? ? Hx1 Hx2]; subst. destruct (IH Hx2) as (ls & E & F).
  destruct (Ht _ Hx1) as (t & Et & Lt).
  destruct (C14_id_to_token_buffer a (N.of_nat (fst x)) t (repeat 0%N 256) 256 Et) as (cells & ok & Ec & _ & Lc & Hc & _).
  { rewrite repeat_length. lia. }
  exists (mkline t (N.of_nat (fst x)) (snd x) :: ls). split.
  - cbn [result_lines]. rewrite H1, H2, Ec. cbn [obind r_out r_len].
    replace (256 <? N.of_nat (length t))%N with false by lia. rewrite E. cbn [obind]. repeat f_equal.
    rewrite Nat2N.id. apply prefix_of; [rewrite Lc, repeat_length; exact Lt|]. intros j Hj. apply Hc; lia.
  - constructor; [|exact F]. split; [reflexivity|]. split; [reflexivity|]. exact Et.
Qed.

Lemma widest_at_least (ls : list (line (V := V))) : Forall (fun l => length (li_text l) <= widest ls) ls.
Proof.
  induction ls as [|l ls IH]; constructor; [unfold widest; cbn [fold_right]; lia|].
  eapply Forall_impl; [|exact IH]. intros x Hx. unfold widest in *. cbn [fold_right]. cbv beta in *. lia.
Qed.

Lemma widest_reached (ls : list (line (V := V))) : ls <> [] -> Exists (fun l => length (li_text l) = widest ls) ls.
Proof.
  induction ls as [|l ls IH]; [congruence|]. intros _. unfold widest in *. cbn [fold_right].
  destruct ls as [|l' ls]; [left; cbn [fold_right]; lia|].
  specialize (IH ltac:(discriminate)). set (w := fold_right _ _ (l' :: ls)) in *.
  destruct (Nat.le_gt_cases w (length (li_text l))).
  - left. lia.
  - right. apply Exists_exists in IH as (x & Hx & Ex). apply Exists_exists. exists x. split; [exact Hx|]. lia.
Qed.

Lemma printed_lines (le : V -> V -> Prop) (P : prim V) k row (ids : list nat) (ps : list V) (ls : list (line (V := V))) :
  best le (p_zero P) k row ids ps -> Forall2 line_of (combine ids ps) ls ->
  printed le P a k row (map (filled (widest ls)) ls).
Proof.
  intros Hb HF.
  assert (Lp : length ps = length ids) by (rewrite (best_probs _ _ _ _ _ _ Hb), map_length; reflexivity).
  assert (EI : map li_id ls = map N.of_nat ids /\ map li_score ls = ps).
  { clear Hb. revert ps ls Lp HF. induction ids as [|i ids IH]; intros ps ls Lp HF; destruct ps as [|p ps]; try discriminate Lp.
    - cbn [combine] in HF. inversion HF; subst. split; reflexivity.
    - cbn [combine] in HF. inversion HF as [|? l ? ls' (H1 & H2 & _) HF']; subst.
      destruct (IH ps ls' ltac:(cbn [length] in Lp; lia) HF') as (E1 & E2). cbn [map fst snd] in *. split; congruence. }
  destruct EI as (E1 & E2). constructor.
  - exists ids. rewrite !map_map. cbn [filled li_id li_score].
    replace (map (fun x : line => li_id x) ls) with (map li_id ls) by reflexivity.
    replace (map (fun x : line => li_score x) ls) with (map li_score ls) by reflexivity.
    rewrite E1, E2. split; [reflexivity|exact Hb].
  - exists (widest ls), (map li_text ls). split; [|split].
    + assert (W : forall w, Forall2 (fun l t => m_id_to_token a (li_id l) = Ok t /\ li_text l = t ++ repeat 32%N (w - length t))
        (map (filled w) ls) (map li_text ls)); [|apply W].
      intros w. clear E1 E2. induction HF as [|x l xs ls (H1 & _ & H3) HF IH]; cbn [map]; constructor; [|exact IH].
      cbn [filled li_id li_text]. split; [rewrite H1; exact H3|reflexivity].
    + apply Forall_map. apply widest_at_least.
    + intros H. apply Exists_exists. assert (X : ls <> []) by (intros ->; apply H; reflexivity).
      apply widest_reached in X. apply Exists_exists in X as (x & Hx & Ex). exists (li_text x). split; [apply in_map, Hx|exact Ex].
Qed.
End Lines.
