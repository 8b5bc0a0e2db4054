(** Proofs about the string class. *)
From Verif Require Import Base Utf_model Utf_spec Utf_proofs Ustr_model Ustr_spec.
Open Scope N_scope.

(** ** Objects represent values *)

Definition impl_of (v : sval) : impl :=
  match v with Val l => impl_alloc_fill l | Undef => impl_default end.

Definition rel (h : heap) (s : sheap) : Prop := forall i, h i = option_map impl_of (s i).

Lemma of_nat_eqb0 {A} (a : A) l : (N.of_nat (length (a :: l)) =? 0) = false.
Proof. simpl length. lia. Qed.

Lemma firstn_of_nat {A} (l : list A) : firstn (N.to_nat (N.of_nat (length l))) l = l.
Proof. rewrite Nnat.Nat2N.id. apply firstn_all. Qed.

Lemma size_val l : size (impl_of (Val l)) = Some (N.of_nat (length l)).
Proof. destruct l; reflexivity. Qed.

Lemma contents_val l : contents (impl_of (Val l)) = Ok l.
Proof.
  unfold contents. rewrite size_val. destruct l as [|a l]; [reflexivity|].
  unfold read_units. rewrite of_nat_eqb0. cbn [impl_of impl_alloc_fill str].
  rewrite N.leb_refl, firstn_of_nat. reflexivity.
Qed.

Lemma copy_val x l : impl_copy x (impl_of (Val l)) = Ok (impl_of (Val l)).
Proof.
  unfold impl_copy. destruct l as [|a l]; [reflexivity|].
  cbn [impl_of impl_alloc_fill str size]. rewrite N.leb_refl, firstn_of_nat. reflexivity.
Qed.

Lemma copy_any x v : impl_copy x (impl_of v) = Ok (impl_of (copied v)).
Proof. destruct v; [apply copy_val|reflexivity]. Qed.

Lemma move_any x v : impl_move x (impl_of v) = (impl_of v, impl_of (Val [])).
Proof. unfold impl_move. destruct (impl_of v); reflexivity. Qed.

Lemma plus_any a b :
  impl_plus (impl_of a) (impl_of b) =
  obind (val a) (fun l => obind (val b) (fun r => Ok (impl_of (Val (l ++ r))))).
Proof.
  unfold impl_plus. destruct a as [l|]; [rewrite contents_val|reflexivity].
  destruct b as [r|]; [rewrite contents_val|]; reflexivity.
Qed.

Lemma read_units_val l : read_units (str (impl_of (Val l))) (N.of_nat (length l)) = Ok l.
Proof. pose proof (contents_val l) as H. unfold contents in H. rewrite size_val in H. exact H. Qed.

Lemma plus_assign_any a b :
  impl_plus_assign (impl_of a) (impl_of b) =
  obind (val b) (fun r => match r with
                          | [] => Ok (impl_of a)
                          | _ => obind (val a) (fun l => Ok (impl_of (Val (l ++ r)))) end).
Proof.
  unfold impl_plus_assign. destruct b as [r|]; [|reflexivity].
  rewrite size_val. destruct r as [|c r]; [reflexivity|].
  cbn [val obind]. destruct (N.of_nat (length (c :: r))) eqn:E; [simpl in E; lia|].
  destruct a as [l|]; [|reflexivity]. rewrite size_val.
  destruct l as [|d l].
  - cbn [length N.of_nat]. rewrite copy_val. reflexivity.
  - destruct (N.of_nat (length (d :: l))) eqn:E2; [simpl in E2; lia|].
    rewrite plus_any. cbn [val obind]. rewrite copy_val. reflexivity.
Qed.

Lemma eq_any a b :
  impl_eq (impl_of a) (impl_of b) =
  obind (val a) (fun l => obind (val b) (fun r => Ok (list_N_eqb l r))).
Proof.
  unfold impl_eq. destruct a as [l|]; [rewrite size_val|reflexivity].
  destruct b as [r|]; [rewrite size_val|reflexivity]. cbn [val obind].
  destruct (N.of_nat (length l) =? N.of_nat (length r)) eqn:E.
  - apply N.eqb_eq in E. destruct (N.of_nat (length l) =? 0) eqn:E0.
    + apply N.eqb_eq in E0. destruct l; [|simpl in E0; lia]. destruct r; [|simpl in E; lia]. reflexivity.
    + rewrite read_units_val. rewrite E, read_units_val. reflexivity.
  - f_equal. symmetry. apply list_N_eqb_neq. intros ->. rewrite N.eqb_refl in E; discriminate.
Qed.

Lemma cmp_order l r : cmp_units l r = order l r.
Proof.
  unfold order. revert r; induction l as [|a l IH]; intros [|b r]; try reflexivity.
  cbn [cmp_units lex_ltb]. destruct (a =? b) eqn:E.
  - apply N.eqb_eq in E; subst b. rewrite N.ltb_irrefl. cbn [orb andb]. rewrite IH.
    destruct (list_N_eqb l r) eqn:E2.
    + apply list_N_eqb_eq in E2; subst r. rewrite list_N_eqb_refl. reflexivity.
    + apply list_N_eqb_neq in E2.
      rewrite (proj2 (list_N_eqb_neq (a :: l) (a :: r))) by congruence. reflexivity.
  - apply N.eqb_neq in E.
    rewrite (proj2 (list_N_eqb_neq (a :: l) (b :: r))) by congruence.
    cbn [andb]. rewrite orb_false_r.
    destruct (a <? b) eqn:E2.
    + apply N.ltb_lt in E2. apply N.compare_lt_iff. exact E2.
    + apply N.ltb_ge in E2. apply N.compare_gt_iff. lia.
Qed.

Lemma cmp_any a b :
  impl_cmp (impl_of a) (impl_of b) =
  obind (val a) (fun l => obind (val b) (fun r => Ok (order l r))).
Proof.
  unfold impl_cmp. destruct a as [l|]; [rewrite size_val|reflexivity].
  destruct b as [r|]; [rewrite size_val|reflexivity]. cbn [val obind].
  destruct l as [|c l], r as [|d r]; try reflexivity.
  rewrite !of_nat_eqb0, !read_units_val. cbn [obind]. rewrite cmp_order. reflexivity.
Qed.

(** ** Simulation *)

Lemma rel_upd h s i v : rel h s -> rel (upd h i (option_map impl_of v)) (upd s i v).
Proof. intros H k; unfold upd. destruct (Nat.eqb k i); [reflexivity|apply H]. Qed.

Lemma rel_get h s i : rel h s -> get h i = obind (get s i) (fun v => Ok (impl_of v)).
Proof. intros H; unfold get. rewrite (H i). destruct (s i); reflexivity. Qed.

Lemma rel_fresh h s i : rel h s -> fresh h i = fresh s i.
Proof. intros H; unfold fresh. rewrite (H i). destruct (s i); reflexivity. Qed.

Definition sim {X} (a : outcome (heap * X)) (b : outcome (sheap * X)) : Prop :=
  match a, b with
  | Ok (h, x), Ok (s, y) => rel h s /\ x = y
  | Fail, Fail | UB, UB | Abort, Abort => True
  | _, _ => False
  end.

Lemma step_sim h s o : rel h s -> sim (ustep h o) (sstep s o).
Proof.
  intros R.
  destruct o as [i|i l|i j|i j|i j|i j|k i j|i j|i|i|i j|i j|i|i]; cbn [ustep sstep];
    rewrite ?(rel_fresh _ _ _ R), ?(rel_get _ _ _ R);
    try (match goal with |- context [fresh ?s ?i] => destruct (fresh s i) as [[]| | |] end;
         cbn [obind]; try exact I);
    rewrite ?(rel_get _ _ _ R);
    try (match goal with |- context [get s i] => destruct (get s i) as [a| | |] eqn:Ga end;
         cbn [obind]; try exact I);
    rewrite ?(rel_get _ _ _ R);
    try (match goal with |- context [get s j] => destruct (get s j) as [b| | |] eqn:Gb end;
         cbn [obind]; try exact I).
  - split; [|reflexivity]. exact (rel_upd h s i (Some Undef) R).
  - split; [|reflexivity]. exact (rel_upd h s i (Some (Val l)) R).
  - rewrite copy_any. split; [|reflexivity]. exact (rel_upd h s i (Some (copied b)) R).
  - rewrite move_any. split; [|reflexivity].
    exact (rel_upd _ _ i (Some b) (rel_upd h s j (Some (Val [])) R)).
  - destruct (Nat.eqb i j); [split; [exact R|reflexivity]|].
    rewrite copy_any. split; [|reflexivity]. exact (rel_upd h s i (Some (copied b)) R).
  - destruct (Nat.eqb i j); [split; [exact R|reflexivity]|].
    rewrite move_any. split; [|reflexivity].
    exact (rel_upd _ _ i (Some b) (rel_upd h s j (Some (Val [])) R)).
  - rewrite plus_any. destruct a as [l|]; [|exact I]. destruct b as [r|]; [|exact I].
    cbn [val obind]. split; [|reflexivity]. exact (rel_upd h s k (Some (Val (l ++ r))) R).
  - rewrite plus_assign_any. destruct b as [r|]; [|exact I]. cbn [val obind].
    destruct r as [|c r].
    + split; [|reflexivity]. exact (rel_upd h s i (Some a) R).
    + destruct a as [l|]; [|exact I]. cbn [val obind]. split; [|reflexivity].
      exact (rel_upd h s i (Some (Val (l ++ c :: r))) R).
  - split; [|reflexivity]. exact (rel_upd h s i (Some (Val [])) R).
  - split; [|reflexivity]. exact (rel_upd h s i None R).
  - rewrite eq_any. destruct a as [l|]; [|exact I]. destruct b as [r|]; [|exact I].
    split; [exact R|reflexivity].
  - rewrite cmp_any. destruct a as [l|]; [|exact I]. destruct b as [r|]; [|exact I].
    split; [exact R|reflexivity].
  - split; [exact R|]. destruct a as [[|c l]|]; reflexivity.
  - destruct a as [l|]; [|exact I]. rewrite size_val. split; [exact R|reflexivity].
Qed.

Lemma run_sim os : forall h s, rel h s -> sim (urun h os) (srun s os).
Proof.
  induction os as [|o os IH]; intros h s R; cbn [urun srun]; [split; [exact R|reflexivity]|].
  pose proof (step_sim h s o R) as S.
  destruct (ustep h o) as [[h' x]| | |], (sstep s o) as [[s' y]| | |]; cbn [sim obind] in *; try contradiction; try exact I.
  destruct S as [R' ->]. pose proof (IH _ _ R') as S2.
  destruct (urun h' os) as [[h2 xs]| | |], (srun s' os) as [[s2 ys]| | |]; cbn [sim obind] in *; try contradiction; try exact I.
  destruct S2 as [R2 ->]. split; [exact R2|reflexivity].
Qed.

Lemma program_refines os : seen (urun no_obj os) = seen (srun no_obj os).
Proof.
  pose proof (run_sim os no_obj no_obj ltac:(intros i; reflexivity)) as S.
  destruct (urun no_obj os) as [[h xs]| | |], (srun no_obj os) as [[s ys]| | |];
    cbn [sim seen obind] in *; try contradiction; try reflexivity.
  destruct S as [_ ->]; reflexivity.
Qed.

(** ** Order laws *)

Lemma lex_ltb_spec l r : lex_ltb l r = true <-> lex_lt l r.
Proof.
  revert r; induction l as [|a l IH]; intros [|b r]; cbn [lex_ltb].
  - split; [discriminate|]. intros [(c & t & E)|(p & a & b & l' & r' & E & _)]; [|destruct p]; discriminate.
  - split; [|reflexivity]. intros _. left; exists b, r; reflexivity.
  - split; [discriminate|]. intros [(c & t & E)|(p & a' & b & l' & r' & _ & E & _)]; [|destruct p]; discriminate.
  - rewrite orb_true_iff, andb_true_iff, N.ltb_lt, N.eqb_eq, IH. split.
    + intros [H|[-> [(c & t & ->)|(p & x & y & l' & r' & -> & -> & H)]]].
      * right; exists [], a, b, l, r; auto.
      * left; exists c, t; reflexivity.
      * right; exists (b :: p), x, y, l', r'; auto.
    + intros [(c & t & E)|(p & x & y & l' & r' & E1 & E2 & H)].
      * inversion E; subst. right; split; [reflexivity|]. left; eauto.
      * destruct p as [|z p]; simpl in E1, E2; inversion E1; inversion E2; subst; [left; exact H|].
        right; split; [reflexivity|]. right; exists p, x, y, l', r'; auto.
Qed.

Lemma lex_lt_irrefl l : ~ lex_lt l l.
Proof.
  rewrite <- lex_ltb_spec. induction l as [|a l IH]; simpl; [discriminate|].
  rewrite N.ltb_irrefl, N.eqb_refl. exact IH.
Qed.

Lemma lex_lt_trans a b c : lex_lt a b -> lex_lt b c -> lex_lt a c.
Proof.
  rewrite <- !lex_ltb_spec. revert b c; induction a as [|x a IH]; intros [|y b] [|z c]; cbn [lex_ltb]; try easy.
  rewrite !orb_true_iff, !andb_true_iff, !N.ltb_lt, !N.eqb_eq.
  intros [H1|[-> H1]] [H2|[-> H2]]; [left; lia|left; lia|left; lia|right; split; [reflexivity|eauto]].
Qed.

Lemma lex_lt_total a b : lex_lt a b \/ a = b \/ lex_lt b a.
Proof.
  rewrite <- !lex_ltb_spec. revert b; induction a as [|x a IH]; intros [|y b]; cbn [lex_ltb]; auto.
  rewrite !orb_true_iff, !andb_true_iff, !N.ltb_lt, !N.eqb_eq.
  destruct (N.lt_trichotomy x y) as [H|[->|H]]; auto.
  destruct (IH b) as [H|[->|H]]; auto.
Qed.

Lemma order_spec l r : CompareSpec (l = r) (lex_lt l r) (lex_lt r l) (order l r).
Proof.
  unfold order. destruct (list_N_eqb l r) eqn:E.
  - apply list_N_eqb_eq in E. constructor; exact E.
  - apply list_N_eqb_neq in E. destruct (lex_ltb l r) eqn:E2.
    + apply lex_ltb_spec in E2. constructor; exact E2.
    + constructor. destruct (lex_lt_total l r) as [H|[H|H]]; [|tauto|exact H].
      apply lex_ltb_spec in H. congruence.
Qed.

(** ** Hash *)

Lemma hash_eq h a b : impl_eq (impl_of a) (impl_of b) = Ok true ->
  exists v, impl_hash h (impl_of a) = Ok v /\ impl_hash h (impl_of b) = Ok v.
Proof.
  rewrite eq_any. destruct a as [l|]; [|discriminate]. destruct b as [r|]; [|discriminate].
  cbn [val obind]. intros H; inversion H as [E]. apply list_N_eqb_eq in E; subst r.
  unfold impl_hash. rewrite contents_val. destruct l as [|c l]; cbn [impl_of impl_alloc_fill str obind]; eauto.
Qed.

Lemma hash_value (h : N -> N) l :
  impl_hash h (impl_of (Val l)) = Ok (fold_right (fun c v => N.lxor (h c) v) 0 l).
Proof.
  assert (A : forall l v, fold_left (fun v c => N.lxor v (h c)) l v =
                          N.lxor v (fold_right (fun c v => N.lxor (h c) v) 0 l)).
  { induction l0 as [|c l0 IH]; intros v; simpl; [rewrite N.lxor_0_r; reflexivity|].
    rewrite IH, N.lxor_assoc. reflexivity. }
  unfold impl_hash. rewrite contents_val.
  destruct l as [|c l]; cbn [impl_of impl_alloc_fill str obind]; [reflexivity|].
  rewrite A, N.lxor_0_l. reflexivity.
Qed.

(** The hash does not depend on the order of the units. *)
Lemma hash_comm (h : N -> N) l1 l2 v :
  fold_left (fun v c => N.lxor v (h c)) (l1 ++ l2) v =
  fold_left (fun v c => N.lxor v (h c)) (l2 ++ l1) v.
Proof.
  assert (A : forall l v, fold_left (fun v c => N.lxor v (h c)) l v =
                          N.lxor v (fold_left (fun v c => N.lxor v (h c)) l 0)).
  { induction l as [|c l IH]; intros w; cbn [fold_left]; [rewrite N.lxor_0_r; reflexivity|].
    rewrite IH, (IH (N.lxor 0 (h c))), N.lxor_0_l, N.lxor_assoc. reflexivity. }
  rewrite !fold_left_app. rewrite A, (A l1 v), (A l1 (fold_left _ l2 v)), (A l2 v).
  rewrite !N.lxor_assoc. f_equal. apply N.lxor_comm.
Qed.

(** ** starts_with / ends_with *)

Lemma bytes_of_app a b : bytes_of (a ++ b) = bytes_of a ++ bytes_of b.
Proof. apply flat_map_app. Qed.

Lemma bytes_of_length l : length (bytes_of l) = (2 * length l)%nat.
Proof. induction l as [|c l IH]; simpl in *; lia. Qed.

Lemma starts_with_prefix s p : prefix p s -> starts_with s p = true.
Proof.
  intros [r ->]. unfold starts_with. rewrite app_length.
  replace (Nat.ltb _ _) with false by (symmetry; apply Nat.ltb_ge; lia).
  apply list_N_eqb_eq. rewrite bytes_of_app, firstn_app, bytes_of_length.
  replace (length p - 2 * length p)%nat with 0%nat by lia. rewrite firstn_O, app_nil_r. reflexivity.
Qed.

Lemma ends_with_suffix s p : suffix p s -> ends_with s p = true.
Proof.
  intros [r ->]. unfold ends_with. rewrite app_length.
  replace (Nat.ltb _ _) with false by (symmetry; apply Nat.ltb_ge; lia).
  apply list_N_eqb_eq.
  replace (length r + length p - length p)%nat with (length r) by lia.
  rewrite skipn_app, skipn_all, Nat.sub_diag. reflexivity.
Qed.

Lemma firstn_bytes k l : firstn (2 * k) (bytes_of l) = bytes_of (firstn k l).
Proof.
  revert l; induction k as [|k IH]; intros l; [reflexivity|].
  replace (2 * S k)%nat with (S (S (2 * k))) by lia.
  destruct l as [|c l]; [reflexivity|]. cbn [bytes_of flat_map unit_bytes app firstn].
  fold (bytes_of l). rewrite IH. reflexivity.
Qed.

Lemma bytes_of_inj l1 l2 : bytes_of l1 = bytes_of l2 -> l1 = l2.
Proof.
  revert l2; induction l1 as [|a l1 IH]; intros [|b l2] H; try reflexivity; try discriminate H.
  cbn [bytes_of flat_map unit_bytes app] in H. injection H as H1 H2 H3.
  f_equal; [|apply IH; exact H3].
  rewrite (N.div_mod a 256), (N.div_mod b 256) by lia. congruence.
Qed.

Lemma firstn_odd_bytes k l : (k < length l)%nat ->
  firstn (2 * k + 1) (bytes_of l) = bytes_of (firstn k l) ++ [nth k l 0 mod 256].
Proof.
  revert l; induction k as [|k IH]; intros [|c l] H; simpl in H; try lia; [reflexivity|].
  replace (2 * S k + 1)%nat with (S (S (2 * k + 1))) by lia.
  cbn [bytes_of flat_map unit_bytes app firstn nth]. fold (bytes_of l).
  rewrite IH by lia. reflexivity.
Qed.

Lemma firstn_bytes_eq n s p : (n <= length s)%nat -> (n <= length p)%nat ->
  firstn n (bytes_of s) = firstn n (bytes_of p) <->
  (firstn (n / 2) s = firstn (n / 2) p /\
   (Nat.odd n = true -> nth (n / 2) s 0 mod 256 = nth (n / 2) p 0 mod 256)).
Proof.
  intros Hs Hp. destruct (Nat.odd n) eqn:O.
  - apply Nat.odd_spec in O as [k ->].
    replace ((2 * k + 1) / 2)%nat with k by (rewrite Nat.mul_comm, Nat.div_add_l; simpl; lia).
    rewrite !firstn_odd_bytes by lia. split.
    + intros H. apply app_inj_tail in H as [H1 H2]. split; [apply bytes_of_inj; exact H1|intros _; exact H2].
    + intros [H1 H2]. rewrite H1, (H2 eq_refl). reflexivity.
  - assert (E : Nat.even n = true) by (rewrite <- Nat.negb_odd, O; reflexivity).
    apply Nat.even_spec in E as [k ->].
    replace (2 * k / 2)%nat with k by (rewrite Nat.mul_comm, Nat.div_mul; lia).
    rewrite !firstn_bytes. split.
    + intros H; split; [apply bytes_of_inj; exact H|discriminate].
    + intros [H _]; rewrite H; reflexivity.
Qed.

Lemma starts_with_iff s p : starts_with s p = true <-> half_match s p.
Proof.
  unfold starts_with, half_match. destruct (Nat.ltb (length s) (length p)) eqn:E.
  - apply Nat.ltb_lt in E. split; [discriminate|intros [H _]; lia].
  - apply Nat.ltb_ge in E. rewrite list_N_eqb_eq, (firstn_bytes_eq (length p) s p) by lia. tauto.
Qed.

Lemma ends_with_iff s p : ends_with s p = true <->
  (length p <= length s)%nat /\ half_match (skipn (length s - length p) s) p.
Proof.
  unfold ends_with, half_match. destruct (Nat.ltb (length s) (length p)) eqn:E.
  - apply Nat.ltb_lt in E. split; [discriminate|intros [H _]; lia].
  - apply Nat.ltb_ge in E.
    assert (L : length (skipn (length s - length p) s) = length p) by (rewrite skipn_length; lia).
    rewrite list_N_eqb_eq, (firstn_bytes_eq (length p) _ p) by lia. rewrite L. intuition lia.
Qed.

(** ** strip *)

Lemma drop_ws_run ws cs : exists run, maximal_leading_run ws cs run (drop_ws ws cs).
Proof.
  induction cs as [|c cs (run & E & F & M)]; [exists []; repeat split; constructor|].
  cbn [drop_ws]. destruct (ws c) eqn:Ec.
  - exists (c :: run). repeat split; [simpl; rewrite <- E; reflexivity|constructor; auto|exact M].
  - exists []. repeat split; [constructor|exact Ec].
Qed.

Lemma drop_ws_suffix ws cs : exists run, cs = run ++ drop_ws ws cs.
Proof. destruct (drop_ws_run ws cs) as (run & E & _); eauto. Qed.

Lemma leading_run_unique ws cs r1 s1 r2 s2 :
  maximal_leading_run ws cs r1 s1 -> maximal_leading_run ws cs r2 s2 -> r1 = r2 /\ s1 = s2.
Proof.
  revert cs r2; induction r1 as [|a r1 IH]; intros cs r2 (E1 & F1 & M1) (E2 & F2 & M2).
  - simpl in E1; subst s1. destruct r2 as [|b r2]; [simpl in E2; auto|].
    exfalso. subst cs. simpl in M1. inversion F2; subst. congruence.
  - destruct r2 as [|b r2].
    + exfalso. simpl in E2; subst s2 cs. simpl in M2. inversion F1; subst. congruence.
    + subst cs. simpl in E2. inversion E2; subst. inversion F1; subst; inversion F2; subst.
      destruct (IH (r1 ++ s1) r2) as [-> ->]; [repeat split; auto|repeat split; auto|auto].
Qed.

Lemma lstrip_run ws cs : Forall scalar_value cs ->
  exists run rest, maximal_leading_run ws cs run rest /\ lstrip ws (enc16s cs) = Some (enc16s rest).
Proof.
  intros H. destruct (drop_ws_run ws cs) as (run & M).
  exists run, (drop_ws ws cs). split; [exact M|].
  unfold lstrip. rewrite codepoints_enc16s by exact H.
  apply from_utf32_some. destruct M as (E & _). rewrite E in H. apply Forall_app in H; tauto.
Qed.

Lemma rstrip_run ws cs : Forall scalar_value cs ->
  exists rest run, maximal_trailing_run ws cs rest run /\ rstrip ws (enc16s cs) = Some (enc16s rest).
Proof.
  intros H. destruct (drop_ws_run ws (rev cs)) as (run & E & F & M).
  exists (rev (drop_ws ws (rev cs))), (rev run).
  assert (E2 : cs = rev (drop_ws ws (rev cs)) ++ rev run).
  { rewrite <- rev_app_distr, <- E, rev_involutive. reflexivity. }
  split.
  - split; [exact E2|]. split; [apply Forall_rev; exact F|]. rewrite rev_involutive. exact M.
  - unfold rstrip. rewrite codepoints_enc16s by exact H.
    apply from_utf32_some. rewrite E2 in H. apply Forall_app in H; tauto.
Qed.

(** Algebra on code points. *)
Definition trim_l := drop_ws.
Definition trim_r (ws : N -> bool) (cs : list N) := rev (drop_ws ws (rev cs)).

Lemma drop_ws_idem ws cs : drop_ws ws (drop_ws ws cs) = drop_ws ws cs.
Proof.
  induction cs as [|c cs IH]; [reflexivity|]. cbn [drop_ws].
  destruct (ws c) eqn:E; [exact IH|]. cbn [drop_ws]. rewrite E. reflexivity.
Qed.

Lemma drop_ws_all ws a : Forall (fun c => ws c = true) a -> drop_ws ws a = [].
Proof. induction 1 as [|c a H _ IH]; cbn [drop_ws]; [reflexivity|rewrite H; exact IH]. Qed.

Lemma drop_ws_app_all ws a b : Forall (fun c => ws c = true) a -> drop_ws ws (a ++ b) = drop_ws ws b.
Proof. induction 1 as [|c a H _ IH]; cbn [drop_ws app]; [reflexivity|rewrite H; exact IH]. Qed.

Lemma drop_ws_app_stop ws a b c : In c a -> ws c = false -> drop_ws ws (a ++ b) = drop_ws ws a ++ b.
Proof.
  induction a as [|d a IH]; intros Hi Hc; [contradiction|].
  cbn [drop_ws app]. destruct (ws d) eqn:E; [|reflexivity].
  destruct Hi as [->|Hi]; [congruence|auto].
Qed.

Lemma trim_commute ws cs : trim_r ws (trim_l ws cs) = trim_l ws (trim_r ws cs).
Proof.
  unfold trim_l, trim_r. destruct (drop_ws_run ws cs) as (run & E & F & M).
  destruct (drop_ws ws cs) as [|c rest] eqn:D.
  - simpl. rewrite app_nil_r in E; subst cs.
    rewrite (drop_ws_all ws (rev run)) by (apply Forall_rev; exact F). reflexivity.
  - rewrite E at 1. rewrite rev_app_distr.
    rewrite (drop_ws_app_stop ws (rev (c :: rest)) (rev run) c); [|rewrite <- in_rev; left; reflexivity|exact M].
    rewrite rev_app_distr, rev_involutive, drop_ws_app_all by exact F.
    assert (exists t, rev (drop_ws ws (rev (c :: rest))) = c :: t) as [t Ht].
    { simpl. destruct (drop_ws_suffix ws (rev rest ++ [c])) as [r Hr].
      destruct (drop_ws ws (rev rest ++ [c])) as [|x l] eqn:Dx using rev_ind.
      - exfalso. destruct (drop_ws_run ws (rev rest ++ [c])) as (rr & E3 & F3 & _).
        rewrite Dx, app_nil_r in E3. rewrite <- E3 in F3. apply Forall_app in F3 as [_ F3].
        inversion F3; congruence.
      - rewrite app_assoc in Hr. apply app_inj_tail in Hr as [_ ->].
        rewrite rev_unit. eauto. }
    rewrite Ht. cbn [drop_ws]. rewrite M. reflexivity.
Qed.

Lemma lstrip_cps ws cs : Forall scalar_value cs -> lstrip ws (enc16s cs) = Some (enc16s (trim_l ws cs)).
Proof.
  intros H. unfold lstrip. rewrite codepoints_enc16s by exact H.
  apply from_utf32_some. destruct (drop_ws_suffix ws cs) as [r Hr]. unfold trim_l.
  rewrite Hr in H. apply Forall_app in H; tauto.
Qed.

Lemma trim_r_scalar ws cs : Forall scalar_value cs -> Forall scalar_value (trim_r ws cs).
Proof.
  intros H. unfold trim_r. apply Forall_rev.
  destruct (drop_ws_suffix ws (rev cs)) as [r Hr].
  apply Forall_rev in H. rewrite Hr in H. apply Forall_app in H; tauto.
Qed.
Lemma trim_l_scalar ws cs : Forall scalar_value cs -> Forall scalar_value (trim_l ws cs).
Proof.
  intros H. unfold trim_l. destruct (drop_ws_suffix ws cs) as [r Hr].
  rewrite Hr in H. apply Forall_app in H; tauto.
Qed.

Lemma rstrip_cps ws cs : Forall scalar_value cs -> rstrip ws (enc16s cs) = Some (enc16s (trim_r ws cs)).
Proof.
  intros H. unfold rstrip. rewrite codepoints_enc16s by exact H.
  apply from_utf32_some. exact (trim_r_scalar ws cs H).
Qed.

Lemma strip_algebra ws cs us : utf16 cs us ->
  exists l r b, lstrip ws us = Some l /\ rstrip ws us = Some r /\
    lstrip ws l = Some l /\ rstrip ws r = Some r /\
    rstrip ws l = Some b /\ lstrip ws r = Some b.
Proof.
  intros H. apply utf16_enc16s in H as [H ->].
  exists (enc16s (trim_l ws cs)), (enc16s (trim_r ws cs)), (enc16s (trim_r ws (trim_l ws cs))).
  pose proof (trim_l_scalar ws cs H). pose proof (trim_r_scalar ws cs H).
  rewrite !lstrip_cps, !rstrip_cps by assumption.
  repeat split; f_equal; f_equal.
  - apply drop_ws_idem.
  - unfold trim_r. rewrite rev_involutive, drop_ws_idem. reflexivity.
  - symmetry. apply trim_commute.
Qed.

(** ** regex split *)

Lemma slice_join s a b c : (a <= b)%nat -> (b <= c)%nat -> slice s a b ++ slice s b c = slice s a c.
Proof.
  intros H1 H2. unfold slice.
  assert (E : skipn b s = skipn (b - a) (skipn a s)).
  { rewrite skipn_skipn. f_equal. lia. }
  rewrite E. generalize (skipn a s); intros t.
  replace (c - a)%nat with ((b - a) + (c - b))%nat by lia.
  generalize (b - a)%nat, (c - b)%nat; intros m n. clear.
  revert t; induction m as [|m IH]; intros t; [reflexivity|].
  destruct t as [|x t]; simpl; [destruct n; reflexivity|]. rewrite IH. reflexivity.
Qed.

Lemma slice_end s a : (a <= length s)%nat -> slice s a (length s) = skipn a s.
Proof. intros H. unfold slice. apply firstn_all2. rewrite skipn_length. lia. Qed.

Lemma ordered_bound from n ms : ordered from n ms -> (from <= n)%nat.
Proof.
  revert from; induction ms as [|[st en] ms IH]; intros from; simpl; [auto|].
  intros [[H1 H2] H3]. apply IH in H3. lia.
Qed.

Lemma split_loop_spec s ms : forall from, ordered from (length s) ms ->
  exists ps, split_loop s from (map Some ms) = (ps, Some (length ps)) /\
    concat ps = skipn from s /\ pieces_spec s from ms ps.
Proof.
  induction ms as [|[st en] ms IH]; intros from H; cbn [split_loop map].
  - simpl in H. destruct (Nat.ltb from (length s)) eqn:E.
    + apply Nat.ltb_lt in E. exists [skipn from s]. simpl. rewrite app_nil_r.
      repeat split. right; split; [exact E|]. rewrite slice_end by lia. reflexivity.
    + apply Nat.ltb_ge in E. exists []. simpl. rewrite skipn_all2 by lia.
      repeat split. left; split; [lia|reflexivity].
  - simpl in H. destruct H as [[H1 H2] H3]. destruct (IH en H3) as (ps & E & C & P).
    rewrite E. pose proof (ordered_bound _ _ _ H3) as Hb.
    assert (T : slice s st en ++ skipn en s = skipn st s).
    { rewrite <- (slice_end s en), <- (slice_end s st) by lia. apply slice_join; lia. }
    destruct (Nat.ltb from st) eqn:L.
    + apply Nat.ltb_lt in L. exists (slice s from st :: slice s st en :: ps).
      split; [reflexivity|]. split.
      * cbn [concat]. rewrite C, T. rewrite <- (slice_end s st), <- (slice_end s from) by lia.
        apply slice_join; lia.
      * exists ps. split; [exact P|]. right; split; [exact L|reflexivity].
    + apply Nat.ltb_ge in L. assert (from = st) as -> by lia.
      exists (slice s st en :: ps). split; [reflexivity|]. split.
      * cbn [concat]. rewrite C. exact T.
      * exists ps. split; [exact P|]. left; split; reflexivity.
Qed.

(** ** Leak of the implementation blocks *)

Lemma step_news h o h' x : ustep h o = Ok (h', x) -> (creates o <= impl_news h o)%nat.
Proof. intros _; destruct o; simpl; lia. Qed.

Lemma blocks_ge os : forall h n h' xs, urun h os = Ok (h', xs) ->
  (n + count_creates os <= impl_blocks h os n)%nat.
Proof.
  induction os as [|o os IH]; intros h n h' xs; cbn [urun impl_blocks count_creates fold_right]; [lia|].
  destruct (ustep h o) as [[h1 x]| | |] eqn:E; cbn [obind]; try discriminate.
  destruct (urun h1 os) as [[h2 ys]| | |] eqn:E2; cbn [obind]; try discriminate.
  intros _. pose proof (step_news _ _ _ _ E). unfold impl_deletes.
  specialize (IH h1 (n + impl_news h o - 0)%nat _ _ E2). unfold count_creates in IH. lia.
Qed.

Lemma step_news_exact h s o h' x : rel h s -> ustep h o = Ok (h', x) -> impl_news h o = (creates o + joins s o)%nat.
Proof.
  intros R H. destruct o as [i|i l|i j|i j|i j|i j|k i j|i j|i|i|i j|i j|i|i]; try reflexivity.
  pose proof (step_sim h s (UPlusAssign i j) R) as S. rewrite H in S. clear H.
  cbn [sstep] in S. unfold get in S. cbn [impl_news creates joins]. rewrite (R i), (R j).
  destruct (s i) as [a|], (s j) as [b|]; cbn [option_map obind sim] in *; try reflexivity; try contradiction.
  destruct b as [[|c r]|]; cbn [val obind sim] in S; try contradiction.
  - cbn. destruct a as [[|]|]; reflexivity.
  - destruct a as [[|c' l]|]; cbn [val obind sim] in S; try contradiction; rewrite !size_val; reflexivity.
Qed.

Lemma blocks_exact os : forall h s n h' xs, rel h s -> urun h os = Ok (h', xs) ->
  impl_blocks h os n = (n + count_creates os + count_joins s os)%nat.
Proof.
  induction os as [|o os IH]; intros h s n h' xs R; cbn [urun impl_blocks count_creates fold_right count_joins]; [lia|].
  pose proof (step_sim h s o R) as S.
  destruct (ustep h o) as [[h1 x]| | |] eqn:E; cbn [obind]; try discriminate.
  destruct (urun h1 os) as [[h2 ys]| | |] eqn:E2; cbn [obind]; try discriminate.
  intros _. pose proof (step_news_exact _ _ _ _ _ R E) as N1. unfold impl_deletes.
  destruct (sstep s o) as [[s1 y]| | |]; cbn [sim] in S; try contradiction. destruct S as (R1 & _).
  rewrite (IH h1 s1 (n + impl_news h o - 0)%nat _ _ R1 E2). unfold count_creates. lia.
Qed.

(** ** Default-constructed strings that are copied or disposed first *)

Lemma srun_ext l (s1 s2 : sheap) : (forall i, s1 i = s2 i) -> seen (srun s1 l) = seen (srun s2 l).
Proof.
  intros H. pose (h := fun i => option_map impl_of (s1 i)).
  assert (R1 : rel h s1) by (intros i; reflexivity).
  assert (R2 : rel h s2) by (intros i; unfold h; rewrite H; reflexivity).
  pose proof (run_sim l h s1 R1) as S1. pose proof (run_sim l h s2 R2) as S2.
  destruct (urun h l) as [[? ?]| | |], (srun s1 l) as [[? ?]| | |], (srun s2 l) as [[? ?]| | |];
    cbn [sim seen obind] in *; try contradiction; try reflexivity.
  destruct S1 as [_ <-], S2 as [_ <-]. reflexivity.
Qed.

Lemma seen_cons s o os : seen (srun s (o :: os)) =
  obind (sstep s o) (fun '(s', x) => obind (seen (srun s' os)) (fun xs => Ok (x :: xs))).
Proof.
  cbn [srun]. destruct (sstep s o) as [[s' x]| | |]; try reflexivity.
  cbn [obind]. destruct (srun s' os) as [[? ?]| | |]; reflexivity.
Qed.

Lemma default_then os :
  seen (urun no_obj (UDefault 0 :: UDispose 0 :: os)) =
  seen (urun no_obj (UUnits 0 [] :: UDispose 0 :: os)) /\
  seen (urun no_obj (UDefault 0 :: UCopyNew 1 0 :: UDestroy 0 :: os)) =
  seen (urun no_obj (UUnits 0 [] :: UCopyNew 1 0 :: UDestroy 0 :: os)).
Proof.
  rewrite !program_refines, !seen_cons.
  cbn [sstep fresh get no_obj upd Nat.eqb obind].
  split; rewrite ?seen_cons; cbn [sstep fresh get no_obj upd Nat.eqb obind copied];
    rewrite ?seen_cons; cbn [sstep fresh get no_obj upd Nat.eqb obind copied].
  - erewrite (srun_ext os); [reflexivity|]. intros [|[|i]]; reflexivity.
  - erewrite (srun_ext os); [reflexivity|]. intros [|[|i]]; reflexivity.
Qed.
