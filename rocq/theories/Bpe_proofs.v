(** Proofs about byte-pair encoding. *)
From Coq Require Import Permutation Relations Sorting.Sorted.
From Verif Require Import Base Assoc Bpe_model Bpe_spec.
Open Scope N_scope.

(** ** set_nth *)

Lemma set_nth_length {A} (l : list A) i x : length (set_nth l i x) = length l.
Proof. revert i; induction l as [|a l IH]; intros [|i]; simpl; auto. Qed.

Lemma nth_set_nth_same {A} (l : list A) i x y : nth_error l i = Some y -> nth_error (set_nth l i x) i = Some x.
Proof. revert i; induction l as [|a l IH]; intros [|i]; simpl; intros H; try discriminate; auto. Qed.

Lemma nth_set_nth_other {A} (l : list A) i j x : i <> j -> nth_error (set_nth l i x) j = nth_error l j.
Proof.
  revert i j; induction l as [|a l IH]; intros [|i] [|j] H; cbn [set_nth nth_error]; try reflexivity; [congruence|].
  apply IH. congruence.
Qed.

(** ** The live symbols as an abstract word *)

Definition cell := (nat * N * N)%type.    (* index, id, len *)
Definition c_idx (c : cell) : nat := fst (fst c).
Definition c_id (c : cell) : N := snd (fst c).
Definition c_len (c : cell) : N := snd c.
Definition idxs (w : list cell) : list nat := map c_idx w.
Definition ids (w : list cell) : list N := map c_id w.

Definition first_idx (w : list cell) (nx : option nat) : option nat :=
  match w with [] => nx | c :: _ => Some (c_idx c) end.

Fixpoint last_idx (w : list cell) (p : option nat) : option nat :=
  match w with [] => p | c :: w' => last_idx w' (Some (c_idx c)) end.

Fixpoint linked (p : option nat) (w : list cell) (nx : option nat) (syms : list sym) : Prop :=
  match w with
  | [] => True
  | c :: w' =>
      nth_error syms (c_idx c) = Some (mksym (c_id c) p (first_idx w' nx) (c_len c)) /\
      linked (Some (c_idx c)) w' nx syms
  end.

Record repr (w : list cell) (syms : list sym) : Prop := {
  r_link : linked None w None syms;
  r_pos : Forall (fun c => c_len c <> 0) w;
  r_sorted : StronglySorted lt (idxs w);
  r_dead : forall i s, nth_error syms i = Some s -> ~ In i (idxs w) -> s_len s = 0
}.

Lemma linked_app w1 : forall p w2 nx syms,
  linked p (w1 ++ w2) nx syms <->
  linked p w1 (first_idx w2 nx) syms /\ linked (last_idx w1 p) w2 nx syms.
Proof.
  induction w1 as [|c w1 IH]; intros p w2 nx syms; simpl; [tauto|].
  rewrite IH. replace (first_idx (w1 ++ w2) nx) with (first_idx w1 (first_idx w2 nx)) by (destruct w1; reflexivity).
  tauto.
Qed.

Lemma linked_frame w : forall p nx syms j s,
  ~ In j (idxs w) -> linked p w nx syms -> linked p w nx (set_nth syms j s).
Proof.
  induction w as [|c w IH]; intros p nx syms j s Hn HL; simpl in *; [exact I|].
  destruct HL as [H1 H2]. split; [rewrite nth_set_nth_other; [exact H1|intros ->; apply Hn; left; reflexivity]|apply IH; tauto].
Qed.

Lemma sorted_nodup l : StronglySorted lt l -> NoDup l.
Proof.
  induction 1 as [|a l S IH F]; constructor; [|exact IH].
  intros Hin. rewrite Forall_forall in F. specialize (F _ Hin). lia.
Qed.

Lemma sorted_app l1 l2 : StronglySorted lt (l1 ++ l2) <->
  StronglySorted lt l1 /\ StronglySorted lt l2 /\ forall a b, In a l1 -> In b l2 -> (a < b)%nat.
Proof.
  induction l1 as [|x l1 IH]; simpl.
  - split; [intros H; split; [constructor|split; [exact H|contradiction]]|intros (_ & H & _); exact H].
  - split.
    + intros H; inversion H as [|? ? S F]; subst. apply IH in S as (S1 & S2 & S3).
      apply Forall_app in F as [F1 F2]. split; [constructor; auto|]. split; [exact S2|].
      intros a b [->|Ha] Hb; [rewrite Forall_forall in F2; auto|auto].
    + intros (S1 & S2 & S3). inversion S1 as [|? ? S F]; subst.
      constructor; [apply IH; repeat split; auto; intros; apply S3; auto|].
      apply Forall_app; split; [exact F|]. apply Forall_forall. intros b Hb. apply S3; auto.
Qed.

Lemma idxs_app a b : idxs (a ++ b) = idxs a ++ idxs b.
Proof. apply map_app. Qed.
Lemma ids_app a b : ids (a ++ b) = ids a ++ ids b.
Proof. apply map_app. Qed.

Lemma in_idxs_split i w : In i (idxs w) -> exists w1 x n w2, w = w1 ++ (i, x, n) :: w2.
Proof.
  intros H. apply in_map_iff in H as ([[i' x] n] & E & H). unfold c_idx in E; simpl in E; subst i'.
  apply in_split in H as (w1 & w2 & ->). eauto.
Qed.

Lemma last_idx_app w1 c w2 p : last_idx (w1 ++ c :: w2) p = last_idx w2 (Some (c_idx c)).
Proof. revert p; induction w1 as [|d w1 IH]; intros p; simpl; [reflexivity|apply IH]. Qed.

Lemma last_idx_cases w p : (w = [] /\ last_idx w p = p) \/
  exists w' c, w = w' ++ [c] /\ last_idx w p = Some (c_idx c).
Proof.
  destruct w as [|c w] using rev_ind; [left; split; reflexivity|].
  right. exists w, c. split; [reflexivity|]. rewrite last_idx_app. reflexivity.
Qed.

(** Entries pushed after a merge. *)
Definition push_prev (R : table) (w1 : list cell) (z : N) : list entry :=
  match rev w1 with
  | [] => []
  | c :: _ => match R (c_id c, z) with Some (rk, ni) => [mkentry (c_idx c) rk ni] | None => [] end
  end.
Definition push_next (R : table) (i : nat) (z : N) (w2 : list cell) : list entry :=
  match w2 with
  | [] => []
  | c :: _ => match R (z, c_id c) with Some (rk, ni) => [mkentry i rk ni] | None => [] end
  end.

(** The entry does not describe a mergeable pair any more. *)
Definition stale (R : table) (top : entry) (w : list cell) : Prop :=
  forall w1 x n j y m w2 rk, w = w1 ++ (e_index top, x, n) :: (j, y, m) :: w2 ->
    R (x, y) = Some (rk, e_new top) -> False.

Lemma process_spec b top q syms w :
  repr w syms -> (e_index top < length syms)%nat ->
  (process b top q syms = Ok (q, syms) /\ stale (bpe_merge b) top w) \/
  (exists w1 x n j y m w2 rk syms',
     w = w1 ++ (e_index top, x, n) :: (j, y, m) :: w2 /\
     bpe_merge b (x, y) = Some (rk, e_new top) /\
     process b top q syms =
       Ok (push_next (bpe_merge b) (e_index top) (e_new top) w2 ++
           push_prev (bpe_merge b) w1 (e_new top) ++ q, syms') /\
     repr (w1 ++ (e_index top, e_new top, (n + m)%N) :: w2) syms' /\
     length syms' = length syms).
Proof.
  intros RP Hlt. destruct RP as [HL HP HS HD].
  set (i := e_index top) in *.
  destruct (in_dec Nat.eq_dec i (idxs w)) as [Hin|Hout].
  2:{ left. destruct (nth_error syms i) as [s|] eqn:E; [|apply nth_error_None in E; lia].
      unfold process. fold i. rewrite E, (HD i s E Hout). split; [reflexivity|].
      intros w1 x n j y m w2 rk Hw _. apply Hout. rewrite Hw. fold i. rewrite idxs_app.
      apply in_or_app; right; left; reflexivity. }
  destruct (in_idxs_split _ _ Hin) as (w1 & x & n & w2 & ->).
  apply linked_app in HL as [HL1 HL2]. simpl in HL2. destruct HL2 as [Hi HL2].
  unfold c_idx, c_id, c_len in Hi; simpl in Hi.
  assert (Hn : n <> 0).
  { apply Forall_app in HP as [_ HP]. inversion HP; subst; assumption. }
  rewrite idxs_app in HS, HD. simpl in HS.
  pose proof (sorted_nodup _ HS) as ND.
  assert (Huniq : forall v1 x' n' v2, w1 ++ (i, x, n) :: w2 = v1 ++ (i, x', n') :: v2 ->
             v1 = w1 /\ x' = x /\ n' = n /\ v2 = w2).
  { intros v1 x' n' v2 E.
    assert (G : forall (a1 a2 b1 b2 : list cell) (c d : cell), c_idx c = i -> c_idx d = i ->
        a1 ++ c :: a2 = b1 ++ d :: b2 -> NoDup (idxs (a1 ++ c :: a2)) -> a1 = b1 /\ c = d /\ a2 = b2).
    { clear. induction a1 as [|e a1 IH]; intros a2 b1 b2 c d Hc Hd E N.
      - destruct b1 as [|f b1]; simpl in E; inversion E; subst; auto.
        exfalso. simpl in N. inversion N as [|? ? Hni _]; subst. apply Hni.
        rewrite Hc, <- Hd, idxs_app. apply in_or_app; right; left; reflexivity.
      - destruct b1 as [|f b1]; simpl in E; inversion E; subst.
        + exfalso. simpl in N. inversion N as [|? ? Hni _]; subst. apply Hni.
          rewrite Hd, <- Hc, idxs_app. apply in_or_app; right; left; reflexivity.
        + simpl in N; inversion N; subst. destruct (IH a2 b1 b2 c d) as (-> & -> & ->); auto. }
    destruct (G w1 w2 v1 v2 (i, x, n) (i, x', n')) as (-> & Ec & ->); auto.
    { rewrite idxs_app. exact ND. }
    inversion Ec; auto. }
  assert (Hstale : (forall j y m w2', w2 = (j, y, m) :: w2' -> forall rk, bpe_merge b (x, y) <> Some (rk, e_new top)) ->
                   stale (bpe_merge b) top (w1 ++ (i, x, n) :: w2)).
  { intros H v1 x' n' j y m v2 rk E Hr. fold i in E.
    destruct (Huniq _ _ _ _ E) as (-> & -> & -> & E2). eapply H; eauto. }
  unfold process. fold i. rewrite Hi. simpl s_len.
  replace (n =? 0) with false by (symmetry; apply N.eqb_neq; exact Hn).
  destruct w2 as [|[[j y] m] w2].
  { left. simpl. split; [reflexivity|]. apply Hstale. intros; discriminate. }
  simpl in HL2. destruct HL2 as [Hj HL3]. unfold c_idx, c_id, c_len in Hj; simpl in Hj.
  cbn [s_next first_idx c_idx fst snd]. rewrite Hj. cbn [s_id].
  destruct (bpe_merge b (x, y)) as [[rk nid]|] eqn:ER.
  2:{ left. split; [reflexivity|]. apply Hstale. intros ? ? ? ? E ? Hr. inversion E; subst. congruence. }
  destruct (nid =? e_new top) eqn:EN.
  2:{ left. split; [reflexivity|]. apply Hstale. intros ? ? ? ? E ? Hr. inversion E; subst.
      apply N.eqb_neq in EN. congruence. }
  apply N.eqb_eq in EN; subst nid.
  right. cbn [negb s_prev s_next s_len s_id].
  set (z := e_new top) in *.
  set (p := last_idx w1 None) in *.
  set (s' := mksym z p (first_idx w2 None) (n + m)) in *.
  set (syms1 := set_nth syms i s').
  set (syms2 := set_nth syms1 j (mksym y (Some i) (first_idx w2 None) 0)).
  (* order facts *)
  apply sorted_app in HS as (S1 & S2 & S3).
  inversion S2 as [|? ? S2' F2]; subst. simpl in S2'. inversion S2' as [|? ? S4 F4]; subst.
  unfold c_idx in F2, F4; simpl in F2, F4.
  assert (Hij : (i < j)%nat) by (inversion F2; assumption).
  assert (Hi1 : ~ In i (idxs w1)).
  { intros H. specialize (S3 i i H (or_introl eq_refl)). lia. }
  assert (Hj1 : ~ In j (idxs w1)).
  { intros H. specialize (S3 j j H (or_intror (or_introl eq_refl))). lia. }
  assert (Hi2 : ~ In i (idxs w2)).
  { intros H. inversion F2 as [|? ? _ F2']; subst. rewrite Forall_forall in F2'. specialize (F2' i H). lia. }
  assert (Hj2 : ~ In j (idxs w2)).
  { intros H. rewrite Forall_forall in F4. specialize (F4 j H). lia. }
  assert (L1 : linked None w1 (Some i) syms2).
  { apply linked_frame; [exact Hj1|]. apply linked_frame; [exact Hi1|]. exact HL1. }
  assert (E1 : nth_error syms2 i = Some s').
  { unfold syms2. rewrite nth_set_nth_other by lia. unfold syms1.
    eapply nth_set_nth_same; exact Hi. }
  assert (E2 : nth_error syms2 j = Some (mksym y (Some i) (first_idx w2 None) 0)).
  { unfold syms2. eapply nth_set_nth_same. unfold syms1. rewrite nth_set_nth_other by lia. exact Hj. }
  assert (L2 : linked (Some j) w2 None syms2).
  { apply linked_frame; [exact Hj2|]. apply linked_frame; [exact Hi2|]. exact HL3. }
  assert (D2 : forall k s, nth_error syms2 k = Some s -> ~ In k (idxs w1 ++ i :: idxs w2) -> s_len s = 0).
  { intros k s Hk Hnk. destruct (Nat.eq_dec k j) as [->|Hkj].
    - rewrite E2 in Hk; inversion Hk; reflexivity.
    - assert (k <> i) by (intros ->; apply Hnk; apply in_or_app; right; left; reflexivity).
      unfold syms2, syms1 in Hk. rewrite !nth_set_nth_other in Hk by lia.
      apply (HD k s Hk). intros Hin2. apply in_app_or in Hin2 as [H1|[H1|[H1|H1]]].
      + apply Hnk, in_or_app; auto.
      + unfold c_idx in H1; simpl in H1. congruence.
      + unfold c_idx in H1; simpl in H1. congruence.
      + apply Hnk, in_or_app; right; right; exact H1. }
  (* the third update *)
  set (syms3 := match first_idx w2 None with
                | Some k => match nth_error syms2 k with
                            | Some t => set_nth syms2 k (mksym (s_id t) (Some i) (s_next t) (s_len t))
                            | None => syms2 end
                | None => syms2 end).
  assert (X : linked None w1 (Some i) syms3 /\ nth_error syms3 i = Some s' /\
              linked (Some i) w2 None syms3 /\
              (forall k s, nth_error syms3 k = Some s -> ~ In k (idxs w1 ++ i :: idxs w2) -> s_len s = 0) /\
              length syms3 = length syms).
  { destruct w2 as [|[[k v] l] w2].
    - change syms3 with syms2. repeat split; auto. unfold syms2, syms1. rewrite !set_nth_length. reflexivity.
    - destruct L2 as [Ek L2]. unfold c_idx, c_id, c_len in Ek; cbn [fst snd] in Ek.
      assert (E3 : syms3 = set_nth syms2 k (mksym v (Some i) (first_idx w2 None) l)).
      { unfold syms3. cbn [first_idx]. unfold c_idx; cbn [fst]. rewrite Ek. reflexivity. }
      unfold idxs in Hi2, Hj2; cbn [map In] in Hi2, Hj2. unfold c_idx in Hi2, Hj2; cbn [fst] in Hi2, Hj2.
      assert (Hk1 : ~ In k (idxs w1)).
      { intros H. specialize (S3 k k H). unfold idxs in S3; cbn [map In] in S3.
        specialize (S3 (or_intror (or_intror (or_introl eq_refl)))). lia. }
      assert (Hk2 : ~ In k (idxs w2)).
      { intros H. inversion S4 as [|? ? _ F5]; subst. rewrite Forall_forall in F5.
        specialize (F5 k H). unfold c_idx in F5; simpl in F5. lia. }
      clearbody syms3. subst syms3. repeat split.
      + apply linked_frame; assumption.
      + rewrite nth_set_nth_other by tauto. exact E1.
      + unfold c_idx, c_id, c_len; cbn [fst snd]. eapply nth_set_nth_same; exact Ek.
      + apply linked_frame; assumption.
      + intros k' s Hk' Hn'. destruct (Nat.eq_dec k k') as [->|Hne].
        * exfalso. apply Hn'. apply in_or_app; right; right; left; reflexivity.
        * rewrite nth_set_nth_other in Hk' by exact Hne. eapply D2; eauto.
      + rewrite set_nth_length. unfold syms2, syms1. rewrite !set_nth_length. reflexivity. }
  destruct X as (X1 & X2 & X3 & X4 & X5).
  exists w1, x, n, j, y, m, w2, rk, syms3.
  split; [reflexivity|]. split; [exact ER|].
  assert (P1 : match p with
               | Some p0 => match nth_error syms3 p0 with
                            | Some ps => match bpe_merge b (s_id ps, z) with
                                         | Some (rk0, ni) => Ok [mkentry p0 rk0 ni] | None => Ok [] end
                            | None => UB end
               | None => Ok [] end = Ok (push_prev (bpe_merge b) w1 z)).
  { unfold p, push_prev. destruct (last_idx_cases w1 None) as [[-> ->]|(w1' & [[k v] l] & -> & ->)]; [reflexivity|].
    rewrite rev_app_distr. simpl. apply linked_app in X1 as [_ X1]. simpl in X1. destruct X1 as [X1 _].
    rewrite X1. simpl. unfold c_idx; simpl. destruct (bpe_merge b (c_id (k, v, l), z)) as [[? ?]|]; reflexivity. }
  assert (P2 : match first_idx w2 None with
               | Some k => match nth_error syms3 k with
                           | Some ns => match bpe_merge b (z, s_id ns) with
                                        | Some (rk0, ni) => [mkentry i rk0 ni] | None => [] end
                           | None => [] end
               | None => [] end = push_next (bpe_merge b) i z w2).
  { destruct w2 as [|[[k v] l] w2]; [reflexivity|]. simpl in X3. destruct X3 as [X3 _].
    simpl. rewrite X3. reflexivity. }
  split.
  { fold syms1. fold syms2. fold syms3. rewrite P1, P2. reflexivity. }
  split; [|exact X5].
  constructor.
  - apply linked_app. split; [exact X1|]. simpl. fold p. split; [exact X2|exact X3].
  - apply Forall_app in HP as [HP1 HP2]. inversion HP2 as [|? ? _ HP3]; subst. inversion HP3 as [|? ? _ HP4]; subst.
    apply Forall_app; split; [exact HP1|]. constructor; [|exact HP4]. unfold c_len; simpl. lia.
  - rewrite idxs_app. apply sorted_app. split; [exact S1|]. split.
    + constructor; [exact S4|]. inversion F2; assumption.
    + intros a c Ha Hc. apply S3; [exact Ha|]. destruct Hc as [<-|Hc]; [left; reflexivity|right; right; exact Hc].
  - intros k s Hk Hnk. rewrite idxs_app in Hnk. apply (X4 k s Hk). exact Hnk.
Qed.

(** ** Initial symbols *)

Definition pred_opt (k : nat) : option nat := match k with O => None | S k' => Some k' end.

Fixpoint chain (k : nat) (l : list (N * N)) : list sym :=
  match l with
  | [] => []
  | (id, n) :: l' =>
      mksym id (pred_opt k) (match l' with [] => None | _ => Some (S k) end) n :: chain (S k) l'
  end.

Fixpoint cells (k : nat) (l : list (N * N)) : list cell :=
  match l with [] => [] | (id, n) :: l' => (k, id, n) :: cells (S k) l' end.

Lemma chain_length l : forall k, length (chain k l) = length l.
Proof. induction l as [|[id n] l IH]; intros k; simpl; auto. Qed.

Lemma set_last_next_cons s t n : t <> [] -> set_last_next (s :: t) n = s :: set_last_next t n.
Proof.
  intros H. unfold set_last_next. simpl.
  destruct (rev t) as [|x r] eqn:E; [apply (f_equal (@rev _)) in E; rewrite rev_involutive in E; simpl in E; congruence|].
  simpl. rewrite rev_app_distr. reflexivity.
Qed.

Lemma chain_snoc l x n : forall k, l <> [] ->
  chain k (l ++ [(x, n)]) =
  set_last_next (chain k l) (k + length l) ++ [mksym x (Some (k + length l - 1)%nat) None n].
Proof.
  induction l as [|[id m] l IH]; intros k H; [congruence|].
  destruct l as [|[id2 m2] l].
  - simpl. replace (k + 1)%nat with (S k) by lia. replace (S k - 1)%nat with k by lia. reflexivity.
  - cbn [app chain] in *. rewrite set_last_next_cons by discriminate.
    specialize (IH (S k) ltac:(discriminate)). cbn [app chain] in IH. cbn [app].
    rewrite IH. cbn [length]. replace (S k + S (length l))%nat with (k + S (S (length l)))%nat by lia.
    reflexivity.
Qed.

Lemma word_add_chain l id n : word_add (chain 0 l) id n = chain 0 (l ++ [(id, n)]).
Proof.
  destruct l as [|[x m] l]; [reflexivity|].
  rewrite chain_snoc by discriminate. unfold word_add.
  change (chain 0 ((x, m) :: l)) with (chain 0 ((x, m) :: l)).
  destruct (chain 0 ((x, m) :: l)) as [|s t] eqn:E; [discriminate|].
  rewrite <- E, chain_length. simpl. rewrite Nat.sub_0_r. reflexivity.
Qed.

Lemma last_is_chain l id : last_is (chain 0 l) id = match rev l with [] => false | (x, _) :: _ => x =? id end.
Proof.
  unfold last_is. destruct l as [|[x n] l] using rev_ind; [reflexivity|].
  rewrite rev_app_distr. simpl.
  destruct l as [|c l]; [reflexivity|].
  rewrite chain_snoc by discriminate. rewrite rev_app_distr. reflexivity.
Qed.

Lemma cells_idx_ge l : forall k c, In c (cells k l) -> (k <= c_idx c)%nat.
Proof.
  induction l as [|[id n] l IH]; intros k c; simpl; [contradiction|].
  intros [<-|H]; [unfold c_idx; simpl; lia|]. apply IH in H. lia.
Qed.

Lemma cells_sorted l : forall k, StronglySorted lt (idxs (cells k l)).
Proof.
  induction l as [|[id n] l IH]; intros k; simpl; [constructor|]. constructor; [apply IH|].
  apply Forall_forall. intros i Hi. apply in_map_iff in Hi as (c & <- & Hc).
  apply cells_idx_ge in Hc. unfold c_idx at 1; simpl. lia.
Qed.

Lemma cells_linked l : forall k pre, length pre = k ->
  linked (pred_opt k) (cells k l) None (pre ++ chain k l).
Proof.
  induction l as [|[id n] l IH]; intros k pre Hk; simpl; [exact I|]. split.
  - unfold c_idx, c_id, c_len; simpl. rewrite nth_error_app2 by lia. rewrite Hk, Nat.sub_diag. simpl.
    destruct l as [|[? ?] ?]; reflexivity.
  - specialize (IH (S k) (pre ++ [mksym id (pred_opt k) (match l with [] => None | _ => Some (S k) end) n])).
    rewrite app_length, <- app_assoc in IH. simpl in IH. apply IH. lia.
Qed.

Lemma cells_idxs l : forall k, idxs (cells k l) = seq k (length l).
Proof. induction l as [|[id n] l IH]; intros k; simpl; [reflexivity|]. rewrite IH. reflexivity. Qed.

Lemma cells_ids l : forall k, ids (cells k l) = map fst l.
Proof. induction l as [|[id n] l IH]; intros k; simpl; [reflexivity|]. rewrite IH. reflexivity. Qed.

Lemma cells_length l : forall k, length (cells k l) = length l.
Proof. induction l as [|[id n] l IH]; intros k; simpl; auto. Qed.

Lemma chain_repr l : Forall (fun x => snd x <> 0) l -> repr (cells 0 l) (chain 0 l).
Proof.
  intros HP. constructor.
  - exact (cells_linked l 0 [] eq_refl).
  - generalize 0%nat as k. induction HP as [|[id n] l H _ IH]; intros k; simpl; constructor; auto.
  - apply cells_sorted.
  - intros i s Hs Hn. exfalso. apply Hn. rewrite cells_idxs. apply in_seq.
    assert (i < length (chain 0 l))%nat by (apply nth_error_Some; congruence).
    rewrite chain_length in H. lia.
Qed.

(** ** Initial queue *)

Definition adj (c d : cell) (w : list cell) : Prop := exists w1 w2, w = w1 ++ c :: d :: w2.

Lemma init_queue_spec b l : forall k e, In e (init_queue b k (chain k l)) <->
  exists c d, adj c d (cells k l) /\ e_index e = c_idx c /\
              bpe_merge b (c_id c, c_id d) = Some (e_rank e, e_new e).
Proof.
  induction l as [|[x n] l IH]; intros k e.
  - simpl. split; [contradiction|]. intros (c & d & (w1 & w2 & E) & _). destruct w1; discriminate.
  - destruct l as [|[y m] l].
    + simpl. split; [contradiction|].
      intros (c & d & (w1 & w2 & E) & _). destruct w1 as [|? [|? ?]]; discriminate.
    + specialize (IH (S k) e).
      assert (Q : In e (init_queue b k (chain k ((x, n) :: (y, m) :: l))) <->
                  (bpe_merge b (x, y) = Some (e_rank e, e_new e) /\ e_index e = k) \/
                  In e (init_queue b (S k) (chain (S k) ((y, m) :: l)))).
      { cbn [chain init_queue s_id]. destruct (bpe_merge b (x, y)) as [[rk ni]|] eqn:ER.
        - split.
          + intros [<-|H]; [left; simpl; auto|right; exact H].
          + intros [[E1 E2]|H]; [|right; exact H]. left. destruct e; simpl in *. inversion E1; subst; reflexivity.
        - split; [auto|]. intros [[E1 _]|H]; [discriminate|exact H]. }
      rewrite Q, IH. clear Q IH. split.
      * intros [[E1 E2]|(c & d & (w1 & w2 & E) & H)].
        -- exists (k, x, n), (S k, y, m). split; [exists [], (cells (S (S k)) l); reflexivity|]. auto.
        -- exists c, d. split; [|exact H]. exists ((k, x, n) :: w1), w2. cbn [cells] in E |- *. rewrite E. reflexivity.
      * intros (c & d & (w1 & w2 & E) & E1 & E2). destruct w1 as [|c1 w1].
        -- cbn [cells app] in E. inversion E; subst. left; split; [exact E2|exact E1].
        -- right. cbn [cells app] in E. inversion E; subst. exists c, d. split; [|auto].
           exists w1, w2. cbn [cells]. exact H1.
Qed.

Lemma init_queue_length b l : forall k, (length (init_queue b k (chain k l)) <= length l)%nat.
Proof.
  induction l as [|[x n] l IH]; intros k; [simpl; lia|].
  destruct l as [|[y m] l]; [simpl; lia|]. specialize (IH (S k)).
  cbn [chain init_queue s_id] in *. destruct (bpe_merge b (x, y)) as [[rk ni]|]; cbn [length] in *; lia.
Qed.

(** ** Compaction *)

Lemma compact_ids_from syms : forall k w,
  StronglySorted lt (idxs w) ->
  (forall c, In c w -> (k <= c_idx c)%nat /\ exists s, nth_error syms (c_idx c - k) = Some s /\
             s_id s = c_id c /\ s_len s <> 0) ->
  (forall i s, nth_error syms i = Some s -> ~ In (k + i)%nat (idxs w) -> s_len s = 0) ->
  map s_id (compact syms) = ids w.
Proof.
  induction syms as [|s syms IH]; intros k w HS HW HD.
  - destruct w as [|c w]; [reflexivity|]. exfalso.
    destruct (HW c (or_introl eq_refl)) as (_ & s & H & _). destruct (c_idx c - k)%nat; discriminate.
  - destruct (in_dec Nat.eq_dec k (idxs w)) as [Hin|Hout].
    + destruct w as [|c w]; [contradiction|]. simpl in HS. inversion HS as [|? ? HS' F]; subst.
      assert (c_idx c = k) as Ek.
      { destruct (HW c (or_introl eq_refl)) as (Hge & _). simpl in Hin. destruct Hin as [H|H]; [exact H|].
        rewrite Forall_forall in F. specialize (F _ H). lia. }
      destruct (HW c (or_introl eq_refl)) as (_ & s' & H & Hid & Hlen).
      rewrite Ek, Nat.sub_diag in H. simpl in H. inversion H; subst s'.
      unfold compact. simpl. replace (s_len s =? 0) with false by (symmetry; apply N.eqb_neq; exact Hlen).
      simpl. rewrite Hid. f_equal. apply (IH (S k) w HS').
      * intros d Hd. rewrite Forall_forall in F.
        assert (Hlt : (k < c_idx d)%nat) by (rewrite <- Ek; apply F; apply in_map; exact Hd).
        destruct (HW d (or_intror Hd)) as (_ & s2 & H2 & H3).
        split; [lia|]. exists s2. split; [|exact H3].
        replace (c_idx d - k)%nat with (S (c_idx d - S k)) in H2 by lia. exact H2.
      * intros i s2 Hs2 Hn. apply (HD (S i) s2 Hs2). intros Hin2. simpl in Hin2.
        destruct Hin2 as [H2|H2]; [lia|]. apply Hn. replace (S k + i)%nat with (k + S i)%nat by lia. exact H2.
    + assert (s_len s = 0) as Hz.
      { apply (HD 0%nat s eq_refl). rewrite Nat.add_0_r. exact Hout. }
      unfold compact. simpl. rewrite Hz. simpl. apply (IH (S k) w HS).
      * intros d Hd. destruct (HW d Hd) as (Hge & s2 & H2 & H3).
        assert (c_idx d <> k) by (intros E; apply Hout; rewrite <- E; apply in_map; exact Hd).
        split; [lia|]. exists s2. split; [|exact H3].
        replace (c_idx d - k)%nat with (S (c_idx d - S k)) in H2 by lia. exact H2.
      * intros i s2 Hs2 Hn. apply (HD (S i) s2 Hs2). replace (k + S i)%nat with (S k + i)%nat by lia. exact Hn.
Qed.

Lemma linked_nth w : forall p nx syms c, linked p w nx syms -> In c w ->
  exists s, nth_error syms (c_idx c) = Some s /\ s_id s = c_id c /\ s_len s = c_len c.
Proof.
  induction w as [|d w IH]; intros p nx syms c HL Hin; [contradiction|].
  simpl in HL. destruct HL as [H1 H2]. destruct Hin as [->|Hin]; [|eauto].
  eexists. split; [exact H1|]. split; reflexivity.
Qed.

Lemma compact_ids w syms : repr w syms -> map s_id (compact syms) = ids w.
Proof.
  intros [HL HP HS HD]. apply (compact_ids_from syms 0 w HS).
  - intros c Hc. split; [lia|]. destruct (linked_nth _ _ _ _ _ HL Hc) as (s & H1 & H2 & H3).
    exists s. rewrite Nat.sub_0_r. split; [exact H1|]. split; [exact H2|].
    rewrite H3. rewrite Forall_forall in HP. apply HP; exact Hc.
  - exact HD.
Qed.

Lemma repr_idx_lt w syms c : repr w syms -> In c w -> (c_idx c < length syms)%nat.
Proof.
  intros [HL _ _ _] Hc. destruct (linked_nth _ _ _ _ _ HL Hc) as (s & H & _).
  apply nth_error_Some. congruence.
Qed.

(** ** The loop: termination, safety, legality *)

Definition bounded (n : nat) (q : list entry) : Prop := Forall (fun e => (e_index e < n)%nat) q.

Lemma push_prev_length R w1 z : (length (push_prev R w1 z) <= 1)%nat.
Proof. unfold push_prev. destruct (rev w1); [simpl; lia|]. destruct (R _) as [[? ?]|]; simpl; lia. Qed.
Lemma push_next_length R i z w2 : (length (push_next R i z w2) <= 1)%nat.
Proof. unfold push_next. destruct w2; [simpl; lia|]. destruct (R _) as [[? ?]|]; simpl; lia. Qed.

Lemma push_prev_bounded R w1 z w2 syms : repr (w1 ++ w2) syms -> bounded (length syms) (push_prev R w1 z).
Proof.
  intros RP. unfold push_prev. destruct (rev w1) as [|c r] eqn:E; [constructor|].
  destruct (R _) as [[? ?]|]; [|constructor]. constructor; [|constructor]. simpl.
  apply (repr_idx_lt _ _ c RP). apply in_or_app; left. apply in_rev. rewrite E. left; reflexivity.
Qed.

Lemma push_next_bounded R i z w2 n : (i < n)%nat -> bounded n (push_next R i z w2).
Proof.
  intros H. unfold push_next. destruct w2 as [|c w2]; [constructor|].
  destruct (R _) as [[? ?]|]; [|constructor]. constructor; [exact H|constructor].
Qed.

Lemma perm_bounded n q t q' : Permutation q (t :: q') -> bounded n q -> (e_index t < n)%nat /\ bounded n q'.
Proof.
  intros P H. assert (B : bounded n (t :: q')).
  { unfold bounded in *. rewrite Forall_forall in *. intros e He. apply H.
    eapply Permutation_in; [symmetry; exact P|exact He]. }
  inversion B; auto.
Qed.

Definition measure (w : list cell) (q skip : list entry) : nat := (3 * length w + length q + length skip)%nat.

Lemma merge_step_cells R w1 i x n j y m w2 rk z :
  R (x, y) = Some (rk, z) ->
  merge_step R (ids (w1 ++ (i, x, n) :: (j, y, m) :: w2)) (ids (w1 ++ (i, z, n + m) :: w2)).
Proof.
  intros H. exists (ids w1), x, y, (ids w2), rk, z. rewrite !ids_app. repeat split; auto.
Qed.

Lemma merge_loop_total b pick : removes_maximal entry_lt pick ->
  forall fuel coins q skip syms w,
  repr w syms -> bounded (length syms) q -> bounded (length syms) skip ->
  (measure w q skip * S (measure w q skip) + length q < fuel)%nat ->
  exists syms' w', merge_loop b pick fuel coins q skip syms = Some (Ok syms') /\
    repr w' syms' /\ legal (bpe_merge b) (ids w) (ids w').
Proof.
  intros HP. induction fuel as [|fuel IH]; intros coins q skip syms w RP Bq Bs HF; [lia|].
  cbn [merge_loop]. specialize (HP q). destruct (pick q) as [[top q1]|].
  2:{ exists syms, w. split; [reflexivity|]. split; [exact RP|apply rt_refl]. }
  destruct HP as [PM _]. destruct (perm_bounded _ _ _ _ PM Bq) as [Bt Bq1].
  pose proof (Permutation_length PM) as PL. simpl in PL.
  set (T := measure w q skip) in *.
  set (dr := match b_dropout b with DPos => true | _ => false end).
  destruct (dr && coins 0%nat) eqn:EC.
  - assert (M : measure w q1 (skip ++ [top]) = T).
    { unfold T, measure. rewrite app_length. simpl. lia. }
    apply IH; [exact RP|exact Bq1| |rewrite M; lia].
    apply Forall_app; split; [exact Bs|]. constructor; [exact Bt|constructor].
  - assert (Bq2 : bounded (length syms) (skip ++ q1)) by (apply Forall_app; split; assumption).
    destruct (process_spec b top (skip ++ q1) syms w RP Bt)
      as [[-> _]|(w1 & x & n & j & y & m & w2 & rk & syms' & -> & ER & -> & RP' & EL)].
    + apply IH; [exact RP|exact Bq2|constructor|].
      assert (M : (measure w (skip ++ q1) [] = T - 1)%nat).
      { unfold T, measure. rewrite app_length. simpl. lia. }
      rewrite M. assert (1 <= T)%nat by (unfold T, measure; lia).
      assert (length (skip ++ q1) <= T - 1)%nat by (rewrite <- M; unfold measure; lia).
      nia.
    + set (q2 := push_next _ _ _ w2 ++ push_prev _ w1 _ ++ skip ++ q1).
      pose proof (push_next_length (bpe_merge b) (e_index top) (e_new top) w2) as L1.
      pose proof (push_prev_length (bpe_merge b) w1 (e_new top)) as L2.
      assert (M : (measure (w1 ++ (e_index top, e_new top, (n + m)%N) :: w2) q2 [] <= T - 1)%nat).
      { unfold T, measure, q2. rewrite !app_length in *. cbn [length]. lia. }
      assert (1 <= T)%nat by (unfold T, measure; lia).
      assert (length q2 <= T - 1)%nat by (revert M; unfold measure; lia).
      destruct (IH (if dr then fun k => coins (S k) else coins) q2 [] syms'
                   (w1 ++ (e_index top, e_new top, (n + m)%N) :: w2)) as (sf & wf & E1 & E2 & E3).
      * exact RP'.
      * unfold q2. rewrite EL. apply Forall_app; split; [apply push_next_bounded; exact Bt|].
        apply Forall_app; split; [|exact Bq2].
        rewrite <- EL. eapply push_prev_bounded; exact RP'.
      * constructor.
      * set (M' := measure (w1 ++ (e_index top, e_new top, (n + m)%N) :: w2) q2 []) in *. nia.
      * exists sf, wf. split; [exact E1|]. split; [exact E2|].
        eapply rt_trans; [apply rt_step; eapply merge_step_cells; exact ER|exact E3].
Qed.

(** Without dropout a linear number of iterations suffices. *)
Lemma merge_loop_linear b pick : removes_maximal entry_lt pick -> b_dropout b <> DPos ->
  forall fuel coins q syms w,
  repr w syms -> bounded (length syms) q -> (measure w q [] < fuel)%nat ->
  exists syms', merge_loop b pick fuel coins q [] syms = Some (Ok syms').
Proof.
  intros HP HD. induction fuel as [|fuel IH]; intros coins q syms w RP Bq HF; [lia|].
  cbn [merge_loop]. specialize (HP q). destruct (pick q) as [[top q1]|]; [|eauto].
  destruct HP as [PM _]. destruct (perm_bounded _ _ _ _ PM Bq) as [Bt Bq1].
  pose proof (Permutation_length PM) as PL. simpl in PL.
  replace (match b_dropout b with DPos => true | _ => false end) with false by (destruct (b_dropout b); congruence).
  cbn [andb app].
  destruct (process_spec b top q1 syms w RP Bt)
    as [[-> _]|(w1 & x & n & j & y & m & w2 & rk & syms' & -> & ER & -> & RP' & EL)].
  - apply (IH _ _ _ w); [exact RP|exact Bq1|]. unfold measure in *. simpl in *. lia.
  - eapply IH; [exact RP'| |].
    + rewrite EL. apply Forall_app; split; [apply push_next_bounded; exact Bt|].
      apply Forall_app; split; [|exact Bq1]. rewrite <- EL. eapply push_prev_bounded; exact RP'.
    + pose proof (push_next_length (bpe_merge b) (e_index top) (e_new top) w2) as L1.
      pose proof (push_prev_length (bpe_merge b) w1 (e_new top)) as L2.
      unfold measure in *. rewrite !app_length in *. cbn [length] in *. lia.
Qed.

(** More fuel does not change the result. *)
Lemma merge_loop_mono b pick fuel : forall coins q skip syms r,
  merge_loop b pick fuel coins q skip syms = Some r ->
  forall fuel', (fuel <= fuel')%nat -> merge_loop b pick fuel' coins q skip syms = Some r.
Proof.
  induction fuel as [|fuel IH]; intros coins q skip syms r H fuel' HL; [discriminate|].
  destruct fuel' as [|fuel']; [lia|]. cbn [merge_loop] in *.
  destruct (pick q) as [[top q1]|]; [|exact H].
  destruct (_ && coins 0%nat); [apply (IH _ _ _ _ _ H); lia|].
  destruct (process b top (skip ++ q1) syms) as [[q2 syms']| | |]; try exact H.
  apply (IH _ _ _ _ _ H); lia.
Qed.

(** Dropout decisions that always skip: nothing is merged. *)
Lemma merge_loop_all_skipped b pick : removes_maximal entry_lt pick -> b_dropout b = DPos ->
  forall fuel coins q skip syms r, (forall k, coins k = true) ->
  merge_loop b pick fuel coins q skip syms = Some r -> r = Ok syms.
Proof.
  intros HP HD. induction fuel as [|fuel IH]; intros coins q skip syms r HC H; [discriminate|].
  cbn [merge_loop] in H. destruct (pick q) as [[top q1]|]; [|congruence].
  rewrite HD in H. cbn [andb] in H. rewrite (HC 0%nat) in H.
  eapply IH; [|exact H]. intros k. apply HC.
Qed.

(** ** Canonical order (C35) *)

Section Canonical.
  Variable R : table.
  Variable W : N -> Z.
  Variable P : N -> Prop.
  Hypothesis rule_weight : forall x y r z, P y -> R (x, y) = Some (r, z) ->
    W z = (W x + W y)%Z /\ (0 < W y)%Z.
  Hypothesis rule_P : forall x y r z, P x -> P y -> R (x, y) = Some (r, z) -> P z.

  Definition tail_ok (w : list cell) : Prop := Forall P (tl (ids w)).

  (** Every mergeable pair is queued. *)
  Definition queued (w : list cell) (q : list entry) : Prop :=
    forall c d r z, adj c d w -> R (c_id c, c_id d) = Some (r, z) -> In (mkentry (c_idx c) r z) q.

  (** Every entry still describes its pair, or the pair has outgrown it. *)
  Definition fresh_or_outgrown (w : list cell) (q : list entry) : Prop :=
    forall e c d, In e q -> adj c d w -> c_idx c = e_index e ->
      R (c_id c, c_id d) = Some (e_rank e, e_new e) \/
      (W (e_new e) <= W (c_id c))%Z \/
      (W (e_new e) < W (c_id c) + W (c_id d))%Z.

  Lemma tail_ok_adj w c d : tail_ok w -> adj c d w -> P (c_id d).
  Proof.
    intros H (w1 & w2 & ->). unfold tail_ok in H. rewrite ids_app in H.
    rewrite Forall_forall in H. apply H. destruct w1 as [|e w1]; simpl; [left; reflexivity|].
    apply in_or_app; right; right; left; reflexivity.
  Qed.

  Lemma tail_ok_merge w1 i x n j y m w2 r z :
    tail_ok (w1 ++ (i, x, n) :: (j, y, m) :: w2) -> R (x, y) = Some (r, z) ->
    tail_ok (w1 ++ (i, z, (n + m)%N) :: w2).
  Proof.
    unfold tail_ok. rewrite !ids_app. destruct w1 as [|c w1]; simpl.
    - intros H _. inversion H; assumption.
    - intros H Hr. apply Forall_app in H as [H1 H2]. inversion H2 as [|? ? Hx H3]; subst.
      inversion H3 as [|? ? Hy H4]; subst. apply Forall_app; split; [exact H1|].
      constructor; [exact (rule_P _ _ _ _ Hx Hy Hr)|exact H4].
  Qed.

  Lemma adj_mid w1 e w2 c d : adj c d (w1 ++ e :: w2) ->
    adj c d w1 \/ (d = e /\ exists w1', w1 = w1' ++ [c]) \/
    (c = e /\ exists w2', w2 = d :: w2') \/ adj c d w2.
  Proof.
    intros (v1 & v2 & E). revert v1 E. induction w1 as [|a w1 IH]; intros v1 E.
    - destruct v1 as [|b v1]; simpl in E; inversion E; subst.
      + right; right; left. split; [reflexivity|eauto].
      + right; right; right. exists v1, v2; reflexivity.
    - destruct v1 as [|b v1]; simpl in E; inversion E; subst.
      + destruct w1 as [|a2 w1]; simpl in H1; inversion H1; subst.
        * right; left. split; [reflexivity|]. exists []; reflexivity.
        * left. exists [], w1; reflexivity.
      + destruct (IH v1 H1) as [(x1 & x2 & ->)|[(-> & w1' & ->)|[H|H]]].
        * left. exists (b :: x1), x2; reflexivity.
        * right; left. split; [reflexivity|]. exists (b :: w1'); reflexivity.
        * right; right; left; exact H.
        * right; right; right; exact H.
  Qed.

  Lemma adj_l c d w1 w2 : adj c d w1 -> adj c d (w1 ++ w2).
  Proof. intros (a & b & ->). exists a, (b ++ w2). rewrite <- app_assoc. reflexivity. Qed.
  Lemma adj_r c d w1 w2 : adj c d w2 -> adj c d (w1 ++ w2).
  Proof. intros (a & b & ->). exists (w1 ++ a), b. rewrite <- app_assoc. reflexivity. Qed.

  Lemma adj_in c d w : adj c d w -> In c w /\ In d w.
  Proof.
    intros (a & b & ->). split; apply in_or_app; right; [left; reflexivity|right; left; reflexivity].
  Qed.

  (** The pairs of the word after a merge. *)
  Lemma adj_merge w1 i x n j y m w2 z k c d :
    NoDup (idxs (w1 ++ (i, x, n) :: (j, y, m) :: w2)) ->
    adj c d (w1 ++ (i, z, k) :: w2) ->
    (adj c d (w1 ++ (i, x, n) :: (j, y, m) :: w2) /\ c_idx c <> i) \/
    (d = (i, z, k) /\ c_idx c <> i /\ (exists w1', w1 = w1' ++ [c]) /\
     adj c (i, x, n) (w1 ++ (i, x, n) :: (j, y, m) :: w2)) \/
    (c = (i, z, k) /\ exists w2', w2 = d :: w2').
  Proof.
    intros ND H. rewrite idxs_app in ND. simpl in ND.
    apply NoDup_remove in ND as [ND Hi]. unfold c_idx in Hi; simpl in Hi.
    assert (Hn : forall c, In c w1 \/ In c w2 -> c_idx c <> i).
    { intros e He Ei. apply Hi. apply in_or_app.
      destruct He as [He|He]; [left|right; right]; rewrite <- Ei; apply in_map; exact He. }
    apply adj_mid in H as [H|[(-> & w1' & ->)|[H|H]]].
    - left. split; [apply adj_l; exact H|]. apply Hn. left. apply adj_in in H; tauto.
    - right; left. split; [reflexivity|]. split.
      + apply Hn. left. apply in_or_app; right; left; reflexivity.
      + split; [eauto|]. exists w1', ((j, y, m) :: w2). rewrite <- app_assoc. reflexivity.
    - right; right. exact H.
    - left. split; [|apply Hn; right; apply adj_in in H; tauto].
      apply adj_r. apply (adj_r c d [(i, x, n); (j, y, m)]). exact H.
  Qed.

  Lemma in_push_prev w1 c z r ni : R (c_id c, z) = Some (r, ni) ->
    In (mkentry (c_idx c) r ni) (push_prev R (w1 ++ [c]) z).
  Proof. intros H. unfold push_prev. rewrite rev_app_distr. simpl. rewrite H. left; reflexivity. Qed.

  Lemma in_push_next i z d w2 r ni : R (z, c_id d) = Some (r, ni) ->
    In (mkentry i r ni) (push_next R i z (d :: w2)).
  Proof. intros H. unfold push_next. rewrite H. left; reflexivity. Qed.

  Lemma push_prev_inv w1 z e : In e (push_prev R w1 z) ->
    exists w1' c, w1 = w1' ++ [c] /\ e_index e = c_idx c /\ R (c_id c, z) = Some (e_rank e, e_new e).
  Proof.
    unfold push_prev. destruct w1 as [|c w1] using rev_ind; [contradiction|].
    rewrite rev_app_distr. simpl. destruct (R (c_id c, z)) as [[rk ni]|] eqn:E; [|contradiction].
    intros [<-|[]]. exists w1, c. simpl. auto.
  Qed.

  Lemma push_next_inv i z w2 e : In e (push_next R i z w2) ->
    exists d w2', w2 = d :: w2' /\ e_index e = i /\ R (z, c_id d) = Some (e_rank e, e_new e).
  Proof.
    unfold push_next. destruct w2 as [|d w2]; [contradiction|].
    destruct (R (z, c_id d)) as [[rk ni]|] eqn:E; [|contradiction].
    intros [<-|[]]. exists d, w2. simpl. auto.
  Qed.

  Lemma adj_unique w c d c' d' : NoDup (idxs w) -> adj c d w -> adj c' d' w -> c_idx c = c_idx c' ->
    c = c' /\ d = d'.
  Proof.
    intros ND (a & b & E) (a' & b' & E') H. subst w. revert a' E' ND.
    induction a as [|e a IH]; intros [|e' a'] E' ND; simpl in E', ND; inversion E'; subst; auto.
    - exfalso. inversion ND as [|? ? Hn _]; subst. apply Hn. rewrite H.
      match goal with E : d :: b = _ |- _ => change (c_idx d :: idxs b) with (idxs (d :: b)); rewrite E end.
      rewrite idxs_app. apply in_or_app; right; left; reflexivity.
    - exfalso. inversion ND as [|? ? Hn _]; subst. apply Hn. rewrite <- H.
      rewrite idxs_app. apply in_or_app; right; left; reflexivity.
    - inversion ND; subst. eapply IH; eauto.
  Qed.

  Definition state_ok (w : list cell) (q : list entry) : Prop :=
    tail_ok w /\ queued w q /\ fresh_or_outgrown w q.

  Lemma entry_eta e i r z : e_index e = i -> e_rank e = r -> e_new e = z -> e = mkentry i r z.
  Proof. destruct e; simpl; intros; subst; reflexivity. Qed.

  (** A popped entry that passes the checks is the best pair. *)
  Lemma valid_is_best w1 x n j y m w2 rk q top q1 :
    let w := w1 ++ (e_index top, x, n) :: (j, y, m) :: w2 in
    StronglySorted lt (idxs w) -> state_ok w q ->
    Permutation q (top :: q1) -> Forall (fun e => entry_lt top e = false) q1 ->
    R (x, y) = Some (rk, e_new top) ->
    rk = e_rank top /\
    forall a' x' y' b' r' z', ids w = a' ++ x' :: y' :: b' -> R (x', y') = Some (r', z') ->
      (rk < r' \/ (rk = r' /\ (length w1 <= length a')%nat)).
  Proof.
    intros w HS (HT & HQ & HF) PM MX ER.
    assert (A : adj (e_index top, x, n) (j, y, m) w) by (exists w1, w2; reflexivity).
    assert (Hrk : rk = e_rank top).
    { destruct (HF top _ _ ltac:(eapply Permutation_in; [symmetry; exact PM|left; reflexivity]) A eq_refl)
        as [H|H].
      - unfold c_id in H; simpl in H. congruence.
      - exfalso. pose proof (tail_ok_adj _ _ _ HT A) as Py. unfold c_id in H, Py; simpl in H, Py.
        destruct (rule_weight _ _ _ _ Py ER) as [E1 E2]. lia. }
    split; [exact Hrk|]. intros a' x' y' b' r' z' E ER'.
    assert (exists v1 c d v2, w = v1 ++ c :: d :: v2 /\ ids v1 = a' /\ c_id c = x' /\ c_id d = y')
      as (v1 & c & d & v2 & Ew & Ea & Ex & Ey).
    { clear -E. revert a' E. generalize w as v. induction v as [|c v IH]; intros a' E.
      - destruct a'; discriminate.
      - destruct a' as [|a a']; simpl in E; inversion E; subst.
        + destruct v as [|d v]; simpl in H1; inversion H1; subst. exists [], c, d, v. auto.
        + destruct (IH a' H1) as (v1 & c' & d & v2 & -> & E1 & E2 & E3).
          exists (c :: v1), c', d, v2. simpl. rewrite E1. auto. }
    assert (Hin : In (mkentry (c_idx c) r' z') q).
    { apply (HQ c d); [exists v1, v2; exact Ew|rewrite Ex, Ey; exact ER']. }
    assert (Hlen : length a' = length v1) by (rewrite <- Ea; apply map_length).
    assert (Hord : (c_idx c < e_index top)%nat \/ (length w1 <= length v1)%nat).
    { destruct (Nat.le_gt_cases (length w1) (length v1)) as [H|H]; [auto|left].
      (* c lies strictly before the top position *)
      assert (In (c_idx c) (idxs w1)).
      { assert (E1 : nth_error w (length v1) = Some c).
        { rewrite Ew, nth_error_app2, Nat.sub_diag by lia. reflexivity. }
        unfold w in E1. rewrite nth_error_app1 in E1 by lia. apply nth_error_In in E1. apply in_map; exact E1. }
      unfold w in HS. rewrite idxs_app in HS. apply sorted_app in HS as (_ & _ & HS).
      apply HS; [exact H0|left; reflexivity]. }
    assert (Hmx : entry_lt top (mkentry (c_idx c) r' z') = false).
    { eapply Permutation_in in Hin; [|exact PM]. destruct Hin as [<-|Hin].
      - unfold entry_lt; simpl. rewrite N.eqb_refl. apply Nat.ltb_ge. lia.
      - rewrite Forall_forall in MX. apply MX; exact Hin. }
    unfold entry_lt in Hmx; simpl in Hmx. rewrite Hrk, Hlen.
    destruct (e_rank top =? r') eqn:Er.
    - apply N.eqb_eq in Er. apply Nat.ltb_ge in Hmx. right. split; [exact Er|].
      destruct Hord; [lia|assumption].
    - apply N.eqb_neq in Er. apply N.ltb_ge in Hmx. left. lia.
  Qed.

  Lemma state_merge w1 i x n j y m w2 rk z q1 :
    let w := w1 ++ (i, x, n) :: (j, y, m) :: w2 in
    NoDup (idxs w) -> state_ok w (mkentry i rk z :: q1) ->
    R (x, y) = Some (rk, z) ->
    state_ok (w1 ++ (i, z, (n + m)%N) :: w2) (push_next R i z w2 ++ push_prev R w1 z ++ q1).
  Proof.
    intros w ND (HT & HQ & HF) ER.
    assert (A : adj (i, x, n) (j, y, m) w) by (exists w1, w2; reflexivity).
    assert (Py : P y) by (apply (tail_ok_adj _ _ _ HT A)).
    destruct (rule_weight _ _ _ _ Py ER) as [Wz Wy].
    split; [eapply tail_ok_merge; eauto|]. split.
    - intros c d r zz Hadj Hr.
      destruct (adj_merge w1 i x n j y m w2 z _ c d ND Hadj) as [[Ho Hi]|[(-> & Hi & (w1' & ->) & _)|(-> & w2' & ->)]].
      + specialize (HQ c d r zz Ho Hr). destruct HQ as [E|HQ]; [inversion E; congruence|].
        apply in_or_app; right; apply in_or_app; right; exact HQ.
      + apply in_or_app; right; apply in_or_app; left. exact (in_push_prev w1' c z r zz Hr).
      + apply in_or_app; left. exact (in_push_next i z d w2' r zz Hr).
    - assert (ND' : NoDup (idxs (w1 ++ (i, z, (n + m)%N) :: w2))).
      { unfold w in ND. rewrite idxs_app in *.
        assert (ND2 : NoDup ((idxs w1 ++ [i]) ++ j :: idxs w2)) by (rewrite <- app_assoc; exact ND).
        apply NoDup_remove_1 in ND2. rewrite <- app_assoc in ND2. exact ND2. }
      intros e c d He Hadj Hidx. rewrite app_assoc in He. apply in_app_or in He as [He|He].
      + left. assert (exists c' d', adj c' d' (w1 ++ (i, z, (n + m)%N) :: w2) /\ c_idx c' = e_index e /\
                        R (c_id c', c_id d') = Some (e_rank e, e_new e)) as (c' & d' & A' & I' & R').
        { apply in_app_or in He as [He|He].
          - apply push_next_inv in He as (d' & w2' & -> & E & Hr).
            exists (i, z, (n + m)%N), d'. split; [exists w1, w2'; reflexivity|]. auto.
          - apply push_prev_inv in He as (w1' & c' & -> & E & Hr).
            exists c', (i, z, (n + m)%N). split; [|auto].
            exists w1', w2. rewrite <- app_assoc. reflexivity. }
        destruct (adj_unique _ _ _ _ _ ND' Hadj A') as [-> ->]; [congruence|]. exact R'.
      + assert (He' : In e (mkentry i rk z :: q1)) by (right; exact He).
        destruct (adj_merge w1 i x n j y m w2 z _ c d ND Hadj) as [[Ho Hi]|[(-> & Hi & (w1' & Ew) & Ho)|(-> & w2' & ->)]].
        * apply (HF e c d); assumption.
        * right. destruct (HF e c (i, x, n) He' Ho Hidx) as [H|H].
          -- right. pose proof (tail_ok_adj _ _ _ HT Ho) as Px. unfold c_id in *; simpl in *.
             destruct (rule_weight _ _ _ _ Px H) as [E1 E2]. lia.
          -- unfold c_id in *; simpl in *. lia.
        * right; left. unfold c_idx in Hidx; simpl in Hidx.
          destruct (HF e (i, x, n) (j, y, m) He' A Hidx) as [H|H]; unfold c_id in *; simpl in *.
          -- destruct (rule_weight _ _ _ _ Py H) as [E1 E2]. lia.
          -- lia.
  Qed.

  (** Skipping a stale entry keeps the state. *)
  Lemma state_stale w top q1 : state_ok w (top :: q1) -> stale R top w -> state_ok w q1.
  Proof.
    intros (HT & HQ & HF) ST. split; [exact HT|]. split.
    - intros c d r z A Hr. destruct (HQ c d r z A Hr) as [->|H]; [|exact H]. exfalso.
      destruct A as (v1 & v2 & ->). destruct c as [[i x] n], d as [[j y] m].
      eapply (ST v1 x n j y m v2 r); [reflexivity|]. exact Hr.
    - intros e c d He. apply HF. right; exact He.
  Qed.

  Lemma state_perm w q q' : Permutation q q' -> state_ok w q -> state_ok w q'.
  Proof.
    intros PM (HT & HQ & HF). split; [exact HT|]. split.
    - intros c d r z A Hr. eapply Permutation_in; [exact PM|eauto].
    - intros e c d He. apply HF. eapply Permutation_in; [symmetry; exact PM|exact He].
  Qed.

  Lemma state_empty_irreducible w : queued w [] -> irreducible R (ids w).
  Proof.
    intros HQ a x y b E. destruct (R (x, y)) as [[r z]|] eqn:ER; [|reflexivity]. exfalso.
    assert (exists c d, adj c d w /\ c_id c = x /\ c_id d = y) as (c & d & A & Ex & Ey).
    { clear -E. revert a E. induction w as [|c v IH]; intros a E.
      - destruct a; discriminate.
      - destruct a as [|e a]; simpl in E; inversion E; subst.
        + destruct v as [|d v]; simpl in H1; inversion H1; subst.
          exists c, d. split; [exists [], v; reflexivity|auto].
        + destruct (IH a H1) as (c' & d & (u1 & u2 & ->) & E1 & E2).
          exists c', d. split; [exists (c :: u1), u2; reflexivity|auto]. }
    subst x y. exact (HQ c d r z A ER).
  Qed.
End Canonical.

Lemma merge_loop_canonical b pick (W : N -> Z) (P : N -> Prop) :
  (forall x y r z, P y -> bpe_merge b (x, y) = Some (r, z) -> W z = (W x + W y)%Z /\ (0 < W y)%Z) ->
  (forall x y r z, P x -> P y -> bpe_merge b (x, y) = Some (r, z) -> P z) ->
  removes_maximal entry_lt pick -> b_dropout b <> DPos ->
  forall fuel coins q syms w syms',
  repr w syms -> bounded (length syms) q -> state_ok (bpe_merge b) W P w q ->
  merge_loop b pick fuel coins q [] syms = Some (Ok syms') ->
  exists w', repr w' syms' /\ clos_refl_trans _ (best_step (bpe_merge b)) (ids w) (ids w') /\
    irreducible (bpe_merge b) (ids w').
Proof.
  intros HW HPz HP HD. induction fuel as [|fuel IH]; intros coins q syms w syms' RP Bq ST H; [discriminate|].
  cbn [merge_loop] in H. specialize (HP q). destruct (pick q) as [[top q1]|].
  2:{ inversion H; subst. exists w. split; [exact RP|]. split; [apply rt_refl|].
      eapply state_empty_irreducible. apply ST. }
  destruct HP as [PM MX]. destruct (perm_bounded _ _ _ _ PM Bq) as [Bt Bq1].
  replace (match b_dropout b with DPos => true | _ => false end) with false in H by (destruct (b_dropout b); congruence).
  cbn [andb app] in H.
  destruct (process_spec b top q1 syms w RP Bt)
    as [[E SL]|(w1 & x & n & j & y & m & w2 & rk & syms1 & -> & ER & E & RP' & EL)]; rewrite E in H.
  - apply (IH coins q1 syms w syms' RP Bq1); [|exact H].
    eapply state_stale; [|exact SL]. eapply state_perm; [exact PM|exact ST].
  - destruct (valid_is_best (bpe_merge b) W P HW HPz w1 x n j y m w2 rk q top q1
                (r_sorted _ _ RP) ST PM MX ER) as [Hrk Hbest].
    assert (ST' : state_ok (bpe_merge b) W P (w1 ++ (e_index top, e_new top, (n + m)%N) :: w2)
                    (push_next (bpe_merge b) (e_index top) (e_new top) w2 ++
                     push_prev (bpe_merge b) w1 (e_new top) ++ q1)).
    { apply (state_merge (bpe_merge b) W P HW HPz w1 (e_index top) x n j y m w2 rk (e_new top) q1).
      - apply sorted_nodup. exact (r_sorted _ _ RP).
      - rewrite <- (entry_eta top (e_index top) rk (e_new top)) by congruence.
        eapply state_perm; [exact PM|exact ST].
      - exact ER. }
    destruct (IH coins _ syms1 _ syms' RP' ltac:(
       rewrite EL; apply Forall_app; split; [apply push_next_bounded; exact Bt|];
       apply Forall_app; split; [rewrite <- EL; eapply push_prev_bounded; exact RP'|exact Bq1]) ST' H)
      as (w' & F1 & F2 & F3).
    exists w'. split; [exact F1|]. split; [|exact F3].
    eapply rt_trans; [apply rt_step|exact F2].
    exists (ids w1), x, y, (ids w2), rk, (e_new top). rewrite !ids_app. split; [reflexivity|].
    split; [exact ER|]. split; [reflexivity|].
    intros a' x' y' b' r' z' E1 E2. unfold ids at 1. rewrite map_length.
    apply (Hbest a' x' y' b' r' z'); [rewrite ids_app; exact E1|exact E2].
Qed.

(** ** The textbook algorithm has one result *)

Lemma best_step_functional R w a b : best_step R w a -> best_step R w b -> a = b.
Proof.
  intros (a1 & x1 & y1 & b1 & r1 & z1 & E1 & R1 & -> & M1) (a2 & x2 & y2 & b2 & r2 & z2 & E2 & R2 & -> & M2).
  pose proof (M1 _ _ _ _ _ _ E2 R2) as H1. pose proof (M2 _ _ _ _ _ _ E1 R1) as H2.
  assert (HL : length a1 = length a2) by lia. clear M1 M2 H1 H2. subst w.
  revert a2 E2 HL. induction a1 as [|e a1 IH]; intros [|f a2] E HL; simpl in *; try discriminate; inversion E; subst.
  - rewrite R1 in R2. inversion R2; reflexivity.
  - f_equal. apply IH; [assumption|lia].
Qed.

Lemma canonical_functional R w a b : canonical R w a -> canonical R w b -> a = b.
Proof.
  intros [Ha Ia] [Hb Ib]. apply clos_rt_rt1n in Ha.
  induction Ha as [w|w v a S Ha IH].
  - apply clos_rt_rt1n in Hb. destruct Hb as [|v b S _]; [reflexivity|]. exfalso.
    destruct S as (a1 & x & y & b1 & r & z & -> & Hr & _). rewrite (Ia a1 x y b1 eq_refl) in Hr. discriminate.
  - apply clos_rt_rt1n in Hb. destruct Hb as [|v' b S' Hb].
    + exfalso. destruct S as (a1 & x & y & b1 & r & z & -> & Hr & _). rewrite (Ib a1 x y b1 eq_refl) in Hr. discriminate.
    + rewrite (best_step_functional _ _ _ _ S S') in *. apply IH; [exact Ia|]. apply clos_rt1n_rt; exact Hb.
Qed.
