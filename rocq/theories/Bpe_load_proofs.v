(** Proofs about loading a BPE vocabulary, the initial symbols, the cache. *)
From Coq Require Import Permutation Relations Sorting.Sorted.
From Verif Require Import Base Assoc Bpe_model Bpe_spec Bpe_proofs.
Open Scope N_scope.

Lemma pair_eqb_eq a b : pair_eqb a b = true <-> a = b.
Proof.
  unfold pair_eqb. destruct a, b; simpl. rewrite andb_true_iff, !N.eqb_eq.
  split; [intros [-> ->]; reflexivity|intros H; inversion H; auto].
Qed.

(** ** Loading words *)

Lemma load_words_fields vs : forall b,
  b_unk (load_words vs b) = b_unk b /\ b_dropout (load_words vs b) = b_dropout b /\
  b_fuse (load_words vs b) = b_fuse b /\ b_merge (load_words vs b) = b_merge b /\
  b_prefix (load_words vs b) = b_prefix b /\ b_suffix (load_words vs b) = b_suffix b.
Proof.
  induction vs as [|[s i] vs IH]; intros b; simpl; [auto 10|].
  destruct (IH (mkbpe (b_unk b) (b_dropout b) (b_fuse b)
        (assign list_N_eqb s i (b_vocab b)) (assign N.eqb i s (b_vocab_r b))
        (b_merge b) (b_prefix b) (b_suffix b))) as (-> & -> & -> & -> & -> & ->). simpl. auto 10.
Qed.

Lemma load_words_vocab vs : forall b t, NoDup (map fst vs) ->
  bpe_token_to_id (load_words vs b) t =
  match lookup list_N_eqb t vs with Some i => Some i | None => bpe_token_to_id b t end.
Proof.
  induction vs as [|[s i] vs IH]; intros b t ND; simpl; [reflexivity|].
  inversion ND as [|? ? Hn ND']; subst. rewrite IH by exact ND'.
  unfold bpe_token_to_id at 1; cbn [b_vocab].
  destruct (list_N_eqb t s) eqn:E.
  - apply list_N_eqb_eq in E; subst t.
    replace (lookup list_N_eqb s vs) with (@None N) by (symmetry; apply (lookup_none _ list_N_eqb_eq); exact Hn).
    apply (lookup_assign_same _ list_N_eqb_eq).
  - destruct (lookup list_N_eqb t vs); [reflexivity|].
    apply (lookup_assign_other _ list_N_eqb_eq). apply list_N_eqb_neq; exact E.
Qed.

Lemma load_words_vocab_r vs : forall b i, NoDup (map snd vs) ->
  (forall t, In (t, i) vs -> bpe_id_to_token (load_words vs b) i = Some t) /\
  (~ In i (map snd vs) -> bpe_id_to_token (load_words vs b) i = bpe_id_to_token b i).
Proof.
  induction vs as [|[s j] vs IH]; intros b i ND; simpl; [split; [contradiction|reflexivity]|].
  inversion ND as [|? ? Hn ND']; subst.
  destruct (IH (mkbpe (b_unk b) (b_dropout b) (b_fuse b)
        (assign list_N_eqb s j (b_vocab b)) (assign N.eqb j s (b_vocab_r b))
        (b_merge b) (b_prefix b) (b_suffix b)) i ND') as [IH1 IH2].
  split.
  - intros t [E|H]; [|auto]. inversion E; subst. rewrite IH2 by exact Hn.
    unfold bpe_id_to_token; cbn [b_vocab_r]. apply (lookup_assign_same _ N.eqb_eq).
  - intros H. rewrite IH2 by tauto. unfold bpe_id_to_token; cbn [b_vocab_r].
    apply (lookup_assign_other _ N.eqb_eq). intros ->; apply H; auto.
Qed.

(** ** Loading merges *)

(** Both halves are known and so is the result. *)
Definition good (b : bpe) (p : N * N) (z : N) : Prop :=
  exists t0 t1, bpe_id_to_token b (fst p) = Some t0 /\ bpe_id_to_token b (snd p) = Some t1 /\
    bpe_token_to_id b (merged_token b t0 t1) = Some z.

Definition same_words (b b' : bpe) : Prop :=
  b_unk b' = b_unk b /\ b_dropout b' = b_dropout b /\ b_fuse b' = b_fuse b /\
  b_vocab b' = b_vocab b /\ b_vocab_r b' = b_vocab_r b /\
  b_prefix b' = b_prefix b /\ b_suffix b' = b_suffix b.

Lemma same_words_good b b' p z : same_words b b' -> good b' p z <-> good b p z.
Proof.
  intros (_ & _ & _ & E1 & E2 & E3 & _). unfold good, bpe_id_to_token, bpe_token_to_id, merged_token.
  rewrite E1, E2, E3. tauto.
Qed.

Lemma same_words_trans a b c : same_words a b -> same_words b c -> same_words a c.
Proof. unfold same_words. intuition congruence. Qed.

Lemma good_functional b p z z' : good b p z -> good b p z' -> z = z'.
Proof. intros (t0 & t1 & A & B & C) (s0 & s1 & A' & B' & C'). congruence. Qed.

Lemma last_at_cons {A} (p a : A) l k : last_at p (a :: l) k <->
  (k = 0%nat /\ a = p /\ ~ In p l) \/ exists k', k = S k' /\ last_at p l k'.
Proof.
  unfold last_at. split.
  - intros ([|x u0] & v & E & H & L); simpl in E; inversion E; subst; simpl.
    + left; auto.
    + right. exists (length u0). split; [reflexivity|]. exists u0, v. auto.
  - intros [(-> & -> & H)|(k' & -> & (u0 & v & -> & H & <-))].
    + exists [], l. auto.
    + exists (a :: u0), v. auto.
Qed.

Lemma last_at_nil {A} (p : A) k : ~ last_at p [] k.
Proof. intros ([|? ?] & v & E & _); discriminate. Qed.

Lemma last_at_in {A} (p : A) l k : last_at p l k -> In p l.
Proof. intros (a & b & -> & _). apply in_or_app; right; left; reflexivity. Qed.

Lemma in_last_at {A} (dec : forall a b : A, {a = b} + {a <> b}) (p : A) l : In p l -> exists k, last_at p l k.
Proof.
  induction l as [|a l IH]; [contradiction|]. intros H.
  destruct (in_dec dec p l) as [Hi|Hn].
  - destruct (IH Hi) as [k Hk]. exists (S k). apply last_at_cons. right. eauto.
  - destruct H as [->|H]; [|tauto]. exists 0%nat. apply last_at_cons. left. auto.
Qed.

Lemma last_at_functional {A} (p : A) l : forall k k', last_at p l k -> last_at p l k' -> k = k'.
Proof.
  induction l as [|a l IH]; intros k k' H H'; [destruct (last_at_nil _ _ H)|].
  apply last_at_cons in H as [(-> & _ & H)|(k1 & -> & H)], H' as [(-> & _ & H')|(k2 & -> & H')]; auto.
  - apply last_at_in in H'. tauto.
  - apply last_at_in in H. tauto.
Qed.

Lemma pair_dec : forall a b : N * N, {a = b} + {a <> b}.
Proof. decide equality; apply N.eq_dec. Qed.

Lemma load_merges_spec ms : forall rank b,
  (Forall (fun p => exists z, good b p z) ms /\
   exists b', load_merges rank ms b = (true, b') /\ same_words b b' /\
     (forall p, ~ In p ms -> bpe_merge b' p = bpe_merge b p) /\
     (forall p k, last_at p ms k -> exists z, good b p z /\ bpe_merge b' p = Some (rank + N.of_nat k, z))) \/
  (~ Forall (fun p => exists z, good b p z) ms /\ fst (load_merges rank ms b) = false).
Proof.
  induction ms as [|[x y] ms IH]; intros rank b.
  - left. split; [constructor|]. exists b. split; [reflexivity|]. split; [unfold same_words; auto 10|].
    split; [reflexivity|]. intros p k H. destruct (last_at_nil _ _ H).
  - cbn [load_merges].
    destruct (bpe_id_to_token b x) as [t0|] eqn:E0.
    2:{ right. split; [|reflexivity]. intros H. inversion H as [|? ? (z & t0 & t1 & A & _) _]; subst. simpl in A. congruence. }
    destruct (bpe_id_to_token b y) as [t1|] eqn:E1.
    2:{ right. split; [|reflexivity]. intros H. inversion H as [|? ? (z & s0 & s1 & _ & A & _) _]; subst. simpl in A. congruence. }
    destruct (bpe_token_to_id b (merged_token b t0 t1)) as [nid|] eqn:E2.
    2:{ right. split; [|reflexivity]. intros H. inversion H as [|? ? (z & s0 & s1 & A & B & C) _]; subst. simpl in A, B. congruence. }
    set (b1 := mkbpe _ _ _ _ _ _ _ _).
    assert (SW : same_words b b1) by (unfold same_words, b1; simpl; auto 10).
    assert (G : good b (x, y) nid) by (exists t0, t1; auto).
    destruct (IH (rank + 1) b1) as [(F & b' & EL & SW' & H1 & H2)|(NF & EL)].
    + left. split.
      * constructor; [eauto|]. eapply Forall_impl; [|exact F]. intros p (z & Hz).
        exists z. apply (same_words_good b b1); assumption.
      * exists b'. split; [exact EL|]. split; [exact (same_words_trans _ _ _ SW SW')|]. split.
        -- intros p Hp. simpl in Hp. rewrite H1 by tauto. unfold bpe_merge, b1; cbn [b_merge].
           apply (lookup_assign_other _ pair_eqb_eq). intros ->; apply Hp; auto.
        -- intros p k Hk. apply last_at_cons in Hk as [(-> & <- & Hn)|(k' & -> & Hk)].
           ++ exists nid. split; [exact G|]. rewrite H1 by exact Hn. unfold bpe_merge, b1; cbn [b_merge].
              rewrite (lookup_assign_same _ pair_eqb_eq). simpl. rewrite N.add_0_r. reflexivity.
           ++ destruct (H2 p k' Hk) as (z & Gz & Ez). exists z.
              split; [apply (same_words_good b b1); assumption|]. rewrite Ez.
              replace (rank + 1 + N.of_nat k') with (rank + N.of_nat (S k')) by lia. reflexivity.
    + right. split; [|exact EL]. intros F. apply NF. inversion F as [|? ? _ F']; subst.
      eapply Forall_impl; [|exact F']. intros p (z & Hz). exists z. apply (same_words_good b b1); assumption.
Qed.

Lemma merged_token_joined b t0 t1 : merged_token b t0 t1 = joined (b_prefix b) t0 t1.
Proof. unfold merged_token, joined, slice_from. destruct (length (b_prefix b)); reflexivity. Qed.

(** ** A freshly configured model *)

Definition fresh (unk : ustring) (d : dropout_t) (fuse : bool) (pre suf : ustring) : bpe :=
  mkbpe unk d fuse [] [] [] pre suf.

Section Loaded.
  Variables (unk pre suf : ustring) (d : dropout_t) (fuse : bool) (vs : list (ustring * N)) (ms : list (N * N)).
  Hypothesis NDt : NoDup (map fst vs).
  Hypothesis NDi : NoDup (map snd vs).

  Let b0 := load_words vs (fresh unk d fuse pre suf).

  Lemma b0_token t i : bpe_token_to_id b0 t = Some i <-> In (t, i) vs.
  Proof.
    unfold b0. rewrite load_words_vocab by exact NDt. split.
    - destruct (lookup list_N_eqb t vs) eqn:E; [|discriminate].
      intros H; inversion H; subst. apply (lookup_in _ list_N_eqb_eq); exact E.
    - intros H. rewrite (in_lookup _ list_N_eqb_eq _ _ _ NDt H). reflexivity.
  Qed.

  Lemma b0_id t i : bpe_id_to_token b0 i = Some t <-> In (t, i) vs.
  Proof.
    destruct (load_words_vocab_r vs (fresh unk d fuse pre suf) i NDi) as [H1 H2]. fold b0 in H1, H2. split.
    - intros H. destruct (in_dec N.eq_dec i (map snd vs)) as [Hi|Hn].
      + apply in_map_iff in Hi as ([s j] & Ej & Hi). simpl in Ej; subst j.
        rewrite (H1 s Hi) in H. inversion H; subst; exact Hi.
      + rewrite (H2 Hn) in H. discriminate.
    - apply H1.
  Qed.

  Lemma b0_prefix : b_prefix b0 = pre.
  Proof. unfold b0. destruct (load_words_fields vs (fresh unk d fuse pre suf)) as (_ & _ & _ & _ & E & _). exact E. Qed.

  Lemma good_rule p z : good b0 p z <-> rule pre vs (fst p) (snd p) z.
  Proof.
    unfold good, rule. split; intros (t0 & t1 & A & B & C); exists t0, t1.
    - apply b0_id in A, B. apply b0_token in C. rewrite merged_token_joined, b0_prefix in C. auto.
    - split; [apply b0_id; exact A|]. split; [apply b0_id; exact B|]. apply b0_token.
      rewrite merged_token_joined, b0_prefix. exact C.
  Qed.

  Lemma load_fresh_ok :
    fst (load_vocab (fresh unk d fuse pre suf) vs ms) = true <->
    Forall (fun p => exists z, rule pre vs (fst p) (snd p) z) ms.
  Proof.
    unfold load_vocab. fold b0.
    assert (I : Forall (fun p => exists z, good b0 p z) ms <->
                Forall (fun p => exists z, rule pre vs (fst p) (snd p) z) ms).
    { split; apply Forall_impl; intros p (z & H); exists z; apply good_rule; exact H. }
    destruct (load_merges_spec ms (N.of_nat (length (b_merge b0))) b0) as [(F & b' & E & _)|(NF & E)];
      rewrite E; simpl; rewrite <- I; split; auto; try discriminate; tauto.
  Qed.

  Lemma load_fresh_table b : load_vocab (fresh unk d fuse pre suf) vs ms = (true, b) ->
    describes pre vs ms (bpe_merge b) /\
    (forall t i, bpe_token_to_id b t = Some i <-> In (t, i) vs) /\
    (forall t i, bpe_id_to_token b i = Some t <-> In (t, i) vs) /\
    b_unk b = unk /\ b_dropout b = d /\ b_fuse b = fuse /\ b_prefix b = pre /\ b_suffix b = suf.
  Proof.
    unfold load_vocab. fold b0. intros H.
    destruct (load_merges_spec ms (N.of_nat (length (b_merge b0))) b0) as [(F & b' & E & SW & H1 & H2)|(NF & E)];
      rewrite H in E; [|discriminate]. inversion E; subst b'. clear E.
    destruct (load_words_fields vs (fresh unk d fuse pre suf)) as (E1 & E2 & E3 & E4 & E5 & E6). fold b0 in E1, E2, E3, E4, E5, E6.
    rewrite E4 in H2. simpl in H2.
    destruct SW as (S1 & S2 & S3 & S4 & S5 & S6 & S7).
    split; [|split; [|split]].
    - intros x y r z. split.
      + intros HR. destruct (in_dec pair_dec (x, y) ms) as [Hi|Hn].
        * destruct (in_last_at pair_dec _ _ Hi) as (k & Hk). destruct (H2 _ _ Hk) as (z' & G & Ez).
          rewrite HR in Ez. inversion Ez; subst. split; [eauto|]. apply (good_rule (x, y)); exact G.
        * rewrite (H1 _ Hn) in HR. unfold bpe_merge in HR. rewrite E4 in HR. discriminate.
      + intros ((k & -> & Hk) & HR). destruct (H2 _ _ Hk) as (z' & G & Ez). rewrite Ez.
        rewrite (good_functional b0 (x, y) z' z G); [reflexivity|]. apply good_rule. exact HR.
    - intros t i. unfold bpe_token_to_id. rewrite S4. apply b0_token.
    - intros t i. unfold bpe_id_to_token. rewrite S5. apply b0_id.
    - rewrite S1, S2, S3, S6, S7, E1, E2, E3, E5, E6. auto 10.
  Qed.
End Loaded.

(** ** Initial symbols *)

Definition piece_at (pre suf : ustring) (n : nat) : nat * N -> ustring * N :=
  fun '(i, c) =>
         let s0 := [c] in
         let '(s1, l1) := if Nat.eqb i 0 then (s0, 1) else (pre ++ s0, 1 + N.of_nat (length pre)) in
         if Nat.eqb i (n - 1) then (s1 ++ suf, l1 + N.of_nat (length suf)) else (s1, l1).

Lemma piece_at_fst pre suf n i c : fst (piece_at pre suf n (i, c)) =
  (if Nat.eqb i 0 then [c] else pre ++ [c]) ++ (if Nat.eqb i (n - 1) then suf else []).
Proof. unfold piece_at. destruct (Nat.eqb i 0), (Nat.eqb i (n - 1)); simpl; rewrite ?app_nil_r; reflexivity. Qed.

Lemma rest_pieces_map pre suf text : forall k n, (0 < k)%nat -> n = (k + length text)%nat ->
  map (fun x => fst (piece_at pre suf n x)) (combine (seq k (length text)) text) = rest_pieces pre suf text.
Proof.
  induction text as [|c text IH]; intros k n Hk Hn; [reflexivity|].
  cbn [length seq combine map]. rewrite piece_at_fst.
  replace (Nat.eqb k 0) with false by (symmetry; apply Nat.eqb_neq; lia).
  cbn [length] in Hn. rewrite (IH (S k) n) by lia.
  destruct text as [|c2 text].
  - replace (Nat.eqb k (n - 1)) with true by (symmetry; apply Nat.eqb_eq; simpl in Hn; lia).
    simpl. rewrite <- app_assoc. reflexivity.
  - replace (Nat.eqb k (n - 1)) with false by (symmetry; apply Nat.eqb_neq; simpl in Hn; lia).
    rewrite app_nil_r. reflexivity.
Qed.

Lemma chars_of_pieces b text : map fst (chars_of b text) = pieces (b_prefix b) (b_suffix b) text.
Proof.
  change (chars_of b text) with
    (map (piece_at (b_prefix b) (b_suffix b) (length text)) (combine (seq 0 (length text)) text)).
  rewrite map_map. destruct text as [|c text]; [reflexivity|].
  cbn [length seq combine map]. rewrite piece_at_fst.
  rewrite (rest_pieces_map (b_prefix b) (b_suffix b) text 1 (S (length text))) by lia.
  destruct text as [|c2 text]; reflexivity.
Qed.

Lemma chars_of_len b text : Forall (fun x => snd x <> 0) (chars_of b text).
Proof.
  unfold chars_of. apply Forall_forall. intros x Hx. apply in_map_iff in Hx as ([i c] & <- & _).
  destruct (Nat.eqb i 0), (Nat.eqb i _); simpl; lia.
Qed.

Lemma chars_of_length b text : length (chars_of b text) = length text.
Proof. unfold chars_of. rewrite map_length, combine_length, seq_length. lia. Qed.

Definition last_id (l : list (N * N)) : option N := match rev l with [] => None | (x, _) :: _ => Some x end.

Lemma last_id_snoc l x n : last_id (l ++ [(x, n)]) = Some x.
Proof. unfold last_id. rewrite rev_app_distr. reflexivity. Qed.

Lemma add_chars_spec b cs : Forall (fun x => snd x <> 0) cs ->
  forall l, Forall (fun x => snd x <> 0) l ->
  exists l', fold_left (add_char b) cs (chain 0 l) = chain 0 (l ++ l') /\
    map fst l' = start_ids (bpe_token_to_id b) (unk_id (bpe_token_to_id b) (b_unk b)) (b_fuse b) (last_id l) (map fst cs) /\
    Forall (fun x => snd x <> 0) l' /\ (length l' <= length cs)%nat.
Proof.
  induction 1 as [|[p n] cs Hn HF IH]; intros l Hl.
  - exists []. rewrite app_nil_r. simpl. auto.
  - cbn [fold_left map fst]. simpl in Hn. unfold add_char at 2; cbn [fst snd].
    cbn [start_ids]. destruct (bpe_token_to_id b p) as [id|] eqn:EP.
    + rewrite word_add_chain. destruct (IH (l ++ [(id, n)])) as (l' & E1 & E2 & E3 & E4).
      { apply Forall_app; split; [exact Hl|]. constructor; [exact Hn|constructor]. }
      exists ((id, n) :: l'). rewrite E1, <- app_assoc. split; [reflexivity|].
      split; [simpl; rewrite E2, last_id_snoc; reflexivity|].
      split; [constructor; [exact Hn|exact E3]|simpl; lia].
    + unfold unk_id in *. destruct (b_unk b) as [|u0 us] eqn:EU.
      * destruct (IH l Hl) as (l' & E1 & E2 & E3 & E4). exists l'. simpl. auto.
      * destruct (bpe_token_to_id b (u0 :: us)) as [uid|] eqn:EI.
        2:{ destruct (IH l Hl) as (l' & E1 & E2 & E3 & E4). exists l'. simpl. auto. }
        rewrite last_is_chain.
        assert (EB : match rev l with [] => false | (x, _) :: _ => x =? uid end =
                     match last_id l with Some x => x =? uid | None => false end).
        { unfold last_id. destruct (rev l) as [|[x ?] ?]; reflexivity. }
        rewrite EB. set (q := match last_id l with Some x => x =? uid | None => false end).
        destruct (b_fuse b && q) eqn:EQ.
        -- replace (negb (b_fuse b) || negb q) with false
             by (apply andb_true_iff in EQ as [-> ->]; reflexivity).
           destruct (IH l Hl) as (l' & E1 & E2 & E3 & E4). exists l'. simpl. auto.
        -- replace (negb (b_fuse b) || negb q) with true
             by (destruct (b_fuse b), q; simpl in *; congruence).
           rewrite word_add_chain.
           set (n' := n + N.of_nat (length (u0 :: us))).
           assert (n' <> 0) by (unfold n'; lia).
           destruct (IH (l ++ [(uid, n')])) as (l' & E1 & E2 & E3 & E4).
           { apply Forall_app; split; [exact Hl|]. constructor; [assumption|constructor]. }
           exists ((uid, n') :: l'). rewrite E1, <- app_assoc. split; [reflexivity|].
           split; [simpl; rewrite E2, last_id_snoc; reflexivity|].
           split; [constructor; assumption|simpl; lia].
Qed.

Lemma initial_symbols_spec b text : exists l,
  initial_symbols b text = chain 0 l /\
  map fst l = start_ids (bpe_token_to_id b) (unk_id (bpe_token_to_id b) (b_unk b)) (b_fuse b) None
                (pieces (b_prefix b) (b_suffix b) text) /\
  Forall (fun x => snd x <> 0) l /\ (length l <= length text)%nat.
Proof.
  destruct (add_chars_spec b (chars_of b text) (chars_of_len b text) [] (Forall_nil _))
    as (l & E1 & E2 & E3 & E4).
  exists l. rewrite chars_of_pieces in E2. rewrite chars_of_length in E4. auto.
Qed.

(** ** start_ids against the readable forms *)

Lemma start_ids_plain lk unk : forall ps last, start_ids lk unk false last ps = plain_ids lk unk ps.
Proof.
  induction ps as [|p ps IH]; intros last; [reflexivity|]. cbn [start_ids plain_ids flat_map].
  destruct (lk p); [rewrite IH; reflexivity|]. destruct unk; simpl; rewrite IH; reflexivity.
Qed.

Lemma start_ids_no_unk lk : forall ps fuse last, start_ids lk None fuse last ps = plain_ids lk None ps.
Proof.
  induction ps as [|p ps IH]; intros fuse last; [reflexivity|]. cbn [start_ids plain_ids flat_map].
  destruct (lk p); rewrite IH; reflexivity.
Qed.

Lemma start_ids_known lk unk ps fuse last : Forall (fun p => lk p <> None) ps ->
  start_ids lk unk fuse last ps = plain_ids lk None ps.
Proof.
  intros F; revert last. induction F as [|p ps H F IH]; intros last; [reflexivity|]. cbn [start_ids plain_ids flat_map].
  destruct (lk p); [rewrite IH; reflexivity|tauto].
Qed.

Lemma start_ids_fused lk x ps : Forall (fun p => lk p <> Some x) ps ->
  (forall last, last <> Some x -> fused lk x ps (start_ids lk (Some x) true last ps)) /\
  exists rs ps', ps = rs ++ ps' /\ Forall (fun p => lk p = None) rs /\ ~ unknown_first lk ps' /\
    fused lk x ps' (start_ids lk (Some x) true (Some x) ps).
Proof.
  induction 1 as [|p ps Hp HF [IH1 (rs & ps' & -> & F1 & F2 & F3)]].
  - split; [intros; constructor|]. exists [], []. simpl. repeat split; auto. constructor.
  - cbn [start_ids]. destruct (lk p) as [i|] eqn:EP.
    + assert (fused lk x (p :: rs ++ ps') (i :: start_ids lk (Some x) true (Some i) (rs ++ ps'))).
      { constructor; [exact EP|]. apply IH1. congruence. }
      split; [auto|]. exists [], (p :: rs ++ ps'). simpl. repeat split; auto. congruence.
    + split.
      * intros last Hl. destruct last as [l|]; cbn [andb].
        -- replace (l =? x) with false by (symmetry; apply N.eqb_neq; congruence).
           change (p :: rs ++ ps') with ((p :: rs) ++ ps'). apply fused_run; auto. discriminate.
        -- change (p :: rs ++ ps') with ((p :: rs) ++ ps'). apply fused_run; auto. discriminate.
      * cbn [andb]. rewrite N.eqb_refl. exists (p :: rs), ps'. repeat split; auto.
Qed.

(** ** merge_word *)

Definition start (b : bpe) (text : ustring) : list N :=
  start_ids (bpe_token_to_id b) (unk_id (bpe_token_to_id b) (b_unk b)) (b_fuse b) None
            (pieces (b_prefix b) (b_suffix b) text).

Lemma init_queue_bounded b l k n : n = (k + length (chain k l))%nat -> bounded n (init_queue b k (chain k l)).
Proof.
  intros ->. apply Forall_forall. intros e He. apply init_queue_spec in He as (c & d & (w1 & w2 & E) & E1 & _).
  rewrite E1, chain_length. assert (H : In (c_idx c) (idxs (cells k l))).
  { apply in_map. rewrite E. apply in_or_app; right; left; reflexivity. }
  rewrite cells_idxs in H. apply in_seq in H. lia.
Qed.

Lemma merge_word_total b pick coins text fuel : removes_maximal entry_lt pick ->
  ((4 * length text) * (4 * length text + 1) + length text < fuel)%nat ->
  exists syms, merge_word b pick fuel coins text = Some (Ok syms) /\
    legal (bpe_merge b) (start b text) (map s_id syms).
Proof.
  intros HP HF. destruct (initial_symbols_spec b text) as (l & E & Eid & Hl & HL).
  unfold merge_word, merge_all. rewrite E.
  pose proof (init_queue_length b l 0) as QL.
  destruct (merge_loop_total b pick HP fuel coins (init_queue b 0 (chain 0 l)) [] (chain 0 l) (cells 0 l))
    as (syms & w & E1 & RP & LG).
  - apply chain_repr; exact Hl.
  - apply init_queue_bounded. reflexivity.
  - constructor.
  - unfold measure. rewrite cells_length. simpl length.
    set (T := (3 * length l + length (init_queue b 0 (chain 0 l)) + 0)%nat).
    assert (T <= 4 * length text)%nat by (unfold T; lia). nia.
  - rewrite E1. exists (compact syms). split; [reflexivity|].
    rewrite (compact_ids _ _ RP). unfold start. rewrite <- Eid, <- (cells_ids l 0). exact LG.
Qed.

Lemma merge_word_linear b pick coins text fuel : removes_maximal entry_lt pick -> b_dropout b <> DPos ->
  (4 * length text < fuel)%nat ->
  exists syms, merge_word b pick fuel coins text = Some (Ok syms).
Proof.
  intros HP HD HF. destruct (initial_symbols_spec b text) as (l & E & Eid & Hl & HL).
  unfold merge_word, merge_all. rewrite E.
  pose proof (init_queue_length b l 0) as QL.
  destruct (merge_loop_linear b pick HP HD fuel coins (init_queue b 0 (chain 0 l)) (chain 0 l) (cells 0 l))
    as (syms & E1).
  - apply chain_repr; exact Hl.
  - apply init_queue_bounded. reflexivity.
  - unfold measure. rewrite cells_length. simpl length. lia.
  - rewrite E1. eauto.
Qed.

Lemma merge_word_mono b pick coins text fuel fuel' r :
  merge_word b pick fuel coins text = Some r -> (fuel <= fuel')%nat ->
  merge_word b pick fuel' coins text = Some r.
Proof.
  unfold merge_word, merge_all. intros H HL.
  destruct (merge_loop b pick fuel coins _ [] _) as [o|] eqn:E; [|discriminate].
  rewrite (merge_loop_mono _ _ _ _ _ _ _ _ E _ HL). exact H.
Qed.

(** Any terminating run is a legal one. *)
Lemma merge_word_legal b pick coins text fuel r : removes_maximal entry_lt pick ->
  merge_word b pick fuel coins text = Some r ->
  exists syms, r = Ok syms /\ legal (bpe_merge b) (start b text) (map s_id syms).
Proof.
  intros HP H. set (big := S ((4 * length text) * (4 * length text + 1) + length text)%nat).
  destruct (merge_word_total b pick coins text (Nat.max fuel big) HP ltac:(lia)) as (syms & E & LG).
  rewrite (merge_word_mono _ _ _ _ _ _ _ H (Nat.le_max_l fuel big)) in E.
  inversion E; subst. eauto.
Qed.

Lemma merge_word_skip b pick coins text fuel r : removes_maximal entry_lt pick -> b_dropout b = DPos ->
  (forall k, coins k = true) -> merge_word b pick fuel coins text = Some r ->
  exists syms, r = Ok syms /\ map s_id syms = start b text.
Proof.
  intros HP HD HC H. destruct (initial_symbols_spec b text) as (l & E & Eid & Hl & HL).
  unfold merge_word, merge_all in H. rewrite E in H.
  destruct (merge_loop b pick fuel coins _ [] _) as [o|] eqn:EM; [|discriminate].
  apply (merge_loop_all_skipped b pick HP HD) in EM; [|exact HC]. subst o. inversion H; subst.
  eexists. split; [reflexivity|]. rewrite (compact_ids _ _ (chain_repr _ Hl)), cells_ids. exact Eid.
Qed.

(** ** Canonical order for loaded models *)

Lemma clos_best_legal R w w' : clos_refl_trans _ (best_step R) w w' -> legal R w w'.
Proof.
  induction 1 as [x y H|x|x y z _ H1 _ H2]; [apply rt_step|apply rt_refl|eapply rt_trans; eassumption].
  destruct H as (a & p & q & b & r & z & E & ER & E' & _). exists a, p, q, b, r, z. auto.
Qed.

Lemma queue_state b (W : N -> Z) (P : N -> Prop) l : tail_ok P (cells 0 l) ->
  state_ok (bpe_merge b) W P (cells 0 l) (init_queue b 0 (chain 0 l)).
Proof.
  intros HT. split; [exact HT|]. split.
  - intros c d r z A HR. apply init_queue_spec. exists c, d. simpl. auto.
  - intros e c d He A Hidx. left. apply init_queue_spec in He as (c' & d' & A' & E1 & E2).
    assert (ND : NoDup (idxs (cells 0 l))) by (apply sorted_nodup; apply cells_sorted).
    destruct (adj_unique _ _ _ _ _ ND A A') as [-> ->]; [congruence|exact E2].
Qed.

Lemma table_ext_step R R' w w' : (forall p, R p = R' p) -> best_step R w w' -> best_step R' w w'.
Proof.
  intros HE (a & x & y & b & r & z & E & ER & E' & H). exists a, x, y, b, r, z.
  split; [exact E|]. split; [rewrite <- HE; exact ER|]. split; [exact E'|].
  intros. eapply H; [eassumption|]. rewrite HE. eassumption.
Qed.

Lemma canonical_ext R R' w w' : (forall p, R p = R' p) -> canonical R w w' -> canonical R' w w'.
Proof.
  intros HE [H1 H2]. split.
  - clear H2. induction H1 as [x y H|x|x y z _ IH1 _ IH2]; [apply rt_step|apply rt_refl|eapply rt_trans; eassumption].
    eapply table_ext_step; eassumption.
  - intros a x y b E. rewrite <- HE. eapply H2; exact E.
Qed.

Lemma legal_ext R R' w w' : (forall p, R p = R' p) -> legal R w w' -> legal R' w w'.
Proof.
  intros HE. induction 1 as [x y H|x|x y z _ IH1 _ IH2]; [apply rt_step|apply rt_refl|eapply rt_trans; eassumption].
  destruct H as (a & p & q & b & r & z & E & ER & E'). exists a, p, q, b, r, z. rewrite <- HE. auto.
Qed.

Lemma describes_functional p vs ms R R' : describes p vs ms R -> describes p vs ms R' -> forall q, R q = R' q.
Proof.
  intros H H' [x y]. destruct (R (x, y)) as [[r z]|] eqn:E.
  - symmetry. apply H'. apply H. exact E.
  - destruct (R' (x, y)) as [[r z]|] eqn:E'; [|reflexivity].
    apply H' in E'. apply H in E'. congruence.
Qed.

Lemma reads_functional {A B} (f g : A -> option B) l : reads f l -> reads g l -> forall a, f a = g a.
Proof.
  intros H H' a. destruct (f a) as [b|] eqn:E.
  - symmetry. apply H', H, E.
  - destruct (g a) as [b|] eqn:E'; [|reflexivity]. apply H', H in E'. congruence.
Qed.

Lemma start_ids_ext lk lk' unk fuse ps : (forall t, lk t = lk' t) ->
  forall last, start_ids lk unk fuse last ps = start_ids lk' unk fuse last ps.
Proof.
  intros HE. induction ps as [|p ps IH]; intros last; [reflexivity|]. cbn [start_ids]. rewrite <- HE.
  destruct (lk p); [rewrite IH; reflexivity|]. destruct unk; [|apply IH].
  destruct (_ && _); [apply IH|rewrite IH; reflexivity].
Qed.

Lemma unk_id_ext lk lk' unk : (forall t, lk t = lk' t) -> unk_id lk unk = unk_id lk' unk.
Proof. intros HE. destruct unk; [reflexivity|]. apply HE. Qed.

(** ** Lengths of the pieces *)

Lemma rest_pieces_long pre suf text : Forall (fun p => (length pre < length p)%nat) (rest_pieces pre suf text).
Proof.
  induction text as [|c text IH]; [constructor|]. destruct text as [|c2 text].
  - constructor; [|constructor]. rewrite !app_length; simpl; lia.
  - constructor; [rewrite app_length; simpl; lia|exact IH].
Qed.

Lemma pieces_shape pre suf text : pieces pre suf text = [] \/
  exists p ps, pieces pre suf text = p :: ps /\ Forall (fun p => (length pre < length p)%nat) ps.
Proof.
  destruct text as [|c [|c2 text]]; [left; reflexivity|right..].
  - exists ([c] ++ suf), []. split; [reflexivity|constructor].
  - exists [c], (rest_pieces pre suf (c2 :: text)). split; [reflexivity|apply rest_pieces_long].
Qed.

Lemma glue_rest pre suf text : text <> [] ->
  flat_map (skipn (length pre)) (rest_pieces pre suf text) = text ++ suf.
Proof.
  induction text as [|c text IH]; [congruence|]. intros _. destruct text as [|c2 text].
  - simpl. rewrite app_nil_r. rewrite skipn_app, skipn_all, Nat.sub_diag. reflexivity.
  - change (rest_pieces pre suf (c :: c2 :: text)) with ((pre ++ [c]) :: rest_pieces pre suf (c2 :: text)).
    cbn [flat_map]. rewrite IH by discriminate. rewrite skipn_app, skipn_all, Nat.sub_diag. reflexivity.
Qed.

Lemma glue_pieces pre suf text : text <> [] -> glue pre (pieces pre suf text) = text ++ suf.
Proof.
  intros H. destruct text as [|c [|c2 text]]; [congruence| |].
  - simpl. rewrite app_nil_r. reflexivity.
  - change (pieces pre suf (c :: c2 :: text)) with ([c] :: rest_pieces pre suf (c2 :: text)).
    cbn [glue]. rewrite glue_rest by discriminate. reflexivity.
Qed.

Section LoadedRun.
  Variables (unk pre suf : ustring) (d : dropout_t) (fuse : bool) (vs : list (ustring * N)) (ms : list (N * N)) (b : bpe).
  Hypothesis NDt : NoDup (map fst vs).
  Hypothesis NDi : NoDup (map snd vs).
  Hypothesis HL : load_vocab (fresh unk d fuse pre suf) vs ms = (true, b).

  (** Longer than the prefix. *)
  Let P (id : N) : Prop := exists t, In (t, id) vs /\ (length pre < length t)%nat.
  Let W (id : N) : Z :=
    match bpe_id_to_token b id with Some t => (Z.of_nat (length t) - Z.of_nat (length pre))%Z | None => 0%Z end.

  Let tbl := load_fresh_table unk pre suf d fuse vs ms NDt NDi b HL.

  Lemma token_functional t t' i : In (t, i) vs -> In (t', i) vs -> t = t'.
  Proof.
    destruct tbl as (_ & _ & HI & _). intros H H'. apply HI in H, H'. congruence.
  Qed.

  Lemma W_token t i : In (t, i) vs -> W i = (Z.of_nat (length t) - Z.of_nat (length pre))%Z.
  Proof.
    destruct tbl as (_ & _ & HI & _). intros H. unfold W. apply HI in H. rewrite H. reflexivity.
  Qed.

  Lemma loaded_weight x y r z : P y -> bpe_merge b (x, y) = Some (r, z) -> W z = (W x + W y)%Z /\ (0 < W y)%Z.
  Proof.
    intros (t & Ht & Hl) HR. destruct tbl as (HD & _).
    apply HD in HR as (_ & tx & ty & H1 & H2 & H3).
    rewrite (W_token _ _ H1), (W_token _ _ H2), (W_token _ _ H3).
    assert (t = ty) by (eapply token_functional; eassumption). subst ty.
    unfold joined. rewrite app_length, skipn_length. lia.
  Qed.

  Lemma loaded_P x y r z : P x -> P y -> bpe_merge b (x, y) = Some (r, z) -> P z.
  Proof.
    intros (s & Hs & Hls) (t & Ht & Hlt) HR. destruct tbl as (HD & _).
    apply HD in HR as (_ & tx & ty & H1 & H2 & H3).
    assert (s = tx) by (eapply token_functional; eassumption). subst tx.
    exists (joined pre s ty). split; [exact H3|]. unfold joined. rewrite app_length. lia.
  Qed.

  Lemma start_ids_P u last ps :
    (forall x, u = Some x -> P x) ->
    Forall (fun p => (length pre < length p)%nat) ps ->
    Forall P (start_ids (bpe_token_to_id b) u fuse last ps).
  Proof.
    intros Hu F. revert last. destruct tbl as (_ & HT & _).
    induction F as [|p ps Hp F IH]; intros last; [constructor|]. cbn [start_ids].
    destruct (bpe_token_to_id b p) as [i|] eqn:E.
    - constructor; [|apply IH]. exists p. split; [apply HT; exact E|exact Hp].
    - destruct u as [x|]; [|apply IH]. destruct (_ && _); [apply IH|].
      constructor; [apply Hu; reflexivity|apply IH].
  Qed.

  Lemma start_tail text :
    (forall x, unk_id (bpe_token_to_id b) unk = Some x -> P x) -> Forall P (tl (start b text)).
  Proof.
    intros Hu. destruct tbl as (_ & _ & _ & E1 & _ & E3 & E4 & E5).
    unfold start. rewrite E1, E3, E4, E5.
    destruct (pieces_shape pre suf text) as [->|(p & ps & -> & F)]; [constructor|]. cbn [start_ids].
    destruct (bpe_token_to_id b p) as [i|]; [apply start_ids_P; assumption|].
    destruct (unk_id _ unk) as [x|] eqn:EU.
    - destruct (_ && _); [|apply start_ids_P; assumption].
      pose proof (start_ids_P (Some x) None ps ltac:(intros; apply Hu; assumption) F) as H.
      destruct (start_ids _ _ _ _ _); [constructor|inversion H; assumption].
    - pose proof (start_ids_P None None ps ltac:(discriminate) F) as H.
      destruct (start_ids _ _ _ _ _); [constructor|inversion H; assumption].
  Qed.

  Lemma unk_P : (unk = [] \/ ~ In unk (map fst vs) \/ (length pre < length unk)%nat) ->
    forall x, unk_id (bpe_token_to_id b) unk = Some x -> P x.
  Proof.
    destruct tbl as (_ & HT & _). intros H x E. unfold unk_id in E.
    assert (EI : In (unk, x) vs) by (destruct unk; [discriminate|]; apply HT; exact E).
    exists unk. split; [exact EI|]. destruct H as [H|[H|H]]; [rewrite H in E; discriminate| |exact H].
    exfalso; apply H. apply in_map_iff. exists (unk, x); auto.
  Qed.

  Lemma loaded_canonical pick coins text fuel :
    removes_maximal entry_lt pick -> d <> DPos ->
    (unk = [] \/ ~ In unk (map fst vs) \/ (length pre < length unk)%nat) ->
    (4 * length text < fuel)%nat ->
    exists syms, merge_word b pick fuel coins text = Some (Ok syms) /\
      canonical (bpe_merge b) (start b text) (map s_id syms).
  Proof.
    intros HP HD HU HF.
    assert (HD' : b_dropout b <> DPos) by (destruct tbl as (_ & _ & _ & _ & -> & _); exact HD).
    destruct (merge_word_linear b pick coins text fuel HP HD' HF) as (syms & E).
    exists syms. split; [exact E|].
    destruct (initial_symbols_spec b text) as (l & EI & Eid & Hl & _). fold (start b text) in Eid.
    unfold merge_word, merge_all in E. rewrite EI in E.
    destruct (merge_loop b pick fuel coins _ [] _) as [o|] eqn:EM; [|discriminate].
    destruct o as [syms'| | |]; try discriminate. inversion E; subst syms. clear E.
    destruct (merge_loop_canonical b pick W P loaded_weight loaded_P HP HD' fuel coins
                (init_queue b 0 (chain 0 l)) (chain 0 l) (cells 0 l) syms') as (w' & RP & B & I).
    - apply chain_repr; exact Hl.
    - apply init_queue_bounded. reflexivity.
    - apply queue_state. unfold tail_ok. rewrite cells_ids, Eid. apply start_tail. apply unk_P; exact HU.
    - exact EM.
    - rewrite (compact_ids _ _ RP). rewrite cells_ids, Eid in B. split; assumption.
  Qed.

  (** ** Lossless *)

  Let T (t : ustring) (i : N) : Prop := In (t, i) vs.

  Lemma step_glue w w' ts : merge_step (bpe_merge b) w w' -> Forall P (tl w) -> Forall2 T ts w ->
    exists ts', Forall2 T ts' w' /\ glue pre ts' = glue pre ts /\ Forall P (tl w').
  Proof.
    intros (a & x & y & c & r & z & -> & HR & ->) HP F.
    apply Forall2_app_inv_r in F as (ta & tb & Fa & Fb & ->).
    inversion Fb as [|tx ? tb' ? Hx Fb']; subst. inversion Fb' as [|ty ? tc ? Hy Fc]; subst.
    pose proof HR as HR'. destruct tbl as (HD & _). apply HD in HR as (_ & tx' & ty' & H1 & H2 & H3).
    assert (tx' = tx) by (eapply token_functional; eassumption). subst tx'.
    assert (ty' = ty) by (eapply token_functional; eassumption). subst ty'.
    exists (ta ++ joined pre tx ty :: tc). split.
    { apply Forall2_app; [exact Fa|]. constructor; [exact H3|exact Fc]. }
    destruct a as [|a0 a].
    - inversion Fa; subst. simpl in *. inversion HP as [|? ? Py HP']; subst. split; [|exact HP'].
      unfold joined. rewrite <- app_assoc. reflexivity.
    - inversion Fa as [|ta0 ? ta' ? Ha Fa']; subst. simpl in HP |- *.
      apply Forall_app in HP as [HP1 HP2]. inversion HP2 as [|? ? Px HP3]; subst.
      inversion HP3 as [|? ? Py HP4]; subst. split.
      + f_equal. rewrite !flat_map_app. f_equal. simpl. unfold joined.
        destruct Px as (s & Hs & Hls). assert (s = tx) by (eapply token_functional; eassumption). subst s.
        rewrite skipn_app. replace (length pre - length tx)%nat with 0%nat by lia. simpl.
        rewrite <- app_assoc. reflexivity.
      + apply Forall_app; split; [exact HP1|]. constructor; [|exact HP4].
        exact (loaded_P x y r z Px Py HR').
  Qed.

  Lemma legal_glue w w' : legal (bpe_merge b) w w' -> forall ts, Forall P (tl w) -> Forall2 T ts w ->
    exists ts', Forall2 T ts' w' /\ glue pre ts' = glue pre ts /\ Forall P (tl w').
  Proof.
    induction 1 as [x y H|x|x y z _ IH1 _ IH2]; intros ts HP F.
    - eapply step_glue; eassumption.
    - eauto.
    - destruct (IH1 ts HP F) as (ts1 & F1 & G1 & P1). destruct (IH2 ts1 P1 F1) as (ts2 & F2 & G2 & P2).
      exists ts2. split; [exact F2|]. split; [congruence|exact P2].
  Qed.

  Lemma start_known text : Forall (fun p => In p (map fst vs)) (pieces pre suf text) ->
    Forall2 T (pieces pre suf text) (start b text).
  Proof.
    intros F. destruct tbl as (_ & HT & _ & E1 & _ & E3 & E4 & E5). unfold start. rewrite E1, E3, E4, E5.
    generalize (@None N) as last. induction F as [|p ps H F IH]; intros last; [constructor|].
    cbn [start_ids]. apply in_map_iff in H as ([p' i] & Ep & Hi). simpl in Ep; subst p'.
    rewrite (proj2 (HT p i) Hi). constructor; [exact Hi|apply IH].
  Qed.

  Lemma start_known_tail text : Forall (fun p => In p (map fst vs)) (pieces pre suf text) ->
    Forall P (tl (start b text)).
  Proof.
    intros F. pose proof (start_known text F) as F2. destruct (pieces_shape pre suf text) as [E|(p & ps & E & FL)];
      rewrite E in F2; inversion F2 as [|? i ? is Hi F2']; subst; simpl; [constructor|].
    clear -FL F2'. induction F2' as [|p i ps is H F IH]; [constructor|]. inversion FL; subst.
    constructor; [|auto]. exists p. auto.
  Qed.

  Lemma tokens_unique syms ts : Forall2 T ts (map s_id syms) -> word_to_tokens b syms = ts.
  Proof.
    destruct tbl as (_ & _ & HI & _). revert ts. induction syms as [|s syms IH]; intros ts F; inversion F; subst; [reflexivity|].
    simpl. match goal with H : T _ (s_id s) |- _ => apply HI in H; rewrite H end. f_equal. auto.
  Qed.

  Lemma loaded_lossless pick coins text fuel r :
    removes_maximal entry_lt pick -> text <> [] ->
    Forall (fun p => In p (map fst vs)) (pieces pre suf text) ->
    tokenize b pick fuel coins text = Some r ->
    exists ts, r = Ok ts /\ glue pre ts = text ++ suf /\ Forall (fun t => In t (map fst vs)) ts.
  Proof.
    intros HP HN HK H. unfold tokenize in H. destruct text as [|c text]; [congruence|].
    destruct (merge_word b pick fuel coins (c :: text)) as [o|] eqn:EM; [|discriminate].
    destruct (merge_word_legal _ _ _ _ _ _ HP EM) as (syms & -> & LG). inversion H; subst r.
    destruct (legal_glue _ _ LG _ (start_known_tail _ HK) (start_known _ HK)) as (ts & F & G & _).
    exists ts. rewrite (tokens_unique _ _ F). split; [reflexivity|]. split.
    - rewrite G. apply glue_pieces. discriminate.
    - clear -F. induction F as [|t i ts is H F IH]; constructor; auto. apply in_map_iff. exists (t, i); auto.
  Qed.
End LoadedRun.

(** ** The cache *)

(** A sequence of calls [tokenize(text, result, cache)] sharing one cache; every
    call has its own random numbers. *)
Fixpoint run_cached (b : bpe) (pick : picker) (fuel : nat) (cache : cache_t)
         (calls : list (ustring * (nat -> bool))) : option (outcome (list (list ustring))) :=
  match calls with
  | [] => Some (Ok [])
  | (t, coins) :: calls' =>
      match tokenize_cached b pick fuel coins cache t with
      | Some (Ok (ts, cache')) =>
          match run_cached b pick fuel cache' calls' with
          | Some (Ok rs) => Some (Ok (ts :: rs))
          | r => r
          end
      | Some UB => Some UB
      | Some Fail => Some Fail
      | Some Abort => Some Abort
      | None => None
      end
  end.

(** The same calls without a cache. *)
Fixpoint run_uncached (b : bpe) (pick : picker) (fuel : nat)
         (calls : list (ustring * (nat -> bool))) : option (outcome (list (list ustring))) :=
  match calls with
  | [] => Some (Ok [])
  | (t, coins) :: calls' =>
      match tokenize b pick fuel coins t with
      | Some (Ok ts) =>
          match run_uncached b pick fuel calls' with
          | Some (Ok rs) => Some (Ok (ts :: rs))
          | r => r
          end
      | Some UB => Some UB
      | Some Fail => Some Fail
      | Some Abort => Some Abort
      | None => None
      end
  end.

Lemma merge_loop_coins b pick : b_dropout b <> DPos -> forall fuel c c' q skip syms,
  merge_loop b pick fuel c q skip syms = merge_loop b pick fuel c' q skip syms.
Proof.
  intros HD. induction fuel as [|fuel IH]; intros c c' q skip syms; [reflexivity|].
  cbn [merge_loop]. destruct (pick q) as [[top q1]|]; [|reflexivity].
  replace (match b_dropout b with DPos => true | _ => false end) with false by (destruct (b_dropout b); congruence).
  cbn [andb]. destruct (process b top (skip ++ q1) syms) as [[q2 s2]| | |]; auto.
Qed.

Lemma tokenize_coins b pick fuel c c' t : b_dropout b <> DPos ->
  tokenize b pick fuel c t = tokenize b pick fuel c' t.
Proof.
  intros HD. unfold tokenize, merge_word, merge_all. rewrite (merge_loop_coins b pick HD fuel c c'). reflexivity.
Qed.

Definition cache_sound (b : bpe) (pick : picker) (fuel : nat) (cache : cache_t) : Prop :=
  forall t ts, lookup list_N_eqb t cache = Some ts ->
    forall c, tokenize b pick fuel c t = Some (Ok ts).

Lemma cached_call b pick fuel coins cache t : cache_sound b pick fuel cache \/ b_dropout b <> DZero ->
  match tokenize b pick fuel coins t with
  | Some (Ok ts) => exists cache', tokenize_cached b pick fuel coins cache t = Some (Ok (ts, cache')) /\
                     (b_dropout b <> DZero -> cache' = cache) /\
                     (cache_sound b pick fuel cache -> cache_sound b pick fuel cache')
  | Some UB => tokenize_cached b pick fuel coins cache t = Some UB
  | Some Fail => tokenize_cached b pick fuel coins cache t = Some Fail
  | Some Abort => tokenize_cached b pick fuel coins cache t = Some Abort
  | None => tokenize_cached b pick fuel coins cache t = None
  end.
Proof.
  intros HS. destruct t as [|c0 t]; [simpl; eauto|].
  unfold tokenize_cached.
  set (cg := match b_dropout b with DZero => true | _ => false end).
  destruct (if cg then lookup list_N_eqb (c0 :: t) cache else None) as [ts|] eqn:E.
  - unfold cg in E. destruct (b_dropout b) eqn:ED; try discriminate.
    destruct HS as [HS|HS]; [|congruence]. rewrite (HS _ _ E coins). eexists; split; [reflexivity|]. auto.
  - pose proof (eq_refl (tokenize b pick fuel coins (c0 :: t))) as ET. unfold tokenize at 2 in ET.
    rewrite ET. destruct (merge_word b pick fuel coins (c0 :: t)) as [[syms| | |]|]; try reflexivity.
    eexists. split; [reflexivity|]. split.
    + intros HD. unfold cg. destruct (b_dropout b); congruence.
    + intros HC. unfold cg in *. destruct (b_dropout b) eqn:ED; try exact HC.
      unfold emplace. rewrite E. intros t' ts' HL c.
      cbn [lookup] in HL. destruct (list_N_eqb t' (c0 :: t)) eqn:EQ.
      * apply list_N_eqb_eq in EQ; subst t'. inversion HL; subst.
        rewrite (tokenize_coins b pick fuel c coins) by congruence. exact ET.
      * apply HC. exact HL.
Qed.

Lemma run_cached_equal b pick fuel calls : forall cache, cache_sound b pick fuel cache ->
  run_cached b pick fuel cache calls = run_uncached b pick fuel calls.
Proof.
  induction calls as [|[t coins] calls IH]; intros cache HS; [reflexivity|].
  cbn [run_cached run_uncached]. pose proof (cached_call b pick fuel coins cache t (or_introl HS)) as H.
  destruct (tokenize b pick fuel coins t) as [[ts| | |]|]; try (rewrite H; reflexivity).
  destruct H as (cache' & -> & _ & HS'). rewrite (IH cache' (HS' HS)). reflexivity.
Qed.

(** ** clear *)

Lemma process_ext b b' top q syms : (forall p, bpe_merge b p = bpe_merge b' p) ->
  process b top q syms = process b' top q syms.
Proof.
  intros H. unfold process. destruct (nth_error syms (e_index top)) as [s|]; [|reflexivity].
  destruct (s_len s =? 0); [reflexivity|]. destruct (s_next s) as [np|]; [|reflexivity].
  destruct (nth_error syms np) as [r|]; [|reflexivity]. rewrite <- H.
  destruct (bpe_merge b (s_id s, s_id r)) as [[? nid]|]; [|reflexivity].
  destruct (negb _); [reflexivity|]. cbv zeta. cbn [s_prev s_next s_id].
  set (s3 := match s_next r with Some k => _ | None => _ end).
  f_equal; [|].
  - destruct (s_prev s) as [p|]; [|reflexivity]. destruct (nth_error s3 p); [|reflexivity]. rewrite H. reflexivity.
  - destruct (s_next r) as [k|]; [|reflexivity]. destruct (nth_error s3 k); [|reflexivity]. rewrite H. reflexivity.
Qed.

Lemma merge_loop_ext b b' pick : (forall p, bpe_merge b p = bpe_merge b' p) -> b_dropout b = b_dropout b' ->
  forall fuel c q skip syms, merge_loop b pick fuel c q skip syms = merge_loop b' pick fuel c q skip syms.
Proof.
  intros H HD. induction fuel as [|fuel IH]; intros c q skip syms; [reflexivity|].
  cbn [merge_loop]. rewrite HD. destruct (pick q) as [[top q1]|]; [|reflexivity].
  destruct (_ && c 0%nat); [apply IH|]. rewrite (process_ext b b' top (skip ++ q1) syms H).
  destruct (process b' top (skip ++ q1) syms) as [[q2 s2]| | |]; auto.
Qed.

Lemma init_queue_ext b b' : (forall p, bpe_merge b p = bpe_merge b' p) ->
  forall syms i, init_queue b i syms = init_queue b' i syms.
Proof.
  intros H. induction syms as [|s1 [|s2 syms] IH]; intros i; [reflexivity..|].
  cbn [init_queue] in *. rewrite H, (IH (S i)). reflexivity.
Qed.

(** Equal up to iteration order of the maps. *)
Record alike (b b' : bpe) : Prop := {
  al_unk : b_unk b = b_unk b';
  al_drop : b_dropout b = b_dropout b';
  al_fuse : b_fuse b = b_fuse b';
  al_pre : b_prefix b = b_prefix b';
  al_suf : b_suffix b = b_suffix b';
  al_tok : forall t, bpe_token_to_id b t = bpe_token_to_id b' t;
  al_id : forall i, bpe_id_to_token b i = bpe_id_to_token b' i;
  al_merge : forall p, bpe_merge b p = bpe_merge b' p
}.

Lemma initial_symbols_alike b b' text : b_unk b = b_unk b' -> b_fuse b = b_fuse b' ->
  b_prefix b = b_prefix b' -> b_suffix b = b_suffix b' ->
  (forall t, bpe_token_to_id b t = bpe_token_to_id b' t) ->
  initial_symbols b text = initial_symbols b' text.
Proof.
  intros H1 H2 H3 H4 H5. unfold initial_symbols.
  assert (EC : chars_of b text = chars_of b' text) by (unfold chars_of; rewrite H3, H4; reflexivity).
  rewrite EC. clear EC. generalize (@nil sym) as acc. induction (chars_of b' text) as [|ch cs IH]; intros acc; [reflexivity|].
  cbn [fold_left]. rewrite IH. f_equal. unfold add_char. rewrite H5.
  destruct (bpe_token_to_id b' (fst ch)); [reflexivity|]. rewrite H1. destruct (b_unk b'); [reflexivity|].
  rewrite H5, H2. reflexivity.
Qed.

Lemma tokenize_alike b b' pick fuel coins text : alike b b' ->
  tokenize b pick fuel coins text = tokenize b' pick fuel coins text.
Proof.
  intros [H1 H2 H3 H4 H5 H6 H7 H8]. destruct text as [|c text]; [reflexivity|].
  unfold tokenize, merge_word, merge_all.
  rewrite (initial_symbols_alike b b' (c :: text)) by assumption.
  rewrite (init_queue_ext b b' H8), (merge_loop_ext b b' pick H8 H2).
  destruct (merge_loop b' pick fuel coins _ [] _) as [[syms| | |]|]; try reflexivity.
  do 2 f_equal. unfold word_to_tokens. apply map_ext. intros s. rewrite H7, H1. reflexivity.
Qed.

Definition emptied (b : bpe) : bpe := fresh (b_unk b) (b_dropout b) (b_fuse b) (b_prefix b) (b_suffix b).

Lemma no_rules_start b : (forall p, bpe_merge b p = None) -> forall syms i, init_queue b i syms = [].
Proof.
  intros H. induction syms as [|s1 [|s2 syms] IH]; intros i; [reflexivity..|].
  cbn [init_queue] in *. rewrite H. apply IH.
Qed.

Lemma clear_initial b text : initial_symbols (bpe_clear b) text = [].
Proof.
  unfold initial_symbols. induction (chars_of (bpe_clear b) text) as [|ch cs IH]; [reflexivity|].
  cbn [fold_left]. unfold add_char at 2. cbn [bpe_clear bpe_token_to_id b_vocab lookup b_unk].
  destruct (b_unk b); exact IH.
Qed.

Lemma clear_tokenize b pick fuel coins text : removes_maximal entry_lt pick -> (0 < fuel)%nat ->
  tokenize (bpe_clear b) pick fuel coins text = Some (Ok []) /\
  tokenize (emptied b) pick fuel coins text = Some (Ok []).
Proof.
  intros HP HF. destruct fuel as [|fuel]; [lia|]. destruct text as [|c text]; [split; reflexivity|].
  assert (EP : pick [] = None).
  { specialize (HP []). destruct (pick []) as [[t q]|]; [|reflexivity].
    destruct HP as [HP _]. apply Permutation_nil in HP. discriminate. }
  assert (EI : initial_symbols (emptied b) (c :: text) = []).
  { rewrite <- (clear_initial b (c :: text)). apply initial_symbols_alike; reflexivity. }
  unfold tokenize, merge_word, merge_all. rewrite clear_initial, EI. cbn [init_queue merge_loop]. rewrite EP.
  split; reflexivity.
Qed.

Lemma load_words_only_r vs : forall b b', b_vocab b = b_vocab b' ->
  b_vocab (load_words vs b) = b_vocab (load_words vs b').
Proof.
  induction vs as [|[s i] vs IH]; intros b b' H; [exact H|]. simpl. apply IH. simpl. rewrite H. reflexivity.
Qed.

Lemma load_merges_alike ms : forall rank b b', alike b b' ->
  fst (load_merges rank ms b) = fst (load_merges rank ms b') /\
  alike (snd (load_merges rank ms b)) (snd (load_merges rank ms b')).
Proof.
  induction ms as [|[x y] ms IH]; intros rank b b' A; [split; [reflexivity|exact A]|].
  cbn [load_merges]. rewrite (al_id _ _ A x), (al_id _ _ A y).
  destruct (bpe_id_to_token b' x) as [t0|]; [|split; [reflexivity|exact A]].
  destruct (bpe_id_to_token b' y) as [t1|]; [|split; [reflexivity|exact A]].
  rewrite !merged_token_joined, (al_pre _ _ A), (al_tok _ _ A).
  destruct (bpe_token_to_id b' _) as [nid|]; [|split; [reflexivity|exact A]].
  apply IH. destruct A as [H1 H2 H3 H4 H5 H6 H7 H8]. constructor; simpl; auto.
  intros p. unfold bpe_merge; cbn [b_merge].
  destruct (pair_dec p (x, y)) as [->|Hn].
  - rewrite !(lookup_assign_same _ pair_eqb_eq). reflexivity.
  - rewrite !(lookup_assign_other _ pair_eqb_eq) by exact Hn. apply H8.
Qed.

Lemma reload_alike b vs ms : NoDup (map snd vs) ->
  (forall i t, bpe_id_to_token b i = Some t -> In i (map snd vs)) ->
  fst (load_vocab (bpe_clear b) vs ms) = fst (load_vocab (emptied b) vs ms) /\
  alike (snd (load_vocab (bpe_clear b) vs ms)) (snd (load_vocab (emptied b) vs ms)).
Proof.
  intros ND HC.
  destruct (load_words_fields vs (bpe_clear b)) as (E1 & E2 & E3 & E4 & E5 & E6).
  destruct (load_words_fields vs (emptied b)) as (F1 & F2 & F3 & F4 & F5 & F6).
  unfold load_vocab. rewrite E4, F4. simpl. apply load_merges_alike.
  constructor; try congruence.
  - rewrite E1, F1; reflexivity.
  - rewrite E2, F2; reflexivity.
  - rewrite E3, F3; reflexivity.
  - rewrite E5, F5; reflexivity.
  - rewrite E6, F6; reflexivity.
  - intros t. unfold bpe_token_to_id. rewrite (load_words_only_r vs (bpe_clear b) (emptied b)) by reflexivity. reflexivity.
  - intros i. destruct (load_words_vocab_r vs (bpe_clear b) i ND) as [A1 A2].
    destruct (load_words_vocab_r vs (emptied b) i ND) as [B1 B2].
    destruct (in_dec N.eq_dec i (map snd vs)) as [Hi|Hn].
    + apply in_map_iff in Hi as ([t j] & Ej & Hi). simpl in Ej; subst j. rewrite (A1 t Hi), (B1 t Hi). reflexivity.
    + rewrite A2, B2 by exact Hn. unfold bpe_id_to_token. cbn [bpe_clear emptied fresh b_vocab_r lookup].
      destruct (lookup N.eqb i (b_vocab_r b)) eqn:E; [|reflexivity]. exfalso. apply Hn. eapply HC. exact E.
  - intros p. unfold bpe_merge. rewrite E4, F4. reflexivity.
Qed.

(** ** A priority queue exists *)

Fixpoint extract (best : entry) (acc rest : list entry) : entry * list entry :=
  match rest with
  | [] => (best, acc)
  | e :: r => if entry_lt best e then extract e (best :: acc) r else extract best (e :: acc) r
  end.

Definition pick_max : picker := fun q =>
  match q with [] => None | e :: q' => Some (extract e [] q') end.

Lemma entry_lt_step best e o : entry_lt best e = true -> entry_lt best o = false -> entry_lt e o = false.
Proof.
  unfold entry_lt. destruct best as [i r z], e as [i' r' z'], o as [i'' r'' z'']; simpl.
  destruct (r =? r') eqn:E1, (r =? r'') eqn:E2, (r' =? r'') eqn:E3; lia.
Qed.

Lemma entry_lt_asym a b : entry_lt a b = true -> entry_lt b a = false.
Proof.
  unfold entry_lt. destruct a as [i r z], b as [i' r' z']; simpl.
  destruct (r =? r') eqn:E1, (r' =? r) eqn:E2; lia.
Qed.

Lemma extract_spec rest : forall best acc, Forall (fun e => entry_lt best e = false) acc ->
  let '(t, q) := extract best acc rest in
  Permutation (best :: acc ++ rest) (t :: q) /\ Forall (fun e => entry_lt t e = false) q.
Proof.
  induction rest as [|e rest IH]; intros best acc F; simpl.
  - rewrite app_nil_r. split; [apply Permutation_refl|exact F].
  - destruct (entry_lt best e) eqn:E.
    + specialize (IH e (best :: acc)). destruct (extract e (best :: acc) rest) as [t q].
      destruct IH as [IP IF].
      { constructor; [apply entry_lt_asym; exact E|]. eapply Forall_impl; [|exact F].
        intros o Ho. eapply entry_lt_step; eassumption. }
      split; [|exact IF]. eapply Permutation_trans; [|exact IP].
      transitivity (best :: e :: acc ++ rest); [|apply perm_swap].
      apply perm_skip. symmetry. apply Permutation_middle.
    + specialize (IH best (e :: acc) ltac:(constructor; assumption)).
      destruct (extract best (e :: acc) rest) as [t q]. destruct IH as [IP IF].
      split; [|exact IF]. eapply Permutation_trans; [|exact IP].
      apply perm_skip. symmetry. apply Permutation_middle.
Qed.

Lemma pick_max_ok : removes_maximal entry_lt pick_max.
Proof.
  intros [|e q]; [reflexivity|]. unfold pick_max.
  pose proof (extract_spec q e [] (Forall_nil _)) as H. simpl in H.
  destruct (extract e [] q) as [t q']. exact H.
Qed.

(** ** Every id of a result is in the vocabulary *)

Section Known.
  Variables (unk pre suf : ustring) (d : dropout_t) (fuse : bool) (vs : list (ustring * N)) (ms : list (N * N)) (b : bpe).
  Hypothesis NDt : NoDup (map fst vs).
  Hypothesis NDi : NoDup (map snd vs).
  Hypothesis HL : load_vocab (fresh unk d fuse pre suf) vs ms = (true, b).
  Let tbl := load_fresh_table unk pre suf d fuse vs ms NDt NDi b HL.
  Let K (i : N) : Prop := exists t, In (t, i) vs.

  Lemma start_in_vocab text : Forall K (start b text).
  Proof.
    destruct tbl as (_ & HT & _). unfold start. generalize (@None N) as last.
    induction (pieces (b_prefix b) (b_suffix b) text) as [|p ps IH]; intros last; [constructor|].
    cbn [start_ids]. destruct (bpe_token_to_id b p) as [i|] eqn:E.
    - constructor; [exists p; apply HT; exact E|apply IH].
    - destruct (unk_id _ _) as [x|] eqn:EU; [|apply IH]. destruct (_ && _); [apply IH|].
      constructor; [|apply IH]. exists (b_unk b). apply HT. clear -EU. unfold unk_id in EU.
      destruct (b_unk b); [discriminate|exact EU].
  Qed.

  Lemma legal_in_vocab w w' : legal (bpe_merge b) w w' -> Forall K w -> Forall K w'.
  Proof.
    induction 1 as [x y H|x|x y z _ IH1 _ IH2]; auto. intros F.
    destruct H as (a & p & q & c & r & z & -> & HR & ->). apply Forall_app in F as [F1 F2].
    inversion F2 as [|? ? _ F3]; subst. inversion F3 as [|? ? _ F4]; subst.
    apply Forall_app; split; [exact F1|]. constructor; [|exact F4].
    destruct tbl as (HD & _). apply HD in HR as (_ & tx & ty & _ & _ & H3). eexists; exact H3.
  Qed.

  Lemma known_tokens w : Forall K w -> exists ts, Forall2 (fun t i => In (t, i) vs) ts w.
  Proof.
    induction 1 as [|i w (t & Ht) F (ts & IH)]; [exists []; constructor|]. exists (t :: ts). constructor; assumption.
  Qed.

  Lemma loaded_legal pick coins text fuel r : removes_maximal entry_lt pick ->
    tokenize b pick fuel coins text = Some r ->
    exists out ts, r = Ok ts /\ Forall2 (fun t i => In (t, i) vs) ts out /\
      legal (bpe_merge b) (start b text) out /\
      (d = DPos -> (forall k, coins k = true) -> out = start b text).
  Proof.
    intros HP H. destruct text as [|c text].
    - inversion H; subst. exists [], []. split; [reflexivity|]. split; [constructor|].
      split; [apply rt_refl|reflexivity].
    - unfold tokenize in H. destruct (merge_word b pick fuel coins (c :: text)) as [o|] eqn:EM; [|discriminate].
      destruct (merge_word_legal _ _ _ _ _ _ HP EM) as (syms & -> & LG). inversion H; subst r.
      destruct (known_tokens (map s_id syms)) as (ts & F).
      { eapply legal_in_vocab; [exact LG|apply start_in_vocab]. }
      exists (map s_id syms), ts. rewrite (tokens_unique unk pre suf d fuse vs ms b NDt NDi HL syms ts F).
      split; [reflexivity|]. split; [exact F|]. split; [exact LG|].
      intros HD HC. assert (HD' : b_dropout b = DPos) by (destruct tbl as (_ & _ & _ & _ & -> & _); exact HD).
      destruct (merge_word_skip _ _ _ _ _ _ HP HD' HC EM) as (syms' & E & ES). inversion E; subst. exact ES.
  Qed.

  Lemma loaded_start lk text : reads lk vs ->
    start b text = start_ids lk (unk_id lk unk) fuse None (pieces pre suf text).
  Proof.
    intros HR. destruct tbl as (_ & HT & _ & E1 & _ & E3 & E4 & E5). unfold start. rewrite E1, E3, E4, E5.
    assert (HE : forall t, bpe_token_to_id b t = lk t).
    { apply (reads_functional _ _ vs); [|exact HR]. intros t i. apply HT. }
    rewrite (unk_id_ext _ lk _ HE). apply start_ids_ext. exact HE.
  Qed.

  Lemma loaded_result R lk text : d <> DPos -> describes pre vs ms R -> reads lk vs ->
    (unk = [] \/ ~ In unk (map fst vs) \/ (length pre < length unk)%nat) ->
    exists out ts,
      canonical R (start_ids lk (unk_id lk unk) fuse None (pieces pre suf text)) out /\
      Forall2 (fun t i => In (t, i) vs) ts out /\
      forall pick coins fuel, removes_maximal entry_lt pick -> (4 * length text < fuel)%nat ->
        tokenize b pick fuel coins text = Some (Ok ts).
  Proof.
    intros HD HR Hlk HU. rewrite <- (loaded_start lk text Hlk).
    assert (HE : forall q, bpe_merge b q = R q).
    { apply (describes_functional pre vs ms); [apply tbl|exact HR]. }
    destruct text as [|c text].
    { exists [], []. split; [|split; [constructor|reflexivity]].
      split; [apply rt_refl|]. intros [|? ?] x y z; discriminate. }
    destruct (loaded_canonical unk pre suf d fuse vs ms b NDt NDi HL pick_max (fun _ => false) (c :: text)
                (S (4 * length (c :: text))) pick_max_ok HD HU (Nat.lt_succ_diag_r _)) as (syms & _ & CN).
    destruct (known_tokens (map s_id syms)) as (ts & F).
    { eapply legal_in_vocab; [apply clos_best_legal; apply CN|apply start_in_vocab]. }
    exists (map s_id syms), ts. split; [eapply canonical_ext; eassumption|]. split; [exact F|].
    intros pick coins fuel HP HF.
    destruct (loaded_canonical unk pre suf d fuse vs ms b NDt NDi HL pick coins (c :: text) fuel HP HD HU HF)
      as (syms' & EM & CN').
    unfold tokenize. rewrite EM. f_equal. f_equal.
    apply (tokens_unique unk pre suf d fuse vs ms b NDt NDi HL).
    rewrite (canonical_functional _ _ _ _ CN' CN). exact F.
  Qed.
End Known.

(** ** Loading twice *)

Lemma length_remove_absent (p : N * N) (m : list ((N * N) * (N * N))) :
  lookup pair_eqb p m = None -> length (remove_key pair_eqb p m) = length m.
Proof.
  induction m as [|[k v] m IH]; simpl; [reflexivity|].
  destruct (pair_eqb p k) eqn:E; [discriminate|]. intros H. simpl. rewrite IH by exact H. reflexivity.
Qed.

Lemma load_merges_length ms : forall rank b b', NoDup ms -> Forall (fun p => bpe_merge b p = None) ms ->
  load_merges rank ms b = (true, b') -> length (b_merge b') = (length (b_merge b) + length ms)%nat.
Proof.
  induction ms as [|[x y] ms IH]; intros rank b b' ND F H; [inversion H; subst; simpl; lia|].
  cbn [load_merges] in H.
  destruct (bpe_id_to_token b x) as [t0|]; [|discriminate].
  destruct (bpe_id_to_token b y) as [t1|]; [|discriminate].
  destruct (bpe_token_to_id b _) as [nid|]; [|discriminate].
  inversion ND as [|? ? Hn ND']; subst. inversion F as [|? ? Hp F']; subst.
  apply IH in H; [|exact ND'|].
  2:{ apply Forall_forall; intros p Hp'; unfold bpe_merge; cbn [b_merge].
      rewrite (lookup_assign_other _ pair_eqb_eq) by (intros ->; tauto).
      rewrite Forall_forall in F'; apply F'; exact Hp'. }
  rewrite H.
  cbn [b_merge]. unfold assign. cbn [length]. rewrite length_remove_absent by exact Hp. lia.
Qed.

Lemma second_load_ranks unk d fuse pre suf vs1 ms1 vs2 ms2 b1 b2 :
  NoDup ms1 ->
  load_vocab (fresh unk d fuse pre suf) vs1 ms1 = (true, b1) ->
  load_vocab b1 vs2 ms2 = (true, b2) ->
  forall p q rp zp rq zq, In p ms1 -> ~ In p ms2 -> In q ms2 ->
    bpe_merge b2 p = Some (rp, zp) -> bpe_merge b2 q = Some (rq, zq) -> rp < rq.
Proof.
  intros ND H1 H2 p q rp zp rq zq Hp Hp2 Hq Rp Rq.
  unfold load_vocab in H1, H2.
  destruct (load_words_fields vs1 (fresh unk d fuse pre suf)) as (_ & _ & _ & E4 & _).
  destruct (load_words_fields vs2 b1) as (_ & _ & _ & F4 & _).
  rewrite E4 in H1. rewrite F4 in H2. simpl in H1.
  set (w1 := load_words vs1 _) in *. set (w2 := load_words vs2 b1) in *.
  assert (HN : Forall (fun p => bpe_merge w1 p = None) ms1).
  { apply Forall_forall. intros q' _. unfold bpe_merge. rewrite E4. reflexivity. }
  pose proof (load_merges_length ms1 0 w1 b1 ND HN H1) as HLn. rewrite E4 in HLn. simpl in HLn.
  destruct (load_merges_spec ms1 0 w1) as [(_ & b' & E & _ & _ & A2)|(_ & E)]; rewrite H1 in E; [|discriminate].
  inversion E; subst b'.
  destruct (load_merges_spec ms2 (N.of_nat (length (b_merge b1))) w2) as [(_ & b' & E' & _ & B1 & B2)|(_ & E')];
    rewrite H2 in E'; [|discriminate]. inversion E'; subst b'.
  destruct (in_last_at pair_dec _ _ Hp) as (k & Hk). destruct (A2 _ _ Hk) as (z & _ & Ez).
  assert (bpe_merge b2 p = bpe_merge b1 p).
  { rewrite B1 by exact Hp2. unfold bpe_merge. rewrite F4. reflexivity. }
  destruct (in_last_at pair_dec _ _ Hq) as (k' & Hk'). destruct (B2 _ _ Hk') as (z' & _ & Ez').
  assert (k < length ms1)%nat.
  { destruct Hk as (a & c & -> & _ & <-). rewrite app_length. simpl. lia. }
  rewrite H, Ez in Rp. rewrite Ez' in Rq. inversion Rp; inversion Rq; subst. lia.
Qed.

(** The ranks after two loads, whatever is repeated. *)
Lemma assign_keys (p : N * N) (v : N * N) m : NoDup (map fst m) ->
  NoDup (map fst (assign pair_eqb p v m)) /\ forall k, In k (map fst (assign pair_eqb p v m)) <-> k = p \/ In k (map fst m).
Proof.
  intros ND. unfold assign, remove_key. cbn [map fst].
  assert (M : forall k, In k (map fst (filter (fun kv : (N * N) * (N * N) => negb (pair_eqb p (fst kv))) m)) <-> k <> p /\ In k (map fst m)).
  { intros k. rewrite !in_map_iff. split.
    - intros (kv & <- & H). apply filter_In in H as (H & E). split; [|eauto]. intros Q. rewrite Q in E.
      rewrite (proj2 (pair_eqb_eq p p) eq_refl) in E. discriminate E.
    - intros (Hk & kv & <- & H). exists kv. split; [reflexivity|]. apply filter_In. split; [exact H|].
      destruct (pair_eqb p (fst kv)) eqn:E; [|reflexivity]. apply pair_eqb_eq in E. congruence. }
  split.
  - constructor; [rewrite M; tauto|]. clear M. induction m as [|kv m IH]; [constructor|]. cbn [map] in ND. inversion ND as [|? ? Hn ND']; subst.
    cbn [filter]. destruct (pair_eqb p (fst kv)); cbn [negb]; [apply IH, ND'|]. cbn [map]. constructor; [|apply IH, ND'].
    intros H. apply Hn. apply in_map_iff in H as (x & E & Hx). apply filter_In in Hx as (Hx & _). rewrite <- E. apply in_map, Hx.
  - intros k. cbn [In]. rewrite M. destruct (pair_dec k p) as [->|]; intuition.
Qed.

Lemma load_merges_keys ms : forall rank b b', NoDup (map fst (b_merge b)) -> load_merges rank ms b = (true, b') ->
  NoDup (map fst (b_merge b')) /\ forall k, In k (map fst (b_merge b')) <-> In k ms \/ In k (map fst (b_merge b)).
Proof.
  induction ms as [|[x y] ms IH]; intros rank b b' ND H; [inversion H; subst; cbn [In]; tauto|].
  cbn [load_merges] in H.
  destruct (bpe_id_to_token b x) as [t0|]; [|discriminate].
  destruct (bpe_id_to_token b y) as [t1|]; [|discriminate].
  destruct (bpe_token_to_id b _) as [nid|]; [|discriminate].
  destruct (assign_keys (x, y) (rank, nid) (b_merge b) ND) as (N1 & M1).
  apply IH in H; [|exact N1]. destruct H as (N2 & M2). split; [exact N2|]. intros k. rewrite M2. cbn [b_merge In]. rewrite M1.
  intuition.
Qed.

Lemma two_load_ranks unk d fuse pre suf vs1 ms1 vs2 ms2 b1 b2 :
  load_vocab (fresh unk d fuse pre suf) vs1 ms1 = (true, b1) ->
  load_vocab b1 vs2 ms2 = (true, b2) ->
  (forall p k, last_at p ms1 k -> ~ In p ms2 -> exists z, bpe_merge b2 p = Some (N.of_nat k, z)) /\
  (forall q k, last_at q ms2 k -> exists z, bpe_merge b2 q = Some (N.of_nat (length (nodup pair_dec ms1) + k), z)).
Proof.
  intros H1 H2. unfold load_vocab in H1, H2.
  destruct (load_words_fields vs1 (fresh unk d fuse pre suf)) as (_ & _ & _ & E4 & _).
  destruct (load_words_fields vs2 b1) as (_ & _ & _ & F4 & _).
  rewrite E4 in H1. rewrite F4 in H2. simpl in H1.
  set (w1 := load_words vs1 _) in *. set (w2 := load_words vs2 b1) in *.
  destruct (load_merges_keys ms1 0 w1 b1) as (N1 & M1); [rewrite E4; constructor|exact H1|].
  rewrite E4 in M1. cbn [fresh b_merge map In] in M1.
  assert (LN : length (b_merge b1) = length (nodup pair_dec ms1)).
  { rewrite <- (map_length fst). apply Nat.le_antisymm; apply NoDup_incl_length; try exact N1; try apply NoDup_nodup; intros k Hk.
    - apply nodup_In. apply M1 in Hk. tauto.
    - apply nodup_In in Hk. apply M1. tauto. }
  destruct (load_merges_spec ms1 0 w1) as [(_ & b' & E & _ & _ & A2)|(_ & E)]; rewrite H1 in E; [|discriminate].
  inversion E; subst b'.
  destruct (load_merges_spec ms2 (N.of_nat (length (b_merge b1))) w2) as [(_ & b' & E' & _ & B1 & B2)|(_ & E')];
    rewrite H2 in E'; [|discriminate]. inversion E'; subst b'. split.
  - intros p k Hk Hp2. destruct (A2 _ _ Hk) as (z & _ & Ez). exists z.
    rewrite B1 by exact Hp2. unfold bpe_merge at 1. rewrite F4. exact Ez.
  - intros q k Hk. destruct (B2 _ _ Hk) as (z & _ & Ez). exists z. rewrite Ez. do 2 f_equal. lia.
Qed.

(** ** The overload taking token strings *)

Lemma merge_ids_spec vs ts : NoDup (map fst vs) ->
  match merge_ids vs ts with
  | Some ms => Forall2 (fun t p => In (fst t, fst p) vs /\ In (snd t, snd p) vs) ts ms
  | None => exists t, In t ts /\ (~ In (fst t) (map fst vs) \/ ~ In (snd t) (map fst vs))
  end.
Proof.
  intros ND. induction ts as [|[t0 t1] ts IH]; simpl; [constructor|].
  destruct (lookup list_N_eqb t0 vs) as [i0|] eqn:E0.
  2:{ apply (lookup_none _ list_N_eqb_eq) in E0. exists (t0, t1). auto. }
  destruct (lookup list_N_eqb t1 vs) as [i1|] eqn:E1.
  2:{ apply (lookup_none _ list_N_eqb_eq) in E1. exists (t0, t1). auto. }
  apply (lookup_in _ list_N_eqb_eq) in E0, E1.
  destruct (merge_ids vs ts) as [ms|]; simpl.
  - constructor; auto.
  - destruct IH as (t & Ht & H). exists t. auto.
Qed.

Lemma load_tokens_ok unk d fuse pre suf vs ts : NoDup (map fst vs) -> NoDup (map snd vs) ->
  fst (load_vocab_tokens (fresh unk d fuse pre suf) vs ts) = true <->
  Forall (fun t => In (fst t) (map fst vs) /\ In (snd t) (map fst vs) /\
                   In (joined pre (fst t) (snd t)) (map fst vs)) ts.
Proof.
  intros NDt NDi. unfold load_vocab_tokens. pose proof (merge_ids_spec vs ts NDt) as H.
  destruct (merge_ids vs ts) as [ms|].
  - rewrite load_fresh_ok by assumption. split; intros F.
    + induction H as [|t p ts ms (A & B) H IH]; [constructor|]. inversion F as [|? ? (z & tx & ty & C1 & C2 & C3) F']; subst.
      constructor; [|auto].
      assert (FU : forall t t' i, In (t, i) vs -> In (t', i) vs -> t = t').
      { clear -NDi. intros t t' i H1 H2. induction vs as [|[s j] l IHl]; [contradiction|]. simpl in NDi.
        inversion NDi; subst. destruct H1 as [E1|H1], H2 as [E2|H2].
        - congruence.
        - inversion E1; subst. exfalso. apply H3. apply in_map_iff. exists (t', i); auto.
        - inversion E2; subst. exfalso. apply H3. apply in_map_iff. exists (t, i); auto.
        - auto. }
      rewrite (FU _ _ _ C1 A), (FU _ _ _ C2 B) in C3.
      split; [apply in_map_iff; exists (fst t, fst p); auto|].
      split; [apply in_map_iff; exists (snd t, snd p); auto|].
      apply in_map_iff. eexists (_, _). split; [|exact C3]. reflexivity.
    + induction H as [|t p ts ms (A & B) H IH]; [constructor|]. inversion F as [|? ? (C1 & C2 & C3) F']; subst.
      constructor; [|auto]. apply in_map_iff in C3 as ([s z] & Es & Hz). simpl in Es; subst s.
      exists z, (fst t), (snd t). auto.
  - destruct H as (t & Ht & H). split; [discriminate|]. intros F. rewrite Forall_forall in F.
    destruct (F t Ht) as (A & B & _). destruct H; contradiction.
Qed.
