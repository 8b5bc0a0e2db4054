(** Proofs about the prefix tree and the WordPiece stage. *)
From Verif Require Import Base Trie_model Trie_spec.

(** ** Children *)

Lemma child_set_same c n ch : child c ch <> None -> child c (set_child c n ch) = Some n.
Proof.
  induction ch as [|[d m] ch IH]; simpl; intros H; [congruence|].
  destruct (N.eqb_spec c d) as [->|Hne]; simpl.
  - rewrite N.eqb_refl; reflexivity.
  - destruct (N.eqb_spec c d); [contradiction|]. auto.
Qed.

Lemma child_set_other c d n ch : c <> d -> child c (set_child d n ch) = child c ch.
Proof.
  intros Hne; induction ch as [|[e m] ch IH]; simpl; [reflexivity|].
  destruct (N.eqb_spec d e) as [->|H1]; simpl.
  - destruct (N.eqb_spec c e); [contradiction|reflexivity].
  - destruct (N.eqb_spec c e); [reflexivity|exact IH].
Qed.

(** ** What a node knows: ids along paths, and which paths exist *)

Definition id_at (n : trie_node) (s : list N) : N :=
  match find_walk n s with Some m => node_id m | None => INVALID end.

Definition has_path (n : trie_node) (s : list N) : Prop := find_walk n s <> None.

Lemma find_walk_app n s r :
  find_walk n (s ++ r) = match find_walk n s with Some m => find_walk m r | None => None end.
Proof.
  revert n; induction s as [|c s IH]; intros n; simpl; [reflexivity|].
  destruct (child c (node_children n)); [apply IH|reflexivity].
Qed.

Lemma find_new_node s : find_walk new_node s = match s with [] => Some new_node | _ => None end.
Proof. destruct s; reflexivity. Qed.

Lemma id_at_add n s id q :
  id_at (add_walk n s id) q = if list_N_eq_dec q s then id else id_at n q.
Proof.
  revert n q; induction s as [|c s IH]; intros n q; simpl.
  - destruct q as [|d q]; simpl; [reflexivity|].
    unfold id_at; simpl; reflexivity.
  - destruct q as [|d q].
    + destruct (list_N_eq_dec [] (c :: s)); [discriminate|].
      destruct (child c (node_children n)); reflexivity.
    + destruct (list_N_eq_dec (d :: q) (c :: s)) as [E|E].
      * inversion E; subst d q. clear E.
        destruct (child c (node_children n)) as [m|] eqn:Hc.
        -- unfold id_at. cbn [find_walk node_children].
           rewrite child_set_same by congruence.
           specialize (IH m s). unfold id_at in IH.
           destruct (list_N_eq_dec s s); [exact IH|congruence].
        -- unfold id_at. cbn [find_walk node_children child].
           rewrite N.eqb_refl.
           specialize (IH new_node s). unfold id_at in IH.
           destruct (list_N_eq_dec s s); [exact IH|congruence].
      * destruct (N.eq_dec d c) as [->|Hdc].
        -- assert (Hq : q <> s) by congruence.
           destruct (child c (node_children n)) as [m|] eqn:Hc.
           ++ unfold id_at. cbn [find_walk node_children].
              rewrite child_set_same by congruence. rewrite Hc.
              specialize (IH m q). unfold id_at in IH.
              destruct (list_N_eq_dec q s); [congruence|exact IH].
           ++ unfold id_at. cbn [find_walk node_children child].
              rewrite N.eqb_refl, Hc.
              specialize (IH new_node q). unfold id_at in IH.
              destruct (list_N_eq_dec q s); [congruence|].
              rewrite IH. rewrite find_new_node. destruct q; reflexivity.
        -- destruct (child c (node_children n)) as [m|] eqn:Hc.
           ++ unfold id_at. cbn [find_walk node_children].
              rewrite child_set_other by congruence. reflexivity.
           ++ unfold id_at. cbn [find_walk node_children child].
              destruct (N.eqb_spec d c); [contradiction|reflexivity].
Qed.

Lemma has_path_nil n : has_path n [].
Proof. unfold has_path; simpl; discriminate. Qed.

Lemma has_path_add n s id q :
  has_path (add_walk n s id) q <-> has_path n q \/ prefix q s.
Proof.
  revert n q; induction s as [|c s IH]; intros n q; simpl.
  - destruct q as [|d q].
    + split; [intros _; left; apply has_path_nil | intros _; apply has_path_nil].
    + unfold has_path; simpl. split; [tauto|].
      intros [H|H]; [exact H|]. apply prefix_nil_r in H; discriminate.
  - destruct q as [|d q].
    + split; [intros _; left; apply has_path_nil | intros _; apply has_path_nil].
    + destruct (N.eq_dec d c) as [->|Hdc].
      * rewrite prefix_cons.
        destruct (child c (node_children n)) as [m|] eqn:Hc.
        -- unfold has_path in *. cbn [find_walk node_children].
           rewrite child_set_same by congruence. rewrite Hc. apply IH.
        -- unfold has_path in *. cbn [find_walk node_children child].
           rewrite N.eqb_refl, Hc. rewrite IH.
           rewrite find_new_node.
           split; intros [H|H]; try (right; exact H); try congruence.
           destruct q; [right; apply prefix_nil|congruence].
      * assert (Hnp : ~ prefix (d :: q) (c :: s)).
        { intros H; apply prefix_cons_inv in H; destruct H; congruence. }
        destruct (child c (node_children n)) as [m|] eqn:Hc.
        -- unfold has_path. cbn [find_walk node_children].
           rewrite child_set_other by congruence. tauto.
        -- unfold has_path. cbn [find_walk node_children child].
           destruct (N.eqb_spec d c); [contradiction|]. tauto.
Qed.

Lemma id_at_add_str n s id q :
  id_at (add_str n s id) q =
  if list_N_eq_dec q s then (match s with [] => id_at n q | _ => id end) else id_at n q.
Proof.
  destruct s as [|c s].
  - simpl. destruct (list_N_eq_dec q []); reflexivity.
  - unfold add_str. apply id_at_add.
Qed.

Lemma has_path_add_str n s id q :
  has_path (add_str n s id) q <-> has_path n q \/ prefix q s.
Proof.
  destruct s as [|c s].
  - simpl. split; [tauto|]. intros [H|H]; [exact H|].
    apply prefix_nil_r in H; subst; apply has_path_nil.
  - unfold add_str. apply has_path_add.
Qed.

(** ** The whole vocabulary *)

(** Largest position holding [q], counted from [k]. *)
Lemma id_at_add_all n vocab k q :
  (k + N.of_nat (length vocab) <= INVALID)%N ->
  q <> [] ->
  (exists i, nth_error vocab i = Some q /\
             (forall j, i < j -> nth_error vocab j <> Some q) /\
             id_at (add_all n vocab k) q = (k + N.of_nat i)%N)
  \/ (~ In q vocab /\ id_at (add_all n vocab k) q = id_at n q).
Proof.
  revert n k; induction vocab as [|s vocab IH]; intros n k Hk Hq; cbn [add_all].
  - right; split; [intros []|reflexivity].
  - cbn [length] in Hk.
    assert (Hk' : (k + 1 + N.of_nat (length vocab) <= INVALID)%N) by lia.
    specialize (IH (add_str n s (k mod 4294967296)) (k + 1)%N Hk' Hq).
    destruct IH as [(i & Hi & Hlast & Hid)|[Hnin Hid]].
    + left. exists (S i). split; [exact Hi|]. split.
      * intros j Hj. destruct j as [|j]; [lia|]. apply Hlast; lia.
      * rewrite Hid. lia.
    + rewrite id_at_add_str in Hid.
      destruct (list_N_eq_dec q s) as [->|Hne].
      * left. exists 0%nat. split; [reflexivity|]. split.
        -- intros j Hj E. destruct j as [|j]; [lia|]. simpl in E.
           apply nth_error_In in E. contradiction.
        -- destruct s as [|c s]; [contradiction|].
           rewrite Hid. unfold INVALID in Hk. rewrite N.mod_small by lia. lia.
      * right. split; [|exact Hid].
        intros [E|E]; [congruence|contradiction].
Qed.

Lemma has_path_add_all n vocab k q :
  has_path (add_all n vocab k) q <-> has_path n q \/ exists v, In v vocab /\ prefix q v.
Proof.
  revert n k; induction vocab as [|s vocab IH]; intros n k; cbn [add_all].
  - split; [tauto|]. intros [H|(v & [] & _)]; exact H.
  - rewrite IH, has_path_add_str. split.
    + intros [[H|H]|(v & Hv & Hp)].
      * left; exact H.
      * right; exists s; split; [left; reflexivity|exact H].
      * right; exists v; split; [right; exact Hv|exact Hp].
    + intros [H|(v & [->|Hv] & Hp)].
      * left; left; exact H.
      * left; right; exact Hp.
      * right; exists v; split; assumption.
Qed.

Lemma id_at_build vocab q :
  small vocab -> q <> [] ->
  (exists i, nth_error vocab i = Some q /\
             (forall j, i < j -> nth_error vocab j <> Some q) /\
             id_at (build_trie vocab) q = N.of_nat i)
  \/ (~ In q vocab /\ id_at (build_trie vocab) q = INVALID).
Proof.
  intros Hs Hq. unfold build_trie.
  destruct (id_at_add_all new_node vocab 0 q) as [(i & H1 & H2 & H3)|[H1 H2]]; try assumption.
  - left. exists i. repeat split; try assumption. 
  - right. split; [assumption|]. rewrite H2. unfold id_at. rewrite find_new_node.
    destruct q; [contradiction|reflexivity].
Qed.

Lemma has_path_build vocab q :
  has_path (build_trie vocab) q <-> q = [] \/ exists v, In v vocab /\ prefix q v.
Proof.
  unfold build_trie. rewrite has_path_add_all. unfold has_path at 1. rewrite find_new_node.
  destruct q; split; intros [H|H]; auto; try congruence; left; congruence.
Qed.

Lemma index_lt_invalid vocab i s :
  small vocab -> nth_error vocab i = Some s -> (N.of_nat i < INVALID)%N.
Proof.
  intros Hs Hi. assert (i < length vocab) by (apply nth_error_Some; congruence).
  unfold small in Hs. lia.
Qed.

Lemma id_valid_iff vocab q :
  small vocab -> q <> [] -> (id_at (build_trie vocab) q <> INVALID <-> In q vocab).
Proof.
  intros Hs Hq. destruct (id_at_build vocab q Hs Hq) as [(i & Hi & _ & Hid)|[Hn Hid]].
  - split; intros _.
    + eapply nth_error_In; eauto.
    + rewrite Hid. pose proof (index_lt_invalid _ _ _ Hs Hi). lia.
  - rewrite Hid. split; [congruence|contradiction].
Qed.

(** ** C01 *)

Lemma search_trie_spec vocab s :
  small vocab ->
  (forall i, s <> [] -> nth_error vocab i = Some s ->
             (forall j, i < j -> nth_error vocab j <> Some s) ->
             search_trie (build_trie vocab) s = N.of_nat i) /\
  ((s = [] \/ ~ In s vocab) -> search_trie (build_trie vocab) s = INVALID).
Proof.
  intros Hs. split.
  - intros i Hne Hi Hlast.
    assert (E : search_trie (build_trie vocab) s = id_at (build_trie vocab) s)
      by (destruct s; [contradiction|reflexivity]).
    rewrite E. destruct (id_at_build vocab s Hs Hne) as [(k & Hk & Hkl & Hid)|[Hn _]].
    + rewrite Hid. f_equal. destruct (lt_eq_lt_dec i k) as [[H|H]|H].
      * exfalso; apply (Hlast k H); exact Hk.
      * congruence.
      * exfalso; apply (Hkl i H); exact Hi.
    + exfalso; apply Hn; eapply nth_error_In; eauto.
  - intros [->|Hn]; [reflexivity|].
    destruct s as [|c s]; [reflexivity|].
    change (search_trie (build_trie vocab) (c :: s)) with (id_at (build_trie vocab) (c :: s)).
    destruct (id_at_build vocab (c :: s) Hs ltac:(discriminate)) as [(i & Hi & _)|[_ Hid]].
    + exfalso; apply Hn; eapply nth_error_In; eauto.
    + exact Hid.
Qed.

(** ** The greedy walk *)

(** Invariant-free description of [substr_walk] relative to the start node. *)
Lemma substr_walk_split n s last acc lf f r :
  substr_walk n s last acc = (lf, f, r) -> f ++ r = acc ++ s.
Proof.
  revert n last acc; induction s as [|c s IH]; intros n last acc H; simpl in H.
  - inversion H; reflexivity.
  - destruct (child c (node_children n)) as [m|].
    + apply IH in H. rewrite H, <- app_assoc. reflexivity.
    + inversion H; subst. reflexivity.
Qed.

Lemma substr_walk_spec n s last acc lf f r :
  substr_walk n s last acc = (lf, f, r) ->
  exists g, f = acc ++ g /\ s = g ++ r /\ has_path n g /\
            (forall c r', r = c :: r' -> ~ has_path n (g ++ [c])) /\
            ((exists p, p <> [] /\ prefix p g /\ lf = find_walk n p /\ id_at n p <> INVALID /\
                        forall p', prefix p' g -> id_at n p' <> INVALID -> length p' <= length p)
             \/ (lf = last /\ forall p', p' <> [] -> prefix p' g -> id_at n p' = INVALID)).
Proof.
  revert n last acc; induction s as [|c s IH]; intros n last acc H; simpl in H.
  - inversion H; subst. exists []. rewrite app_nil_r. repeat split.
    + apply has_path_nil.
    + intros; discriminate.
    + right. split; [reflexivity|]. intros p' Hne Hp. apply prefix_nil_r in Hp; contradiction.
  - destruct (child c (node_children n)) as [m|] eqn:Hc.
    + apply IH in H. destruct H as (g & Hf & Hs & Hpath & Hmax & Hlast).
      assert (Hw : forall q, find_walk n (c :: q) = find_walk m q).
      { intros q. cbn [find_walk]. rewrite Hc. reflexivity. }
      assert (Hi : forall q, id_at n (c :: q) = id_at m q).
      { intros q. unfold id_at. rewrite Hw. reflexivity. }
      exists (c :: g). repeat split.
      * rewrite Hf, <- app_assoc. reflexivity.
      * simpl. congruence.
      * unfold has_path. rewrite Hw. exact Hpath.
      * intros d r' Hr. simpl. unfold has_path. rewrite Hw. apply (Hmax d r' Hr).
      * destruct Hlast as [(p & Hpne & Hp & Hlf & Hid & Hlen)|[Hlf Hnone]].
        -- left. exists (c :: p). repeat split.
           ++ discriminate.
           ++ apply prefix_cons; exact Hp.
           ++ rewrite Hw; exact Hlf.
           ++ rewrite Hi; exact Hid.
           ++ intros p' Hp' Hid'. destruct p' as [|d p']; [simpl; lia|].
              apply prefix_cons_inv in Hp'. destruct Hp' as [-> Hp'].
              rewrite Hi in Hid'. specialize (Hlen p' Hp' Hid'). simpl; lia.
        -- destruct (N.eqb_spec (node_id m) INVALID) as [Hinv|Hval].
           ++ right. split; [exact Hlf|]. intros p' Hne Hp'.
              destruct p' as [|d p']; [contradiction|].
              apply prefix_cons_inv in Hp'. destruct Hp' as [-> Hp'].
              rewrite Hi. destruct p' as [|e p'].
              ** exact Hinv.
              ** apply Hnone; [discriminate|exact Hp'].
           ++ left. exists [c]. repeat split.
              ** discriminate.
              ** exists g; reflexivity.
              ** rewrite Hw. simpl. exact Hlf.
              ** rewrite Hi. exact Hval.
              ** intros p' Hp' Hid'. destruct p' as [|d p']; [simpl; lia|].
                 apply prefix_cons_inv in Hp'. destruct Hp' as [-> Hp'].
                 rewrite Hi in Hid'. destruct p' as [|e p']; [simpl; lia|].
                 exfalso; apply Hid'. apply Hnone; [discriminate|exact Hp'].
    + inversion H; subst. exists []. rewrite app_nil_r. repeat split.
      * apply has_path_nil.
      * intros d r' Hr. inversion Hr; subst. unfold has_path; simpl. rewrite Hc. auto.
      * right. split; [reflexivity|]. intros p' Hne Hp. apply prefix_nil_r in Hp; contradiction.
Qed.

(** The search from a node, in terms of the node's ids and paths. *)
Lemma search_substr_node n s :
  match search_trie_substr n s with
  | (id, Some (f, r)) =>
      s = f ++ r /\ has_path n f /\ (forall c r', r = c :: r' -> ~ has_path n (f ++ [c])) /\
      exists p, p <> [] /\ prefix p f /\ id = id_at n p /\ id <> INVALID /\
                forall p', prefix p' s -> id_at n p' <> INVALID -> length p' <= length p
  | (id, None) => id = INVALID /\ forall p', p' <> [] -> prefix p' s -> id_at n p' = INVALID
  end.
Proof.
  unfold search_trie_substr, find_substr. destruct s as [|c s].
  - simpl. split; [reflexivity|]. intros p' Hne Hp. apply prefix_nil_r in Hp; contradiction.
  - remember (c :: s) as cs eqn:Ecs.
    destruct (substr_walk n cs None []) as [[lf f] r] eqn:Hw.
    apply substr_walk_spec in Hw.
    destruct Hw as (g & Hf & Hs & Hpath & Hmax & Hlast). simpl in Hf. subst f.
    assert (Hbeyond : forall p', prefix p' cs -> id_at n p' <> INVALID -> prefix p' g).
    { intros p' Hp' Hid. rewrite Hs in Hp'.
      destruct (le_lt_dec (length p') (length g)) as [Hle|Hlt].
      - eapply prefix_total; [exact Hp'| |exact Hle]. exists r; reflexivity.
      - exfalso. destruct r as [|d r].
        { rewrite app_nil_r in Hp'. apply prefix_length in Hp'. lia. }
        apply (Hmax d r eq_refl).
        assert (Hq : prefix (g ++ [d]) p').
        { apply (prefix_total (g ++ [d]) p' (g ++ d :: r)).
          - exists r. rewrite <- app_assoc. reflexivity.
          - exact Hp'.
          - rewrite app_length; simpl; lia. }
        destruct Hq as [q ->]. unfold id_at in Hid. rewrite find_walk_app in Hid.
        unfold has_path. destruct (find_walk n (g ++ [d])); congruence. }
    destruct Hlast as [(p & Hpne & Hp & Hlf & Hid & Hlen)|[Hlf Hnone]].
    + assert (E : match lf with Some m' => node_id m' | None => INVALID end = id_at n p).
      { rewrite Hlf. reflexivity. }
      rewrite E. destruct (N.eqb_spec (id_at n p) INVALID); [contradiction|].
      repeat split; try assumption.
      exists p. repeat split; try assumption.
      intros p' Hp' Hid'. apply Hlen; [|exact Hid']. apply Hbeyond; assumption.
    + rewrite Hlf. rewrite N.eqb_refl. split; [reflexivity|].
      intros p' Hne Hp'. destruct (N.eq_dec (id_at n p') INVALID) as [E|E]; [exact E|].
      apply Hnone; [exact Hne|]. apply Hbeyond; assumption.
Qed.

(** ** Nodes below a path *)

(** [n] is the node reached from the root of the vocabulary's trie by [w]. *)
Definition at_path (vocab : list (list N)) (w : list N) (n : trie_node) : Prop :=
  find_walk (build_trie vocab) w = Some n.

Lemma at_path_id vocab w n q : at_path vocab w n -> id_at n q = id_at (build_trie vocab) (w ++ q).
Proof.
  intros H. unfold id_at. rewrite find_walk_app. unfold at_path in H. rewrite H. reflexivity.
Qed.

Lemma at_path_path vocab w n q : at_path vocab w n -> (has_path n q <-> has_path (build_trie vocab) (w ++ q)).
Proof.
  intros H. unfold has_path. rewrite find_walk_app. unfold at_path in H. rewrite H. tauto.
Qed.

Lemma at_path_root vocab : at_path vocab [] (build_trie vocab).
Proof. reflexivity. Qed.

Lemma entry_In vocab v i : entry vocab v i -> In v vocab.
Proof. intros (k & _ & H & _). eapply nth_error_In; eauto. Qed.

Lemma entry_fun vocab v i j : entry vocab v i -> entry vocab v j -> i = j.
Proof.
  intros (k & -> & H1 & H2) (m & -> & H3 & H4). f_equal.
  destruct (lt_eq_lt_dec k m) as [[H|H]|H]; [|exact H|].
  - exfalso; apply (H2 m H); exact H3.
  - exfalso; apply (H4 k H); exact H1.
Qed.

Lemma entry_inj vocab v w i : entry vocab v i -> entry vocab w i -> v = w.
Proof.
  intros (k & -> & H1 & _) (m & Hm & H2 & _). apply Nnat.Nat2N.inj in Hm. congruence.
Qed.

Lemma entry_id vocab v i : small vocab -> v <> [] -> (entry vocab v i <-> In v vocab /\ id_at (build_trie vocab) v = i).
Proof.
  intros Hs Hne. destruct (id_at_build vocab v Hs Hne) as [(k & Hk & Hl & Hid)|[Hn Hid]].
  - assert (He : entry vocab v (N.of_nat k)) by (exists k; auto).
    split.
    + intros H. split; [eapply entry_In; eauto|]. rewrite Hid. eapply entry_fun; eauto.
    + intros [_ E]. rewrite Hid in E. rewrite <- E. exact He.
  - split; intros H; exfalso.
    + apply Hn. eapply entry_In; eauto.
    + apply Hn. tauto.
Qed.

Lemma In_entry vocab v : small vocab -> v <> [] -> In v vocab -> exists i, entry vocab v i.
Proof.
  intros Hs Hne Hin. exists (id_at (build_trie vocab) v). apply entry_id; auto.
Qed.

Lemma entry_lt vocab v i : entry vocab v i -> (i < N.of_nat (length vocab))%N.
Proof.
  intros (k & -> & H & _). assert (k < length vocab) by (apply nth_error_Some; congruence). lia.
Qed.

(** Search below the path [w] (w = "" or "##"), in terms of the vocabulary only. *)
Lemma search_substr_vocab vocab w n s :
  small vocab -> at_path vocab w n ->
  match search_trie_substr n s with
  | (id, Some (f, r)) =>
      s = f ++ r /\
      (f <> [] -> exists v, In v vocab /\ prefix (w ++ f) v) /\
      (forall c r' v, r = c :: r' -> In v vocab -> ~ prefix (w ++ f ++ [c]) v) /\
      exists p, p <> [] /\ prefix p f /\ entry vocab (w ++ p) id /\
                forall p', p' <> [] -> prefix p' s -> In (w ++ p') vocab -> length p' <= length p
  | (id, None) => id = INVALID /\ forall p', p' <> [] -> prefix p' s -> ~ In (w ++ p') vocab
  end.
Proof.
  intros Hs Hn. pose proof (search_substr_node n s) as H.
  assert (Hne : forall p : list N, p <> [] -> w ++ p <> []).
  { intros p Hp E. apply app_eq_nil in E. destruct E; contradiction. }
  destruct (search_trie_substr n s) as [id [[f r]|]].
  - destruct H as (H1 & H2 & H3 & p & Hp1 & Hp2 & Hp3 & Hp4 & Hp5).
    repeat split.
    + exact H1.
    + intros Hf. rewrite (at_path_path _ _ _ _ Hn), has_path_build in H2.
      destruct H2 as [E|H2]; [exfalso; exact (Hne f Hf E)|exact H2].
    + intros c r' v Hr Hv Hpre. apply (H3 c r' Hr).
      rewrite (at_path_path _ _ _ _ Hn), has_path_build. right. exists v. split; assumption.
    + exists p. rewrite (at_path_id _ _ _ _ Hn) in Hp3.
      assert (Hin : In (w ++ p) vocab).
      { apply id_valid_iff; [exact Hs|apply Hne; exact Hp1|congruence]. }
      repeat split; try assumption.
      * apply entry_id; auto.
      * intros p' Hp'ne Hp' Hin'. apply Hp5; [exact Hp'|].
        rewrite (at_path_id _ _ _ _ Hn). apply id_valid_iff; auto.
  - destruct H as [H1 H2]. split; [exact H1|]. intros p' Hp'ne Hp' Hin.
    specialize (H2 p' Hp'ne Hp'). rewrite (at_path_id _ _ _ _ Hn) in H2.
    apply id_valid_iff in Hin; auto.
Qed.

Lemma search_longest vocab s :
  small vocab ->
  (forall i f r, search_trie_substr (build_trie vocab) s = (i, Some (f, r)) ->
     exists v, v <> [] /\ entry vocab v i /\ prefix v s /\
               forall v', v' <> [] -> In v' vocab -> prefix v' s -> length v' <= length v) /\
  ((exists i, search_trie_substr (build_trie vocab) s = (i, None)) <->
     forall v, v <> [] -> In v vocab -> ~ prefix v s) /\
  (forall i, search_trie_substr (build_trie vocab) s = (i, None) -> i = INVALID).
Proof.
  intros Hs. pose proof (search_substr_vocab vocab [] _ s Hs (at_path_root vocab)) as H.
  destruct (search_trie_substr (build_trie vocab) s) as [id [[f r]|]] eqn:E.
  - destruct H as (H1 & _ & _ & p & Hp1 & Hp2 & Hp3 & Hp4). repeat split.
    + intros i f' r' E'. inversion E'; subst i f' r'. exists p. repeat split; try assumption.
      * rewrite H1. apply prefix_app; exact Hp2.
      * intros v' Hv1 Hv2 Hv3. apply Hp4; auto.
    + intros (i & Ei). discriminate.
    + intros Hno. exfalso. apply (Hno p Hp1); [eapply entry_In; eauto|].
      rewrite H1. apply prefix_app; exact Hp2.
    + intros i Ei; discriminate.
  - destruct H as [H1 H2]. repeat split.
    + intros i f r E'; discriminate.
    + intros _ v Hv1 Hv2 Hv3. apply (H2 v Hv1 Hv3 Hv2).
    + intros _. exists id; reflexivity.
    + intros i Ei. congruence.
Qed.

Lemma search_split vocab s i f r :
  small vocab -> search_trie_substr (build_trie vocab) s = (i, Some (f, r)) ->
  f ++ r = s /\ exists v, v <> [] /\ entry vocab v i /\ prefix v f.
Proof.
  intros Hs E. pose proof (search_substr_vocab vocab [] _ s Hs (at_path_root vocab)) as H.
  rewrite E in H. destruct H as (H1 & _ & _ & p & Hp1 & Hp2 & Hp3 & _).
  split; [congruence|]. exists p. repeat split; assumption.
Qed.

(** Any reported match beyond [p] would be a dead end. *)
Lemma search_found_exact vocab w n s i f r p :
  small vocab -> at_path vocab w n -> search_trie_substr n s = (i, Some (f, r)) ->
  p <> [] -> entry vocab (w ++ p) i -> no_dead_end vocab w p s -> f = p /\ s = p ++ r.
Proof.
  intros Hs Hn E Hpne He Hnd. pose proof (search_substr_vocab vocab w n s Hs Hn) as H.
  rewrite E in H. destruct H as (H1 & H2 & _ & q & Hq1 & Hq2 & Hq3 & _).
  assert (q = p).
  { apply (app_inv_head w). eapply entry_inj; eauto. }
  subst q. destruct Hq2 as [g ->]. destruct g as [|c g].
  - rewrite app_nil_r in *. split; [reflexivity|exact H1].
  - exfalso.
    destruct H2 as (v & Hv & Hpre).
    { intros Z. apply app_eq_nil in Z. destruct Z; contradiction. }
    apply (Hnd c (g ++ r) v).
    + rewrite H1, <- app_assoc. reflexivity.
    + exact Hv.
    + eapply prefix_trans; [|exact Hpre]. exists g. rewrite <- !app_assoc. reflexivity.
Qed.

Lemma search_found_is_entry vocab s i f r :
  small vocab -> search_trie_substr (build_trie vocab) s = (i, Some (f, r)) ->
  (entry vocab f i <-> forall v, entry vocab v i -> no_dead_end vocab [] v s).
Proof.
  intros Hs E. pose proof (search_substr_vocab vocab [] _ s Hs (at_path_root vocab)) as H.
  rewrite E in H. destruct H as (H1 & H2 & H3 & q & Hq1 & Hq2 & Hq3 & _). simpl in *.
  split.
  - intros Hf v Hv. assert (v = f) by (eapply entry_inj; eauto). subst v.
    intros c s' v Hsplit Hv' Hpre. rewrite H1 in Hsplit. apply app_inv_head in Hsplit.
    apply (H3 c s' v Hsplit Hv'). exact Hpre.
  - intros Hnd. specialize (Hnd q Hq3).
    destruct (search_found_exact vocab [] _ s i f r q Hs (at_path_root vocab) E Hq1 Hq3 Hnd) as [-> _].
    exact Hq3.
Qed.

(** ** WordPiece *)

Lemma search_seg vocab pre n p w i :
  small vocab -> at_path vocab pre n ->
  p <> [] -> entry vocab (pre ++ p) i ->
  (forall p', p' <> [] -> prefix p' (p ++ w) -> In (pre ++ p') vocab -> length p' <= length p) ->
  no_dead_end vocab pre p (p ++ w) ->
  search_trie_substr n (p ++ w) = (i, Some (p, w)).
Proof.
  intros Hs Hn Hp He Hmax Hnd.
  pose proof (search_substr_vocab vocab pre n (p ++ w) Hs Hn) as H.
  destruct (search_trie_substr n (p ++ w)) as [id [[f r]|]] eqn:E.
  - destruct H as (H1 & H2 & H3 & q & Hq1 & Hq2 & Hq3 & Hq4).
    assert (Hqs : prefix q (p ++ w)) by (rewrite H1; apply prefix_app; exact Hq2).
    assert (q = p).
    { apply (prefix_same_length q p (p ++ w)).
      - exact Hqs.
      - exists w; reflexivity.
      - apply Nat.le_antisymm.
        + apply Hmax; auto. eapply entry_In; eauto.
        + apply Hq4; auto; [exists w; reflexivity | eapply entry_In; eauto]. }
    subst q.
    assert (id = i) by (eapply entry_fun; eauto). subst id.
    destruct (search_found_exact vocab pre n (p ++ w) i f r p Hs Hn E Hp He Hnd) as [-> Hr].
    apply app_inv_head in Hr. subst r. reflexivity.
  - destruct H as [_ H]. exfalso. apply (H p Hp); [exists w; reflexivity|eapply entry_In; eauto].
Qed.

Lemma wp_word_segments vocab cont unk w :
  small vocab -> at_path vocab cont_prefix cont ->
  forall fuel pre root ids,
    segments vocab pre w ids -> at_path vocab pre root ->
    length w < fuel ->
    wp_word fuel (build_trie vocab) cont root unk w =
      Some (ids, match w with [] => root | _ => build_trie vocab end).
Proof.
  intros Hs Hcont.
  induction w as [w IH] using (well_founded_induction (Wf_nat.well_founded_ltof _ (@length N))).
  intros fuel pre root ids Hseg Hroot Hfuel.
  destruct fuel as [|fuel]; [lia|].
  inversion Hseg as [|pre' p w' i ids' Hp He Hmax Hnd Htail]; subst.
  - reflexivity.
  - cbn [wp_word].
    destruct (p ++ w') as [|c0 s0] eqn:Epw.
    { apply app_eq_nil in Epw. destruct Epw; contradiction. }
    rewrite <- Epw in *.
    rewrite (search_seg vocab pre root p w' i Hs Hroot Hp He Hmax Hnd).
    assert (Hlt : length w' < length (p ++ w')).
    { rewrite app_length. destruct p; [contradiction|simpl; lia]. }
    destruct w' as [|c w'].
    + inversion Htail; subst.
      * destruct fuel; [exfalso; simpl in Hlt; lia|]. reflexivity.
      * exfalso. match goal with H : ?a ++ ?b = [], H0 : ?a <> _ |- _ =>
          rewrite H in H0; apply app_eq_nil in H; destruct H; contradiction end.
    + rewrite (IH (c :: w') Hlt fuel cont_prefix cont ids' Htail Hcont) by lia.
      reflexivity.
Qed.

Lemma wp_words_segments vocab cont unk words idss :
  small vocab -> at_path vocab cont_prefix cont ->
  Forall2 (segments vocab []) words idss ->
  forall rest, wp_words (build_trie vocab) cont (build_trie vocab) unk (words ++ rest) =
    match wp_words (build_trie vocab) cont (build_trie vocab) unk rest with
    | Some ids => Some (concat idss ++ ids) | None => None end.
Proof.
  intros Hs Hcont HF. induction HF as [|w ids words idss Hseg HF IH]; intros rest.
  - simpl. destruct (wp_words _ _ _ _ rest); reflexivity.
  - cbn [wp_words app].
    rewrite (wp_word_segments vocab cont unk w Hs Hcont _ [] (build_trie vocab) ids Hseg (at_path_root _)) by lia.
    replace (match w with [] => build_trie vocab | _ => build_trie vocab end) with (build_trie vocab)
      by (destruct w; reflexivity).
    rewrite IH. destruct (wp_words _ _ _ _ rest); [|reflexivity].
    cbn [concat]. rewrite <- app_assoc. reflexivity.
Qed.

Lemma cont_node_exists vocab :
  has_cont vocab -> exists cont, search_node (build_trie vocab) cont_prefix = Some cont /\ at_path vocab cont_prefix cont.
Proof.
  intros (v & Hv & Hp).
  assert (H : has_path (build_trie vocab) cont_prefix).
  { apply has_path_build. right; exists v; split; assumption. }
  unfold has_path in H. unfold at_path, search_node, find_node, cont_prefix in *.
  destruct (find_walk (build_trie vocab) [35%N; 35%N]) as [c|]; [|congruence].
  exists c; split; reflexivity.
Qed.

Lemma no_cont_node vocab :
  ~ has_cont vocab -> search_node (build_trie vocab) cont_prefix = None.
Proof.
  intros H. unfold search_node, find_node, cont_prefix.
  destruct (find_walk (build_trie vocab) [35%N; 35%N]) as [c|] eqn:E; [|reflexivity].
  exfalso. assert (Hp : has_path (build_trie vocab) cont_prefix).
  { unfold has_path, cont_prefix; congruence. }
  apply has_path_build in Hp. destruct Hp as [Hp|Hp]; [discriminate|]. exact (H Hp).
Qed.

Lemma wordpiece_greedy vocab unk words idss :
  small vocab -> has_cont vocab ->
  Forall2 (segments vocab []) words idss ->
  wordpiece vocab unk words = WpOk (concat idss).
Proof.
  intros Hs Hc HF. destruct (cont_node_exists vocab Hc) as (cont & E & Hcont).
  unfold wordpiece. rewrite E.
  pose proof (wp_words_segments vocab cont unk words idss Hs Hcont HF []) as H.
  rewrite app_nil_r in H. rewrite H. simpl. rewrite app_nil_r. reflexivity.
Qed.

Lemma wp_word_clean vocab cont unk w :
  small vocab -> at_path vocab cont_prefix cont -> clean_word vocab w ->
  exists ids, wp_word (S (length w)) (build_trie vocab) cont (build_trie vocab) unk w = Some (ids, build_trie vocab).
Proof.
  intros Hs Hcont [(ids & Hseg)|[Hne Hno]].
  - exists ids.
    rewrite (wp_word_segments vocab cont unk w Hs Hcont _ [] (build_trie vocab) ids Hseg (at_path_root _)) by lia.
    destruct w; reflexivity.
  - exists [unk]. cbn [wp_word]. destruct w as [|c w]; [contradiction|].
    pose proof (search_substr_vocab vocab [] _ (c :: w) Hs (at_path_root vocab)) as H.
    destruct (search_trie_substr (build_trie vocab) (c :: w)) as [id [[f r]|]].
    + destruct H as (H1 & _ & _ & p & Hp1 & Hp2 & Hp3 & _). exfalso.
      apply (Hno p Hp1); [rewrite H1; apply prefix_app; exact Hp2|eapply entry_In; eauto].
    + reflexivity.
Qed.

Lemma wp_words_app_clean vocab cont unk ws1 ws2 :
  small vocab -> at_path vocab cont_prefix cont -> Forall (clean_word vocab) ws1 ->
  wp_words (build_trie vocab) cont (build_trie vocab) unk (ws1 ++ ws2) =
  match wp_words (build_trie vocab) cont (build_trie vocab) unk ws1,
        wp_words (build_trie vocab) cont (build_trie vocab) unk ws2 with
  | Some a, Some b => Some (a ++ b)
  | _, _ => None
  end.
Proof.
  intros Hs Hcont HF. induction HF as [|w ws1 Hw HF IH].
  - simpl. destruct (wp_words _ _ _ _ ws2); reflexivity.
  - cbn [wp_words app].
    destruct (wp_word_clean vocab cont unk w Hs Hcont Hw) as (ids & E). rewrite E, IH.
    destruct (wp_words _ _ _ _ ws1); [|reflexivity].
    destruct (wp_words _ _ _ _ ws2); [|reflexivity].
    rewrite <- app_assoc. reflexivity.
Qed.

(** ** Termination and range *)

Lemma wp_word_total vocab cont unk w :
  small vocab -> at_path vocab cont_prefix cont ->
  forall fuel pre root, at_path vocab pre root -> length w < fuel ->
  exists ids root' pre',
    wp_word fuel (build_trie vocab) cont root unk w = Some (ids, root') /\
    at_path vocab pre' root' /\ (pre' = [] \/ pre' = cont_prefix \/ pre' = pre) /\
    Forall (id_ok vocab unk) ids /\ length ids <= length w /\ (w <> [] -> ids <> []).
Proof.
  intros Hs Hcont.
  induction w as [w IH] using (well_founded_induction (Wf_nat.well_founded_ltof _ (@length N))).
  intros fuel pre root Hroot Hfuel.
  destruct fuel as [|fuel]; [lia|]. cbn [wp_word].
  destruct w as [|c w0].
  - exists [], root, pre. repeat split; auto; try (simpl; lia).
  - set (w := c :: w0) in *.
    pose proof (search_substr_vocab vocab pre root w Hs Hroot) as H.
    destruct (search_trie_substr root w) as [id [[f r]|]].
    + destruct H as (H1 & _ & _ & p & Hp1 & Hp2 & Hp3 & _).
      assert (Hlt : length r < length w).
      { rewrite H1, app_length. apply prefix_length in Hp2.
        destruct p; [contradiction|]. simpl in Hp2. lia. }
      destruct r as [|d r].
      * destruct fuel; [simpl in Hfuel; lia|]. cbn [wp_word].
        exists [id], (build_trie vocab), []. repeat split; auto.
        -- constructor; [right; eexists; eauto|constructor].
        -- discriminate.
      * destruct (IH (d :: r) Hlt fuel cont_prefix cont Hcont ltac:(lia))
          as (ids & root' & pre' & E & Hr' & Hpre' & HF & HL & _).
        rewrite E. exists (id :: ids), root', pre'. repeat split; auto.
        -- tauto.
        -- constructor; [right; eexists; eauto|exact HF].
        -- simpl in *; lia.
        -- discriminate.
    + exists [unk], root, pre. repeat split; auto.
      * constructor; [left; reflexivity|constructor].
      * unfold w; simpl; lia.
      * discriminate.
Qed.

Lemma wp_words_total vocab cont unk words :
  small vocab -> at_path vocab cont_prefix cont ->
  forall pre root, at_path vocab pre root -> 
  exists ids, wp_words (build_trie vocab) cont root unk words = Some ids /\
              Forall (id_ok vocab unk) ids /\ length ids <= length (concat words).
Proof.
  intros Hs Hcont. induction words as [|w words IH]; intros pre root Hroot; cbn [wp_words concat].
  - exists []. repeat split; auto.
  - destruct (wp_word_total vocab cont unk w Hs Hcont (S (length w)) pre root Hroot ltac:(lia))
      as (ids & root' & pre' & E & Hr & _ & HF & HL & _).
    rewrite E. destruct (IH pre' root' Hr) as (ids' & E' & HF' & HL').
    rewrite E'. exists (ids ++ ids'). repeat split.
    + apply Forall_app; split; assumption.
    + rewrite !app_length. lia.
Qed.

Lemma wordpiece_total vocab unk words :
  small vocab ->
  (has_cont vocab -> exists ids, wordpiece vocab unk words = WpOk ids /\
      Forall (id_ok vocab unk) ids /\ length ids <= length (concat words)) /\
  (~ has_cont vocab -> wordpiece vocab unk words = WpNoCont).
Proof.
  intros Hs. split.
  - intros Hc. destruct (cont_node_exists vocab Hc) as (cont & E & Hcont).
    unfold wordpiece. rewrite E.
    destruct (wp_words_total vocab cont unk words Hs Hcont [] _ (at_path_root vocab)) as (ids & E' & H).
    rewrite E'. exists ids. split; [reflexivity|exact H].
  - intros Hc. unfold wordpiece. rewrite (no_cont_node vocab Hc). reflexivity.
Qed.

Lemma wordpiece_compositional vocab unk ws1 ws2 :
  small vocab -> has_cont vocab -> Forall (clean_word vocab) ws1 ->
  exists ids1 ids2, wordpiece vocab unk ws1 = WpOk ids1 /\ wordpiece vocab unk ws2 = WpOk ids2 /\
    wordpiece vocab unk (ws1 ++ ws2) = WpOk (ids1 ++ ids2).
Proof.
  intros Hs Hc HF. destruct (cont_node_exists vocab Hc) as (cont & E & Hcont).
  unfold wordpiece. rewrite E.
  rewrite (wp_words_app_clean vocab cont unk ws1 ws2 Hs Hcont HF).
  destruct (wp_words_total vocab cont unk ws1 Hs Hcont [] _ (at_path_root vocab)) as (a & Ea & _).
  destruct (wp_words_total vocab cont unk ws2 Hs Hcont [] _ (at_path_root vocab)) as (b & Eb & _).
  rewrite Ea, Eb. exists a, b. auto.
Qed.

(** ** Distinct entries *)

Lemma search_trie_distinct vocab s i :
  small vocab -> NoDup vocab -> s <> [] ->
  (search_trie (build_trie vocab) s = N.of_nat i /\ i < length vocab <-> nth_error vocab i = Some s).
Proof.
  intros Hs Hd Hne. destruct (search_trie_spec vocab s Hs) as [H1 H2].
  split.
  - intros [E Hi]. destruct (in_dec list_N_eq_dec s vocab) as [Hin|Hn].
    + apply In_nth_error in Hin. destruct Hin as (k & Hk).
      assert (Hl : forall j, k < j -> nth_error vocab j <> Some s).
      { intros j Hj Ej. assert (k = j); [|lia].
        apply (NoDup_nth_error vocab); auto; [apply nth_error_Some; congruence|congruence]. }
      rewrite (H1 k Hne Hk Hl) in E. apply Nnat.Nat2N.inj in E. congruence.
    + rewrite H2 in E by (right; exact Hn). unfold small in Hs. exfalso. lia.
  - intros Hi. split.
    + apply H1; auto. intros j Hj Ej. assert (i = j); [|lia].
      apply (NoDup_nth_error vocab); auto; [apply nth_error_Some; congruence|congruence].
    + apply nth_error_Some; congruence.
Qed.

(** ** Witnesses *)

(** {a, abc} and the query "abd": the walk goes to "ab", the last id seen is
    that of "a", and "ab" is reported as matched. *)
Lemma found_is_entry_refuted :
  exists vocab s i f r,
    small vocab /\ NoDup vocab /\ ~ In [] vocab /\
    search_trie_substr (build_trie vocab) s = (i, Some (f, r)) /\
    nth_error vocab (N.to_nat i) <> Some f /\ ~ In f vocab.
Proof.
  exists [u "a"; u "abc"], (u "abd"), 0%N, (u "ab"), (u "d").
  split; [vm_compute; discriminate|].
  split; [repeat constructor; simpl; intuition discriminate|].
  split; [simpl; intuition discriminate|].
  split; [vm_compute; reflexivity|].
  split; [vm_compute; discriminate|simpl; intuition discriminate].
Qed.

Lemma segments_greedy vocab pre w ids : segments vocab pre w ids -> greedy vocab pre w ids.
Proof. induction 1; [constructor|constructor; assumption]. Qed.

Ltac solve_entry := match goal with |- entry _ _ ?i => exists (N.to_nat i) end; split; [reflexivity|]; split; [reflexivity|];
  let j := fresh in let Hj := fresh in intros j Hj;
  do 12 (destruct j as [|j]; [try lia; simpl; discriminate|]); simpl; destruct j; discriminate.

Ltac solve_max :=
  let p' := fresh "p'" in let Hne := fresh "Hne" in let r := fresh "r" in
  let Hr := fresh "Hr" in let Hin := fresh "Hin" in
  intros p' Hne [r Hr] Hin; cbn in Hin;
  repeat (destruct Hin as [Hin|Hin]);
  first [ contradiction
        | try subst p';
          repeat match goal with
                 | H : ?c :: _ = ?d :: _ |- _ => injection H; clear H; intros
                 | H : _ :: _ = [] |- _ => discriminate H
                 end; subst; cbn in *; try congruence; try lia ].

Ltac solve_nd :=
  let c := fresh "c" in let s' := fresh "s'" in let v := fresh "v" in let E := fresh "E" in
  let Hin := fresh "Hin" in let r := fresh "r" in let Hr := fresh "Hr" in
  intros c s' v E Hin [r Hr]; cbn in E; cbn in Hin; cbn in Hr;
  first [ discriminate E
        | repeat (destruct Hin as [Hin|Hin]);
          first [contradiction | rewrite <- Hin in Hr; congruence] ].

(** {a, abc, ##bd}: "abd" is a + ##bd, but the search eats "ab" with the id of
    "a" and then fails on "d". *)
Lemma wordpiece_greedy_refuted :
  exists vocab unk w ids,
    small vocab /\ NoDup vocab /\ has_cont vocab /\ greedy vocab [] w ids /\
    wordpiece vocab unk [w] <> WpOk ids.
Proof.
  exists [u "[UNK]"; u "a"; u "abc"; u "##bd"], 0%N, (u "abd"), [1; 3]%N.
  split; [vm_compute; discriminate|].
  split; [repeat constructor; simpl; intuition discriminate|].
  split; [exists (u "##bd"); split; [simpl; tauto|exists (u "bd"); reflexivity]|].
  split; [|vm_compute; discriminate].
  apply (greedy_cons _ [] (u "a") (u "bd")); [discriminate|solve_entry|solve_max|].
  apply (greedy_cons _ cont_prefix (u "bd") []); [discriminate|solve_entry|solve_max|constructor].
Qed.

(** A word that is unknown after its first piece changes the next word. *)
Lemma wordpiece_independence_refuted :
  exists vocab unk w1 w2 ids1 ids2,
    small vocab /\ NoDup vocab /\ has_cont vocab /\
    wordpiece vocab unk [w1] = WpOk ids1 /\ wordpiece vocab unk [w2] = WpOk ids2 /\
    wordpiece vocab unk [w1; w2] <> WpOk (ids1 ++ ids2).
Proof.
  exists [u "[UNK]"; u "a"; u "b"; u "##b"], 0%N, (u "ax"), (u "b"), [1; 0]%N, [2]%N.
  split; [vm_compute; discriminate|].
  split; [repeat constructor; simpl; intuition discriminate|].
  split; [exists (u "##b"); split; [simpl; tauto|exists (u "b"); reflexivity]|].
  split; [vm_compute; reflexivity|]. split; [vm_compute; reflexivity|]. vm_compute; discriminate.
Qed.

Lemma unknown_word_single_unk_refuted :
  exists vocab unk w,
    small vocab /\ NoDup vocab /\ has_cont vocab /\
    (forall ids, ~ greedy vocab [] w ids) /\ wordpiece vocab unk [w] <> WpOk [unk].
Proof.
  exists [u "[UNK]"; u "a"; u "##b"], 0%N, (u "ax").
  split; [vm_compute; discriminate|].
  split; [repeat constructor; simpl; intuition discriminate|].
  split; [exists (u "##b"); split; [simpl; tauto|exists (u "b"); reflexivity]|].
  split; [|vm_compute; discriminate].
  intros ids H. inversion H as [|pre p w' i ids' Hp He Hmax Ht E1 E2]; subst.
  apply entry_In in He. simpl in He.
  destruct He as [<-|[<-|[<-|[]]]]; simpl in E2; try discriminate.
  injection E2; intros; subst w'.
  inversion Ht as [|pre p w'' i' ids'' Hp' He' Hmax' Ht' E3 E4]; subst.
  apply entry_In in He'. unfold cont_prefix in *. simpl in He'.
  destruct He' as [He'|[He'|[He'|[]]]]; try discriminate.
  injection He'; intros; subst p. simpl in E4. discriminate.
Qed.
