(** Finite maps as association lists with distinct keys: the model of
    std::unordered_map.  Iteration order is the list order; statements quantify
    over it. *)
From Verif Require Import Base.

Section Assoc.
  Context {K V : Type} (eqb : K -> K -> bool).

  (** find / at *)
  Fixpoint lookup (k : K) (m : list (K * V)) : option V :=
    match m with
    | [] => None
    | (k', v) :: m' => if eqb k k' then Some v else lookup k m'
    end.

  (** erase *)
  Definition remove_key (k : K) (m : list (K * V)) : list (K * V) :=
    filter (fun kv => negb (eqb k (fst kv))) m.

  (** insert_or_assign *)
  Definition assign (k : K) (v : V) (m : list (K * V)) : list (K * V) :=
    (k, v) :: remove_key k m.

  (** emplace: keeps an existing entry *)
  Definition emplace (k : K) (v : V) (m : list (K * V)) : list (K * V) :=
    match lookup k m with Some _ => m | None => (k, v) :: m end.

  Hypothesis eqb_eq : forall a b, eqb a b = true <-> a = b.

  Lemma eqb_refl' a : eqb a a = true.
  Proof. apply eqb_eq; reflexivity. Qed.

  Lemma eqb_neq' a b : a <> b -> eqb a b = false.
  Proof. intros H; destruct (eqb a b) eqn:E; [apply eqb_eq in E; tauto|reflexivity]. Qed.

  Lemma lookup_remove_same k m : lookup k (remove_key k m) = None.
  Proof.
    induction m as [|[k' v] m IH]; simpl; [reflexivity|].
    destruct (eqb k k') eqn:E; simpl; [exact IH|]. rewrite E. exact IH.
  Qed.

  Lemma lookup_remove_other k k' m : k <> k' -> lookup k (remove_key k' m) = lookup k m.
  Proof.
    intros H. induction m as [|[k2 v] m IH]; simpl; [reflexivity|].
    destruct (eqb k' k2) eqn:E; simpl.
    - apply eqb_eq in E; subst k2. rewrite (eqb_neq' k k' H). exact IH.
    - destruct (eqb k k2); [reflexivity|exact IH].
  Qed.

  Lemma lookup_assign_same k v m : lookup k (assign k v m) = Some v.
  Proof. simpl. rewrite eqb_refl'. reflexivity. Qed.

  Lemma lookup_assign_other k k' v m : k <> k' -> lookup k (assign k' v m) = lookup k m.
  Proof. intros H. simpl. rewrite (eqb_neq' k k' H). apply lookup_remove_other; exact H. Qed.

  Lemma lookup_in k v m : lookup k m = Some v -> In (k, v) m.
  Proof.
    induction m as [|[k' w] m IH]; simpl; [discriminate|].
    destruct (eqb k k') eqn:E.
    - apply eqb_eq in E; subst. intros H; inversion H; auto.
    - auto.
  Qed.

  Lemma in_lookup k v m : NoDup (map fst m) -> In (k, v) m -> lookup k m = Some v.
  Proof.
    induction m as [|[k' w] m IH]; simpl; [contradiction|].
    intros ND [E|H].
    - inversion E; subst. rewrite eqb_refl'. reflexivity.
    - inversion ND as [|? ? Hn ND']; subst. rewrite eqb_neq'; [auto|].
      intros ->. apply Hn. apply in_map_iff. exists (k', v); auto.
  Qed.

  Lemma lookup_none k m : lookup k m = None <-> ~ In k (map fst m).
  Proof.
    induction m as [|[k' w] m IH]; simpl; [tauto|].
    destruct (eqb k k') eqn:E.
    - apply eqb_eq in E; subst. split; [discriminate|tauto].
    - rewrite IH. split; [intros H [H1|H1]; [subst; rewrite eqb_refl' in E; discriminate|tauto]|tauto].
  Qed.

  Lemma lookup_some_in k m : (exists v, lookup k m = Some v) <-> In k (map fst m).
  Proof.
    destruct (lookup k m) as [v|] eqn:E.
    - split; [|eauto]. intros _. apply lookup_in in E. apply in_map_iff. exists (k, v); auto.
    - apply lookup_none in E. split; [intros [v H]; discriminate|tauto].
  Qed.

  Lemma map_fst_remove k m : map fst (remove_key k m) = filter (fun k' => negb (eqb k k')) (map fst m).
  Proof.
    induction m as [|[k' v] m IH]; simpl; [reflexivity|].
    destruct (eqb k k'); simpl; rewrite IH; reflexivity.
  Qed.

  Lemma nodup_assign k v m : NoDup (map fst m) -> NoDup (map fst (assign k v m)).
  Proof.
    intros H. unfold assign; simpl. constructor.
    - rewrite <- lookup_none. apply lookup_remove_same.
    - rewrite map_fst_remove. apply NoDup_filter. exact H.
  Qed.
End Assoc.
