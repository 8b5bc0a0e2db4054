(** Theorems about the scoped handles. *)
From Verif Require Import Base Handle_model.
From Coq Require Import Permutation.

(** What the variables own. *)
Definition holds (c : cell) : list nat := match c with Live (Some r) => [r] | _ => [] end.
Definition owned (w : world) : list nat := flat_map holds (cells w).

(** Every resource ever created is in exactly one place. *)
Definition accounted (w : world) : Prop :=
  Permutation (seq 0 (next w)) (owned w ++ freed w ++ released w ++ lost w).

(** No function ever stores through ptr() into a handle that still owns something. *)
Fixpoint fills_empty (w : world) (os : list op) : Prop :=
  match os with
  | [] => True
  | o :: os' =>
      (match o with Fill h => match get w h with Live (Some _) => False | _ => True end | _ => True end) /\
      match step w o with Ok w' => fills_empty w' os' | _ => True end
  end.

Lemma put_split cs h c : h < length cs ->
  exists a b, cs = a ++ nth h cs Gone :: b /\ length a = h /\ put cs h c = a ++ c :: b.
Proof.
  revert h. induction cs as [|x cs IH]; intros h H; [simpl in H; lia|]. destruct h as [|h].
  - exists [], cs. repeat split; reflexivity.
  - simpl in H. destruct (IH h) as (a & b & E1 & E2 & E3); [lia|].
    exists (x :: a), b. simpl. rewrite E3, E2. split; [f_equal; exact E1|split; reflexivity].
Qed.

Lemma live_in w h p : get w h = Live p -> h < length (cells w).
Proof.
  unfold get. intros H. destruct (Nat.lt_ge_cases h (length (cells w))) as [L|L]; [exact L|].
  rewrite nth_overflow in H; [discriminate|exact L].
Qed.

Lemma owned_put cs h c : h < length cs ->
  Permutation (holds (nth h cs Gone) ++ flat_map holds (put cs h c)) (holds c ++ flat_map holds cs).
Proof.
  intros H. destruct (put_split cs h c H) as (a & b & E1 & _ & E3). rewrite E3.
  set (x := nth h cs Gone) in *. clearbody x. rewrite E1, !flat_map_app. simpl.
  rewrite !app_assoc. apply Permutation_app_tail.
  rewrite <- (app_assoc (holds x)). etransitivity; [apply Permutation_app_comm|].
  apply Permutation_app_tail, Permutation_app_comm.
Qed.

Lemma get_set_same w h c : h < length (cells w) -> get (set w h c) h = c.
Proof.
  unfold get, set. cbn [cells]. intros H. destruct (put_split (cells w) h c H) as (a & b & _ & E2 & E3).
  rewrite E3, app_nth2, E2, Nat.sub_diag; [reflexivity|lia].
Qed.

Lemma put_other cs h h' c : h <> h' -> nth h' (put cs h c) Gone = nth h' cs Gone.
Proof.
  revert h h'. induction cs as [|x cs IH]; intros h h' H; [reflexivity|].
  destruct h, h'; simpl; try reflexivity; [lia|]. apply IH. lia.
Qed.

Lemma put_length cs h c : length (put cs h c) = length cs.
Proof. revert h. induction cs as [|x cs IH]; intros [|h]; simpl; [| | |rewrite IH]; reflexivity. Qed.

Lemma get_set_other w h h' c : h <> h' -> get (set w h c) h' = get w h'.
Proof. apply put_other. Qed.

Lemma owned_not_freed w h r : accounted w -> get w h = Live (Some r) -> mem r (freed w) = false.
Proof.
  intros A G. destruct (mem r (freed w)) eqn:M; [|reflexivity]. exfalso.
  apply existsb_exists in M as (r' & Hr & E). apply Nat.eqb_eq in E. subst r'.
  assert (ND : NoDup (owned w ++ freed w ++ released w ++ lost w)).
  { eapply Permutation_NoDup; [exact A|apply seq_NoDup]. }
  assert (Ho : In r (owned w)).
  { unfold owned. apply in_flat_map. exists (get w h). split.
    - apply nth_In. eapply live_in. exact G.
    - rewrite G. left. reflexivity. }
  clear A. revert ND Ho. generalize (owned w). intros l ND Ho.
  induction l as [|x l IH]; [exact Ho|]. simpl in ND. inversion ND; subst. destruct Ho as [->|Ho].
  - apply H1. rewrite !in_app_iff. tauto.
  - apply IH; assumption.
Qed.

Lemma perm_out (a : nat) l m : Permutation (a :: l) m -> forall x, Permutation (l ++ a :: x) (m ++ x).
Proof.
  intros H x. etransitivity; [symmetry; apply Permutation_middle|]. change (a :: l ++ x) with ((a :: l) ++ x).
  apply Permutation_app_tail. exact H.
Qed.

Lemma owned_take w h r : get w h = Live (Some r) ->
  Permutation (r :: flat_map holds (put (cells w) h (Live None))) (owned w).
Proof.
  intros G. pose proof (owned_put (cells w) h (Live None) (live_in _ _ _ G)) as P.
  unfold get in G. rewrite G in P. exact P.
Qed.

Lemma owned_gone w h p : get w h = Live p -> holds (Live p) = [] ->
  forall c, holds c = [] -> Permutation (flat_map holds (put (cells w) h c)) (owned w).
Proof.
  intros G E c Ec. pose proof (owned_put (cells w) h c (live_in _ _ _ G)) as P.
  unfold get in G. rewrite G, E, Ec in P. exact P.
Qed.

Lemma dispose_ok w h : accounted w ->
  exists w', dispose w h = Ok w' /\ accounted w' /\ next w' = next w /\ released w' = released w /\
    lost w' = lost w /\ length (cells w') = length (cells w) /\ (forall h', h' <> h -> get w' h' = get w h') /\
    (forall p, get w h = Live p -> get w' h = Live None).
Proof.
  intros A. unfold dispose. destruct (get w h) as [|[r|]] eqn:G.
  - exists w. repeat split; auto. discriminate.
  - unfold free_res. rewrite (owned_not_freed w h r A G). cbn [obind]. eexists. split; [reflexivity|].
    split; [|split; [reflexivity|split; [reflexivity|split; [reflexivity|]]]].
    + unfold accounted in *. cbn [set next freed released lost cells]. unfold owned. cbn [set cells].
      etransitivity; [exact A|]. symmetry. apply (perm_out r _ (owned w)).
      apply owned_take. exact G.
    + split; [cbn; apply put_length|]. split.
      * intros h' Hh. apply (put_other (cells w)). congruence.
      * intros p _. change (get (set w h (Live None)) h = Live None). apply get_set_same. eapply live_in. exact G.
  - exists w. repeat split; auto.
Qed.

Lemma step_ok w o : accounted w ->
  exists w', step w o = Ok w' /\ accounted w' /\
    (match o with Fill h => match get w h with Live (Some _) => True | _ => lost w' = lost w end | _ => lost w' = lost w end) /\
    (match o with Release _ => True | _ => released w' = released w end).
Proof.
  intros A. destruct o as [ok|h|h src|h|h|h|h|h]; cbn [step].
  - destruct ok; eexists; (split; [reflexivity|]); (split; [|split; reflexivity]); unfold accounted, owned in *; cbn [next cells freed released lost];
      rewrite flat_map_app; cbn [flat_map holds app].
    + rewrite seq_S. cbn [Nat.add]. etransitivity; [apply Permutation_app_comm|]. simpl.
      rewrite <- app_assoc. cbn [app]. etransitivity; [apply perm_skip, A|]. apply Permutation_middle.
    + rewrite app_nil_r. exact A.
  - destruct (get w h) as [|p] eqn:G.
    + exists w. auto.
    + eexists. split; [reflexivity|]. split; [|split; reflexivity]. unfold accounted, owned in *. cbn [next cells freed released lost].
      rewrite flat_map_app. cbn [flat_map]. rewrite app_nil_r.
      etransitivity; [exact A|]. apply Permutation_app_tail. symmetry.
      etransitivity; [apply Permutation_app_comm|].
      pose proof (owned_put (cells w) h (Live None) (live_in _ _ _ G)) as P. unfold get in G. rewrite G in P. exact P.
  - destruct (get w h) as [|p] eqn:G; [exists w; auto|].
    destruct (get w src) as [|q] eqn:G'; [exists w; auto|].
    destruct (h =? src) eqn:E; [exists w; auto|]. apply Nat.eqb_neq in E.
    destruct (dispose_ok w h A) as (w1 & D & A1 & N1 & R1 & L1 & Len & O1 & S1). rewrite D. cbn [obind].
    rewrite (O1 src) by congruence. rewrite G'. eexists. split; [reflexivity|].
    split; [|split; [exact L1|exact R1]]. unfold accounted, owned in *. cbn [set next cells freed released lost].
    etransitivity; [exact A1|]. apply Permutation_app_tail.
    pose proof (live_in _ _ _ (S1 p G)) as Lh.
    assert (G1 : get w1 src = Live q) by (rewrite (O1 src) by congruence; exact G').
    pose proof (live_in _ _ _ G1) as Ls.
    pose proof (owned_put (cells w1) h (Live q) Lh) as P1.
    pose proof (S1 p G) as S1'. unfold get in S1'. rewrite S1' in P1. cbn [holds] in P1.
    assert (Ls' : src < length (put (cells w1) h (Live q))) by (rewrite put_length; exact Ls).
    pose proof (owned_put (put (cells w1) h (Live q)) src (Live None) Ls') as P2.
    rewrite put_other in P2 by congruence. unfold get in G1. rewrite G1 in P2. cbn [app] in P1, P2.
    change (holds (Live None)) with (@nil nat) in P2. cbn [app] in P2.
    symmetry. apply (Permutation_app_inv_l (holds (Live q))). etransitivity; [exact P2|]. exact P1.
  - destruct (dispose_ok w h A) as (w1 & D & A1 & _ & R1 & L1 & _). exists w1. auto.
  - destruct (get w h) as [|[r|]] eqn:G; [exists w; auto| |exists w; auto].
    eexists. split; [reflexivity|]. split; [|split; [reflexivity|exact I]]. unfold accounted, owned in *.
    cbn [set next cells freed released lost]. etransitivity; [exact A|]. symmetry.
    rewrite app_assoc. etransitivity; [symmetry; apply Permutation_middle|]. rewrite <- app_assoc.
    exact (Permutation_app_tail (freed w ++ released w ++ lost w) (owned_take w h r G)).
  - destruct (get w h) as [|p] eqn:G; [exists w; auto|]. eexists. split; [reflexivity|].
    pose proof (owned_put (cells w) h (Live (Some (next w))) (live_in _ _ _ G)) as P. unfold get in G. rewrite G in P.
    split; [|split; [destruct p; [exact I|reflexivity]|reflexivity]].
    unfold accounted, owned in *. cbn [set next cells freed released lost]. rewrite seq_S. cbn [Nat.add].
    etransitivity; [apply Permutation_app_comm|]. cbn [app]. etransitivity; [apply perm_skip, A|].
    destruct p as [r|]; cbn [holds app] in P.
    + assert (P' : Permutation (next w :: flat_map holds (cells w)) (r :: flat_map holds (put (cells w) h (Live (Some (next w)))))) by (symmetry; exact P).
      change (next w :: flat_map holds (cells w) ++ freed w ++ released w ++ lost w)
        with ((next w :: flat_map holds (cells w)) ++ freed w ++ released w ++ lost w).
      etransitivity; [apply Permutation_app_tail, P'|]. cbn [app].
      rewrite !app_assoc. apply Permutation_middle.
    + change (next w :: flat_map holds (cells w) ++ freed w ++ released w ++ lost w)
        with ((next w :: flat_map holds (cells w)) ++ freed w ++ released w ++ lost w).
      apply Permutation_app_tail. symmetry. exact P.
  - destruct (get w h) as [|[r|]] eqn:G; [exists w; auto| |exists w; auto].
    rewrite (owned_not_freed w h r A G). exists w. auto.
  - destruct (get w h) as [|p] eqn:G; [exists w; auto|].
    destruct (dispose_ok w h A) as (w1 & D & A1 & N1 & R1 & L1 & Len & O1 & S1). rewrite D. cbn [obind].
    eexists. split; [reflexivity|]. split; [|split; [exact L1|exact R1]].
    unfold accounted, owned in *. cbn [set next cells freed released lost]. etransitivity; [exact A1|].
    apply Permutation_app_tail. symmetry. exact (owned_gone w1 h None (S1 p G) eq_refl Gone eq_refl).
Qed.

Lemma steps_ok os : forall w, accounted w -> exists w', steps w os = Ok w' /\ accounted w' /\ (fills_empty w os -> lost w' = lost w).
Proof.
  induction os as [|o os IH]; intros w A; [exists w; auto|]. cbn [steps fills_empty].
  destruct (step_ok w o A) as (w1 & E & A1 & L1 & _). rewrite E. cbn [obind].
  destruct (IH w1 A1) as (w2 & E2 & A2 & L2). exists w2. split; [exact E2|]. split; [exact A2|].
  intros (F & F'). rewrite (L2 F'). destruct o as [| | | | |h| |]; auto. destruct (get w h) as [|[r|]]; auto. elim F.
Qed.

Lemma steps_app os os' w : steps w (os ++ os') = obind (steps w os) (fun w' => steps w' os').
Proof.
  revert w. induction os as [|o os IH]; intros w; [reflexivity|]. cbn [app steps].
  destruct (step w o) as [w1| | |]; cbn [obind]; auto.
Qed.

Lemma accounted0 : accounted world0.
Proof. constructor. Qed.

Lemma destroy_gone hs : forall w, accounted w ->
  exists w', steps w (map Destroy hs) = Ok w' /\ accounted w' /\ next w' = next w /\ released w' = released w /\ lost w' = lost w /\
    length (cells w') = length (cells w) /\ (forall h, In h hs -> get w' h = Gone) /\ (forall h, get w h = Gone -> get w' h = Gone).
Proof.
  induction hs as [|h hs IH]; intros w A; [exists w; cbn; intuition|].
  cbn [map steps step].
  assert (X : exists w1, step w (Destroy h) = Ok w1 /\ accounted w1 /\ next w1 = next w /\ released w1 = released w /\ lost w1 = lost w /\
    length (cells w1) = length (cells w) /\ get w1 h = Gone /\ forall h', get w h' = Gone -> get w1 h' = Gone).
  { destruct (step_ok w (Destroy h) A) as (w1 & E & A1 & L1 & R1). exists w1. split; [exact E|]. split; [exact A1|].
    cbn [step] in E. destruct (get w h) as [|p] eqn:G; [injection E as <-; auto 10|].
    destruct (dispose_ok w h A) as (w2 & D & A2 & N2 & R2 & L2 & Len & O2 & S2). rewrite D in E. cbn [obind] in E. injection E as <-.
    split; [exact N2|]. split; [exact R2|]. split; [exact L2|]. split; [cbn; rewrite put_length; exact Len|]. split.
    - apply get_set_same. rewrite Len. eapply live_in. exact G.
    - intros h' Hg. destruct (Nat.eq_dec h h') as [->|Ne]; [congruence|]. rewrite get_set_other by exact Ne. rewrite O2; congruence. }
  destruct X as (w1 & E & A1 & N1 & R1 & L1 & Len1 & G1 & K1). cbn [step] in E. rewrite E. cbn [obind].
  destruct (IH w1 A1) as (w2 & E2 & A2 & N2 & R2 & L2 & Len2 & G2 & K2). exists w2. split; [exact E2|]. split; [exact A2|].
  split; [congruence|]. split; [congruence|]. split; [congruence|]. split; [congruence|]. split; [|auto].
  intros h' [<-|Hin]; auto.
Qed.

(** C58.  Whatever the program does with its handles, nothing is freed twice or used after
    being freed, and no resource is in two places. *)
Theorem C58_no_double_free os :
  exists w, steps world0 os = Ok w /\ NoDup (owned w ++ freed w ++ released w ++ lost w).
Proof.
  destruct (steps_ok os world0 accounted0) as (w & E & A & _). exists w. split; [exact E|].
  eapply Permutation_NoDup; [exact A|apply seq_NoDup].
Qed.
Print Assumptions C58_no_double_free.

(** When the variables go out of scope everything has been freed exactly once, except what
    was released to the caller (and what was overwritten through ptr()). *)
Theorem C58_all_freed os :
  exists w w', steps world0 os = Ok w /\ end_of_scope w = Ok w' /\ owned w' = [] /\
    NoDup (freed w') /\ released w' = released w /\
    (forall r, r < next w -> (In r (freed w') <-> ~ In r (released w) /\ ~ In r (lost w))) /\
    (fills_empty world0 os -> lost w = []).
Proof.
  destruct (steps_ok os world0 accounted0) as (w & E & A & L).
  destruct (destroy_gone (rev (seq 0 (length (cells w)))) w A) as (w' & E' & A' & N' & R' & L' & Len & G & _).
  exists w, w'. split; [exact E|]. split; [exact E'|].
  assert (O : owned w' = []).
  { unfold owned. assert (H : Forall (fun c => c = Gone) (cells w')).
    { apply Forall_nth. intros i d Hi. rewrite (nth_indep _ d Gone Hi). apply (G i). apply -> in_rev.
      apply in_seq. lia. }
    clear - H. induction H as [|c cs -> H IH]; [reflexivity|exact IH]. }
  assert (ND : NoDup (owned w' ++ freed w' ++ released w' ++ lost w')).
  { eapply Permutation_NoDup; [exact A'|apply seq_NoDup]. }
  rewrite O in ND. cbn [app] in ND. unfold accounted in A'. rewrite O, N' in A'. cbn [app] in A'. rewrite R', L' in *.
  assert (SP : forall l m : list nat, NoDup (l ++ m) -> NoDup l /\ forall r, In r l -> ~ In r m).
  { clear. induction l as [|x l IH]; intros m ND; [split; [constructor|intros r []]|].
    simpl in ND. inversion ND; subst. destruct (IH m H2) as (a & b). rewrite in_app_iff in H1. split.
    - constructor; tauto.
    - intros r [<-|Hr]; auto. }
  destruct (SP _ _ ND) as (ND1 & ND2).
  split; [exact O|]. split; [exact ND1|]. split; [reflexivity|]. split; [|exact L].
  intros r Hr. split.
  - intros Hin. specialize (ND2 r Hin). rewrite in_app_iff in ND2. tauto.
  - intros (H1 & H2). assert (Hin : In r (freed w' ++ released w ++ lost w)).
    { eapply Permutation_in; [exact A'|]. apply in_seq. lia. }
    rewrite !in_app_iff in Hin. tauto.
Qed.
Print Assumptions C58_all_freed.

(** The pair gg_ctx (utils.hpp:166-169): an empty handle is filled, the temporary is moved
    into the other one. *)
Definition open_file : list op := [Construct false; Construct false; Fill 0; Construct true; MoveAssign 1 2; Destroy 2].

Example C58_example :
  exists w, steps world0 (open_file ++ [Use 0; Use 1; Release 1; MoveAssign 0 0; MoveConstruct 0; Dispose 3]) = Ok w /\
    next w = 2 /\ freed w = [0] /\ released w = [1] /\ lost w = [] /\ fills_empty world0 open_file.
Proof. eexists. split; [vm_compute; reflexivity|]. vm_compute. intuition. Qed.

(** The hypothesis matters: ptr() on a full handle loses its resource. *)
Example C58_overwritten : exists w, steps world0 [Construct true; Fill 0; Destroy 0] = Ok w /\ freed w = [1] /\ lost w = [0].
Proof. eexists. split; [vm_compute; reflexivity|]. split; reflexivity. Qed.
