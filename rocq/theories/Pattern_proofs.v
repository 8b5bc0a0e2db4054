(** Proofs about the word pattern. *)
From Coq Require Import Relation_Operators.
From Verif Require Import Base Utf_model Utf_spec Utf_proofs Ustr_model Ustr_spec Ustr_proofs.
From Verif Require Import Vocab_spec Bpe_spec Roberta_spec Roberta_proofs Rtext_spec Rtext_proofs Pattern_model Pattern_spec.
Local Open Scope N_scope.

Lemma hd_app {A} (a b : list A) : hd_error (a ++ b) = match hd_error a with Some x => Some x | None => hd_error b end.
Proof. destruct a; reflexivity. Qed.

Lemma first_alt n a b s : first n (Alt a b) s = match first n a s with Some x => Some x | None => first n b s end.
Proof. apply hd_app. Qed.

Lemma stops_false (k : N -> bool) c r : stops (fun c => k c = true) (c :: r) -> k c = false.
Proof. intros H. specialize (H c r eq_refl). cbv beta in H. destruct (k c); congruence. Qed.

(** The rests of a greedy run, longest run first. *)
Fixpoint tails (p rest : list N) : list (list N) :=
  match p with [] => [] | _ :: p' => tails p' rest ++ [p' ++ rest] end.

Lemma repeated_tails m (k : N -> bool) rest : stops (fun c => k c = true) rest ->
  forall p n, Forall (fun c => k c = true) p -> (length (p ++ rest) < n)%nat ->
  repeated (matches m (One k)) n (p ++ rest) = tails p rest.
Proof.
  intros ST. induction p as [|c p IH]; intros n F L.
  - destruct n as [|n]; [lia|]. cbn [repeated app matches tails]. destruct rest as [|c r]; [reflexivity|].
    rewrite (stops_false k c r ST). reflexivity.
  - destruct n as [|n]; [lia|]. inversion F as [|? ? Hc F']; subst. cbn [repeated app matches]. rewrite Hc. cbn [flat_map].
    cbn [app length] in *. rewrite (proj2 (Nat.ltb_lt _ _)) by lia. rewrite IH by (auto; lia). rewrite app_nil_r. reflexivity.
Qed.

Lemma tails_first p rest : p <> [] -> hd_error (tails p rest) = Some rest.
Proof.
  induction p as [|c p IH]; [congruence|]. intros _. cbn [tails]. rewrite hd_app. destruct p as [|d p]; [reflexivity|].
  rewrite IH by discriminate. reflexivity.
Qed.

(** Every text is a run followed by something else. *)
Lemma run_split (k : N -> bool) s : exists p rest, s = p ++ rest /\ Forall (fun c => k c = true) p /\ stops (fun c => k c = true) rest.
Proof.
  induction s as [|c s (p & rest & -> & F & ST)].
  - exists [], []. repeat split; [constructor|]. intros c t E; discriminate.
  - destruct (k c) eqn:E.
    + exists (c :: p), rest. repeat split; auto.
    + exists [], (c :: p ++ rest). repeat split; auto. intros c' t' Eq. injection Eq as <- _. congruence.
Qed.

Lemma plus_run n (k : N -> bool) p rest : Forall (fun c => k c = true) p -> stops (fun c => k c = true) rest ->
  matches n (Plus (One k)) (p ++ rest) = tails p rest.
Proof. intros F ST. exact (repeated_tails n k rest ST p _ F (Nat.lt_succ_diag_r _)). Qed.

Lemma plus_none n (k : N -> bool) s : stops (fun c => k c = true) s -> matches n (Plus (One k)) s = [].
Proof. intros ST. exact (plus_run n k [] s (Forall_nil _) ST). Qed.

Lemma flat_map_app {A B} (f : A -> list B) a b : flat_map f (a ++ b) = flat_map f a ++ flat_map f b.
Proof. induction a as [|x a IH]; [reflexivity|]. cbn [flat_map app]. rewrite IH, app_assoc. reflexivity. Qed.

(** ** An optional space and a run *)

Lemma opt_space n s : matches n (Opt (lit 32)) s = match s with c :: s' => if N.eqb 32 c then [s'; s] else [s] | [] => [s] end.
Proof. cbn [matches lit]. destruct s as [|c s]; [reflexivity|]. destruct (N.eqb 32 c); reflexivity. Qed.

Lemma spaced_eq n k s : matches n (spaced k) s =
  match s with
  | c :: s' => if N.eqb 32 c then matches n (Plus (One k)) s' ++ matches n (Plus (One k)) s else matches n (Plus (One k)) s
  | [] => matches n (Plus (One k)) s
  end.
Proof.
  unfold spaced. change (matches n (Seq (Opt (lit 32)) (Plus (One k))) s) with (flat_map (matches n (Plus (One k))) (matches n (Opt (lit 32)) s)).
  rewrite opt_space. destruct s as [|c s]; [cbn [flat_map]; apply app_nil_r|].
  destruct (N.eqb 32 c); cbn [flat_map]; rewrite app_nil_r; reflexivity.
Qed.

Lemma spaced_run n (k : N -> bool) p rest : k 32 = false -> p <> [] -> Forall (fun c => k c = true) p -> stops (fun c => k c = true) rest ->
  first n (spaced k) (p ++ rest) = Some rest.
Proof.
  intros K NE F ST. unfold first. rewrite spaced_eq. destruct p as [|c p]; [congruence|]. cbn [app].
  assert (Hc : k c = true) by (inversion F; assumption).
  replace (N.eqb 32 c) with false by (symmetry; apply N.eqb_neq; congruence).
  change (c :: p ++ rest) with ((c :: p) ++ rest). rewrite plus_run by assumption. apply tails_first. discriminate.
Qed.

Lemma spaced_space n (k : N -> bool) p rest : p <> [] -> Forall (fun c => k c = true) p -> stops (fun c => k c = true) rest ->
  first n (spaced k) (32 :: p ++ rest) = Some rest.
Proof.
  intros NE F ST. unfold first. rewrite spaced_eq. rewrite N.eqb_refl. rewrite plus_run by assumption.
  rewrite hd_app, tails_first by assumption. reflexivity.
Qed.

Lemma spaced_none n (k : N -> bool) s : stops (fun c => k c = true) s -> (forall s', s = 32 :: s' -> stops (fun c => k c = true) s') ->
  first n (spaced k) s = None.
Proof.
  intros ST S2. unfold first. rewrite spaced_eq. destruct s as [|c s]; [rewrite plus_none by assumption; reflexivity|].
  destruct (N.eqb 32 c) eqn:E; [|rewrite plus_none by assumption; reflexivity].
  apply N.eqb_eq in E; subst c. rewrite plus_none by (apply S2; reflexivity). rewrite plus_none by assumption. reflexivity.
Qed.

(** ** Contractions *)

Lemma lit2_none n a b s : (forall r, s <> [a; b] ++ r) -> first n (lit2 a b) s = None.
Proof.
  intros H. unfold first, lit2, lit. cbn [matches]. destruct s as [|x s]; [reflexivity|]. destruct (N.eqb a x) eqn:E1; [|reflexivity].
  cbn [flat_map]. destruct s as [|y s]; [reflexivity|]. destruct (N.eqb b y) eqn:E2; [|reflexivity].
  apply N.eqb_eq in E1, E2; subst. exfalso. exact (H s eq_refl).
Qed.

Lemma lit3_none n a b c s : (forall r, s <> [a; b; c] ++ r) -> first n (lit3 a b c) s = None.
Proof.
  intros H. unfold first, lit3, lit2, lit. cbn [matches]. destruct s as [|x s]; [reflexivity|]. destruct (N.eqb a x) eqn:E1; [|reflexivity].
  cbn [flat_map]. destruct s as [|y s]; [reflexivity|]. destruct (N.eqb b y) eqn:E2; [|reflexivity].
  cbn [flat_map]. destruct s as [|z s]; [reflexivity|]. destruct (N.eqb c z) eqn:E3; [|reflexivity].
  apply N.eqb_eq in E1, E2, E3; subst. exfalso. exact (H s eq_refl).
Qed.

Section Words.
Context (letter digit blank : N -> bool).
Hypothesis CL : classes letter digit blank.
Let sym := symbol letter digit blank.
Let pat := word_pattern letter digit blank.
Let kb (k : kind) : N -> bool := match k with Letter => letter | Digit => digit | Other => sym end.

Definition late : rx := fold_right Alt (Plus (One blank))
  [spaced letter; spaced digit; spaced sym; Seq (Plus (One blank)) (NotAhead (One (fun c => negb (blank c))))].

Lemma first_late n s : ~ contracted s -> first n pat s = first n late s.
Proof.
  intros NC. unfold pat, word_pattern. cbn [fold_right].
  assert (X : forall k r, In k contractions -> s <> k ++ r) by (intros k r Hk E; apply NC; exists k, r; auto).
  do 7 (rewrite first_alt; rewrite ?lit2_none, ?lit3_none; [|intros r; apply X; cbn; tauto]). reflexivity.
Qed.

Lemma kb_iff k c : of_kind letter digit blank k c <-> kb k c = true.
Proof.
  destruct CL as [C1 C2 C3 C4 C5]. unfold of_kind, kb, sym, symbol. destruct k.
  - split; [tauto|]. intros H. split; [|exact H]. destruct (blank c) eqn:E; [|reflexivity]. rewrite (C3 c E) in H. discriminate.
  - split; [tauto|]. intros H. split; [|exact H]. destruct (blank c) eqn:E; [|reflexivity]. rewrite (C4 c E) in H. discriminate.
  - destruct (blank c), (letter c), (digit c); cbn; intuition congruence.
Qed.

Lemma kb_space k : kb k 32 = false.
Proof.
  destruct (kb k 32) eqn:E; [|reflexivity]. apply kb_iff in E as (E & _). rewrite (cl_space _ _ _ CL) in E. discriminate.
Qed.

Lemma kb_apart k k' c : kb k c = true -> kb k' c = true -> k = k'.
Proof.
  intros H H'. apply kb_iff in H as (B & H), H' as (_ & H'). destruct k, k'; try reflexivity; intuition (try congruence).
  - rewrite (cl_apart _ _ _ CL c H) in H'. discriminate.
  - rewrite (cl_apart _ _ _ CL c H') in H. discriminate.
Qed.

Lemma kb_blank k c : kb k c = true -> blank c = false.
Proof. intros H. apply kb_iff in H. apply H. Qed.

Lemma stops_kb k rest : stops (of_kind letter digit blank k) rest <-> stops (fun c => kb k c = true) rest.
Proof. unfold stops. split; intros H c t E X; apply (H c t E); apply kb_iff; exact X. Qed.

Lemma forall_kb k p : Forall (of_kind letter digit blank k) p <-> Forall (fun c => kb k c = true) p.
Proof. rewrite !Forall_forall. split; intros H x Hx; apply kb_iff, H, Hx. Qed.

(** A text whose first visible character is not of the kind [k'] is not matched by it. *)
Lemma other_kind n k' k p rest : k' <> k -> p <> [] -> Forall (fun c => kb k c = true) p ->
  first n (spaced (kb k')) (p ++ rest) = None /\ first n (spaced (kb k')) (32 :: p ++ rest) = None.
Proof.
  intros NK NE F. destruct p as [|c p]; [congruence|]. inversion F as [|? ? Hc _]; subst.
  assert (S1 : stops (fun c => kb k' c = true) ((c :: p) ++ rest)).
  { intros c' t E H. injection E as <- _. apply NK. exact (kb_apart _ _ _ H Hc). }
  split; apply spaced_none; try exact S1.
  - intros s' E. injection E as -> _. rewrite kb_space in Hc. discriminate.
  - intros c' t E H. injection E as <- _. rewrite kb_space in H. discriminate.
  - intros s' E. injection E as <-. exact S1.
Qed.

Lemma late_kind n k s r : first n (spaced (kb k)) s = Some r -> (forall k', k' <> k -> first n (spaced (kb k')) s = None) ->
  first n late s = Some r.
Proof.
  intros H NO. assert (N1 := NO Letter). assert (N2 := NO Digit). unfold late. cbn [fold_right]. rewrite !first_alt.
  unfold kb in *. destruct k.
  - rewrite H. reflexivity.
  - rewrite N1 by discriminate. rewrite H. reflexivity.
  - rewrite N1, N2 by discriminate. rewrite H. reflexivity.
Qed.

Lemma late_blank n c s : blank c = true -> (c = 32 -> stops (fun c => blank c = false) s) ->
  first n late (c :: s) = match first n (Seq (Plus (One blank)) (NotAhead (One (fun c => negb (blank c))))) (c :: s) with
    | Some r => Some r | None => first n (Plus (One blank)) (c :: s) end.
Proof.
  intros B S2.
  assert (NO : forall k, first n (spaced (kb k)) (c :: s) = None).
  { intros k. apply spaced_none.
    - intros c' t E H. injection E as <- _. apply kb_blank in H. congruence.
    - intros s' E c' t E' H. injection E as -> ->. apply (S2 eq_refl c' t E'). exact (kb_blank _ _ H). }
  assert (N1 := NO Letter). assert (N2 := NO Digit). assert (N3 := NO Other). unfold kb in N1, N2, N3.
  unfold late. cbn [fold_right]. rewrite !first_alt. rewrite N1, N2, N3. reflexivity.
Qed.

(** Blanks not followed by something visible. *)
Lemma ahead n s : matches n (NotAhead (One (fun c => negb (blank c)))) s =
  match s with c :: _ => if blank c then [s] else [] | [] => [s] end.
Proof. cbn [matches]. destruct s as [|c s]; [reflexivity|]. destruct (blank c); reflexivity. Qed.

Lemma seq_run n p rest : Forall (fun c => blank c = true) p -> stops (fun c => blank c = true) rest ->
  first n (Seq (Plus (One blank)) (NotAhead (One (fun c => negb (blank c))))) (p ++ rest) =
  hd_error (flat_map (matches n (NotAhead (One (fun c => negb (blank c))))) (tails p rest)).
Proof.
  intros F ST. unfold first. change (matches n (Seq ?a ?b) ?s) with (flat_map (matches n b) (matches n a s)).
  rewrite plus_run by assumption. reflexivity.
Qed.

Lemma tails_end n p : p <> [] -> hd_error (flat_map (matches n (NotAhead (One (fun c => negb (blank c))))) (tails p [])) = Some [].
Proof.
  induction p as [|c p IH]; [congruence|]. intros _. cbn [tails]. rewrite flat_map_app, hd_app. destruct p as [|d p]; [reflexivity|].
  rewrite IH by discriminate. reflexivity.
Qed.

Lemma tails_one n c x rest : blank x = false ->
  flat_map (matches n (NotAhead (One (fun c => negb (blank c))))) (tails [c] (x :: rest)) = [].
Proof. intros B. cbn [tails app flat_map]. rewrite ahead, B. reflexivity. Qed.

Lemma tails_more n c x rest : blank c = true -> blank x = false -> forall p, p <> [] ->
  hd_error (flat_map (matches n (NotAhead (One (fun c => negb (blank c))))) (tails (p ++ [c]) (x :: rest))) = Some (c :: x :: rest).
Proof.
  intros Bc Bx. induction p as [|d p IH]; [congruence|]. intros _. cbn [app tails]. rewrite flat_map_app, hd_app. destruct p as [|e p].
  - cbn [app]. rewrite tails_one by assumption. cbn [hd_error flat_map app]. rewrite ahead, Bc. reflexivity.
  - rewrite IH by discriminate. reflexivity.
Qed.

Lemma contracted_visible s : contracted s -> exists s', s = 39 :: s'.
Proof. intros (k & r & Hk & ->). cbn in Hk. intuition subst; eexists; reflexivity. Qed.

Lemma blank_39 : blank 39 = false.
Proof. apply (cl_visible _ _ _ CL). lia. Qed.

Lemma blank_not_contracted c s : blank c = true -> ~ contracted (c :: s).
Proof. intros B H. apply contracted_visible in H as (s' & E). injection E as -> _. rewrite blank_39 in B. discriminate. Qed.

Lemma stops_head (P : N -> bool) s : s <> [] -> stops (fun c => P c = true) s -> exists x r, s = x :: r /\ P x = false.
Proof. intros NE ST. destruct s as [|x r]; [congruence|]. exists x, r. split; [reflexivity|]. exact (stops_false P x r ST). Qed.

(** The pattern takes the first word. *)
Lemma pattern_word n w rest : word letter digit blank w rest -> first n pat (w ++ rest) = Some rest.
Proof.
  intros H. destruct H as [k rest Hk|k p rest NE F ST NC|k p rest NE F ST|p NE F|p c rest NE F NR ST|c rest B N32 NR ST].
  - cbn in Hk. destruct Hk as [<-|[<-|[<-|[<-|[<-|[<-|[<-|[]]]]]]]]; reflexivity.
  - rewrite first_late by assumption. apply forall_kb in F. apply stops_kb in ST. apply (late_kind n k).
    + apply spaced_run; auto using kb_space.
    + intros k' NK. apply (other_kind n k' k); assumption.
  - rewrite first_late by (apply blank_not_contracted, (cl_space _ _ _ CL)). apply forall_kb in F. apply stops_kb in ST. apply (late_kind n k).
    + apply spaced_space; assumption.
    + intros k' NK. apply (other_kind n k' k); assumption.
  - rewrite app_nil_r. destruct p as [|c p]; [congruence|]. assert (Bc : blank c = true) by (inversion F; assumption).
    rewrite first_late by (apply blank_not_contracted; assumption). rewrite late_blank; [|assumption|].
    + rewrite <- (app_nil_r (c :: p)). rewrite seq_run, tails_end; [reflexivity|discriminate|assumption|intros x t E; discriminate].
    + intros _ x t -> Bx. inversion F as [|? ? _ F']; subst. inversion F'; subst. congruence.
  - destruct (stops_head blank rest NR ST) as (x & r & -> & Bx). apply Forall_app in F as Fc. destruct Fc as (Fp & Fc). inversion Fc as [|? ? Bc _]; subst.
    replace (p ++ c :: x :: r) with ((p ++ [c]) ++ x :: r) by (rewrite <- app_assoc; reflexivity).
    assert (SR := seq_run n (p ++ [c]) (x :: r) F ST). rewrite tails_more in SR by assumption.
    destruct p as [|d p]; [congruence|]. inversion Fp as [|? ? Bd Fp']; subst. cbn [app] in *.
    rewrite first_late by (apply blank_not_contracted; assumption). rewrite late_blank; [|assumption|].
    + rewrite SR. reflexivity.
    + intros _ y t E By. destruct p as [|e p]; cbn [app] in E; injection E as -> _; [congruence|]. inversion Fp'; subst. congruence.
  - destruct (stops_head blank rest NR ST) as (x & r & -> & Bx). cbn [app].
    rewrite first_late by (apply blank_not_contracted; assumption). rewrite late_blank; [|assumption|congruence].
    change (c :: x :: r) with ([c] ++ x :: r). rewrite seq_run by auto. rewrite tails_one by assumption. cbn [hd_error].
    unfold first. rewrite plus_run by auto. reflexivity.
Qed.

Lemma word_nonempty w rest : word letter digit blank w rest -> w <> [].
Proof. intros H. destruct H as [k rest Hk| | | | | ]; try assumption; try discriminate. cbn in Hk. intuition (subst; discriminate). Qed.

Lemma kind_of c : blank c = false -> exists k, of_kind letter digit blank k c.
Proof.
  intros B. destruct (letter c) eqn:E; [exists Letter; split; assumption|]. destruct (digit c) eqn:E'; [exists Digit; split; assumption|].
  exists Other; split; auto.
Qed.

Lemma contracted_dec s : contracted s \/ ~ contracted s.
Proof.
  assert (P : forall k, (exists r, s = k ++ r) \/ ~ exists r, s = k ++ r).
  { intros k. destruct (list_eq_dec N.eq_dec (firstn (length k) s) k) as [E|E].
    - left. exists (skipn (length k) s). rewrite <- E at 1. symmetry. apply firstn_skipn.
    - right. intros (r & ->). apply E. rewrite firstn_app, Nat.sub_diag, firstn_all, app_nil_r. reflexivity. }
  assert (Q : forall ks, (exists k r, In k ks /\ s = k ++ r) \/ ~ exists k r, In k ks /\ s = k ++ r).
  { induction ks as [|k ks IH]; [right; intros (k & r & [] & _)|]. destruct (P k) as [(r & E)|NP]; [left; exists k, r; cbn; auto|].
    destruct IH as [(k' & r & H & E)|NI]; [left; exists k', r; cbn; auto|]. right. intros (k' & r & [<-|H] & E); [apply NP; eauto|apply NI; eauto]. }
  apply Q.
Qed.

(** Every text has a first word. *)
Lemma word_exists s : s <> [] -> exists w rest, s = w ++ rest /\ word letter digit blank w rest.
Proof.
  intros NE. destruct (contracted_dec s) as [(k & r & Hk & ->)|NC]; [exists k, r; split; [reflexivity|apply wd_contraction, Hk]|].
  destruct (run_split blank s) as (p & rest & -> & F & ST). destruct p as [|c p].
  - cbn [app] in *. destruct rest as [|c s]; [congruence|]. assert (B : blank c = false) by exact (stops_false blank c s ST).
    destruct (kind_of c B) as (k & K). destruct (run_split (kb k) (c :: s)) as (q & r & E & Fq & Sr). rewrite E in *. exists q, r. split; [reflexivity|].
    apply (wd_run letter digit blank k); [|apply forall_kb, Fq|apply stops_kb, Sr|exact NC].
    intros ->. cbn [app] in E. subst r. apply (Sr c s eq_refl). apply kb_iff, K.
  - destruct rest as [|x r]; [exists (c :: p), []; split; [reflexivity|apply wd_last; [discriminate|exact F]]|].
    destruct (exists_last (l := c :: p) ltac:(discriminate)) as (q & b & E). rewrite E in *. destruct q as [|d q].
    + cbn [app] in *. assert (Bb : blank b = true) by (inversion F; assumption).
      destruct (N.eq_dec b 32) as [->|N32].
      * assert (Bx : blank x = false) by exact (stops_false blank x r ST).
        destruct (kind_of x Bx) as (k & K). destruct (run_split (kb k) (x :: r)) as (q & r' & E' & Fq & Sr).
        exists (32 :: q), r'. split; [cbn [app]; rewrite E'; reflexivity|].
        apply (wd_space letter digit blank k); [|apply forall_kb, Fq|apply stops_kb, Sr].
        intros ->. cbn [app] in E'. subst r'. apply (Sr x r eq_refl). apply kb_iff, K.
      * exists [b], (x :: r). split; [reflexivity|]. apply wd_blank; [exact Bb|exact N32|discriminate|exact ST].
    + exists (d :: q), (b :: x :: r). split; [rewrite <- app_assoc; reflexivity|]. apply wd_blanks; [discriminate|exact F|discriminate|exact ST].
Qed.

Lemma word_once w rest w' rest' : word letter digit blank w rest -> word letter digit blank w' rest' -> w ++ rest = w' ++ rest' -> w = w' /\ rest = rest'.
Proof.
  intros H H' E. assert (A := pattern_word 0 _ _ H). assert (B := pattern_word 0 _ _ H'). rewrite E in A. rewrite A in B. injection B as <-.
  split; [|reflexivity]. exact (app_inv_tail _ _ _ E).
Qed.

Lemma words_exist s : exists ws, words letter digit blank s ws.
Proof.
  assert (G : forall n s, (length s <= n)%nat -> exists ws, words letter digit blank s ws).
  { induction n as [|n IH]; intros t L.
    - destruct t; [exists []; constructor|cbn in L; lia].
    - destruct t as [|c t]; [exists []; constructor|]. destruct (word_exists (c :: t) ltac:(discriminate)) as (w & r & E & W).
      assert (NE := word_nonempty _ _ W). destruct (IH r) as (ws & WS).
      { rewrite E, app_length in L. destruct w; [congruence|cbn [length] in L; lia]. }
      exists (w :: ws). rewrite E. constructor; assumption. }
  exact (G (length s) s (le_n _)).
Qed.

Lemma words_once s ws ws' : words letter digit blank s ws -> words letter digit blank s ws' -> ws = ws'.
Proof.
  intros H. revert ws'. induction H as [|w rest ws W WS IH]; intros ws' H'.
  - inversion H' as [|w' rest' ws'' W' WS' E]; [reflexivity|]. apply word_nonempty in W'. destruct w'; [congruence|discriminate].
  - inversion H' as [E|w' rest' ws'' W' WS' E].
    + apply word_nonempty in W. destruct w; [congruence|discriminate].
    + subst ws'. destruct (word_once _ _ _ _ W' W E) as (-> & ->). f_equal. apply IH, WS'.
Qed.

Lemma words_concat s ws : words letter digit blank s ws -> concat ws = s.
Proof. induction 1 as [|w rest ws _ _ IH]; [reflexivity|]. cbn [concat]. rewrite IH. reflexivity. Qed.

(** ** Texts that meet at a blank *)

Lemma stops_blank k t b : stops (of_kind letter digit blank k) t -> (forall c b', b = c :: b' -> blank c = true) ->
  stops (of_kind letter digit blank k) (t ++ b).
Proof.
  intros S1 HB c t' E H. destruct t as [|x t]; cbn [app] in E.
  - specialize (HB c t' E). destruct H. congruence.
  - injection E as -> _. exact (S1 c t eq_refl H).
Qed.

(** A prefix without blanks of a text followed by a blank is a prefix of the text. *)
Lemma prefix_before k : Forall (fun c => blank c = false) k -> forall t b r, (forall c b', b = c :: b' -> blank c = true) ->
  t ++ b = k ++ r -> exists r', t = k ++ r'.
Proof.
  induction 1 as [|c k Hc _ IH]; intros t b r HB E.
  - exists t. reflexivity.
  - destruct t as [|x t]; cbn [app] in E.
    + specialize (HB c _ E). congruence.
    + injection E as -> E. destruct (IH t b r HB E) as (r' & ->). exists r'. reflexivity.
Qed.

Lemma contraction_visible k : In k contractions -> Forall (fun c => blank c = false) k.
Proof.
  intros Hk. assert (V := cl_visible _ _ _ CL). cbn in Hk.
  destruct Hk as [<-|[<-|[<-|[<-|[<-|[<-|[<-|[]]]]]]]]; repeat (apply Forall_cons; [apply V; lia|]); apply Forall_nil.
Qed.

Lemma contracted_before t b : (forall c b', b = c :: b' -> blank c = true) -> contracted (t ++ b) -> contracted t.
Proof.
  intros HB (k & r & Hk & E). destruct (prefix_before k (contraction_visible k Hk) t b r HB E) as (r' & ->). exists k, r'. auto.
Qed.

Lemma word_before w rest b : word letter digit blank w rest -> meet blank (w ++ rest) b -> word letter digit blank w (rest ++ b).
Proof.
  intros W (HA & HB). destruct W as [k rest Hk|k p rest NE F ST NC|k p rest NE F ST|p NE F|p c rest NE F NR ST|c rest B N32 NR ST].
  - apply wd_contraction, Hk.
  - apply (wd_run letter digit blank k); [exact NE|exact F|apply stops_blank; assumption|].
    rewrite app_assoc. intros H. apply NC. exact (contracted_before _ _ HB H).
  - apply (wd_space letter digit blank k); [exact NE|exact F|apply stops_blank; assumption].
  - exfalso. rewrite app_nil_r in HA. destruct (exists_last NE) as (q & c & ->). specialize (HA q c eq_refl).
    apply Forall_app in F as (_ & F). inversion F; subst. congruence.
  - cbn [app]. apply wd_blanks; [exact NE|exact F|destruct rest; [congruence|discriminate]|].
    destruct (stops_head blank rest NR ST) as (x & r & -> & Bx). intros y t E. injection E as <- _. congruence.
  - apply wd_blank; [exact B|exact N32|destruct rest; [congruence|discriminate]|].
    destruct (stops_head blank rest NR ST) as (x & r & -> & Bx). intros y t E. injection E as <- _. congruence.
Qed.

Lemma words_meet a wa : words letter digit blank a wa -> forall b wb, words letter digit blank b wb -> meet blank a b ->
  words letter digit blank (a ++ b) (wa ++ wb).
Proof.
  induction 1 as [|w rest wa W WS IH]; intros b wb H M; [exact H|]. rewrite <- app_assoc. cbn [app]. apply ws_cons.
  - apply word_before; assumption.
  - apply IH; [exact H|]. destruct M as (HA & HB). split; [|exact HB]. intros a' c ->. apply (HA (w ++ a') c). rewrite app_assoc. reflexivity.
Qed.

(** ** All matches of a text *)

(** Word boundaries, counted in characters from [from]. *)
Fixpoint spans (from : nat) (ws : list (list N)) : list (nat * nat) :=
  match ws with [] => [] | w :: ws' => (from, from + length w)%nat :: spans (from + length w) ws' end.

Lemma find_words n s ws : words letter digit blank s ws -> forall fuel, (length s < fuel)%nat -> (length s <= n)%nat ->
  find_all n pat fuel s = spans (n - length s) ws.
Proof.
  induction 1 as [|w rest ws W WS IH]; intros fuel L Ln.
  - destruct fuel as [|f]; [lia|]. cbn [find_all].
    assert (X : first n pat [] = None).
    { rewrite first_late by (intros H; apply contracted_visible in H as (s' & E); discriminate). reflexivity. }
    rewrite X. reflexivity.
  - destruct fuel as [|f]; [lia|]. cbn [find_all]. rewrite (pattern_word n _ _ W). rewrite app_length in *.
    assert (NE := word_nonempty _ _ W). assert (1 <= length w)%nat by (destruct w; [congruence|cbn; lia]).
    rewrite (proj2 (Nat.ltb_lt _ _)) by lia. rewrite IH by lia. cbn [spans].
    replace (n - length rest)%nat with (n - (length w + length rest) + length w)%nat by lia. reflexivity.
Qed.
End Words.

(** ** From characters to units *)

Lemma points_concat us : concat (points us) = us.
Proof.
  assert (G : forall n us, (length us <= n)%nat -> concat (points us) = us).
  { induction n as [|n IH]; intros [|c vs] L; try reflexivity; [cbn in L; lia|]. cbn [points]. destruct vs as [|l vs]; [reflexivity|].
    cbn [length] in L. destruct (is_high c && is_low l).
    - cbn [concat app]. rewrite IH by lia. reflexivity.
    - change (concat ([c] :: points (l :: vs))) with (c :: concat (points (l :: vs))). rewrite IH by (cbn [length]; lia). reflexivity. }
  exact (G (length us) us (le_n _)).
Qed.

Lemma points_cons c us : points (c :: us) =
  match us with
  | l :: us'' => if is_high c && is_low l then [c; l] :: points us'' else [c] :: points us
  | [] => [[c]]
  end.
Proof. destruct us; reflexivity. Qed.

Lemma points_utf16 cs us : utf16 cs us -> map point (points us) = cs.
Proof.
  induction 1 as [|c cs us S C U IH|c h l cs us Hh Hl E U IH]; [reflexivity| |].
  - rewrite points_cons. destruct us as [|l us]; [cbn in IH; rewrite <- IH; reflexivity|].
    rewrite is_high_false; [cbn [andb map point]; rewrite IH; reflexivity|]. unfold hi_sur, scalar_value in *. lia.
  - rewrite points_cons. rewrite (proj2 (is_high_iff h) Hh), (proj2 (is_low_iff l) Hl). cbn [andb map point]. rewrite IH. f_equal.
    rewrite pair_value_eq by assumption. symmetry. exact E.
Qed.

(** The groups of the units of a text with the characters [cs]. *)
Lemma points_enc16 cs : Forall scalar_value cs -> points (enc16s cs) = map enc16 cs.
Proof.
  intros H. assert (U := enc16s_spec cs H). remember (enc16s cs) as us eqn:Eu. revert Eu.
  induction U as [|c cs us S C U IH|c h l cs us Hh Hl E U IH]; intros Eu; [reflexivity| |].
  - inversion H as [|? ? _ H']; subst. cbn [enc16s flat_map] in Eu. fold (enc16s cs) in Eu. specialize (IH H').
    assert (E1 : enc16 c = [c]) by (unfold enc16; replace (c <? 0x10000) with true by lia; reflexivity).
    rewrite E1 in Eu. injection Eu as Eu. specialize (IH Eu). rewrite points_cons. cbn [map]. rewrite E1, <- IH. destruct us as [|l us]; [reflexivity|].
    rewrite is_high_false; [reflexivity|]. unfold hi_sur, scalar_value in *. lia.
  - inversion H as [|? ? _ H']; subst. cbn [enc16s flat_map] in Eu. fold (enc16s cs) in Eu. specialize (IH H').
    assert (U2 := utf16_sup _ h l cs us Hh Hl eq_refl U).
    assert (U1 : utf16 [0x10000 + (h - 0xd800) * 0x400 + (l - 0xdc00)] [h; l]) by (apply utf16_sup; auto; constructor).
    apply utf16_enc16s in U1 as (_ & U1). cbn [enc16s flat_map] in U1. rewrite app_nil_r in U1. rewrite <- U1 in Eu. injection Eu as Eu.
    specialize (IH Eu). rewrite points_cons, (proj2 (is_high_iff h) Hh), (proj2 (is_low_iff l) Hl). cbn [andb map]. rewrite <- U1, IH. reflexivity.
Qed.

(** The units between two characters. *)
Lemma offset_app a b : offset (a ++ b) (length a) = length (concat a).
Proof. unfold offset. rewrite firstn_app, Nat.sub_diag, firstn_all. cbn [firstn]. rewrite app_nil_r. reflexivity. Qed.

Lemma slice_points us a g b : concat (a ++ g ++ b) = us ->
  slice us (offset (a ++ g ++ b) (length a)) (offset (a ++ g ++ b) (length a + length g)) = concat g.
Proof.
  intros <-. rewrite offset_app. rewrite app_assoc. rewrite <- (app_length a g). rewrite offset_app. unfold slice.
  rewrite !concat_app. rewrite <- app_assoc. rewrite skipn_app, skipn_all, Nat.sub_diag. cbn [app skipn]. rewrite app_length.
  replace (length (concat a) + length (concat g) - length (concat a))%nat with (length (concat g)) by lia.
  rewrite firstn_app, Nat.sub_diag, firstn_all. cbn [firstn]. apply app_nil_r.
Qed.

Lemma spans_pieces us gs : concat gs = us -> forall gss a, gs = a ++ concat gss ->
  let at_ := fun '(x, y) => (offset gs x, offset gs y) in
  ordered (length (concat a)) (length us) (map at_ (spans (length a) (map (map point) gss))) /\
  pieces_spec us (length (concat a)) (map at_ (spans (length a) (map (map point) gss))) (map (@concat N) gss).
Proof.
  intros E. induction gss as [|g gss IH]; intros a Ea at_.
  - cbn [map spans ordered pieces_spec]. cbn [concat] in Ea. rewrite app_nil_r in Ea. subst a. rewrite E. split; [lia|]. left. auto.
  - cbn [map spans]. rewrite map_length. cbn [concat] in Ea.
    destruct (IH (a ++ g)) as (O & P); [rewrite <- app_assoc; exact Ea|]. rewrite app_length in O, P. fold at_ in O, P.
    assert (X : at_ (length a, (length a + length g)%nat) = (length (concat a), length (concat (a ++ g)))).
    { unfold at_. rewrite Ea. rewrite offset_app. rewrite app_assoc, <- (app_length a g), offset_app. reflexivity. }
    rewrite X. cbn [ordered pieces_spec]. split.
    + split; [rewrite concat_app, app_length; lia|exact O].
    + exists (map (@concat N) gss). split; [exact P|]. left. split; [reflexivity|]. f_equal.
      symmetry. rewrite Ea in E. rewrite <- (slice_points us a g (concat gss) E). f_equal.
      * rewrite offset_app. reflexivity.
      * rewrite app_assoc, <- (app_length a g), offset_app. reflexivity.
Qed.

(** Cutting the groups as the characters are cut. *)
Lemma cut_like {A B} (f : A -> B) (ws : list (list B)) : forall gs, map f gs = concat ws -> exists gss, concat gss = gs /\ map (map f) gss = ws.
Proof.
  induction ws as [|w ws IH]; intros gs E; cbn [concat] in E.
  - destruct gs; [|discriminate]. exists []. auto.
  - assert (E1 : map f (firstn (length w) gs) = w).
    { rewrite <- firstn_map, E, firstn_app, Nat.sub_diag, firstn_all. cbn [firstn]. apply app_nil_r. }
    assert (E2 : map f (skipn (length w) gs) = concat ws).
    { rewrite <- skipn_map, E, skipn_app, skipn_all, Nat.sub_diag. reflexivity. }
    destruct (IH _ E2) as (gss & C & M). exists (firstn (length w) gs :: gss). cbn [concat map]. rewrite C, M, E1, firstn_skipn. auto.
Qed.

Lemma occurrences_words letter digit blank us ws : classes letter digit blank -> words letter digit blank (map point (points us)) ws ->
  occurrences (word_pattern letter digit blank) us = map (fun '(x, y) => (offset (points us) x, offset (points us) y)) (spans 0 ws).
Proof.
  intros CL W. unfold occurrences. destruct us as [|u0 us0].
  { rewrite (words_once letter digit blank CL _ _ _ W (ws_nil letter digit blank)). reflexivity. }
  set (us := u0 :: us0) in *. f_equal. rewrite (find_words letter digit blank CL _ _ _ W); rewrite ?map_length; [|lia|lia]. rewrite Nat.sub_diag. reflexivity.
Qed.

(** The result of [split] on any unit sequence: every piece is a word of its characters. *)
Lemma pattern_split letter digit blank us : classes letter digit blank ->
  exists gss, concat gss = points us /\ words letter digit blank (map point (points us)) (map (map point) gss) /\
    ordered 0 (length us) (occurrences (word_pattern letter digit blank) us) /\
    pieces_spec us 0 (occurrences (word_pattern letter digit blank) us) (map (@concat N) gss).
Proof.
  intros CL. destruct (words_exist letter digit blank CL (map point (points us))) as (ws & W).
  destruct (cut_like point ws (points us)) as (gss & C & M); [symmetry; exact (words_concat _ _ _ _ _ W)|].
  exists gss. split; [exact C|]. rewrite M. split; [exact W|].
  rewrite (occurrences_words letter digit blank us ws CL W), <- M.
  exact (spans_pieces us (points us) (points_concat us) gss [] (eq_sym C)).
Qed.

(** ** 7-bit texts *)

Lemma points_ascii p : Forall (fun c => c < 0x80) p -> points p = map (fun c => [c]) p.
Proof.
  intros H. transitivity (map enc16 p).
  - rewrite <- (enc16s_ascii p H) at 1. apply points_enc16. eapply Forall_impl; [|exact H]. intros c L. cbv beta in L. left. lia.
  - apply map_ext_in. intros c Hc. rewrite Forall_forall in H. specialize (H c Hc). unfold enc16. replace (c <? 0x10000) with true by lia. reflexivity.
Qed.

Lemma map_point_single (p : list N) : map point (map (fun c => [c]) p) = p.
Proof. rewrite map_map. cbn [point]. apply map_id. Qed.

Lemma single_groups (gss : list (list (list N))) : forall p, concat gss = map (fun c => [c]) p -> map (map point) gss = map (@concat N) gss.
Proof.
  induction gss as [|g gss IH]; intros p E; [reflexivity|]. cbn [concat map] in *.
  assert (X : exists a b, g = map (fun c => [c]) a /\ concat gss = map (fun c => [c]) b).
  { exists (firstn (length g) p), (skipn (length g) p). rewrite <- firstn_map, <- skipn_map, <- E.
    rewrite firstn_app, Nat.sub_diag, firstn_all, skipn_app, skipn_all, Nat.sub_diag. cbn [firstn skipn app]. rewrite app_nil_r. auto. }
  destruct X as (a & b & -> & E2). f_equal; [|exact (IH b E2)]. rewrite map_point_single.
  clear. induction a as [|c a IH]; [reflexivity|]. cbn [map concat app]. rewrite <- IH. reflexivity.
Qed.

Section Ascii.
Context (letter digit blank : N -> bool).
Hypothesis CL : classes letter digit blank.
Context (ts : list (list N)) (ms : list (N * N)) (unk : N) (mask : list N) (ws : N -> bool).
Let occ := occurrences (word_pattern letter digit blank).

Lemma ascii_words p l : Forall (fun c => c < 0x80) p -> (pieces_spec p 0 (occ p) l <-> words letter digit blank p l).
Proof.
  intros H. destruct (pattern_split letter digit blank p CL) as (gss & C & W & _ & P). fold occ in P.
  rewrite (points_ascii p H) in C, W. rewrite map_point_single, (single_groups gss p C) in W. split; intros X.
  - rewrite <- (pieces_once _ _ _ _ _ P X). exact W.
  - rewrite <- (words_once letter digit blank CL _ _ _ W X). exact P.
Qed.

Lemma part_iff p ids : Forall (fun c => c < 0x80) p -> (part_ids ts ms unk occ p ids <-> part_tokens letter digit blank ts ms unk p ids).
Proof. intros H. split; intros (l & i & P & F & E); exists l, i; (split; [|split; assumption]); apply ascii_words; assumption. Qed.

Lemma text_iff ps ids : Forall (fun s => Forall (fun c => c < 0x80) (snd s)) ps ->
  (text_ids ts ms unk mask ws occ ps ids <-> text_tokens letter digit blank ts ms unk mask ws ps ids).
Proof.
  intros H. split; intros T; revert H.
  - induction T as [|k i ps ids H1 H2 IH|p kept run is ps ids H1 H2 H3 IH|p is ps ids H1 H2 H3 IH]; intros H; [constructor| | |]; inversion H as [|? ? Hp H']; subst.
    + constructor; auto.
    + eapply tt_before_mask; eauto. apply part_iff; [|exact H2]. cbn [snd] in Hp. destruct H1 as (-> & _). apply Forall_app in Hp. apply Hp.
    + apply tt_plain; auto. apply part_iff; assumption.
  - induction T as [|k i ps ids H1 H2 IH|p kept run is ps ids H1 H2 H3 IH|p is ps ids H1 H2 H3 IH]; intros H; [constructor| | |]; inversion H as [|? ? Hp H']; subst.
    + constructor; auto.
    + eapply tx_before_mask; eauto. apply part_iff; [|exact H2]. cbn [snd] in Hp. destruct H1 as (-> & _). apply Forall_app in Hp. apply Hp.
    + apply tx_plain; auto. apply part_iff; assumption.
Qed.
End Ascii.

(** ** Tokens of texts that meet *)

(** The parts of two texts that meet: the last ordinary part goes on. *)
Fixpoint joined (pa pb : list (bool * list N)) : list (bool * list N) :=
  match pa with
  | [] => pb
  | (false, p) :: pa' =>
      match pa', pb with
      | [], (false, q) :: pb' => (false, p ++ q) :: pb'
      | _, _ => (false, p) :: joined pa' pb
      end
  | s :: pa' => s :: joined pa' pb
  end.

Section Meet.
Context (letter digit blank : N -> bool).
Hypothesis CL : classes letter digit blank.
Context (sp : list (list N)).
Hypothesis VIS : forall k, In k sp -> k <> [] /\ Forall (fun c => blank c = false) k.

Lemma first_ordinary b pb : cut sp b pb -> (forall c b', b = c :: b' -> blank c = true) -> pb = [] \/ exists q pb', pb = (false, q) :: pb'.
Proof.
  intros C HB. destruct C as [|k rest ps Hk C|p rest ps NE HN C HO]; [left; reflexivity| |right; eauto].
  exfalso. destruct (VIS k Hk) as (NE & F). destruct k as [|c k]; [congruence|]. specialize (HB c (k ++ rest) eq_refl). inversion F; subst. congruence.
Qed.

Lemma cut_joined a pa : cut sp a pa -> forall b pb, cut sp b pb -> (forall c b', b = c :: b' -> blank c = true) ->
  cut sp (a ++ b) (joined pa pb).
Proof.
  assert (PB : forall k t b, In k sp -> (forall c b', b = c :: b' -> blank c = true) -> prefix k (t ++ b) -> prefix k t).
  { intros k t b Hk HB (r & E). destruct (prefix_before blank k (proj2 (VIS k Hk)) t b r HB E) as (r' & ->). exists r'. reflexivity. }
  induction 1 as [|k rest ps Hk C IH|p rest ps NE HN C IH HO]; intros b pb CB HB.
  - exact CB.
  - rewrite <- app_assoc. cbn [joined]. apply cut_special; [exact Hk|apply IH; assumption].
  - rewrite <- app_assoc. destruct ps as [|s ps].
    + inversion C; subst rest. cbn [app]. destruct (first_ordinary b pb CB HB) as [->|(q & pb' & ->)].
      * cbn [joined]. apply cut_ordinary; [exact NE| |exact CB|intros []]. intros x y k E NEy Hk X. apply (HN x y k E NEy Hk).
        rewrite app_nil_r. exact (PB k y b Hk HB X).
      * cbn [joined]. inversion CB as [| |q' r' ps' NEq HNq Cr HOq E1 E2]; subst. rewrite app_assoc.
        apply cut_ordinary; [destruct p; [congruence|discriminate]| |exact Cr|exact HOq].
        intros x y k E NEy Hk X. symmetry in E. apply app_eq_app in E as (l & [(E1 & E2)|(E1 & E2)]).
        -- subst x q. exact (HNq l y k eq_refl NEy Hk X).
        -- subst p y. destruct l as [|c l].
           ++ cbn [app] in X. apply (HNq [] q k eq_refl NEq Hk X).
           ++ apply (HN x (c :: l) k eq_refl ltac:(discriminate) Hk). rewrite app_nil_r.
              apply (PB k (c :: l) (q ++ r') Hk HB). rewrite app_assoc. exact X.
    + assert (J : joined ((false, p) :: s :: ps) pb = (false, p) :: joined (s :: ps) pb) by reflexivity. rewrite J.
      apply cut_ordinary; [exact NE| |apply IH; assumption|].
      * intros x y k E NEy Hk X. apply (HN x y k E NEy Hk). rewrite app_assoc in X. exact (PB k (y ++ rest) b Hk HB X).
      * destruct s as [[|] s]; [intros []|exfalso; apply HO; exact I].
Qed.

Context (ts : list (list N)) (ms : list (N * N)) (unk : N) (mask : list N) (trimmed : N -> bool).
Hypothesis TR : forall c, trimmed c = true -> blank c = true.

Lemma part_meet p q i j : part_tokens letter digit blank ts ms unk p i -> part_tokens letter digit blank ts ms unk q j -> meet blank p q ->
  part_tokens letter digit blank ts ms unk (p ++ q) (i ++ j).
Proof.
  intros (wa & ia & W1 & F1 & ->) (wb & ib & W2 & F2 & ->) M. exists (wa ++ wb), (ia ++ ib).
  split; [exact (words_meet letter digit blank CL _ _ W1 _ _ W2 M)|]. split; [apply Forall2_app; assumption|]. symmetry. apply concat_app.
Qed.

Lemma run_meet p q kept run : meet blank p q -> maximal_trailing_run trimmed q kept run -> maximal_trailing_run trimmed (p ++ q) (p ++ kept) run.
Proof.
  intros (HA & HB) (-> & F & M). split; [apply app_assoc|]. split; [exact F|]. rewrite rev_app_distr. destruct (rev kept) as [|c r]; [|exact M].
  cbn [app]. destruct p as [|x p] using rev_ind; [exact I|]. rewrite rev_unit. specialize (HA p x eq_refl). destruct (trimmed x) eqn:E; [|reflexivity].
  rewrite (TR x E) in HA. discriminate.
Qed.

Lemma tokens_joined pa ia : text_tokens letter digit blank ts ms unk mask trimmed pa ia -> forall a b pb ib,
  concat (map snd pa) = a -> concat (map snd pb) = b -> (pb = [] \/ exists q pb', pb = (false, q) :: pb' /\ q <> []) -> meet blank a b ->
  text_tokens letter digit blank ts ms unk mask trimmed pb ib ->
  text_tokens letter digit blank ts ms unk mask trimmed (joined pa pb) (ia ++ ib).
Proof.
  induction 1 as [|k i ps ids H1 H2 IH|p kept run is ps ids H1 H2 H3 IH|p is ps ids H1 H2 H3 IH]; intros a b pb ib EA EB FO M T.
  - exact T.
  - cbn [joined app]. apply tt_special; [exact H1|]. eapply (IH _ b); [reflexivity|exact EB|exact FO| |exact T].
    destruct M as (HA & HB). split; [|exact HB]. intros a' c E. apply (HA (k ++ a') c). rewrite <- EA. cbn [map concat snd]. rewrite E, app_assoc. reflexivity.
  - assert (J : joined ((false, p) :: (true, mask) :: ps) pb = (false, p) :: (true, mask) :: joined ps pb) by (destruct ps as [|[[|] ?] ?]; reflexivity).
    rewrite J, <- app_assoc. eapply tt_before_mask; [exact H1|exact H2|].
    change ((true, mask) :: joined ps pb) with (joined ((true, mask) :: ps) pb).
    eapply (IH _ b); [reflexivity|exact EB|exact FO| |exact T].
    destruct M as (HA & HB). split; [|exact HB]. intros a' c E. apply (HA (p ++ a') c). rewrite <- EA.
    change (map snd ((false, p) :: (true, mask) :: ps)) with (p :: map snd ((true, mask) :: ps)). cbn [concat]. cbn [map snd concat] in E |- *. rewrite E, app_assoc. reflexivity.
  - destruct ps as [|s ps].
    + inversion H3; subst ids. rewrite app_nil_r. cbn [map concat snd] in EA. rewrite app_nil_r in EA. subst a.
      destruct FO as [->|(q & pb' & -> & NEq)].
      * inversion T; subst ib. rewrite app_nil_r. cbn [joined]. rewrite <- (app_nil_r is). apply tt_plain; [intros ps'; discriminate|exact H2|constructor].
      * cbn [joined]. cbn [map concat snd] in EB. subst b.
        assert (MQ : meet blank p q).
        { destruct M as (HA & HB). split; [exact HA|]. intros c b' E. apply (HB c (b' ++ concat (map snd pb'))). rewrite E. reflexivity. }
        assert (T' := T). inversion T' as [| |q' kept run j pb'' ids R PT TT E1 E2|q' j pb'' ids NM PT TT E1 E2]; subst.
        -- rewrite app_assoc. eapply tt_before_mask; [exact (run_meet _ _ _ _ MQ R)| |exact TT]. apply part_meet; [exact H2|exact PT|].
           destruct MQ as (HA & HB). split; [exact HA|]. intros c b' E. destruct R as (R & _). apply (HB c (b' ++ run)). rewrite R, E. reflexivity.
        -- rewrite app_assoc. apply tt_plain; [exact NM|apply part_meet; assumption|exact TT].
    + assert (J : joined ((false, p) :: s :: ps) pb = (false, p) :: joined (s :: ps) pb) by reflexivity. rewrite J, <- app_assoc.
      apply tt_plain; [|exact H2|].
      * intros ps'. destruct s as [[|] s]; [|destruct ps; [destruct pb as [|[[|] ?] ?]|]; discriminate]. cbn [joined]. intros E. injection E as -> _. apply (H1 ps). reflexivity.
      * eapply (IH _ b); [reflexivity|exact EB|exact FO| |exact T].
        destruct M as (HA & HB). split; [|exact HB]. intros a' c E. apply (HA (p ++ a') c). rewrite <- EA.
        change (map snd ((false, p) :: s :: ps)) with (p :: map snd (s :: ps)). cbn [concat]. cbn [map snd concat] in E |- *. rewrite E, app_assoc. reflexivity.
Qed.
End Meet.

(** ** Regular expressions in general *)

Lemma accepts_shorter n r : forall s s', accepts n r s s' -> (length s' <= length s)%nat.
Proof.
  induction r as [p|a IHa b IHb|a IHa b IHb|a IHa|a IHa|a IHa|]; intros s s' H; cbn [accepts] in H.
  - destruct H as (c & -> & _). cbn. lia.
  - destruct H as (t & H1 & H2). apply IHa in H1. apply IHb in H2. lia.
  - destruct H as [H|H]; auto.
  - destruct H as [H| ->]; auto.
  - induction H as [x y H|x y z H _ IH]; [apply IHa, H|]. apply IHa in H. lia.
  - destruct H as (-> & _). lia.
  - destruct H as (-> & _). lia.
Qed.

(** Texts left are tails. *)
Lemma accepts_tail n r : forall s s', accepts n r s s' -> exists w, s = w ++ s'.
Proof.
  induction r as [p|a IHa b IHb|a IHa b IHb|a IHa|a IHa|a IHa|]; intros s s' H; cbn [accepts] in H.
  - destruct H as (c & -> & _). exists [c]. reflexivity.
  - destruct H as (t & H1 & H2). apply IHa in H1 as (w & ->). apply IHb in H2 as (w' & ->). exists (w ++ w'). apply app_assoc.
  - destruct H as [H|H]; auto.
  - destruct H as [H| ->]; [auto|exists []; reflexivity].
  - induction H as [x y H|x y z H _ IH]; [apply IHa, H|]. destruct IH as (w & E). apply IHa in H as (w' & ->). rewrite E. exists (w' ++ w). apply app_assoc.
  - destruct H as (-> & _). exists []. reflexivity.
  - destruct H as (-> & _). exists []. reflexivity.
Qed.

Lemma repeated_iff (m : list N -> list (list N)) (R : list N -> list N -> Prop) :
  (forall s s', In s' (m s) <-> R s s') -> (forall s s', R s s' -> (length s' <= length s)%nat) ->
  (forall s s', R s s' -> exists w, s = w ++ s') ->
  forall n s s', (length s < n)%nat -> (In s' (repeated m n s) <-> clos_trans_1n _ R s s').
Proof.
  intros HM HL HT. induction n as [|n IH]; intros s s' L; [lia|]. cbn [repeated]. rewrite in_flat_map. split.
  - intros (t & Ht & H). apply HM in Ht. apply in_app_or in H as [H|[<-|[]]]; [|constructor; exact Ht].
    destruct (Nat.ltb (length t) (length s)) eqn:E; [|destruct H]. apply Nat.ltb_lt in E. apply IH in H; [|lia].
    eapply t1n_trans; eauto.
  - intros H. induction H as [x y H|x y z H C IHC].
    + exists y. split; [apply HM, H|]. apply in_or_app. right. left. reflexivity.
    + destruct (Nat.ltb (length y) (length x)) eqn:E.
      * exists y. split; [apply HM, H|]. apply in_or_app. left. rewrite E. apply Nat.ltb_lt in E. apply IH; [lia|exact C].
      * apply Nat.ltb_ge in E. destruct (HT _ _ H) as (w & Ew). assert (w = []).
        { destruct w as [|c w]; [reflexivity|]. rewrite Ew, app_length in E. cbn [length] in E. lia. }
        subst w. cbn [app] in Ew. subst x. apply IHC. exact L.
Qed.

Lemma matches_iff n r : forall s s', In s' (matches n r s) <-> accepts n r s s'.
Proof.
  induction r as [p|a IHa b IHb|a IHa b IHb|a IHa|a IHa|a IHa|]; intros s s'; cbn [matches accepts].
  - destruct s as [|c s]; [split; [intros []|intros (c & E & _); discriminate]|]. destruct (p c) eqn:E.
    + split; [intros [<-|[]]; eauto|]. intros (c' & E' & _). injection E' as _ <-. left. reflexivity.
    + split; [intros []|]. intros (c' & E' & H). injection E' as <- _. congruence.
  - rewrite in_flat_map. split; intros (t & H1 & H2); exists t; [rewrite <- IHa, <- IHb|rewrite IHa, IHb]; auto.
  - rewrite in_app_iff, IHa, IHb. tauto.
  - rewrite in_app_iff, IHa. cbn [In]. intuition congruence.
  - apply (repeated_iff (matches n a) (accepts n a) IHa (accepts_shorter n a) (accepts_tail n a)). lia.
  - destruct (matches n a s) as [|t l] eqn:E.
    + cbn [In]. split; [intros [<-|[]]; split; [reflexivity|]|intros (-> & _); auto]. intros t H. apply IHa in H. rewrite E in H. exact H.
    + split; [intros []|]. intros (_ & H). exfalso. apply (H t). apply IHa. rewrite E. left. reflexivity.
  - destruct (Nat.eqb (length s) n) eqn:E; [apply Nat.eqb_eq in E|apply Nat.eqb_neq in E]; cbn [In]; intuition congruence.
Qed.

Lemma first_some n r s s' : first n r s = Some s' -> accepts n r s s'.
Proof. unfold first. intros H. apply matches_iff. destruct (matches n r s); [discriminate|]. injection H as ->. left. reflexivity. Qed.

Lemma first_none n r s : first n r s = None -> forall s', ~ accepts n r s s'.
Proof. unfold first. intros H s' A. apply matches_iff in A. destruct (matches n r s); [exact A|discriminate]. Qed.

Lemma skipn_here (a b : list N) n : n = length (a ++ b) -> skipn (n - length b) (a ++ b) = b.
Proof. intros ->. rewrite app_length. replace (length a + length b - length b)%nat with (length a) by lia. rewrite skipn_app, skipn_all, Nat.sub_diag. reflexivity. Qed.

(** What is found lies in order, and every reported place is a match. *)
Lemma found_in_order r cs : let n := length cs in forall fuel w s, cs = w ++ s -> (length s < fuel)%nat ->
  ordered (n - length s) n (find_all n r fuel s) /\
  forall x y, In (x, y) (find_all n r fuel s) -> accepts n r (skipn x cs) (skipn y cs).
Proof.
  intros n. induction fuel as [|f IH]; intros w s E L; [lia|]. cbn [find_all].
  assert (WK : forall a b ms, (a <= b)%nat -> ordered b n ms -> ordered a n ms).
  { intros a b [|[x y] ms] H O; cbn [ordered] in *; [lia|]. destruct O as ((O1 & O2) & O3). repeat split; auto; lia. }
  assert (NX : forall c s'', s = c :: s'' -> ordered (n - length s) n (find_all n r f s'') /\
    forall x y, In (x, y) (find_all n r f s'') -> accepts n r (skipn x cs) (skipn y cs)).
  { intros c s'' ->. cbn [length] in L. destruct (IH (w ++ [c]) s'') as (O & M); [rewrite <- app_assoc; exact E|lia|]. split; [|exact M].
    eapply WK; [|exact O]. cbn [length]. lia. }
  assert (LN : (length s <= n)%nat) by (unfold n; rewrite E, app_length; lia).
  destruct (first n r s) as [s'|] eqn:F.
  - apply first_some in F. assert (F' := F). apply accepts_tail in F' as (w' & Es).
    assert (L' : (length s' <= length s)%nat) by (rewrite Es, app_length; lia).
    assert (E' : cs = (w ++ w') ++ s') by (rewrite <- app_assoc, <- Es; exact E).
    assert (HERE : accepts n r (skipn (n - length s) cs) (skipn (n - length s') cs)).
    { rewrite E at 1. rewrite (skipn_here w s n) by (unfold n; rewrite E; reflexivity).
      rewrite E' at 1. rewrite (skipn_here (w ++ w') s' n) by (unfold n; rewrite E'; reflexivity). exact F. }
    cbn [ordered]. destruct (Nat.ltb (length s') (length s)) eqn:LT.
    + apply Nat.ltb_lt in LT. destruct (IH (w ++ w') s' E') as (O & M); [lia|]. split; [split; [lia|exact O]|].
      intros x y [H|H]; [injection H as <- <-; exact HERE|exact (M x y H)].
    + apply Nat.ltb_ge in LT. assert (s' = s).
      { destruct w' as [|c w']; [cbn [app] in Es; congruence|]. rewrite Es, app_length in LT. cbn [length] in LT. lia. }
      subst s'. destruct s as [|c s''].
      * split; [split; [lia|cbn [ordered length]; lia]|]. intros x y [H|[]]. injection H as <- <-. exact HERE.
      * destruct (NX c s'' eq_refl) as (O & M). split; [split; [lia|exact O]|]. intros x y [H|H]; [injection H as <- <-; exact HERE|exact (M x y H)].
  - destruct s as [|c s'']; [|exact (NX c s'' eq_refl)]. split; [cbn [ordered length]; lia|intros x y []].
Qed.

Lemma nothing_found n r : forall fuel s, (length s < fuel)%nat -> find_all n r fuel s = [] ->
  forall w t t', s = w ++ t -> ~ accepts n r t t'.
Proof.
  induction fuel as [|f IH]; intros s L H w t t' E; [lia|]. cbn [find_all] in H. destruct (first n r s) eqn:F; [discriminate|].
  destruct w as [|c w]; [cbn [app] in E; subst t; exact (first_none n r s F t')|]. subst s. cbn [app length] in *. exact (IH (w ++ t) ltac:(lia) H w t t' eq_refl).
Qed.

Lemma offset_le gs a b : (a <= b)%nat -> (offset gs a <= offset gs b)%nat.
Proof.
  intros H. unfold offset. replace b with (a + (b - a))%nat by lia. generalize (b - a)%nat as d. clear. intros d.
  revert gs. induction a as [|a IH]; intros [|g gs]; cbn [firstn concat length Nat.add]; rewrite ?app_length; try lia.
  specialize (IH gs). lia.
Qed.

Lemma offset_end gs : offset gs (length gs) = length (concat gs).
Proof. unfold offset. rewrite firstn_all. reflexivity. Qed.

Lemma occurrences_ordered r us : ordered 0 (length us) (occurrences r us).
Proof.
  unfold occurrences. destruct us as [|u0 us0]; [cbn [ordered length]; lia|]. set (us := u0 :: us0). set (gs := points us).
  destruct (found_in_order r (map point gs) (S (length gs)) [] (map point gs) eq_refl) as (O & _); [rewrite map_length; lia|].
  rewrite map_length, Nat.sub_diag in O. revert O. generalize (find_all (length gs) r (S (length gs)) (map point gs)) as ms.
  assert (E : offset gs (length gs) = length us) by (rewrite offset_end; unfold gs; rewrite points_concat; reflexivity).
  assert (G : forall ms k, ordered k (length gs) ms -> ordered (offset gs k) (length us) (map (fun '(a, b) => (offset gs a, offset gs b)) ms)).
  { induction ms as [|[x y] ms IH]; intros k O; cbn [ordered map] in *.
    - rewrite <- E. apply offset_le, O.
    - destruct O as ((O1 & O2) & O3). repeat split; try (apply offset_le; assumption). apply IH, O3. }
  intros ms O. exact (G ms 0%nat O).
Qed.
