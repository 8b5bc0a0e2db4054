(** Common vocabulary of the model: outcomes, string literals for examples,
    a few list lemmas.  Nothing in this file describes the code. *)
From Coq Require Import Ascii String.
From Coq Require Export List Arith NArith ZArith Lia Bool.
From Coq Require Export ZifyBool ZifyNat ZifyN.
Export ListNotations.
Export Coq.Strings.String.StringSyntax.

(** Keep [simpl] from unfolding arithmetic. *)
#[global] Arguments N.add : simpl nomatch.
#[global] Arguments N.mul : simpl nomatch.
#[global] Arguments N.sub : simpl nomatch.
#[global] Arguments N.div : simpl nomatch.
#[global] Arguments N.modulo : simpl nomatch.
#[global] Arguments N.eqb : simpl nomatch.
#[global] Arguments N.ltb : simpl nomatch.
#[global] Arguments N.leb : simpl nomatch.

(** Result of running a C++ function in the model. *)
Inductive outcome (A : Type) : Type :=
| Ok (a : A)      (* returned normally / returned true *)
| Fail            (* returned false or a null pointer *)
| UB              (* undefined behaviour was reached *)
| Abort.          (* the process was killed by an assertion / uncaught exception *)
Arguments Ok {A} a.
Arguments Fail {A}.
Arguments UB {A}.
Arguments Abort {A}.

Definition obind {A B} (x : outcome A) (f : A -> outcome B) : outcome B :=
  match x with Ok a => f a | Fail => Fail | UB => UB | Abort => Abort end.

(** berts/berts.h:39  BERTS_INVALID_TOKEN_ID = (uint32_t)(-1). *)
Definition INVALID : N := 4294967295%N.

(** String literals as lists of code units, for examples only. *)
Fixpoint u (s : string) : list N :=
  match s with
  | EmptyString => []
  | String c s' => N_of_ascii c :: u s'
  end.

Arguments u s%string.

Definition list_N_eq_dec : forall x y : list N, {x = y} + {x <> y} :=
  list_eq_dec N.eq_dec.

Definition list_N_eqb (x y : list N) : bool :=
  if list_N_eq_dec x y then true else false.

Lemma list_N_eqb_eq x y : list_N_eqb x y = true <-> x = y.
Proof. unfold list_N_eqb; destruct (list_N_eq_dec x y); split; congruence. Qed.

Lemma list_N_eqb_refl x : list_N_eqb x x = true.
Proof. apply list_N_eqb_eq; reflexivity. Qed.

Lemma list_N_eqb_neq x y : list_N_eqb x y = false <-> x <> y.
Proof. unfold list_N_eqb; destruct (list_N_eq_dec x y); split; congruence. Qed.

(** [p] is a prefix of [s]. *)
Definition prefix {A} (p s : list A) : Prop := exists r, s = p ++ r.

(** [p] is a suffix of [s]. *)
Definition suffix {A} (p s : list A) : Prop := exists r, s = r ++ p.

Lemma prefix_nil {A} (s : list A) : prefix [] s.
Proof. exists s; reflexivity. Qed.

Lemma prefix_refl {A} (s : list A) : prefix s s.
Proof. exists []; rewrite app_nil_r; reflexivity. Qed.

Lemma prefix_cons {A} (c : A) p s : prefix (c :: p) (c :: s) <-> prefix p s.
Proof.
  split; intros [r H]; exists r; simpl in *; congruence.
Qed.

Lemma prefix_cons_inv {A} (c d : A) p s : prefix (c :: p) (d :: s) -> c = d /\ prefix p s.
Proof. intros [r H]; simpl in H; inversion H; subst; split; [reflexivity|exists r; reflexivity]. Qed.

Lemma prefix_nil_r {A} (p : list A) : prefix p [] -> p = [].
Proof. intros [r H]; destruct p; simpl in H; congruence. Qed.

Lemma prefix_trans {A} (a b c : list A) : prefix a b -> prefix b c -> prefix a c.
Proof. intros [r ->] [q ->]; exists (r ++ q); rewrite app_assoc; reflexivity. Qed.

Lemma prefix_length {A} (p s : list A) : prefix p s -> length p <= length s.
Proof. intros [r ->]; rewrite app_length; lia. Qed.

Lemma prefix_app {A} (p s r : list A) : prefix p s -> prefix p (s ++ r).
Proof. intros [q ->]; exists (q ++ r); rewrite app_assoc; reflexivity. Qed.

Lemma prefix_same_length {A} (p q s : list A) :
  prefix p s -> prefix q s -> length p = length q -> p = q.
Proof.
  revert q s; induction p as [|c p IH]; intros q s Hp Hq HL.
  - destruct q; simpl in HL; [reflexivity|lia].
  - destruct q as [|d q]; simpl in HL; [lia|].
    destruct s as [|e s].
    + apply prefix_nil_r in Hp; discriminate.
    + apply prefix_cons_inv in Hp, Hq. destruct Hp as [-> Hp], Hq as [-> Hq].
      f_equal. eapply IH; eauto.
Qed.

Lemma prefix_total {A} (p q s : list A) :
  prefix p s -> prefix q s -> length p <= length q -> prefix p q.
Proof.
  revert q s; induction p as [|c p IH]; intros q s Hp Hq HL.
  - apply prefix_nil.
  - destruct q as [|d q]; simpl in HL; [lia|].
    destruct s as [|e s].
    + apply prefix_nil_r in Hp; discriminate.
    + apply prefix_cons_inv in Hp, Hq. destruct Hp as [-> Hp], Hq as [-> Hq].
      apply prefix_cons. eapply IH; eauto. lia.
Qed.

Lemma Forall_app_iff {A} (P : A -> Prop) l1 l2 :
  Forall P (l1 ++ l2) <-> Forall P l1 /\ Forall P l2.
Proof. apply Forall_app. Qed.

Lemma skipn_skipn {A} (l : list A) : forall x y, skipn x (skipn y l) = skipn (x + y) l.
Proof.
  induction l as [|a l IH]; intros x y; [rewrite !skipn_nil; reflexivity|].
  destruct y as [|y]; [rewrite Nat.add_0_r; reflexivity|].
  rewrite Nat.add_succ_r. simpl. apply IH.
Qed.
