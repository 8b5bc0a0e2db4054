(** Loading does not depend on the order and places of the tensors in the file. *)
From Verif Require Import Base Bert_model Vocab_model Bpe_model Roberta_model Loader_model Loader_spec Loader_proofs.
From Coq Require Import Sorting.Permutation.
From Verif Require Ggml_model Encoder_model Eval_model P_Loader.
Local Open Scope nat_scope.

(** ** Specification *)

(** Two tensors of two files with the same description and data, wherever the data lie. *)
Definition same_tensor (f f' : file) (t t' : tinfo) : Prop :=
  ti_name t' = ti_name t /\ ti_type t' = ti_type t /\ ti_dims t' = ti_dims t /\
  (ti_ne0 t', ti_ne1 t', ti_ne2 t', ti_ne3 t') = (ti_ne0 t, ti_ne1 t, ti_ne2 t, ti_ne3 t) /\
  region f' t' = region f t.

(** [f'] has the settings of [f] and the same tensors in some order. *)
Definition rearranged (f f' : file) : Prop :=
  f_set f' = f_set f /\ f_tok f' = f_tok f /\
  exists mid, Permutation (f_tensors f) mid /\ Forall2 (same_tensor f f') mid (f_tensors f').

(** ** Proofs *)

Lemma find_unique {A} (name : A -> list N) (l l' : list A) n : NoDup (map name l) -> Permutation l l' ->
  find (fun t => list_N_eqb (name t) n) l = find (fun t => list_N_eqb (name t) n) l'.
Proof.
  intros ND P. induction P as [|x l l' P IH|x y l|l l' l'' P IH P' IH'].
  - reflexivity.
  - cbn [find]. cbn [map] in ND. apply NoDup_cons_iff in ND as (_ & ND). rewrite (IH ND). reflexivity.
  - cbn [map] in ND. cbn [find]. destruct (list_N_eqb (name y) n) eqn:Ey, (list_N_eqb (name x) n) eqn:Ex; try reflexivity.
    apply list_N_eqb_eq in Ey, Ex. exfalso. apply NoDup_cons_iff in ND as (H & _). apply H. left. congruence.
  - rewrite (IH ND). apply IH'. revert ND. apply Permutation_NoDup. apply Permutation_map. exact P.
Qed.

Lemma named_same f f' n : distinct_names f -> rearranged f f' ->
  match named f n, named f' n with Some t, Some t' => same_tensor f f' t t' | None, None => True | _, _ => False end.
Proof.
  intros ND (_ & _ & mid & P & F). unfold named. rewrite (find_unique ti_name _ _ n ND P). clear P ND.
  induction F as [|t t' l l' S F IH]; [exact Logic.I|]. cbn [find]. rewrite (proj1 S).
  destruct (list_N_eqb (ti_name t) n); [exact S|exact IH].
Qed.

Lemma same_memory junk f f' t t' : same_tensor f f' t t' -> memory_of junk f' t' = memory_of junk f t.
Proof.
  intros (_ & T & _ & E & R). injection E as E0 E1 E2 E3.
  assert (B : nbytes t' = nbytes t) by (unfold nbytes; rewrite T, E0, E1, E2, E3; reflexivity).
  unfold memory_of. rewrite R, B. reflexivity.
Qed.

Lemma same_vocab_at junk f f' n : distinct_names f -> rearranged f f' -> vocab_at junk f' n = vocab_at junk f n.
Proof.
  intros ND R. pose proof (named_same f f' n ND R) as Q. unfold vocab_at.
  destruct (named f n) as [t|], (named f' n) as [t'|]; try contradiction; [|reflexivity].
  rewrite (same_memory junk f f' t t' Q). destruct Q as (_ & -> & -> & _). reflexivity.
Qed.

Section Whole.
Context (L : Ggml_model.lib) (HL : lib_ok L) (junk : nat -> N).
Context {V : Type} (value : gty -> list N -> nat -> V).
Context (order : list (ustring * N) -> list (ustring * N)).

Lemma same_weight_at f f' n : distinct_names f -> rearranged f f' -> weight_at junk value f' n = weight_at junk value f n.
Proof.
  intros ND R. pose proof (named_same f f' n ND R) as Q. unfold weight_at.
  destruct (named f n) as [t|], (named f' n) as [t'|]; try contradiction; [|reflexivity]. cbn [option_map].
  rewrite (same_memory junk f f' t t' Q). destruct Q as (_ & -> & _ & E & _). injection E as -> -> -> ->. reflexivity.
Qed.

Lemma layers_ext ts ts' : (forall n, weight value ts' n = weight value ts n) -> forall l, layers_init value ts' l = layers_init value ts l.
Proof.
  intros H. induction l as [|n l IH]; [reflexivity|]. cbn [layers_init]. rewrite IH.
  assert (E : layer_init value ts' n = layer_init value ts n) by (unfold layer_init; cbv zeta; rewrite !H; reflexivity).
  rewrite E. reflexivity.
Qed.
Lemma weights_ext ts ts' k : (forall n, weight value ts' n = weight value ts n) -> weights_init value ts' k = weights_init value ts k.
Proof.
  intros H. unfold weights_init. rewrite (layers_ext ts ts' H).
  assert (E : head_init value ts' = head_init value ts) by (unfold head_init; cbv zeta; rewrite !H; reflexivity).
  rewrite E. cbv zeta. rewrite !H. reflexivity.
Qed.

(** C218: two files with the same settings and the same tensors, in any order and at any
    places, load the same model or end the same way. *)
Theorem C218_order : forall f f' reopen,
  distinct_names f -> short_names f -> readable f -> readable f' -> rearranged f f' ->
  load_from_file L junk value order (Some f') reopen = load_from_file L junk value order (Some f) reopen.
Proof.
  intros f f' reopen ND SN RD RD' R. pose proof R as (HS & HT & mid & P & F).
  assert (SN' : short_names f').
  { unfold short_names in *. apply (Permutation_Forall P) in SN. clear -SN F. induction F as [|t t' l l' S F IH]; [constructor|].
    apply Forall_cons_iff in SN as (S1 & SN). constructor; [rewrite (proj1 S); exact S1|exact (IH SN)]. }
  assert (EM : read_metadata f' = read_metadata f) by (unfold read_metadata, opt_str, opt_u32, need_u32; rewrite HS; reflexivity).
  assert (ES : read_settings f' = read_settings f) by (unfold read_settings, opt_u32, opt_f64, need_u32; rewrite HS; reflexivity).
  destruct (read_metadata_cases f) as [G|G].
  2:{ cbn [load_from_file]. rewrite EM, G. reflexivity. }
  destruct (found_all f) as (made & HM), (found_all f') as (made' & HM'). destruct reopen.
  2:{ cbn [load_from_file]. rewrite EM, G. cbn [obind]. destruct (pool_size L HL f made SN HM) as (-> & _), (pool_size L HL f' made' SN' HM') as (-> & _). reflexivity. }
  pose proof (proj1 (read_metadata_iff f) G) as G1. rewrite G in EM. pose proof (proj1 (read_metadata_iff f') EM) as G2.
  rewrite (load_readable L HL junk value order f made G1 SN RD HM), (load_readable L HL junk value order f' made' G2 SN' RD' HM'), ES.
  destruct (read_settings f) as [s| | |]; cbn [obind]; try reflexivity.
  destruct (negb (se_act s =? 0)%N); [reflexivity|]. destruct (negb _); [reflexivity|]. unfold new_context.
  assert (EV : init_vocab order (se_arch s) f' (kept junk f' made') = init_vocab order (se_arch s) f (kept junk f made)).
  { unfold init_vocab. rewrite HT, !(vocab_kept junk f' made' _ SN' HM'), !(vocab_kept junk f made _ SN HM), !(same_vocab_at junk f f' _ ND R). reflexivity. }
  rewrite EV, (weights_ext (kept junk f made) (kept junk f' made')); [reflexivity|].
  intros n. rewrite (weight_kept junk value f' made' n SN' HM'), (weight_kept junk value f made n SN HM). apply same_weight_at; assumption.
Qed.
End Whole.
Print Assumptions C218_order.

(** ** Example: the tensors in the opposite order, with their data in that order *)
Definition backwards : file := P_Loader.a_file 0 0 (rev P_Loader.d_pieces).

Lemma backwards_same : rearranged P_Loader.d_file backwards.
Proof.
  split; [reflexivity|]. split; [reflexivity|]. exists (rev (f_tensors P_Loader.d_file)). split; [apply Permutation_rev|].
  assert (E : forallb (fun p => list_N_eqb (ti_name (snd p)) (ti_name (fst p)) && (code (ti_type (snd p)) =? code (ti_type (fst p)))%N &&
      (ti_dims (snd p) =? ti_dims (fst p))%N && (ti_ne0 (snd p) =? ti_ne0 (fst p)) && (ti_ne1 (snd p) =? ti_ne1 (fst p)) &&
      (ti_ne2 (snd p) =? ti_ne2 (fst p)) && (ti_ne3 (snd p) =? ti_ne3 (fst p)) &&
      list_N_eqb (region backwards (snd p)) (region P_Loader.d_file (fst p)))
      (combine (rev (f_tensors P_Loader.d_file)) (f_tensors backwards)) = true) by (vm_compute; reflexivity).
  assert (EL : length (rev (f_tensors P_Loader.d_file)) = length (f_tensors backwards)) by (vm_compute; reflexivity).
  revert E EL. generalize (rev (f_tensors P_Loader.d_file)) (f_tensors backwards). clear.
  induction l as [|t l IH]; intros [|t' l'] E EL; try discriminate; [constructor|]. cbn [combine forallb fst snd] in E.
  apply andb_prop in E as (E & E'). injection EL as EL. constructor; [|exact (IH l' E' EL)].
  repeat (apply andb_prop in E as (E & ?)).
  repeat match goal with H : (_ =? _) = true |- _ => apply Nat.eqb_eq in H | H : (_ =? _)%N = true |- _ => apply N.eqb_eq in H | H : list_N_eqb _ _ = true |- _ => apply list_N_eqb_eq in H end.
  unfold same_tensor. repeat split; try assumption; try congruence.
  match goal with H : code _ = code _ |- _ => revert H end. destruct (ti_type t), (ti_type t'); cbn; intros; first [reflexivity|discriminate].
Qed.

Example C218_example : distinct_names P_Loader.d_file /\ short_names P_Loader.d_file /\ rearranged P_Loader.d_file backwards /\
  readable P_Loader.d_file /\ readable backwards /\ map ti_name (f_tensors backwards) <> map ti_name (f_tensors P_Loader.d_file) /\
  exists m, P_Loader.d_load P_Loader.d_file = Ok (Loaded m).
Proof.
  assert (RB : forall f, short_names f -> forallb (fun p : tinfo * tinfo => (f_data f + ti_offset (fst p) + nbytes (snd p) <=? N.of_nat (length (f_bytes f)))%N)
     (combine (f_tensors f) (map (fun d => match named f (ti_name d) with Some t => t | None => d end) (f_tensors f))) = true -> readable f).
  { intros f _ H made HM. assert (made = map (fun d => match named f (ti_name d) with Some t => t | None => d end) (f_tensors f)) as ->.
    { unfold copies in HM. clear H. revert HM. generalize (f_tensors f) at 2 3. intros l HM. induction HM as [|d t l made H HM IH]; [reflexivity|].
      cbn [map]. f_equal; [|exact IH]. unfold named. rewrite (proj2 (find_first _ _ _) H). reflexivity. }
    apply Forall_forall. intros p Hp. left. apply N.leb_le. apply (proj1 (forallb_forall _ _) H).
    revert Hp. generalize (combine (f_tensors f) (map (fun d => match named f (ti_name d) with Some t => t | None => d end) (f_tensors f))). clear.
    intros l. induction l as [|x [|y l] IH]; [intros []|intros []|]. change (removelast (x :: y :: l)) with (x :: removelast (y :: l)).
    intros [->|K]; [left; reflexivity|right; exact (IH K)]. }
  assert (SN : forall f, forallb (fun t => Nat.ltb (length (ti_name t)) 64) (f_tensors f) = true -> short_names f).
  { intros f H. apply Forall_forall. intros t Ht. apply Nat.ltb_lt. exact (proj1 (forallb_forall _ _) H t Ht). }
  split.
  { unfold distinct_names. apply (NoDup_count_occ (list_eq_dec N.eq_dec)). intros x.
    assert (H : forallb (fun y => Nat.leb (count_occ (list_eq_dec N.eq_dec) (map ti_name (f_tensors P_Loader.d_file)) y) 1) (map ti_name (f_tensors P_Loader.d_file)) = true) by (vm_compute; reflexivity).
    destruct (in_dec (list_eq_dec N.eq_dec) x (map ti_name (f_tensors P_Loader.d_file))) as [I|I].
    - apply Nat.leb_le. exact (proj1 (forallb_forall _ _) H x I).
    - apply (count_occ_not_In (list_eq_dec N.eq_dec)) in I. rewrite I. lia. }
  split; [apply SN; vm_compute; reflexivity|]. split; [exact backwards_same|].
  split; [apply RB; [apply SN|]; vm_compute; reflexivity|]. split; [apply RB; [apply SN|]; vm_compute; reflexivity|].
  split; [vm_compute; discriminate|]. eexists. vm_compute. reflexivity.
Qed.
