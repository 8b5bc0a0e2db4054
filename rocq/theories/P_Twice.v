(** Of several tensors with one name only the first influences loading. *)
From Verif Require Import Base Bert_model Vocab_model Bpe_model Roberta_model Loader_model Loader_spec Loader_proofs.
From Verif Require Ggml_model Encoder_model Eval_model P_Loader.
Local Open Scope nat_scope.

(** ** Specification *)

(** The tensors without those whose name occurs earlier. *)
Inductive firsts : list tinfo -> list tinfo -> Prop :=
| firsts_nil : firsts [] []
| firsts_new l k t : firsts l k -> (forall x, In x l -> ti_name x <> ti_name t) -> firsts (l ++ [t]) (k ++ [t])
| firsts_old l k t : firsts l k -> (exists x, In x l /\ ti_name x = ti_name t) -> firsts (l ++ [t]) k.

(** ** Proofs *)
Lemma find_app' {A} (p : A -> bool) l k : find p (l ++ k) = match find p l with Some t => Some t | None => find p k end.
Proof. induction l as [|x l IH]; [reflexivity|]. cbn [app find]. destruct (p x); [reflexivity|exact IH]. Qed.

Lemma firsts_find l k n : firsts l k ->
  find (fun t => list_N_eqb (ti_name t) n) k = find (fun t => list_N_eqb (ti_name t) n) l.
Proof.
  induction 1 as [|l k t F IH H|l k t F IH (x & Hx & E)]; [reflexivity| |].
  - rewrite !find_app', IH. reflexivity.
  - rewrite find_app', IH. destruct (find _ l) as [y|] eqn:Ey; [reflexivity|]. cbn [find].
    destruct (list_N_eqb (ti_name t) n) eqn:Et; [|reflexivity].
    pose proof (find_none _ _ Ey x Hx) as Q. cbn beta in Q. rewrite E in Q. congruence.
Qed.
Lemma firsts_in l k : firsts l k -> incl k l.
Proof.
  induction 1 as [|l k t F IH H|l k t F IH H]; intros x Hx; [exact Hx| |].
  - apply in_app_iff in Hx as [Hx|Hx]; apply in_app_iff; [left; exact (IH x Hx)|right; exact Hx].
  - apply in_app_iff. left. exact (IH x Hx).
Qed.

Section Whole.
Context (L : Ggml_model.lib) (HL : lib_ok L) (junk : nat -> N).
Context {V : Type} (value : gty -> list N -> nat -> V).
Context (order : list (ustring * N) -> list (ustring * N)).

Lemma layers_ext ts ts' : (forall n, weight value ts' n = weight value ts n) -> forall l, layers_init value ts' l = layers_init value ts l.
Proof.
  intros H. induction l as [|n l IH]; [reflexivity|]. cbn [layers_init]. rewrite IH.
  assert (E : layer_init value ts' n = layer_init value ts n) by (unfold layer_init; cbv zeta; rewrite !H; reflexivity).
  rewrite E. reflexivity.
Qed.
Lemma weights_ext ts ts' k : (forall n, weight value ts' n = weight value ts n) -> weights_init value ts' k = weights_init value ts k.
Proof.
  intros H. unfold weights_init. rewrite (layers_ext ts ts' H).
  assert (E : head_init value ts' = head_init value ts) by (unfold head_init; cbv zeta; rewrite !H; reflexivity).
  rewrite E. cbv zeta. rewrite !H. reflexivity.
Qed.

(** C219: a file loads like the same file without the tensors whose name occurs earlier. *)
Theorem C219_first_counts : forall f firstly reopen,
  let f' := mkfile (f_set f) (f_tok f) firstly (f_data f) (f_bytes f) in
  firsts (f_tensors f) firstly -> short_names f -> readable f -> readable f' ->
  load_from_file L junk value order (Some f') reopen = load_from_file L junk value order (Some f) reopen.
Proof.
  intros f firstly reopen f' F SN RD RD'.
  assert (SN' : short_names f').
  { unfold short_names in *. rewrite Forall_forall in *. intros t Ht. apply SN. exact (firsts_in _ _ F t Ht). }
  assert (NM : forall n, named f' n = named f n) by (intros n; exact (firsts_find _ _ n F)).
  assert (EM : read_metadata f' = read_metadata f) by reflexivity.
  assert (ES : read_settings f' = read_settings f) by reflexivity.
  destruct (read_metadata_cases f) as [G|G].
  2:{ cbn [load_from_file]. rewrite EM, G. reflexivity. }
  destruct (found_all f) as (made & HM), (found_all f') as (made' & HM'). destruct reopen.
  2:{ cbn [load_from_file]. rewrite EM, G. cbn [obind]. destruct (pool_size L HL f made SN HM) as (-> & _), (pool_size L HL f' made' SN' HM') as (-> & _). reflexivity. }
  pose proof (proj1 (read_metadata_iff f) G) as G1. rewrite G in EM. pose proof (proj1 (read_metadata_iff f') EM) as G2.
  rewrite (load_readable L HL junk value order f made G1 SN RD HM), (load_readable L HL junk value order f' made' G2 SN' RD' HM'), ES.
  destruct (read_settings f) as [s| | |]; cbn [obind]; try reflexivity.
  destruct (negb (se_act s =? 0)%N); [reflexivity|]. destruct (negb _); [reflexivity|]. unfold new_context.
  assert (VA : forall n, vocab_at junk f' n = vocab_at junk f n) by (intros n; unfold vocab_at; rewrite NM; reflexivity).
  assert (WA : forall n, weight_at junk value f' n = weight_at junk value f n) by (intros n; unfold weight_at; rewrite NM; reflexivity).
  assert (EV : init_vocab order (se_arch s) f' (kept junk f' made') = init_vocab order (se_arch s) f (kept junk f made)).
  { unfold init_vocab. change (f_tok f') with (f_tok f). rewrite !(vocab_kept junk f' made' _ SN' HM'), !(vocab_kept junk f made _ SN HM), !VA. reflexivity. }
  rewrite EV, (weights_ext (kept junk f made) (kept junk f' made')); [reflexivity|].
  intros n. rewrite (weight_kept junk value f' made' n SN' HM'), (weight_kept junk value f made n SN HM). apply WA.
Qed.
End Whole.
Print Assumptions C219_first_counts.

(** ** Example: the pooler's weight twice, the second time with other data and type *)
Definition again : file := P_Loader.a_file 0 0 (P_Loader.d_pieces ++ [P_Loader.mkpiece (u "berts.bert.pooler.dense.weight") TI8 1 1 [7%N]]).

Lemma new_firsts l : NoDup (map ti_name l) -> firsts l l.
Proof.
  induction l as [|t l IH] using rev_ind; intros ND; [constructor|]. rewrite map_app in ND. cbn [map] in ND.
  apply NoDup_remove in ND as (ND & NI). rewrite app_nil_r in ND, NI. constructor; [exact (IH ND)|].
  intros x Hx E. apply NI. rewrite <- E. apply in_map. exact Hx.
Qed.

(** Readable, decided. *)
Lemma readable_check f : forallb (fun p : tinfo * tinfo => (f_data f + ti_offset (fst p) + nbytes (snd p) <=? N.of_nat (length (f_bytes f)))%N)
     (removelast (combine (f_tensors f) (map (fun d => match named f (ti_name d) with Some t => t | None => d end) (f_tensors f)))) = true -> readable f.
Proof.
  intros H made HM. assert (made = map (fun d => match named f (ti_name d) with Some t => t | None => d end) (f_tensors f)) as ->.
  { unfold copies in HM. clear H. revert HM. generalize (f_tensors f) at 2 3. intros l HM. induction HM as [|d t l made H HM IH]; [reflexivity|].
    cbn [map]. f_equal; [|exact IH]. unfold named. rewrite (proj2 (find_first _ _ _) H). reflexivity. }
  apply Forall_forall. intros p Hp. left. apply N.leb_le. exact (proj1 (forallb_forall _ _) H p Hp).
Qed.

Example C219_example : firsts (f_tensors again) (f_tensors P_Loader.d_file) /\ short_names again /\
  readable again /\ readable (mkfile (f_set again) (f_tok again) (f_tensors P_Loader.d_file) (f_data again) (f_bytes again)) /\
  (forall t, In t (f_tensors again) -> contained again t) /\
  f_tensors again <> f_tensors P_Loader.d_file /\ exists m, P_Loader.d_load again = Ok (Loaded m).
Proof.
  split.
  { assert (E : f_tensors again = f_tensors P_Loader.d_file ++ skipn 31 (f_tensors again)) by (vm_compute; reflexivity).
    assert (E' : exists t, skipn 31 (f_tensors again) = [t] /\ existsb (fun x => list_N_eqb (ti_name x) (ti_name t)) (f_tensors P_Loader.d_file) = true).
    { eexists. split; vm_compute; reflexivity. }
    destruct E' as (t & Et & Q). rewrite E, Et. apply firsts_old.
    - apply new_firsts. apply (NoDup_count_occ (list_eq_dec N.eq_dec)). intros x.
      assert (H : forallb (fun y => Nat.leb (count_occ (list_eq_dec N.eq_dec) (map ti_name (f_tensors P_Loader.d_file)) y) 1) (map ti_name (f_tensors P_Loader.d_file)) = true) by (vm_compute; reflexivity).
      destruct (in_dec (list_eq_dec N.eq_dec) x (map ti_name (f_tensors P_Loader.d_file))) as [I|I].
      + apply Nat.leb_le. exact (proj1 (forallb_forall _ _) H x I).
      + apply (count_occ_not_In (list_eq_dec N.eq_dec)) in I. rewrite I. lia.
    - apply existsb_exists in Q as (x & Hx & Hn). exists x. split; [exact Hx|]. apply list_N_eqb_eq. exact Hn. }
  split.
  { assert (H : forallb (fun t => Nat.ltb (length (ti_name t)) 64) (f_tensors again) = true) by (vm_compute; reflexivity).
    apply Forall_forall. intros t Ht. apply Nat.ltb_lt. exact (proj1 (forallb_forall _ _) H t Ht). }
  split; [apply readable_check; vm_compute; reflexivity|]. split; [apply readable_check; vm_compute; reflexivity|]. split.
  { assert (H : forallb (fun t => (f_data again + ti_offset t + nbytes t <=? N.of_nat (length (f_bytes again)))%N) (f_tensors again) = true) by (vm_compute; reflexivity).
    intros t Ht. apply N.leb_le. exact (proj1 (forallb_forall _ _) H t Ht). }
  split; [|eexists; vm_compute; reflexivity].
  intros E. apply (f_equal (@length tinfo)) in E. vm_compute in E. discriminate.
Qed.
