(** The buffer contracts of the tokenizer API: C13, C14, C15. *)
From Verif Require Import Base Bert_model Vocab_model Api_model P_Bert.
Local Open Scope N_scope.

(** The part of the caller's memory that holds the first items of [src] afterwards
    is [min cap size] long; everything behind it is as before. *)
Definition holds_prefix (src before after : list N) (cap : N) : Prop :=
  length after = length before /\
  forall i, nth_error after i =
    if (N.of_nat i <? cap) && (i <? length src)%nat then nth_error src i else nth_error before i.

Lemma deliver_spec ok src cells cap :
  cap <= N.of_nat (length cells) ->
  exists cells', deliver ok src (Some cells) (Some cap) = Ok (mkret ok (Some cells') (Some (N.of_nat (length src)))) /\
    holds_prefix src cells cells' cap.
Proof.
  intros C. unfold deliver, copy_out.
  destruct (Nat.ltb_spec (length cells) (N.to_nat (N.min cap (N.of_nat (length src))))) as [H|H]; [lia|].
  cbn [obind]. eexists; split; [reflexivity|]. split.
  - rewrite app_length, firstn_length, skipn_length. lia.
  - set (n := N.to_nat (N.min cap (N.of_nat (length src)))) in *. intros i.
    assert (Ln : length (firstn n src) = n) by (rewrite firstn_length; lia).
    destruct (Nat.ltb_spec i n) as [Hi|Hi].
    + replace ((N.of_nat i <? cap) && (i <? length src)%nat) with true by lia.
      rewrite nth_error_app1 by lia.
      transitivity (nth_error (firstn n src ++ skipn n src) i); [rewrite nth_error_app1 by lia; reflexivity|].
      rewrite firstn_skipn. reflexivity.
    + replace ((N.of_nat i <? cap) && (i <? length src)%nat) with false by lia.
      rewrite nth_error_app2 by lia. rewrite Ln.
      transitivity (nth_error (firstn n cells ++ skipn n cells) i); [|rewrite firstn_skipn; reflexivity].
      assert (Lc : length (firstn n cells) = n) by (rewrite firstn_length; lia).
      rewrite nth_error_app2 by lia. rewrite Lc. reflexivity.
Qed.

Lemma list_ext {A} : forall a b : list A, (forall i, nth_error a i = nth_error b i) -> a = b.
Proof.
  induction a as [|x a IH]; intros [|y b] H.
  - reflexivity.
  - specialize (H 0%nat); discriminate.
  - specialize (H 0%nat); discriminate.
  - f_equal; [specialize (H 0%nat); simpl in H; congruence|].
    apply IH. intros i. exact (H (S i)).
Qed.

(** The whole of [src] arrives if there is room. *)
Lemma holds_all src before after cap :
  holds_prefix src before after cap -> N.of_nat (length src) <= cap -> length before = length src -> after = src.
Proof.
  intros [L H] C E. apply list_ext. intros i. rewrite H.
  destruct (Nat.ltb_spec i (length src)) as [Hi|Hi].
  - replace (N.of_nat i <? cap) with true by lia. reflexivity.
  - rewrite andb_false_r. rewrite !(proj2 (nth_error_None _ _)); [reflexivity|lia|lia].
Qed.

(** The ids a call is to deliver. *)
Definition sequence (m : api_model) (t : list N) : outcome (list N) :=
  obind (m_tokenize m t) (fun ids => Ok ([m_cls m] ++ ids ++ [m_sep m])).

(** * C13 *)

(** With a buffer of at least the announced capacity the call is defined, reports
    the full count, stores exactly the ids that fit and nothing else. *)
Theorem C13_tokenize_buffer : forall m t ids cells cap,
  m_cls m <> INVALID -> m_sep m <> INVALID -> sequence m t = Ok ids ->
  cap <= N.of_nat (length cells) ->
  exists cells',
    berts_tokenize (Loaded m) (Some t) (Some cells) (Some cap)
      = Ok (mkret true (Some cells') (Some (N.of_nat (length ids)))) /\
    length cells' = length cells /\
    (forall i, N.of_nat i < cap -> (i < length ids)%nat -> nth_error cells' i = nth_error ids i) /\
    (forall i, cap <= N.of_nat i \/ (length ids <= i)%nat -> nth_error cells' i = nth_error cells i).
Proof.
  intros m t ids cells cap C S H L. unfold sequence in H.
  unfold berts_tokenize, with_model. apply N.eqb_neq in C, S. rewrite C, S.
  destruct (m_tokenize m t) as [r| | |]; try discriminate. cbn [obind] in H.
  assert (E0 : ids = [m_cls m] ++ r ++ [m_sep m]) by congruence. rewrite <- E0.
  destruct (deliver_spec true ids cells cap L) as (cells' & E & Hl & Hp).
  exists cells'. split; [exact E|]. split; [exact Hl|]. split; intros i H1.
  - intros H2. rewrite Hp. replace (N.of_nat i <? cap) with true by lia.
    rewrite (proj2 (Nat.ltb_lt _ _) H2). reflexivity.
  - rewrite Hp. destruct H1 as [H1|H1].
    + replace (N.of_nat i <? cap) with false by lia. reflexivity.
    + rewrite (proj2 (Nat.ltb_ge _ _) H1), andb_false_r. reflexivity.
Qed.
Print Assumptions C13_tokenize_buffer.

(** A size query (null buffer) and a call without a length cell write nothing. *)
Theorem C13_no_buffer : forall m t ids,
  m_cls m <> INVALID -> m_sep m <> INVALID -> sequence m t = Ok ids ->
  (forall cap, berts_tokenize (Loaded m) (Some t) None (Some cap)
     = Ok (mkret true None (Some (N.of_nat (length ids))))) /\
  (forall out, berts_tokenize (Loaded m) (Some t) out None = Ok (mkret true out None)).
Proof.
  intros m t ids C S H. unfold sequence in H.
  unfold berts_tokenize, with_model. apply N.eqb_neq in C, S. rewrite C, S.
  destruct (m_tokenize m t) as [r| | |]; try discriminate. cbn [obind] in H.
  assert (E0 : ids = [m_cls m] ++ r ++ [m_sep m]) by congruence. rewrite <- E0.
  split; reflexivity.
Qed.
Print Assumptions C13_no_buffer.

(** On failure (no model, no cls/sep id, tokenizer failure) the result is false
    and the caller's memory is unchanged. *)
Theorem C13_failure_untouched : forall c t out len,
  match c with
  | Loaded m => m_cls m = INVALID \/ m_sep m = INVALID \/ m_tokenize m t = Fail
  | _ => True
  end ->
  berts_tokenize c (Some t) out len = Ok (mkret false out len).
Proof.
  intros [| |m] t out len H; try reflexivity. unfold berts_tokenize, with_model.
  destruct (N.eqb_spec (m_cls m) INVALID); [reflexivity|].
  destruct (N.eqb_spec (m_sep m) INVALID); [reflexivity|].
  destruct H as [H|[H|H]]; [contradiction|contradiction|]. rewrite H. reflexivity.
Qed.
Print Assumptions C13_failure_untouched.

(** Size query, then a call with a buffer of that size: the complete sequence. *)
Theorem C13_two_calls : forall m t ids cap0,
  m_cls m <> INVALID -> m_sep m <> INVALID -> sequence m t = Ok ids ->
  exists n, berts_tokenize (Loaded m) (Some t) None (Some cap0) = Ok (mkret true None (Some n)) /\
    forall cells, N.of_nat (length cells) = n ->
      berts_tokenize (Loaded m) (Some t) (Some cells) (Some n) = Ok (mkret true (Some ids) (Some n)).
Proof.
  intros m t ids cap0 C S H. exists (N.of_nat (length ids)).
  split; [apply (C13_no_buffer m t ids C S H)|]. intros cells E.
  unfold sequence in H. unfold berts_tokenize, with_model. apply N.eqb_neq in C, S. rewrite C, S.
  destruct (m_tokenize m t) as [r| | |]; try discriminate. cbn [obind] in H.
  assert (E0 : ids = [m_cls m] ++ r ++ [m_sep m]) by congruence. rewrite <- E0.
  destruct (deliver_spec true ids cells (N.of_nat (length ids)))
    as (cells' & D & P); [lia|].
  rewrite D. rewrite (holds_all _ _ _ _ P); [reflexivity|lia|lia].
Qed.
Print Assumptions C13_two_calls.

(** A capacity larger than the buffer and a long enough text do write past it:
    the contract cannot be weakened. *)
Theorem C13_capacity_must_be_honest : forall m t ids cells cap,
  m_cls m <> INVALID -> m_sep m <> INVALID -> sequence m t = Ok ids ->
  (berts_tokenize (Loaded m) (Some t) (Some cells) (Some cap) = UB <->
   (length cells < length ids)%nat /\ N.of_nat (length cells) < cap).
Proof.
  intros m t ids cells cap C S H. unfold sequence in H.
  unfold berts_tokenize, with_model. apply N.eqb_neq in C, S. rewrite C, S.
  destruct (m_tokenize m t) as [r| | |]; try discriminate. cbn [obind] in H.
  assert (E0 : ids = [m_cls m] ++ r ++ [m_sep m]) by congruence. rewrite <- E0.
  unfold deliver, copy_out.
  destruct (Nat.ltb_spec (length cells)
     (N.to_nat (N.min cap (N.of_nat (length ids))))) as [L|L]; cbn [obind].
  - split; [|reflexivity]. intros _. lia.
  - split; [discriminate|]. lia.
Qed.
Print Assumptions C13_capacity_must_be_honest.

(** The BERT model behind the API. *)
Definition bert_api (k : icu) (v : bvocab) (w : voc) : api_model :=
  mkam (v_cls v) (v_mask v) (v_pad v) (v_sep v) (v_unk v) INVALID INVALID
    (fun id => Ok (id_to_token w id)) (fun t => Ok (token_to_id w t))
    (N.of_nat (length (i2t w))) (model_tokenize k v).

Definition demo_api : api_model :=
  bert_api demo_icu (demo_bv (make_info false true true true)) voc0.

Example C13_example :
  sequence demo_api (u "a a") = Ok [0; 5; 5; 1] /\
  berts_tokenize (Loaded demo_api) (Some (u "a a")) (Some [9; 9; 9]) (Some 2)
    = Ok (mkret true (Some [0; 5; 9]) (Some 4)) /\
  berts_tokenize (Loaded demo_api) (Some (u "a a")) (Some [9; 9]) (Some 3) = UB.
Proof. repeat split; vm_compute; reflexivity. Qed.

(** * C14 *)

Theorem C14_id_to_token_buffer : forall m id token cells cap,
  m_id_to_token m id = Ok token -> cap <= N.of_nat (length cells) ->
  exists cells' ok,
    berts_id_to_token (Loaded m) id (Some cells) (Some cap)
      = Ok (mkret ok (Some cells') (Some (N.of_nat (length token)))) /\
    (ok = true <-> token <> []) /\
    length cells' = length cells /\
    (forall i, N.of_nat i < cap -> (i < length token)%nat -> nth_error cells' i = nth_error token i) /\
    (forall i, cap <= N.of_nat i \/ (length token <= i)%nat -> nth_error cells' i = nth_error cells i).
Proof.
  intros m id token cells cap H L. unfold berts_id_to_token, with_model. rewrite H. cbn [obind].
  destruct (deliver_spec (negb (length token =? 0)%nat) token cells cap L) as (cells' & E & Hl & Hp).
  exists cells', (negb (length token =? 0)%nat). split; [exact E|].
  split; [destruct token; simpl; intuition discriminate|]. split; [exact Hl|]. split; intros i H1.
  - intros H2. rewrite Hp. replace (N.of_nat i <? cap) with true by lia.
    rewrite (proj2 (Nat.ltb_lt _ _) H2). reflexivity.
  - rewrite Hp. destruct H1 as [H1|H1].
    + replace (N.of_nat i <? cap) with false by lia. reflexivity.
    + rewrite (proj2 (Nat.ltb_ge _ _) H1), andb_false_r. reflexivity.
Qed.
Print Assumptions C14_id_to_token_buffer.

Theorem C14_two_calls : forall m id token cap0,
  m_id_to_token m id = Ok token ->
  exists n ok, berts_id_to_token (Loaded m) id None (Some cap0) = Ok (mkret ok None (Some n)) /\
    (ok = true <-> token <> []) /\
    forall cells, N.of_nat (length cells) = n ->
      berts_id_to_token (Loaded m) id (Some cells) (Some n) = Ok (mkret ok (Some token) (Some n)).
Proof.
  intros m id token cap0 H. unfold berts_id_to_token, with_model. rewrite H. cbn [obind].
  exists (N.of_nat (length token)), (negb (length token =? 0)%nat). split; [reflexivity|].
  split; [destruct token; simpl; intuition discriminate|]. intros cells E.
  destruct (deliver_spec (negb (length token =? 0)%nat) token cells (N.of_nat (length token)))
    as (cells' & D & P); [lia|].
  rewrite D. rewrite (holds_all _ _ _ _ P); [reflexivity|lia|lia].
Qed.
Print Assumptions C14_two_calls.

Theorem C14_no_model : forall c id out len,
  (c = NullCtx \/ c = NoModel) -> berts_id_to_token c id out len = Ok (mkret false out len).
Proof. intros c id out len [->| ->]; reflexivity. Qed.
Print Assumptions C14_no_model.

(** For a loaded vocabulary the result is true exactly for ids of non-empty
    entries. *)
Theorem C14_true_iff_entry : forall k v w id out r,
  berts_id_to_token (Loaded (bert_api k v w)) id out None = Ok r ->
  (r_ok r = true <-> exists t, t <> [] /\ nth_error (i2t w) (N.to_nat id) = Some t).
Proof.
  intros k v w id out r H. unfold berts_id_to_token, with_model, bert_api, m_id_to_token in H. cbn [obind] in H.
  unfold deliver in H. injection H as <-. cbn [r_ok]. unfold id_to_token.
  destruct (N.leb_spec (N.of_nat (length (i2t w))) id) as [L|L].
  - split; [discriminate|]. intros (t & _ & E).
    assert (K : (N.to_nat id < length (i2t w))%nat) by (apply nth_error_Some; congruence). lia.
  - destruct (nth_error (i2t w) (N.to_nat id)) as [t|] eqn:E.
    + rewrite (nth_error_nth _ _ _ E). split.
      * intros H. exists t. split; [|reflexivity]. intros ->. discriminate.
      * intros (t' & Ht & Et). injection Et as <-. destruct t; [congruence|reflexivity].
    + apply nth_error_None in E. lia.
Qed.
Print Assumptions C14_true_iff_entry.

Example C14_example :
  let m := bert_api demo_icu (demo_bv (make_info false true true true)) (mkvoc [u "abc"; []] []) in
  berts_id_to_token (Loaded m) 0 (Some [1; 2; 3; 4]) (Some 2) = Ok (mkret true (Some [97; 98; 3; 4]) (Some 3)) /\
  berts_id_to_token (Loaded m) 1 (Some [1]) (Some 1) = Ok (mkret false (Some [1]) (Some 0)) /\
  berts_id_to_token (Loaded m) 2 (Some [1]) (Some 1) = Ok (mkret false (Some [1]) (Some 0)).
Proof. repeat split; vm_compute; reflexivity. Qed.

(** * C15 *)

(** berts_token_to_id answers 0, a perfectly valid id, when there is no model. *)
Theorem C15_token_to_id_refuted : exists c t,
  c = NullCtx /\ berts_token_to_id c t = Ok 0 /\ 0 <> INVALID.
Proof. exists NullCtx, (Some (u "a")). repeat split. discriminate. Qed.
Print Assumptions C15_token_to_id_refuted.

(** The seven special-id queries do report the invalid id, the size is 0, and
    token_to_id never reports it. *)
Theorem C15_no_model_partial : forall c,
  (c = NullCtx \/ c = NoModel) ->
  (forall f, In f [berts_cls_id; berts_mask_id; berts_pad_id; berts_sep_id; berts_unk_id; berts_bos_id; berts_eos_id] ->
     f c = INVALID) /\
  berts_vocab_size c = 0 /\
  (forall t, berts_token_to_id c t = Ok 0).
Proof.
  intros c [-> | ->]; (split; [|split; reflexivity]);
    intros f H; simpl in H; repeat (destruct H as [<-|H]; [reflexivity|]); contradiction.
Qed.
Print Assumptions C15_no_model_partial.
