(** The arrays of a converted checkpoint. *)
From Verif Require Import Base Assoc Bert_model Vocab_model Vocab_spec Vocab_proofs Bpe_model Roberta_model
  Loader_model Loader_spec Loader_proofs Quantize_model Quantize_spec Quantize_proofs Gguf_model Gguf_spec Gguf_proofs
  Convert_model Convert_spec Convert_proofs.
From Verif Require Ggml_model Encoder_model Encoder_spec.
Local Open Scope nat_scope.

Lemma prod_squeeze s : prod (squeeze s) = prod s.
Proof.
  induction s as [|n s IH]; [reflexivity|]. unfold squeeze in *. cbn [filter]. destruct (Nat.eqb_spec n 1) as [->|Hn]; cbn [negb].
  - rewrite IH. unfold prod. cbn [fold_right]. lia.
  - unfold prod in *. cbn [fold_right]. rewrite IH. reflexivity.
Qed.

Lemma prod_bound s n : Forall (fun n => 0 < n) s -> In n s -> n <= prod s.
Proof.
  intros H. assert (P : 0 < prod s) by (induction H; unfold prod in *; cbn [fold_right]; [lia|nia]).
  revert P. induction H as [|x s Hx H IH]; intros P Hin; [destruct Hin|].
  assert (0 < prod s) by (clear -H; induction H; unfold prod in *; cbn [fold_right]; [lia|nia]).
  unfold prod in *. cbn [fold_right] in *. destruct Hin as [->|Hin]; [nia|]. specialize (IH H0 Hin). nia.
Qed.

Lemma concat_fixed {A} (g : A -> list N) k l : (forall a, length (g a) = k) -> length (concat (map g l)) = length l * k.
Proof. intros H. induction l as [|a l IH]; [reflexivity|]. cbn [map concat]. rewrite app_length, H, IH. cbn [length]. lia. Qed.

Lemma bert_prefix s : length (u "berts.bert." ++ s) = 11 + length s.
Proof. rewrite app_length. reflexivity. Qed.
Lemma prefix_zero s : ~ In 0%N s -> ~ In 0%N (u "berts.bert." ++ s).
Proof. intros H Q. apply in_app_iff in Q as [Q|Q]; [|contradiction]. revert Q. apply zeroless_lit. reflexivity. Qed.

Lemma squeeze_length s : length (squeeze s) <= length s.
Proof. induction s as [|n s IH]; [reflexivity|]. unfold squeeze in *. cbn [filter]. destruct (negb (n =? 1)); cbn [length]; lia. Qed.

Lemma some_inj {A} (a b : A) : Some a = Some b -> a = b.
Proof. congruence. Qed.

Section Arrays.
Context {E : Type} (single half : E -> list N).
Hypothesis (H32 : forall e, length (single e) = 4) (H16 : forall e, length (half e) = 2).

Lemma array_fine f32 key name (t : ptensor E) : whole t -> length (p_shape t) <= 4 -> ~ In 0%N name -> length name < 53 ->
  array_ok (array single half f32 key name t).
Proof.
  intros (W1 & W2) Hd Hz Hn. fold (prod (p_shape t)) in W2.
  assert (B : forall k g ty, (forall e : E, length (g e) = k) -> blck_size ty = 1%N -> type_size ty = N.of_nat k -> 0 < k ->
    array_ok (mkwt (u "berts.bert." ++ name) ty (squeeze (p_shape t)) (concat (map g (p_elems t))))).
  { intros k g ty Hg Hb Hs Hk. constructor; cbn [o_name o_type o_shape o_bytes].
    - apply prefix_zero, Hz.
    - rewrite bert_prefix. lia.
    - etransitivity; [apply squeeze_length|exact Hd].
    - exact Hb.
    - rewrite prod_squeeze, (concat_fixed g k _ Hg), W2, Hs. lia.
    - apply Forall_forall. intros n Hin. rewrite (concat_fixed g k _ Hg), W2. apply filter_In in Hin as (Hin & _).
      assert (Q := prod_bound _ _ W1 Hin). nia. }
  unfold array. destruct (to_half f32 key t); [apply (B 2)|apply (B 4)]; auto; reflexivity || lia.
Qed.

(** Heads *)
Lemma head_key_name cl key name : cl = BertModel \/ cl = RobertaModel -> head_key cl key name -> head_name cl key = name.
Proof.
  intros [->| ->] H; inversion H as [k Q|s Q Hs|s Q Hs|s Q Hs]; subst; try discriminate; try reflexivity;
    cbn [In] in Hs; destruct Hs as [<-|[<-|[]]]; reflexivity.
Qed.

Lemma head_key_inj cl k1 k2 name : head_key cl k1 name -> head_key cl k2 name -> k1 = k2.
Proof.
  intros A B. destruct A as [k Q|s Q Hs|s Q Hs|s Q Hs]; inversion B as [k' Q' E1 E2|s' Q' Hs' E1 E2|s' Q' Hs' E1 E2|s' Q' Hs' E1 E2]; subst;
    try congruence; try discriminate; try (vm_compute in E2; discriminate).
  all: apply app_inv_head in E2; subst; reflexivity.
Qed.

Lemma head_key_plain cl key : head_key cl key (u "predictions.bias") -> cl = BertModel.
Proof. intros H. inversion H as [k Q|s Q Hs E1 E2|s Q Hs E1 E2|s Q Hs E1 E2]; subst; [reflexivity|..]; vm_compute in E2; discriminate. Qed.

Lemma lm_arrays_eq f32 (c : checkpoint E) : storable c ->
  lm_arrays single half f32 c =
  map (fun x => array single half f32 (fst x) (head_name (ck_class c) (fst x)) (snd x)) (filter (head_kept (ck_class c)) (ck_lm c)).
Proof.
  intros S. assert (Hn := so_head_names _ S). assert (Hc := so_class _ S). revert Hn. unfold lm_arrays. generalize (ck_lm c) as l.
  induction l as [|x l IH]; intros Hn; [reflexivity|]. cbn [flat_map filter] in *.
  destruct (head_kept (ck_class c) x) eqn:K.
  - apply Forall_cons_iff in Hn as ((name & H1 & _) & Hn). rewrite (IH Hn). cbn [map app]. rewrite (head_key_name _ _ _ Hc H1).
    destruct (list_N_eqb name (u "predictions.bias")) eqn:F; [|reflexivity]. exfalso. apply list_N_eqb_eq in F. subst name.
    assert (Q := head_key_plain _ _ H1). assert (R := head_key_name _ _ _ Hc H1). rewrite Q in R. cbn [head_name] in R.
    unfold head_kept in K. rewrite Q, R in K. discriminate K.
  - rewrite (IH Hn). unfold head_kept in K. apply negb_false_iff, list_N_eqb_eq in K. rewrite K.
    destruct Hc as [-> | ->]; reflexivity.
Qed.

(** All arrays of a checkpoint. *)
Lemma vocab_fine (c : checkpoint E) v : vocab_arrays c = Some v -> Forall array_ok v /\ map o_name v = [u "berts.vocab.size"; u "berts.vocab.data"].
Proof.
  unfold vocab_arrays. destruct (write_vocab _ _) as [[s d]|]; [|discriminate]. intros H. injection H as <-.
  assert (B : forall name l, existsb (N.eqb 0) name = false -> length name < 64 -> array_ok (mkwt name TI8 [length l] l)).
  { intros name l Hz Hl. constructor; cbn [o_name o_type o_shape o_bytes]; [apply zeroless_lit, Hz|exact Hl|cbn; lia|reflexivity| |repeat constructor].
    unfold prod. cbn [fold_right]. rewrite Nat.mul_1_r. change (type_size TI8) with 1%N. lia. }
  split; [|reflexivity]. repeat constructor; apply B; try reflexivity; cbn; lia.
Qed.
Lemma merge_fine (c : checkpoint E) v : merge_arrays c = Some v -> Forall array_ok v /\ incl (map o_name v) [u "berts.merge.data"] /\ NoDup (map o_name v).
Proof.
  unfold merge_arrays. destruct (ck_merges c) as [ms|]; [|intros H; injection H as <-; split; [constructor|split; [intros x []|constructor]]].
  destruct (write_merges _ _) as [l|]; [|discriminate]. intros H. apply some_inj in H. subst v.
  split; [|split; [intros x Hx; exact Hx|repeat constructor; intros []]].
  constructor; [|constructor]. assert (L : length (concat (map (le 4) l)) = length l * 4) by (apply concat_fixed; intros n; apply le_length).
  revert L. generalize (concat (map (le 4) l)). intros bs L.
  constructor; cbn [o_name o_type o_shape o_bytes]; [apply zeroless_lit; reflexivity|cbn; lia|cbn; lia|reflexivity| |].
  - rewrite L. unfold prod. cbn [fold_right]. rewrite Nat.mul_1_r. change (type_size TI32) with 4%N. lia.
  - rewrite L. repeat constructor. lia.
Qed.

Lemma array_name f32 key name (t : ptensor E) : o_name (array single half f32 key name t) = u "berts.bert." ++ name.
Proof. unfold array. destruct (to_half f32 key t); reflexivity. Qed.

Lemma NoDup_map_on {A B} (g : A -> B) l : (forall a b, In a l -> In b l -> g a = g b -> a = b) -> NoDup l -> NoDup (map g l).
Proof.
  intros H N. induction N as [|a l Na N IH]; cbn [map]; constructor.
  - intros Q. apply in_map_iff in Q as (b & Eb & Hb). apply H in Eb; [subst; contradiction|right; exact Hb|left; reflexivity].
  - apply IH. intros x y Hx Hy. apply H; right; assumption.
Qed.
Lemma NoDup_fst_on {A B C} (g : A * B -> C) l : (forall a b, In a l -> In b l -> g a = g b -> fst a = fst b) -> NoDup (map fst l) -> NoDup (map g l).
Proof.
  intros H. induction l as [|a l IH]; intros N; cbn [map] in *; constructor; inversion N as [|? ? Na N']; subst.
  - intros Q. apply in_map_iff in Q as (b & Eb & Hb). apply H in Eb; [|right; exact Hb|left; reflexivity]. apply Na. rewrite <- Eb. apply in_map, Hb.
  - apply IH; [|exact N']. intros x y Hx Hy. apply H; right; assumption.
Qed.
Lemma NoDup_concat2 {A} (l m : list A) : NoDup l -> NoDup m -> (forall a, In a l -> ~ In a m) -> NoDup (l ++ m).
Proof.
  intros N M H. induction N as [|a l Na N IH]; [exact M|]. cbn [app]. constructor.
  - rewrite in_app_iff. intros [Q|Q]; [contradiction|]. apply (H a); [left; reflexivity|exact Q].
  - apply IH. intros b Hb. apply H. right. exact Hb.
Qed.
Lemma NoDup_filter_fst {A B} (p : A * B -> bool) l : NoDup (map fst l) -> NoDup (map fst (filter p l)).
Proof.
  induction l as [|a l IH]; intros N; [constructor|]. cbn [map filter] in *. inversion N as [|? ? Na N']; subst.
  destruct (p a); [|apply IH, N']. cbn [map]. constructor; [|apply IH, N']. intros Q. apply Na.
  apply in_map_iff in Q as (b & Eb & Hb). apply filter_In in Hb as (Hb & _). rewrite <- Eb. apply in_map, Hb.
Qed.

Lemma arrays_fine (c : checkpoint E) f32 ts : storable c -> arrays single half c f32 = Some ts -> Forall array_ok ts /\ NoDup (map o_name ts).
Proof.
  intros S. unfold arrays. destruct (vocab_arrays c) as [v|] eqn:Ev; [|discriminate]. destruct (merge_arrays c) as [m|] eqn:Em; [|discriminate].
  intros H. injection H as <-. apply vocab_fine in Ev as (V1 & V2). apply merge_fine in Em as (M1 & M2 & M3).
  assert (SW := so_whole _ S). assert (SD := so_dims _ S). rewrite lm_arrays_eq by exact S. rewrite Forall_forall in SW, SD.
  assert (SH := so_head_names _ S). rewrite Forall_forall in SH. assert (SS := so_state_names _ S). rewrite Forall_forall in SS.
  assert (HC := so_class _ S). destruct (so_distinct _ S) as (D1 & D2 & D3). split.
  - apply Forall_app; split; [exact V1|]. apply Forall_app; split; [exact M1|]. apply Forall_app; split; apply Forall_forall; intros t Ht.
    + apply in_map_iff in Ht as (x & <- & Hx). apply array_fine; [apply SW|apply SD|apply SS|apply SS]; try exact Hx; apply in_app_iff; left; exact Hx.
    + apply in_map_iff in Ht as (x & <- & Hx). destruct (SH _ Hx) as (name & K1 & K2 & K3). rewrite (head_key_name _ _ _ HC K1).
      apply filter_In in Hx as (Hx & _). apply array_fine; [apply SW|apply SD|exact K2|exact K3]; apply in_app_iff; right; exact Hx.
  - rewrite !map_app, V2.
    assert (P : forall key, In (u "berts.bert." ++ key) [u "berts.vocab.size"; u "berts.vocab.data"; u "berts.merge.data"] -> False).
    { intros key Q. cbn [In] in Q. destruct Q as [Q|[Q|[Q|[]]]]; vm_compute in Q; discriminate Q. }
    assert (ST : map o_name (state_arrays single half f32 c) = map (fun k => u "berts.bert." ++ k) (map fst (ck_state c))).
    { unfold state_arrays. rewrite !map_map. apply map_ext. intros x. apply array_name. }
    assert (SL : map o_name (map (fun x => array single half f32 (fst x) (head_name (ck_class c) (fst x)) (snd x)) (filter (head_kept (ck_class c)) (ck_lm c))) =
      map (fun k => u "berts.bert." ++ head_name (ck_class c) (fst k)) (filter (head_kept (ck_class c)) (ck_lm c))).
    { rewrite map_map. apply map_ext. intros x. apply array_name. }
    rewrite ST, SL. apply NoDup_concat2; [apply nodupb_ok; vm_compute; reflexivity| |].
    + apply NoDup_concat2; [exact M3| |].
      * apply NoDup_concat2.
        -- apply NoDup_map_on; [|exact D1]. intros a b _ _ Q. apply app_inv_head in Q. exact Q.
        -- apply NoDup_fst_on; [|apply NoDup_filter_fst, D2]. intros a b Ha Hb Q. apply app_inv_head in Q.
           destruct (SH _ Ha) as (n1 & K1 & _). destruct (SH _ Hb) as (n2 & K2 & _).
           rewrite (head_key_name _ _ _ HC K1), (head_key_name _ _ _ HC K2) in Q. subst n2. exact (head_key_inj _ _ _ _ K1 K2).
        -- intros n Hn Q. apply in_map_iff in Hn as (k & <- & Hk). apply in_map_iff in Q as (x & Q & Hx). apply app_inv_head in Q.
           destruct (SH _ Hx) as (n1 & K1 & _). rewrite (head_key_name _ _ _ HC K1) in Q. subst n1.
           apply filter_In in Hx as (Hx & _). destruct x as [key t]. exact (D3 key k t Hx K1 Hk).
      * intros n Hn Q. apply M2 in Hn. apply in_app_iff in Q as [Q|Q]; apply in_map_iff in Q as (x & <- & _);
          cbn [In] in Hn; destruct Hn as [Hn|[]]; eapply P; rewrite <- Hn; cbn; tauto.
    + intros n Hn Q. apply in_app_iff in Q as [Q|Q].
      * apply M2 in Q. cbn [In] in Q, Hn. destruct Q as [<-|[]]. destruct Hn as [Hn|[Hn|[]]]; vm_compute in Hn; discriminate Hn.
      * apply in_app_iff in Q as [Q|Q]; apply in_map_iff in Q as (x & <- & _); eapply P; cbn [In] in *; destruct Hn as [Hn|[Hn|[]]]; rewrite <- Hn; tauto.
Qed.
End Arrays.
