(** Proofs about quantization. *)
From Verif Require Import Base Bert_model Vocab_model Bpe_model Roberta_model Loader_model Loader_spec Loader_proofs
  Quantize_model Quantize_spec.
From Verif Require Ggml_model.
Local Open Scope nat_scope.

(** ** Padding *)

Lemma pad32_mod n : (pad32 n mod 32 = 0)%N.
Proof. unfold pad32, Ggml_model.pad_to, ALIGN. apply N.mod_mul. lia. Qed.
Lemma pad32_ge n : (n <= pad32 n < n + 32)%N.
Proof.
  unfold pad32, Ggml_model.pad_to, ALIGN.
  assert (D := N.div_mod (n + (32 - 1)) 32 ltac:(lia)). assert (M := N.mod_lt (n + (32 - 1)) 32 ltac:(lia)). lia.
Qed.

(** ** The names selected *)

Lemma is_weight_iff n : is_weight n = true <-> exists p, n = p ++ u "weight" /\ ~ In 10%N p /\ ~ In 13%N p.
Proof.
  unfold is_weight. split.
  - intros H. apply andb_true_iff in H as (H & H3). apply andb_true_iff in H as (H1 & H2).
    apply list_N_eqb_eq in H2. exists (firstn (length n - 6) n). split; [|].
    + rewrite <- H2. symmetry. apply firstn_skipn.
    + rewrite forallb_forall in H3. split; intros Hin; specialize (H3 _ Hin); discriminate.
  - intros (p & -> & H1 & H2).
    assert (El : length (p ++ u "weight") - 6 = length p) by (rewrite app_length; change (length (u "weight")) with 6; lia).
    rewrite El, skipn_app, skipn_all, Nat.sub_diag, firstn_app, firstn_all, Nat.sub_diag.
    cbn [skipn firstn app]. rewrite app_nil_r, !andb_true_iff. split; [split|].
    + rewrite app_length. change (length (u "weight")) with 6. apply Nat.leb_le. lia.
    + apply list_N_eqb_refl.
    + apply forallb_forall. intros c Hc. unfold line_end. apply negb_true_iff, orb_false_iff.
      split; apply N.eqb_neq; intros ->; contradiction.
Qed.

Lemma wanted_iff s : is_weight (st_name s) && (ti_dims (st_info s) =? 2)%N = true <-> wanted s.
Proof. unfold wanted. rewrite andb_true_iff, is_weight_iff, N.eqb_eq. tauto. Qed.

Lemma wanted_dec s : wanted s \/ ~ wanted s.
Proof.
  rewrite <- wanted_iff. destruct (is_weight (st_name s) && (ti_dims (st_info s) =? 2)%N); [left; reflexivity|right; discriminate].
Qed.

(** ** Descriptions *)

Definition item := (stored * (gty * N))%type.
Definition describe (x : item) (off : N) : winfo :=
  let t := st_info (fst x) in
  mkwi (st_name (fst x)) (fst (snd x)) (ti_dims t) (ti_ne0 t) (ti_ne1 t) (ti_ne2 t) (ti_ne3 t) off (snd (snd x)).
Fixpoint layout (off : N) (l : list item) : list winfo :=
  match l with [] => [] | x :: l' => describe x off :: layout (off + pad32 (snd (snd x)))%N l' end.
Fixpoint after (off : N) (l : list item) : N :=
  match l with [] => off | x :: l' => after (off + pad32 (snd (snd x)))%N l' end.

Lemma layout_app off a b : layout off (a ++ b) = layout off a ++ layout (after off a) b.
Proof. revert off. induction a as [|x a IH]; intros off; cbn; [reflexivity|]. rewrite IH. reflexivity. Qed.

Lemma layout_last off a : match rev (layout off a) with [] => off | w :: _ => (w_offset w + pad32 (w_size w))%N end = after off a.
Proof.
  revert off. induction a as [|x a IH] using rev_ind; intros off; [reflexivity|].
  rewrite layout_app, rev_app_distr. cbn [layout rev app describe w_offset w_size].
  clear IH. revert off. induction a as [|y a IH]; intros off; cbn; [reflexivity|]. apply IH.
Qed.

Definition original (s : stored) : item := (s, (ti_type (st_info s), nbytes (st_info s))).

Lemma add_one a s : trimmed (st_info s) -> add_tensor (layout 0 a) s = layout 0 (a ++ [original s]).
Proof.
  intros (_ & T0 & T1 & T2 & T3). unfold add_tensor. cbv zeta. rewrite layout_last, layout_app. cbn [layout].
  unfold describe, original. cbn [fst snd]. do 3 f_equal.
  - destruct (N.leb_spec (ti_dims (st_info s)) 0); [rewrite T0|]; auto.
  - destruct (N.leb_spec (ti_dims (st_info s)) 1); [rewrite T1|]; auto.
  - destruct (N.leb_spec (ti_dims (st_info s)) 2); [rewrite T2|]; auto.
  - destruct (N.leb_spec (ti_dims (st_info s)) 3); [rewrite T3|]; auto.
Qed.

Lemma get_self ts s : Forall (fun s => length (st_name s) < 64) ts -> NoDup (map st_name ts) -> In s ts ->
  get_tensor st_name ts (st_name s) = Some s.
Proof.
  intros Hs Hd Hin. rewrite get_first by exact Hs. clear Hs. induction ts as [|x ts IH]; [destruct Hin|].
  cbn [find map] in *. inversion Hd as [|? ? Hx Hd']; subst. destruct Hin as [->|Hin].
  - rewrite list_N_eqb_refl. reflexivity.
  - destruct (list_N_eqb (st_name x) (st_name s)) eqn:E; [|auto].
    apply list_N_eqb_eq in E. exfalso. apply Hx. rewrite E. apply in_map. exact Hin.
Qed.

Lemma add_all_layout ts a rest : Forall (fun s => length (st_name s) < 64) ts -> NoDup (map st_name ts) ->
  Forall (fun s => trimmed (st_info s)) ts -> (forall s, In s rest -> In s ts) ->
  add_all ts (map st_name rest) (layout 0 a) = Ok (layout 0 (a ++ map original rest)).
Proof.
  intros Hs Hd Ht. revert a. induction rest as [|s rest IH]; intros a Hin; cbn [map add_all].
  - rewrite app_nil_r. reflexivity.
  - assert (Hi : In s ts) by (apply Hin; left; reflexivity).
    rewrite (get_self ts s Hs Hd Hi), add_one by (rewrite Forall_forall in Ht; auto).
    rewrite IH by (intros; apply Hin; right; assumption). rewrite <- app_assoc. reflexivity.
Qed.

Lemma find_layout off a s v b : ~ In (st_name s) (map (fun x => st_name (fst x)) a) ->
  find_index (st_name s) (layout off (a ++ (s, v) :: b)) = Some (length a).
Proof.
  revert off. induction a as [|x a IH]; intros off H; cbn [app layout find_index describe w_name fst length].
  - rewrite list_N_eqb_refl. reflexivity.
  - destruct (list_N_eqb (st_name (fst x)) (st_name s)) eqn:E.
    + apply list_N_eqb_eq in E. exfalso. apply H. left. exact E.
    + rewrite IH by (intros Hi; apply H; right; exact Hi). reflexivity.
Qed.

Lemma find_updated n i g (ws : list winfo) : (forall w, w_name (g w) = w_name w) ->
  find_index n (update i g ws) = find_index n ws.
Proof.
  intros Hg. revert i. induction ws as [|w ws IH]; intros [|i]; cbn [update find_index]; [reflexivity|reflexivity| |].
  - rewrite Hg. reflexivity.
  - rewrite IH. reflexivity.
Qed.

Lemma relay_layout w off b : relay w (layout off b) = layout (w_offset w + pad32 (w_size w)) b.
Proof.
  revert w off. induction b as [|x b IH]; intros w off; cbn [layout relay]; [reflexivity|].
  f_equal. rewrite IH. reflexivity.
Qed.

Lemma relay_updated off a s t0 n0 t n b :
  relay_from (length a) (update (length a) (set_size n) (update (length a) (set_type t) (layout off (a ++ (s, (t0, n0)) :: b)))) =
  layout off (a ++ (s, (t, n)) :: b).
Proof.
  revert off. induction a as [|x a IH]; intros off; cbn [app length layout update relay_from].
  - rewrite relay_layout. reflexivity.
  - rewrite IH. reflexivity.
Qed.

Section Q.
Context (chunk : gty -> list N -> nat -> list N) (widen : list N -> list N) (qt : gty).

(** What becomes of one tensor; None: quantization stops. *)
Definition out_of (s : stored) : option (gty * list N) :=
  if is_weight (st_name s) && (ti_dims (st_info s) =? 2)%N
  then option_map (pair qt) (quantize chunk widen s qt)
  else Some (ti_type (st_info s), st_bytes s).

Lemma out_becomes s o : out_of s = Some o <-> becomes chunk widen qt s (fst o) (snd o).
Proof.
  unfold out_of. destruct (is_weight (st_name s) && (ti_dims (st_info s) =? 2)%N) eqn:E.
  - apply wanted_iff in E. unfold quantize. split.
    + intros H. destruct (ti_type (st_info s)) eqn:Et; try discriminate; cbn [option_map] in H; injection H as <-; cbn [fst snd].
      * destruct (convertible qt) eqn:Ec; [apply becomes_f32|apply becomes_lost]; unfold float_type; auto.
      * destruct (convertible qt) eqn:Ec; [apply becomes_f16|apply becomes_lost]; unfold float_type; auto.
    + destruct o as [t bs]. cbn [fst snd]. intros H. inversion H; subst.
      * contradiction.
      * rewrite H1, H2. reflexivity.
      * rewrite H1, H2. reflexivity.
      * destruct H1 as [E'|E']; rewrite E', H2; reflexivity.
  - assert (W : ~ wanted s) by (rewrite <- wanted_iff, E; discriminate). split.
    + intros H. injection H as <-. apply becomes_same, W.
    + destruct o as [t bs]. cbn [fst snd]. intros H. inversion H; subst; try contradiction. reflexivity.
Qed.

Lemma out_none s : out_of s = None <-> wanted s /\ ~ float_type (ti_type (st_info s)).
Proof.
  unfold out_of. destruct (is_weight (st_name s) && (ti_dims (st_info s) =? 2)%N) eqn:E.
  - apply wanted_iff in E. unfold quantize, float_type.
    split; [intros H; split; [exact E|]|intros (_ & H)]; destruct (ti_type (st_info s)); try discriminate; cbn in *;
      try reflexivity; try (intros [|]; discriminate); exfalso; apply H; auto.
  - split; [discriminate|]. intros (W & _). apply wanted_iff in W. congruence.
Qed.

Definition write_one (o : gty * list N) : list sop :=
  Write (snd o) :: zeros (pad32 (N.of_nat (length (snd o))) - N.of_nat (length (snd o))).
Definition sized (o : gty * list N) : gty * N := (fst o, N.of_nat (length (snd o))).

Lemma convert_one_ok ts a s v b :
  Forall (fun s => length (st_name s) < 64) ts -> NoDup (map st_name ts) -> In s ts ->
  ~ In (st_name s) (map (fun x => st_name (fst x)) a) ->
  convert_one chunk widen ts qt (st_name s) (layout 0 (a ++ (s, v) :: b)) =
  match out_of s with
  | None => Ok None
  | Some o => Ok (Some (write_one o, layout 0 (a ++ (s, sized o) :: b)))
  end.
Proof.
  intros Hs Hd Hin Ha. unfold convert_one. rewrite (get_self ts s Hs Hd Hin). cbv zeta. unfold out_of.
  assert (G : forall t bs, obind (set_tensor_type (st_name s) t (layout 0 (a ++ (s, v) :: b))) (fun ws =>
      obind (set_tensor_data (st_name s) (N.of_nat (length bs)) ws) (fun ws =>
      Ok (Some (Write bs :: zeros (pad32 (N.of_nat (length bs)) - N.of_nat (length bs)), ws)))) =
      Ok (Some (write_one (t, bs), layout 0 (a ++ (s, sized (t, bs)) :: b)))).
  { intros t bs. unfold set_tensor_type. rewrite find_layout by exact Ha. cbn [obind]. unfold set_tensor_data.
    rewrite find_updated by reflexivity. rewrite find_layout by exact Ha. cbn [obind]. destruct v as [t0 n0].
    rewrite relay_updated. reflexivity. }
  destruct (is_weight (st_name s) && (ti_dims (st_info s) =? 2)%N).
  - destruct (quantize chunk widen s qt) as [bs|]; cbn [option_map]; [apply G|reflexivity].
  - apply G.
Qed.

(** All of them. *)
Fixpoint outs_of (l : list stored) : option (list (gty * list N)) :=
  match l with
  | [] => Some []
  | s :: l' => match out_of s, outs_of l' with Some o, Some os => Some (o :: os) | _, _ => None end
  end.
Fixpoint outs_before (l : list stored) : list (gty * list N) :=
  match l with
  | [] => []
  | s :: l' => match out_of s with Some o => o :: outs_before l' | None => [] end
  end.

Lemma convert_ok ts rest : Forall (fun s => length (st_name s) < 64) ts -> NoDup (map st_name ts) ->
  forall a, (forall s, In s rest -> In s ts) -> NoDup (map (fun x => st_name (fst x)) a ++ map st_name rest) ->
  convert chunk widen ts qt (map st_name rest) (layout 0 (a ++ map original rest)) =
  Ok (concat (map write_one (outs_before rest)),
      option_map (fun os => layout 0 (a ++ combine rest (map sized os))) (outs_of rest)).
Proof.
  intros Hs Hd. induction rest as [|s rest IH]; intros a Hin HN; cbn [map convert].
  - reflexivity.
  - cbn [map] in HN.
    assert (Ha : ~ In (st_name s) (map (fun x : item => st_name (fst x)) a)).
    { apply NoDup_remove_2 in HN. rewrite in_app_iff in HN. tauto. }
    assert (C := convert_one_ok ts a s (snd (original s)) (map original rest) Hs Hd (Hin s (or_introl eq_refl)) Ha).
    match type of C with ?l = _ => match goal with |- obind ?g _ = _ => change g with l end end. rewrite C.
    cbn [outs_of outs_before]. destruct (out_of s) as [o|]; [|reflexivity]. cbn [obind].
    assert (E : a ++ (s, sized o) :: map original rest = (a ++ [(s, sized o)]) ++ map original rest) by (rewrite <- app_assoc; reflexivity).
    rewrite E, IH.
    + cbn [obind fst snd]. destruct (outs_of rest) as [os|]; cbn [option_map map concat combine]; [|reflexivity].
      rewrite <- app_assoc. reflexivity.
    + intros x Hx. apply Hin. right. exact Hx.
    + rewrite map_app, <- app_assoc. exact HN.
Qed.

Lemma outs_some l os : outs_of l = Some os <-> Forall2 (fun s o => becomes chunk widen qt s (fst o) (snd o)) l os.
Proof.
  split.
  - revert os. induction l as [|s l IH]; intros os H; cbn [outs_of] in H; [injection H as <-; constructor|].
    destruct (out_of s) as [o|] eqn:E; [|discriminate]. destruct (outs_of l) as [os'|]; [|discriminate].
    injection H as <-. constructor; [apply out_becomes, E|auto].
  - induction 1 as [|s o l os Hs H IH]; [reflexivity|]. cbn [outs_of]. apply out_becomes in Hs. rewrite Hs, IH. reflexivity.
Qed.

Lemma outs_before_all l os : outs_of l = Some os -> outs_before l = os.
Proof.
  revert os. induction l as [|s l IH]; intros os H; cbn [outs_of outs_before] in *; [congruence|].
  destruct (out_of s); [|discriminate]. destruct (outs_of l); [|discriminate]. injection H as <-. f_equal. auto.
Qed.

Lemma outs_none l : outs_of l = None <-> exists s, In s l /\ wanted s /\ ~ float_type (ti_type (st_info s)).
Proof.
  induction l as [|s l IH]; cbn [outs_of].
  - split; [discriminate|]. intros (? & [] & _).
  - destruct (out_of s) as [o|] eqn:E.
    + assert (N0 : ~ (wanted s /\ ~ float_type (ti_type (st_info s)))) by (rewrite <- out_none, E; discriminate).
      destruct (outs_of l).
      * split; [discriminate|]. intros (x & [->|Hx] & Hw); [contradiction|].
        assert (Some l0 = None) by (apply IH; eauto). discriminate.
      * split; [|reflexivity]. intros _. destruct (proj1 IH eq_refl) as (x & Hx & Hw). exists x. split; [right|]; auto.
    + apply out_none in E. split; [|reflexivity]. intros _. exists s. split; [left; reflexivity|exact E].
Qed.

(** ** The program *)

Lemma program_ok n_kv kv ts : Forall (fun s => length (st_name s) < 64) ts -> NoDup (map st_name ts) ->
  Forall (fun s => trimmed (st_info s)) ts ->
  program chunk widen n_kv kv ts (map st_name ts) qt =
  let first := zeros (meta_size n_kv kv (layout 0 (map original ts))) ++ concat (map write_one (outs_before ts)) in
  match outs_of ts with
  | None => Ok (first, false)
  | Some os => Ok (first ++ [Rewind; Write (meta n_kv kv (layout 0 (combine ts (map sized os))))], true)
  end.
Proof.
  intros Hs Hd Ht. unfold program.
  assert (A := add_all_layout ts [] ts Hs Hd Ht (fun s H => H)). cbn [app layout] in A. rewrite A. cbn [obind].
  assert (C := convert_ok ts ts Hs Hd [] (fun s H => H) Hd). cbn [app] in C. rewrite C. cbn [obind fst snd].
  destruct (outs_of ts); cbn [option_map]; [|reflexivity]. rewrite <- app_assoc. reflexivity.
Qed.
End Q.

(** ** Metadata *)

Lemma le_length k n : length (le k n) = k.
Proof. revert n. induction k; intros n; cbn [le length]; [reflexivity|]. rewrite IHk. reflexivity. Qed.

Definition info_length (s : stored) : nat :=
  8 + length (st_name s) + 4 + 8 * length (firstn (N.to_nat (ti_dims (st_info s))) [0; 0; 0; 0]) + 4 + 8.

Lemma concat_le l : length (concat (map (fun n => le 8 (N.of_nat n)) l)) = 8 * length l.
Proof. induction l as [|n l IH]; cbn [map concat]; [reflexivity|]. rewrite app_length, le_length, IH. cbn [length]. lia. Qed.

Lemma write_info_length s v off : length (write_info (describe (s, v) off)) = info_length s.
Proof.
  unfold write_info, describe, info_length. cbn [fst snd w_name w_type w_dims w_ne0 w_ne1 w_ne2 w_ne3 w_offset].
  rewrite !app_length, !le_length, concat_le, !firstn_length. cbn [length]. lia.
Qed.

Lemma layout_length off a : length (layout off a) = length a.
Proof. revert off. induction a as [|x a IH]; intros off; cbn [layout length]; [reflexivity|]. rewrite IH. reflexivity. Qed.

Lemma infos_length off a : length (concat (map write_info (layout off a))) = list_sum (map (fun x => info_length (fst x)) a).
Proof.
  revert off. induction a as [|[s v] a IH]; intros off; cbn [layout map concat list_sum fold_right]; [reflexivity|].
  rewrite app_length, write_info_length, IH. reflexivity.
Qed.

Lemma raw_length n_kv kv a b : map fst a = map fst b ->
  length (raw_meta n_kv kv (layout 0 a)) = length (raw_meta n_kv kv (layout 0 b)).
Proof.
  intros E. unfold raw_meta. rewrite !app_length, !le_length, !infos_length.
  rewrite <- (map_map fst info_length a), <- (map_map fst info_length b), E. reflexivity.
Qed.

Lemma meta_length n_kv kv ws : N.of_nat (length (meta n_kv kv ws)) = data_start 32 n_kv kv ws.
Proof.
  unfold meta, data_start. cbv zeta. rewrite app_length, repeat_length.
  assert (P := pad32_ge (N.of_nat (length (raw_meta n_kv kv ws)))). unfold pad32, ALIGN in *. lia.
Qed.

Lemma data_start_mod n_kv kv ws : (data_start 32 n_kv kv ws mod 32 = 0)%N.
Proof. apply pad32_mod. Qed.

Lemma meta_same n_kv kv a b : map fst a = map fst b ->
  meta_size n_kv kv (layout 0 a) = meta_size n_kv kv (layout 0 b).
Proof. intros E. unfold meta_size. rewrite !meta_length. unfold data_start. rewrite (raw_length n_kv kv a b E). reflexivity. Qed.

Lemma meta_magic n_kv kv ws : has_magic (meta n_kv kv ws).
Proof. unfold has_magic, meta, raw_meta, GGUF. eexists. rewrite <- !app_assoc. reflexivity. Qed.

Lemma map_fst_combine {A B} (a : list A) (b : list B) : length a = length b -> map fst (combine a b) = a.
Proof. revert b. induction a as [|x a IH]; intros [|y b] H; cbn in *; try congruence. f_equal. apply IH. lia. Qed.

(** ** The stream *)

Definition bytes_of (o : sop) : list N := match o with Write bs => bs | Rewind => [] end.
Definition is_write (o : sop) : Prop := match o with Write _ => True | Rewind => False end.

Lemma do_ops_bad os : forall s i dev, s_bad s = true -> do_ops s i dev os = s.
Proof.
  induction os as [|o os IH]; intros s i dev H; cbn [do_ops]; [reflexivity|].
  unfold do_op. rewrite H. apply IH, H.
Qed.

Lemma do_ops_app os1 : forall s i dev os2, do_ops s i dev (os1 ++ os2) = do_ops (do_ops s i dev os1) (i + length os1) dev os2.
Proof.
  induction os1 as [|o os1 IH]; intros s i dev os2; cbn [app do_ops length].
  - rewrite Nat.add_0_r. reflexivity.
  - rewrite IH. f_equal. lia.
Qed.

Lemma do_ops_good s i dev os : s_bad (do_ops s i dev os) = false -> s_bad s = false.
Proof. intros H. destruct (s_bad s) eqn:E; [|reflexivity]. rewrite do_ops_bad in H by exact E. congruence. Qed.

Lemma overwrite_end old bs : overwrite old (length old) bs = old ++ bs.
Proof. unfold overwrite. rewrite firstn_all, skipn_all2 by lia. rewrite app_nil_r. reflexivity. Qed.

Lemma firstn_whole {A} k (l : list A) : (length (firstn k l) <? length l) = false -> firstn k l = l.
Proof. intros H. apply Nat.ltb_ge in H. rewrite firstn_length in H. apply firstn_all2. lia. Qed.

Lemma do_writes os : Forall is_write os -> forall s i dev, s_pos s = length (s_bytes s) ->
  s_bad (do_ops s i dev os) = false ->
  do_ops s i dev os = mkstr (s_bytes s ++ concat (map bytes_of os)) (length (s_bytes s ++ concat (map bytes_of os))) false.
Proof.
  induction 1 as [|o os Ho H IH]; intros s i dev Hp Hb; cbn [do_ops map concat] in *.
  - rewrite app_nil_r, <- Hp, <- Hb. destruct s; reflexivity.
  - assert (B := do_ops_good _ _ _ _ Hb). destruct o as [bs|]; [|destruct Ho]. unfold do_op in *.
    destruct (s_bad s) eqn:Es; [congruence|]. cbn [s_bad] in B.
    rewrite (firstn_whole _ _ B) in *. rewrite Hp, overwrite_end in *.
    rewrite IH; cbn [s_pos s_bytes].
    + cbn [bytes_of]. rewrite <- app_assoc. reflexivity.
    + rewrite app_length. reflexivity.
    + exact Hb.
Qed.

Lemma zeros_writes n : Forall is_write (zeros n).
Proof. unfold zeros. apply Forall_forall. intros o Ho. apply repeat_spec in Ho. subst. exact I. Qed.
Lemma zeros_bytes n : concat (map bytes_of (zeros n)) = repeat 0%N (N.to_nat n).
Proof. unfold zeros. induction (N.to_nat n) as [|k IH]; cbn [repeat map concat bytes_of app]; [reflexivity|]. rewrite IH. reflexivity. Qed.

Lemma outs_writes outs : Forall is_write (concat (map write_one outs)).
Proof.
  induction outs as [|o outs IH]; cbn [map concat]; [constructor|]. apply Forall_app. split; [|exact IH].
  constructor; [exact I|apply zeros_writes].
Qed.
Lemma outs_bytes outs : concat (map bytes_of (concat (map write_one outs))) = data_section outs.
Proof.
  unfold data_section. induction outs as [|o outs IH]; cbn [map concat]; [reflexivity|].
  rewrite map_app, concat_app, IH. f_equal. cbn [write_one map concat bytes_of]. rewrite zeros_bytes. reflexivity.
Qed.

(** ** The file written *)

Lemma final_file n outs m dev : length m = N.to_nat n ->
  let os := (zeros n ++ concat (map write_one outs)) ++ [Rewind; Write m] in
  s_bad (do_ops stream0 0 dev os) = false -> s_bytes (do_ops stream0 0 dev os) = m ++ data_section outs.
Proof.
  intros Hm os Hb. unfold os in *. rewrite do_ops_app in *. set (first := zeros n ++ concat (map write_one outs)) in *.
  assert (B := do_ops_good _ _ _ _ Hb).
  assert (W : Forall is_write first) by (apply Forall_app; split; [apply zeros_writes|apply outs_writes]).
  rewrite (do_writes first W stream0 0 dev eq_refl B) in *. cbn [stream0 s_bytes app] in *.
  cbn [do_ops] in *. unfold do_op in *. cbn [s_bad s_bytes s_pos] in *.
  rewrite (firstn_whole _ _ Hb). unfold overwrite. cbn [firstn app Nat.add]. f_equal.
  unfold first. rewrite map_app, concat_app, zeros_bytes, outs_bytes.
  rewrite Hm, skipn_app, repeat_length, Nat.sub_diag. rewrite skipn_all2 by (rewrite repeat_length; lia). reflexivity.
Qed.

Lemma layout_written chunk widen qt ts outs : outs_of chunk widen qt ts = Some outs ->
  written chunk widen qt ts outs (layout 0 (combine ts (map sized outs))).
Proof.
  intros H. apply outs_some in H.
  assert (G : forall off, Forall2 same_shape ts (layout off (combine ts (map sized outs))) /\
    Forall2 (fun o w => w_type w = fst o) outs (layout off (combine ts (map sized outs))) /\
    Forall2 (fun o w => w_size w = N.of_nat (length (snd o))) outs (layout off (combine ts (map sized outs))) /\
    offsets_from off (layout off (combine ts (map sized outs)))).
  { clear -H. induction H as [|s o ts outs Hs H IH]; intros off; cbn [map combine layout].
    - repeat split; constructor.
    - destruct (IH (off + pad32 (snd (sized o)))%N) as (I1 & I2 & I3 & I4). cbn [snd].
      repeat split; constructor; try assumption; repeat split. }
  destruct (G 0%N) as (G1 & G2 & G3 & G4). constructor; assumption.
Qed.

Lemma written_unique chunk widen qt ts outs ws : written chunk widen qt ts outs ws ->
  outs_of chunk widen qt ts = Some outs /\ ws = layout 0 (combine ts (map sized outs)).
Proof.
  intros [H1 H2 H3 H4 H5]. split; [apply outs_some, H1|].
  assert (El := Forall2_len _ _ _ H1). clear H1. revert H5 ts H2 El. generalize 0%N.
  revert H4. induction H3 as [|o w outs ws Hw H3 IH]; intros H4 off H5 ts H2 El.
  - destruct ts; [reflexivity|discriminate].
  - inversion H4 as [|? ? ? ? Hz H4']; subst. inversion H5 as [|? ? ? Ho H5']; subst.
    destruct ts as [|s ts]; [discriminate|]. inversion H2 as [|? ? ? ? Hs H2']; subst. cbn [map combine layout]. f_equal.
    + destruct Hs as (S1 & S2 & S3 & S4 & S5 & S6). destruct w; cbn in *; subst. reflexivity.
    + cbn [sized snd]. rewrite <- Hz. apply IH; auto.
Qed.

(** Enough room for every write. *)
Lemma do_ops_room os : forall s i dev, s_bad s = false ->
  (forall j bs, nth_error os j = Some (Write bs) -> length bs <= dev (i + j)) -> s_bad (do_ops s i dev os) = false.
Proof.
  induction os as [|o os IH]; intros s i dev Hs H; cbn [do_ops]; [exact Hs|]. apply IH.
  - unfold do_op. rewrite Hs. destruct o as [bs|]; [|reflexivity]. cbn [s_bad]. apply Nat.ltb_ge.
    rewrite firstn_length. specialize (H 0 bs eq_refl). rewrite Nat.add_0_r in H. lia.
  - intros j bs Hj. specialize (H (S j) bs Hj). replace (S i + j) with (i + S j) by lia. exact H.
Qed.

Lemma in_data outs o : In o outs -> length (snd o) <= length (data_section outs).
Proof.
  unfold data_section. induction outs as [|x outs IH]; [intros []|]. cbn [map concat]. rewrite !app_length.
  intros [->|H]; [|specialize (IH H)]; lia.
Qed.

Lemma write_room n outs m bs : length m = N.to_nat n -> 0 < length m ->
  In (Write bs) ((zeros n ++ concat (map write_one outs)) ++ [Rewind; Write m]) ->
  length bs <= length (m ++ data_section outs).
Proof.
  intros Hm Hp Hin. rewrite app_length. apply in_app_iff in Hin as [Hin|Hin].
  - apply in_app_iff in Hin as [Hin|Hin].
    + apply repeat_spec in Hin. injection Hin as ->. cbn. lia.
    + apply in_concat in Hin as (l & Hl & Hin). apply in_map_iff in Hl as (o & <- & Ho). destruct Hin as [Hin|Hin].
      * injection Hin as <-. assert (D := in_data outs o Ho). lia.
      * apply repeat_spec in Hin. injection Hin as ->. cbn. lia.
  - destruct Hin as [Hin|[Hin|[]]]; [discriminate|]. injection Hin as <-. lia.
Qed.

Lemma meta_pos n_kv kv ws : 0 < length (meta n_kv kv ws).
Proof. destruct (meta_magic n_kv kv ws) as (r & ->). cbn. lia. Qed.

(** ** Positions *)

Lemma offsets_ge n ws : offsets_from n ws -> Forall (fun w => (n <= w_offset w)%N) ws.
Proof.
  induction 1 as [|n w ws Hw H IH]; constructor; [lia|].
  eapply Forall_impl; [|exact IH]. intros x Hx. cbv beta in *. lia.
Qed.

Lemma offsets_aligned n ws : offsets_from n ws -> (n mod 32 = 0)%N -> Forall (fun w => (w_offset w mod 32 = 0)%N) ws.
Proof.
  induction 1 as [|n w ws Hw H IH]; intros Hn; constructor; [rewrite Hw; exact Hn|]. apply IH.
  rewrite N.add_mod, Hn, pad32_mod by lia. reflexivity.
Qed.

Lemma offsets_apart n ws : offsets_from n ws ->
  ForallOrdPairs (fun w w' => (w_offset w + w_size w <= w_offset w')%N) ws.
Proof.
  induction 1 as [|n w ws Hw H IH]; constructor; [|exact IH].
  apply offsets_ge in H. eapply Forall_impl; [|exact H]. intros x Hx. cbv beta in *.
  assert (P := pad32_ge (w_size w)). lia.
Qed.

Lemma data_at base off ws outs : offsets_from off ws ->
  Forall2 (fun o w => w_size w = N.of_nat (length (snd o))) outs ws ->
  forall pre, N.of_nat (length pre) = (base + off)%N ->
  Forall2 (fun o w => slice (pre ++ data_section outs) (base + w_offset w) (w_size w) = snd o /\
                      (base + w_offset w + w_size w <= N.of_nat (length (pre ++ data_section outs)))%N) outs ws.
Proof.
  intros Ho HF. revert off Ho. induction HF as [|o w outs ws Hw HF IH]; intros off Ho pre Hp; constructor.
  - inversion Ho; subst. unfold data_section. cbn [map concat].
    assert (E : skipn (N.to_nat (base + w_offset w)) pre = []) by (apply skipn_all2; lia).
    split.
    + unfold slice. rewrite skipn_app, E. cbn [app].
      replace (N.to_nat (base + w_offset w) - length pre) with 0 by lia. cbn [skipn].
      rewrite <- app_assoc, firstn_app. rewrite Hw, Nat2N.id, firstn_all, Nat.sub_diag. cbn [firstn]. apply app_nil_r.
    + rewrite !app_length. lia.
  - inversion Ho as [|? ? ? Hof Hof']; subst.
    assert (E : data_section (o :: outs) = (snd o ++ repeat 0%N (padding (N.of_nat (length (snd o))))) ++ data_section outs) by reflexivity.
    assert (P := pad32_ge (N.of_nat (length (snd o)))).
    assert (G := IH _ Hof' (pre ++ snd o ++ repeat 0%N (padding (N.of_nat (length (snd o)))))).
    rewrite E, app_assoc. apply G. rewrite !app_length, repeat_length, Hw. unfold padding. lia.
Qed.

(** ** Sizes *)

Lemma nbytes_seen s w : same_shape s w -> w_type w = ti_type (st_info s) -> nbytes (seen w) = nbytes (st_info s).
Proof.
  intros (_ & _ & H0 & H1 & H2 & H3) Ht. unfold nbytes, seen. cbn [ti_type ti_ne0 ti_ne1 ti_ne2 ti_ne3].
  rewrite H0, H1, H2, H3, Ht. reflexivity.
Qed.

Lemma whole_size t : whole_rows t -> nbytes t = (N.of_nat (elements t) / blck_size (ti_type t) * type_size (ti_type t))%N.
Proof.
  intros H. rewrite nbytes_data, excess_whole, N.add_0_r by exact H. unfold data_size, elements, whole_rows in *.
  assert (B := blck_pos (ti_type t)). set (b := blck_size (ti_type t)) in *.
  assert (D : (N.of_nat (ti_ne0 t) = b * (N.of_nat (ti_ne0 t) / b))%N).
  { rewrite (N.div_mod (N.of_nat (ti_ne0 t)) b) at 1 by lia. lia. }
  set (q := (N.of_nat (ti_ne0 t) / b)%N) in *.
  replace (N.of_nat (ti_ne0 t * ti_ne1 t * ti_ne2 t * ti_ne3 t))
    with (q * N.of_nat (ti_ne1 t) * N.of_nat (ti_ne2 t) * N.of_nat (ti_ne3 t) * b)%N by nia.
  rewrite N.div_mul by lia. lia.
Qed.

(** ** No magic before the end *)

Definition dull (s : stream) : Prop :=
  (s_bytes s = [] /\ s_bad s = true) \/ (exists r, s_bytes s = 0%N :: r /\ 1 <= s_pos s).

Lemma dull_write s bs ok : dull s -> dull (do_op s (Write bs) ok).
Proof.
  intros [(H1 & H2)|(r & H1 & H2)]; unfold do_op.
  - rewrite H2. left. auto.
  - destruct (s_bad s); [right; eauto|]. right. cbn [s_bytes s_pos]. unfold overwrite. rewrite H1.
    destruct (s_pos s) as [|p]; [lia|]. cbn [firstn app]. eexists. split; [reflexivity|lia].
Qed.

Lemma dull_writes os : Forall is_write os -> forall s i dev, dull s -> dull (do_ops s i dev os).
Proof.
  induction 1 as [|o os Ho H IH]; intros s i dev Hs; cbn [do_ops]; [exact Hs|]. apply IH.
  destruct o; [apply dull_write, Hs|destruct Ho].
Qed.

Lemma dull_no_magic s : dull s -> ~ has_magic (s_bytes s).
Proof. intros [(H & _)|(r & H & _)] (x & E); rewrite H in E; discriminate. Qed.

Lemma prefix_dull rest os1 os2 dev : Forall is_write rest -> Write [0%N] :: rest = os1 ++ os2 ->
  ~ has_magic (s_bytes (do_ops stream0 0 dev os1)) /\ (os1 <> [] -> dull (do_ops stream0 0 dev os1)).
Proof.
  intros W E. destruct os1 as [|o os1].
  - split; [|congruence]. intros (x & Ex). discriminate.
  - cbn [app] in E. injection E as <- ->. apply Forall_app in W as (W & _).
    assert (D : dull (do_ops stream0 0 dev (Write [0%N] :: os1))).
    { cbn [do_ops]. apply (dull_writes _ W). unfold do_op. cbn [stream0 s_bad s_bytes s_pos].
      destruct (dev 0) as [|k]; [left; split; reflexivity|]. right.
      cbn [firstn]. rewrite firstn_nil. cbn. eexists. split; [reflexivity|lia]. }
    split; [apply dull_no_magic, D|auto].
Qed.

Lemma convert_writes chunk widen ts qt names : forall ws r, convert chunk widen ts qt names ws = Ok r -> Forall is_write (fst r).
Proof.
  induction names as [|n names IH]; intros ws r H; cbn [convert] in H; [injection H as <-; constructor|].
  destruct (convert_one chunk widen ts qt n ws) as [[[os ws']|]| | |] eqn:E; try discriminate; cbn [obind] in H;
    [|injection H as <-; constructor].
  destruct (convert chunk widen ts qt names ws') as [r'| | |] eqn:E'; try discriminate. cbn [obind] in H. injection H as <-.
  cbn [fst]. apply Forall_app. split; [|eapply IH; exact E'].
  unfold convert_one in E. destruct (get_tensor st_name ts n); [|discriminate]. cbv zeta in E.
  match type of E with match ?d with _ => _ end = _ => destruct d as [bs|] end; [|discriminate].
  unfold set_tensor_type, set_tensor_data in E. destruct (find_index n ws); [|discriminate]. cbn [obind] in E.
  match type of E with context [find_index n ?l] => destruct (find_index n l) end; [|discriminate]. cbn [obind] in E.
  injection E as <- _. constructor; [exact I|apply zeros_writes].
Qed.

Lemma program_shape chunk widen n_kv kv ts names qt os b : program chunk widen n_kv kv ts names qt = Ok (os, b) ->
  exists rest, Forall is_write rest /\
    (b = false /\ os = Write [0%N] :: rest \/
     b = true /\ exists ws, os = (Write [0%N] :: rest) ++ [Rewind; Write (meta n_kv kv ws)]).
Proof.
  intros H. unfold program in H. destruct (add_all ts names []) as [ws| | |]; try discriminate. cbn [obind] in H. cbv zeta in H.
  destruct (convert chunk widen ts qt names ws) as [[os' r]| | |] eqn:E; try discriminate. cbn [obind fst snd] in H.
  assert (W := convert_writes _ _ _ _ _ _ _ E). cbn [fst] in W.
  assert (Z : exists k, zeros (meta_size n_kv kv ws) = Write [0%N] :: repeat (Write [0%N]) k).
  { unfold zeros, meta_size. rewrite Nat2N.id. assert (P := meta_pos n_kv kv ws). destruct (length (meta n_kv kv ws)) as [|k]; [lia|].
    exists k. reflexivity. }
  destruct Z as (k & Z). rewrite Z in H. exists (repeat (Write [0%N]) k ++ os').
  assert (W' : Forall is_write (repeat (Write [0%N]) k ++ os')).
  { apply Forall_app. split; [|exact W]. apply Forall_forall. intros o Ho. apply repeat_spec in Ho. subst. exact I. }
  split; [exact W'|]. destruct r as [ws'|]; injection H as <- <-.
  - right. split; [reflexivity|]. exists ws'. cbn [app]. rewrite <- app_assoc. reflexivity.
  - left. split; reflexivity.
Qed.

Lemma app_last {A} (a b c : list A) x : a ++ b = c ++ [x] -> b <> [] -> exists b', b = b' ++ [x] /\ a ++ b' = c.
Proof.
  intros E Hb. destruct (exists_last Hb) as (b' & y & ->). rewrite app_assoc in E. apply app_inj_tail in E as (E & ->).
  eauto.
Qed.

Lemma no_magic chunk widen n_kv kv ts names qt os b os1 os2 dev :
  program chunk widen n_kv kv ts names qt = Ok (os, b) -> os = os1 ++ os2 -> (b = true -> os2 <> []) ->
  ~ has_magic (s_bytes (do_ops stream0 0 dev os1)).
Proof.
  intros H E Hb. destruct (program_shape _ _ _ _ _ _ _ _ _ H) as (rest & W & [(-> & ->)|(-> & ws & ->)]).
  - apply (prefix_dull rest os1 os2 dev W E).
  - specialize (Hb eq_refl).
    replace [Rewind; Write (meta n_kv kv ws)] with ([Rewind] ++ [Write (meta n_kv kv ws)]) in E by reflexivity.
    rewrite app_assoc in E. symmetry in E.
    apply app_last in E as (os2' & -> & E); [|exact Hb]. destruct os2' as [|o os2'].
    + rewrite app_nil_r in E. subst os1. rewrite do_ops_app.
      destruct (prefix_dull rest (Write [0%N] :: rest) [] dev W ltac:(rewrite app_nil_r; reflexivity)) as (M & _).
      cbn [do_ops] in *. unfold do_op at 1. destruct (s_bad _); exact M.
    + apply app_last in E as (os2'' & _ & E); [|discriminate]. symmetry in E. apply (prefix_dull rest os1 os2'' dev W E).
Qed.

Lemma torn_magic chunk widen n_kv kv ts names qt os :
  program chunk widen n_kv kv ts names qt = Ok (os, true) ->
  exists dev, has_magic (s_bytes (do_ops stream0 0 dev os)) /\ s_bad (do_ops stream0 0 dev os) = true.
Proof.
  intros H. destruct (program_shape _ _ _ _ _ _ _ _ _ H) as (rest & W & [(Hf & _)|(_ & ws & ->)]); [discriminate|].
  set (first := Write [0%N] :: rest) in *.
  set (room := list_sum (map (fun o => length (bytes_of o)) first)).
  exists (fun i => if i =? S (length first) then 4 else room). rewrite do_ops_app.
  assert (B : s_bad (do_ops stream0 0 (fun i => if i =? S (length first) then 4 else room) first) = false).
  { apply do_ops_room; [reflexivity|]. intros j bs Hj. cbn [Nat.add].
    assert (Hl : j < length first) by (apply nth_error_Some; congruence).
    destruct (Nat.eqb_spec j (S (length first))); [lia|].
    apply nth_error_In in Hj. unfold room. clear - Hj. induction first as [|o l IH]; [destruct Hj|].
    cbn [map list_sum fold_right]. fold (list_sum (map (fun o => length (bytes_of o)) l)).
    destruct Hj as [->|Hj]; [cbn [bytes_of]; lia|specialize (IH Hj); lia]. }
  set (s := do_ops stream0 0 _ first) in *. clearbody s. cbn [Nat.add do_ops].
  unfold do_op. rewrite B. cbn [s_bad s_bytes s_pos]. rewrite Nat.eqb_refl.
  destruct (Nat.eqb_spec (length first) (S (length first))); [lia|].
  assert (L4 : 4 < length (meta n_kv kv ws)).
  { unfold meta, raw_meta. rewrite !app_length, !le_length. cbn. lia. }
  destruct (meta_magic n_kv kv ws) as (r & Hr). rewrite Hr in *.
  split.
  - unfold overwrite, has_magic. cbn [firstn app u Nat.add length skipn]. eexists. reflexivity.
  - apply Nat.ltb_lt. rewrite firstn_length. lia.
Qed.

(** ** From file to file *)

Section File.
Context (L : Ggml_model.lib) (HL : lib_ok L) (junk : nat -> N).
Context {V : Type} (value : gty -> list N -> nat -> V).
Context (order : list (ustring * N) -> list (ustring * N)).
Context (chunk : gty -> list N -> nat -> list N) (widen : list N -> list N).

Lemma distinct_first ts t d : NoDup (map ti_name ts) -> In d ts -> first_named (ti_name d) ts t -> t = d.
Proof.
  intros Hd Hin H. apply first_in in H as (Ht & En).
  revert Hd Hin Ht. induction ts as [|x ts IH]; [intros _ []|]. cbn [map]. intros Hd. inversion Hd as [|? ? Hx Hd']; subst.
  intros [->|Hin] [->|Ht]; auto.
  - exfalso. apply Hx. rewrite <- En. apply in_map. exact Ht.
  - exfalso. apply Hx. rewrite En. apply in_map. exact Hin.
Qed.

Lemma copies_distinct f made : distinct_names f -> copies f made -> made = f_tensors f.
Proof.
  unfold copies, distinct_names. intros Hd HF.
  assert (G : forall todo made, (forall d, In d todo -> In d (f_tensors f)) ->
     Forall2 (fun d t => first_named (ti_name d) (f_tensors f) t) todo made -> made = todo).
  { clear HF made. induction todo as [|d todo IH]; intros made Hin HF; inversion HF; subst; [reflexivity|].
    f_equal; [eapply distinct_first; eauto; apply Hin; left; reflexivity|].
    apply IH; [intros; apply Hin; right|]; assumption. }
  apply G; auto.
Qed.

Lemma kept_distinct f made : distinct_names f -> copies f made -> kept junk f made = tensors_of junk f.
Proof.
  intros Hd Hm. rewrite (copies_distinct f made Hd Hm). unfold kept, tensors_of.
  generalize (f_tensors f). induction l as [|t l IH]; cbn [combine map]; [reflexivity|]. rewrite IH. reflexivity.
Qed.

Lemma names_tensors f : map st_name (tensors_of junk f) = map ti_name (f_tensors f).
Proof. unfold tensors_of. rewrite map_map. reflexivity. Qed.

Lemma memory_length f t : N.of_nat (length (memory_of junk f t)) = nbytes t.
Proof.
  unfold memory_of. rewrite app_length, map_length, seq_length.
  assert (length (region f t) <= N.to_nat (nbytes t)) by (unfold region; rewrite firstn_length; lia). lia.
Qed.

Lemma pool_of_file f : short_names f -> distinct_names f -> Forall trimmed (f_tensors f) -> pool_ok (tensors_of junk f).
Proof.
  intros Hs Hd Ht. constructor.
  - unfold tensors_of. apply Forall_map. exact Hs.
  - rewrite names_tensors. exact Hd.
  - unfold tensors_of. apply Forall_map. exact Ht.
  - unfold tensors_of. apply Forall_map. apply Forall_forall. intros t _. apply memory_length.
Qed.

Lemma code_ok qt : exists s, type_to_str qt = Ok s.
Proof. destruct qt; eexists; reflexivity. Qed.

(** Quantizing a loaded file is quantizing its tensors. *)
Lemma quantize_loaded f m opens n_kv kv dev qt :
  load_from_file L junk value order (Some f) true = Ok (Loaded m) -> distinct_names f ->
  berts_model_quantize chunk widen L junk value order (Some f) true opens n_kv kv dev qt =
  quantize_to chunk widen (tensors_of junk f) (map st_name (tensors_of junk f)) opens n_kv kv dev qt.
Proof.
  intros H Hd. unfold berts_model_quantize. destruct (code_ok qt) as (s & ->). cbn [obind]. rewrite H. cbn [obind].
  destruct (loaded_inv L HL junk value order f true m H) as (_ & made & arch & layers & Hm & HLd & _).
  destruct (pool_size L HL f made (l_names _ _ _ _ _ HLd) Hm) as (-> & _). cbn [obind].
  rewrite (proj1 (read_all L HL junk f made (l_names _ _ _ _ _ HLd) Hm) (l_readable _ _ _ _ _ HLd)). cbn [obind].
  rewrite (kept_distinct f made Hd Hm), names_tensors. reflexivity.
Qed.

Lemma quantize_pool ts outs n_kv kv qt : pool_ok ts -> outs_of chunk widen qt ts = Some outs ->
  exists ws, written chunk widen qt ts outs ws /\
    N.of_nat (length (meta n_kv kv ws)) = data_start 32 n_kv kv ws /\
    (forall dev, exists bytes, quantize_to chunk widen ts (map st_name ts) true n_kv kv dev qt = Ok (true, Some bytes)) /\
    (forall dev, (forall i, length (meta n_kv kv ws ++ data_section outs) <= dev i) ->
       quantize_to chunk widen ts (map st_name ts) true n_kv kv dev qt = Ok (true, Some (meta n_kv kv ws ++ data_section outs))).
Proof.
  intros [Hs Hd Ht Hb] Ho. exists (layout 0 (combine ts (map sized outs))).
  split; [apply layout_written, Ho|]. split; [apply meta_length|].
  assert (P := program_ok chunk widen qt n_kv kv ts Hs Hd Ht). cbv zeta in P. rewrite Ho, (outs_before_all _ _ _ _ _ Ho) in P.
  assert (El : length ts = length (map sized outs)).
  { rewrite map_length. apply outs_some in Ho. eapply Forall2_len. exact Ho. }
  assert (Em : meta_size n_kv kv (layout 0 (map original ts)) = meta_size n_kv kv (layout 0 (combine ts (map sized outs)))).
  { apply meta_same. rewrite map_fst_combine by exact El. rewrite map_map. apply map_id. }
  rewrite Em in P. set (ws := layout 0 (combine ts (map sized outs))) in *.
  split; [intros dev; unfold quantize_to; cbn [negb]; rewrite P; cbn [obind]; eauto|].
  intros dev Hdev. unfold quantize_to. cbn [negb]. rewrite P. cbn [obind fst snd]. do 3 f_equal.
  apply final_file; [unfold meta_size; rewrite Nat2N.id; reflexivity|].
  apply do_ops_room; [reflexivity|]. intros j bs Hj. apply nth_error_In in Hj.
  apply write_room in Hj; [|unfold meta_size; rewrite Nat2N.id; reflexivity|apply meta_pos].
  cbn [Nat.add]. etransitivity; [exact Hj|apply Hdev].
Qed.

Lemma quantize_pool_fails ts n_kv kv qt dev : pool_ok ts -> outs_of chunk widen qt ts = None ->
  exists bytes, quantize_to chunk widen ts (map st_name ts) true n_kv kv dev qt = Ok (false, Some bytes).
Proof.
  intros [Hs Hd Ht Hb] Ho. unfold quantize_to. cbn [negb].
  rewrite (program_ok chunk widen qt n_kv kv ts Hs Hd Ht). cbv zeta. rewrite Ho. cbn [obind]. eauto.
Qed.

Lemma Forall2_both {A B C} (R1 : A -> B -> Prop) (R2 : A -> C -> Prop) (R3 : B -> C -> Prop) a b c :
  Forall2 R1 a b -> Forall2 R2 a c -> Forall2 R3 b c ->
  Forall2 (fun x p => R1 x (fst p) /\ R2 x (snd p) /\ R3 (fst p) (snd p)) a (combine b c).
Proof.
  intros H. revert c. induction H as [|x y a b Hxy H IH]; intros c H2 H3; inversion H2; subst; [constructor|].
  inversion H3; subst. cbn [combine]. constructor; auto.
Qed.

Lemma Forall2_and {A B} (R R' : A -> B -> Prop) a b : Forall2 R a b -> Forall2 R' a b -> Forall2 (fun x y => R x y /\ R' x y) a b.
Proof. intros H. induction H; intros H'; inversion H'; subst; constructor; auto. Qed.

Lemma Forall2_pick {A B} (R : A -> B -> Prop) a b x : Forall2 R a b -> In x a -> exists y, In y b /\ R x y.
Proof. induction 1; [intros []|]. intros [->|H']; [eauto using in_eq|]. destruct (IHForall2 H') as (z & ? & ?). eauto using in_cons. Qed.

Lemma named_in f t : distinct_names f -> In t (f_tensors f) -> named f (ti_name t) = Some t.
Proof.
  unfold distinct_names, named. generalize (f_tensors f). induction l as [|x l IH]; [intros _ []|]. cbn [map find].
  intros Hd Hin. inversion Hd as [|? ? Hx Hd']; subst. destruct Hin as [->|Hin].
  - rewrite list_N_eqb_refl. reflexivity.
  - destruct (list_N_eqb (ti_name x) (ti_name t)) eqn:E; [|auto]. apply list_N_eqb_eq in E. exfalso. apply Hx. rewrite E.
    apply in_map. exact Hin.
Qed.

Lemma named_some f n t : named f n = Some t -> In t (f_tensors f) /\ ti_name t = n.
Proof. intros H. apply find_first in H. apply first_in in H. exact H. Qed.

(** Everything about one tensor of the new file. *)
Lemma reread_tensor f qt n_kv kv ws outs t :
  distinct_names f -> align_of f = 32%N -> chunk_ok chunk -> convertible qt = true ->
  (forall s, In s (tensors_of junk f) -> wanted s -> (N.of_nat (ti_ne0 (st_info s)) mod blck_size qt = 0)%N) ->
  written chunk widen qt (tensors_of junk f) outs ws ->
  let f' := reread f qt n_kv kv ws (meta n_kv kv ws ++ data_section outs) in
  let s := mkst t (ti_name t) (memory_of junk f t) in
  In t (f_tensors f) ->
  exists w o, named f' (ti_name t) = Some (seen w) /\ same_shape s w /\ w_type w = fst o /\
    becomes chunk widen qt s (fst o) (snd o) /\ contained f' (seen w) /\ region f' (seen w) = snd o.
Proof.
  clear HL L order value V. intros Hd Ha Hc Hq Hrows [Hbec Hshape Htype Hsize Hoff] f' s Hin.
  assert (D := data_at (N.of_nat (length (meta n_kv kv ws))) 0 ws outs Hoff Hsize (meta n_kv kv ws) ltac:(lia)).
  assert (T := Forall2_both _ _ _ _ _ _ Hbec Hshape (Forall2_and _ _ _ _ (Forall2_and _ _ _ _ Htype Hsize) D)).
  assert (Hs : In s (tensors_of junk f)) by (unfold tensors_of; apply in_map_iff; exists t; split; [reflexivity|exact Hin]).
  destruct (Forall2_pick _ _ _ _ T Hs) as ((o & w) & Hp & Hb & Hsh & ((Ht & Hz) & (Hsl & Hle))).
  cbn [fst snd] in *. exists w, o.
  assert (Enames : map w_name ws = map ti_name (f_tensors f)).
  { rewrite <- names_tensors. clear - Hshape. induction Hshape as [|x y a b H H' IH]; [reflexivity|]. cbn [map]. rewrite IH.
    destruct H as (-> & _). reflexivity. }
  assert (Hd' : distinct_names f').
  { unfold distinct_names, f', reread. cbn [f_tensors]. rewrite map_map. cbn [seen ti_name].
    change (map (fun x => w_name x) ws) with (map w_name ws). rewrite Enames. exact Hd. }
  assert (Hw : In (seen w) (f_tensors f')).
  { unfold f', reread. cbn [f_tensors]. apply in_map. apply in_combine_r in Hp. exact Hp. }
  assert (En : nbytes (seen w) = w_size w).
  { inversion Hb as [Hnw Et Ebs|Hw' Et Hcv E1 E2|Hw' Et Hcv E1 E2|Hw' Et Hcv E1 E2].
    - rewrite (nbytes_seen s w Hsh) by (rewrite Ht; symmetry; exact Et). rewrite Hz, <- Ebs. cbn [st_bytes st_info s]. symmetry. apply memory_length.
    - rewrite Hz, <- E2, (Hc _ _ _ Hcv). rewrite whole_size; unfold whole_rows; cbn [seen ti_type ti_ne0 elements]; rewrite Ht, <- E1.
      + destruct Hsh as (_ & _ & S0 & S1 & S2 & S3). unfold elements. cbn [seen ti_ne0 ti_ne1 ti_ne2 ti_ne3]. rewrite S0, S1, S2, S3. reflexivity.
      + destruct Hsh as (_ & _ & S0 & _). rewrite S0. apply (Hrows s Hs Hw').
    - rewrite Hz, <- E2, (Hc _ _ _ Hcv). rewrite whole_size; unfold whole_rows; cbn [seen ti_type ti_ne0 elements]; rewrite Ht, <- E1.
      + destruct Hsh as (_ & _ & S0 & S1 & S2 & S3). unfold elements. cbn [seen ti_ne0 ti_ne1 ti_ne2 ti_ne3]. rewrite S0, S1, S2, S3. reflexivity.
      + destruct Hsh as (_ & _ & S0 & _). rewrite S0. apply (Hrows s Hs Hw').
    - congruence. }
  assert (Ed : f_data f' = N.of_nat (length (meta n_kv kv ws))).
  { unfold f', reread. cbn [f_data]. rewrite Ha. symmetry. apply meta_length. }
  split; [|split; [exact Hsh|split; [exact Ht|split; [exact Hb|split]]]].
  - destruct Hsh as (Sn & _). cbn [s st_name] in Sn. rewrite <- Sn. apply (named_in f' (seen w) Hd' Hw).
  - unfold contained. rewrite Ed, En. exact Hle.
  - unfold region. rewrite Ed, En. exact Hsl.
Qed.
End File.

(** ** Loading the result *)

Lemma last_app_ne {A} (a b : list A) d : b <> [] -> last (a ++ b) d = last b d.
Proof.
  intros H. destruct (exists_last H) as (b' & x & ->). rewrite app_assoc, !last_last. reflexivity.
Qed.
Lemma wanted_last s : wanted s -> last (st_name s) 0%N = 116%N.
Proof. intros (_ & p & -> & _). rewrite last_app_ne by discriminate. reflexivity. Qed.

Lemma region_memory junk g t : contained g t -> memory_of junk g t = region g t.
Proof.
  intros H. unfold memory_of, contained in *.
  assert (El : length (region g t) = N.to_nat (nbytes t)).
  { unfold region. rewrite firstn_length, skipn_length. lia. }
  rewrite El, Nat.sub_diag. apply app_nil_r.
Qed.

Section Reload.
Context (junk : nat -> N).
Context (chunk : gty -> list N -> nat -> list N) (widen : list N -> list N).
Context (f : file) (qt : gty) (n_kv : N) (kv : list N) (ws : list winfo) (outs : list (gty * list N)).
Context (Hd : distinct_names f) (Ha : align_of f = 32%N) (Hc : chunk_ok chunk) (Hq : convertible qt = true).
Context (Hrows : forall s, In s (tensors_of junk f) -> wanted s -> (N.of_nat (ti_ne0 (st_info s)) mod blck_size qt = 0)%N).
Context (Hw : written chunk widen qt (tensors_of junk f) outs ws).
Notation f' := (reread f qt n_kv kv ws (meta n_kv kv ws ++ data_section outs)).
Notation st t := (mkst t (ti_name t) (memory_of junk f t)).

Lemma new_names : map ti_name (f_tensors f') = map ti_name (f_tensors f).
Proof.
  unfold reread. cbn [f_tensors]. rewrite map_map, <- (names_tensors junk). cbn [seen ti_name].
  assert (Hs := wr_shape _ _ _ _ _ _ Hw). clear - Hs. induction Hs as [|x y a b H H' IH]; [reflexivity|]. cbn [map]. rewrite IH.
  destruct H as (-> & _). reflexivity.
Qed.

Lemma new_has n : has f' n <-> has f n.
Proof.
  assert (G : forall g, has g n <-> In n (map ti_name (f_tensors g))).
  { intros g. rewrite in_map_iff. unfold has. split; intros (t & H1 & H2); eauto. }
  rewrite !G, new_names. tauto.
Qed.

Lemma new_tensor t : In t (f_tensors f) ->
  exists w o, named f' (ti_name t) = Some (seen w) /\ same_shape (st t) w /\ w_type w = fst o /\
    becomes chunk widen qt (st t) (fst o) (snd o) /\ contained f' (seen w) /\ region f' (seen w) = snd o.
Proof. apply reread_tensor; assumption. Qed.

Lemma new_named n : match named f n with
  | None => named f' n = None
  | Some t => exists w o, named f' n = Some (seen w) /\ same_shape (st t) w /\ w_type w = fst o /\
      becomes chunk widen qt (st t) (fst o) (snd o) /\ contained f' (seen w) /\ region f' (seen w) = snd o
  end.
Proof.
  destruct (named f n) as [t|] eqn:E.
  - apply named_some in E as (Hin & <-). apply new_tensor, Hin.
  - destruct (named f' n) eqn:E'; [|reflexivity]. exfalso.
    assert (has f' n) by (apply has_named; congruence). apply new_has, has_named in H. congruence.
Qed.

Lemma new_contained t : In t (f_tensors f') -> contained f' t.
Proof.
  intros Hin.
  assert (Hn : has f (ti_name t)) by (apply new_has; exists t; auto).
  destruct Hn as (t0 & Hin0 & En). destruct (new_tensor t0 Hin0) as (w & o & Hnm & _ & _ & _ & Hct & _).
  assert (Hd' : distinct_names f') by (unfold distinct_names; rewrite new_names; exact Hd).
  rewrite En, (named_in f' t Hd' Hin) in Hnm. injection Hnm as ->. exact Hct.
Qed.

Lemma new_vocab n : last n 0%N <> 116%N -> vocab_at junk f' n = vocab_at junk f n.
Proof.
  intros Hl. unfold vocab_at. assert (G := new_named n). destruct (named f n) as [t|] eqn:E; [|rewrite G; reflexivity].
  destruct G as (w & o & Hn & (S0 & S1 & _) & Ht & Hb & Hct & Hr). rewrite Hn. f_equal.
  assert (Hnw : ~ wanted (st t)).
  { intros Hwt. apply wanted_last in Hwt. cbn [st_name] in Hwt. apply named_some in E as (_ & <-). contradiction. }
  rewrite (region_memory junk f' (seen w) Hct), Hr. cbn [seen ti_type ti_dims]. cbn [st_info st_name] in S1. rewrite S1, Ht.
  destruct o as [ty bs]. cbn [fst snd] in *. inversion Hb; subst; try contradiction. reflexivity.
Qed.

Lemma new_vocabulary (order : list (ustring * N) -> list (ustring * N)) arch : vocabulary junk order f' arch = vocabulary junk order f arch.
Proof.
  unfold vocabulary. cbv zeta. rewrite !new_vocab by (vm_compute; discriminate). reflexivity.
Qed.

Lemma new_readable : readable f'.
Proof.
  intros made Hm. assert (Hd' : distinct_names f') by (unfold distinct_names; rewrite new_names; exact Hd).
  rewrite (copies_distinct f' made Hd' Hm). apply Forall_forall. intros p Hp. left.
  assert (Hp' : In p (combine (f_tensors f') (f_tensors f'))).
  { clear - Hp. revert Hp. generalize (combine (f_tensors f') (f_tensors f')). intros l. induction l as [|x [|y l] IH]; cbn [removelast].
    - intros [].
    - intros [].
    - intros [H|H]; [left; exact H|right; apply IH; exact H]. }
  assert (Heq : fst p = snd p).
  { clear - Hp'. revert Hp'. generalize (f_tensors f'). induction l as [|x l IH]; [intros []|]. intros [<-|H]; [reflexivity|auto]. }
  rewrite <- Heq. destruct p as [a b]. apply in_combine_l in Hp'. cbn [fst]. apply (new_contained a Hp').
Qed.

Lemma new_settings : read_settings f' = read_settings f.
Proof. reflexivity. Qed.

Lemma new_loadable (order : list (ustring * N) -> list (ustring * N)) arch layers : loadable junk order f arch layers -> loadable junk order f' arch layers.
Proof.
  intros [Hg Hset Hs HR Hact Har Hsup Hl Hv Hwt]. constructor; try assumption.
  - destruct Hg as (G1 & G2 & G3 & G4). split; [|split; [exists 2%N; reflexivity|]].
    { rewrite Forall_forall in G1 |- *. intros k Hk. specialize (G1 k Hk). unfold optional_str in Hk. cbn [In] in Hk.
      intuition subst; exact G1. }
    split; [exact G3|].
    exists (code qt). split; [reflexivity|]. destruct qt; reflexivity.
  - destruct Hset as (S1 & S2 & S3). split; [|split; [exact S2|]].
    2:{ rewrite Forall_forall in S3 |- *. intros k Hk. specialize (S3 k Hk). unfold optional_f64 in Hk. cbn [In] in Hk.
      intuition subst; exact S3. }
    intros k Hk. destruct (S1 k Hk) as (n & En). exists n. rewrite <- En.
    unfold required_keys in Hk. cbn [In] in Hk. intuition subst; reflexivity.
  - unfold short_names in *. apply Forall_forall. intros t Ht.
    assert (Hn : has f (ti_name t)) by (apply new_has; exists t; auto). destruct Hn as (t0 & Hin & <-).
    rewrite Forall_forall in Hs. apply Hs, Hin.
  - apply new_readable.
  - rewrite new_vocabulary. exact Hv.
  - eapply Forall_impl; [|exact Hwt]. intros n. cbv beta. rewrite new_has. auto.
Qed.

Lemma new_loads L (HL : lib_ok L) {V} (value : gty -> list N -> nat -> V) (order : list (ustring * N) -> list (ustring * N)) m : load_from_file L junk value order (Some f) true = Ok (Loaded m) ->
  exists m', load_from_file L junk value order (Some f') true = Ok (Loaded m') /\
    lo_settings m' = lo_settings m /\ lo_vocab m' = lo_vocab m.
Proof.
  intros H. destruct (loaded_inv L HL junk value order f true m H) as (_ & made & arch & layers & Hm & HLd & Es & _ & Hv & _).
  assert (HLd' := new_loadable order arch layers HLd).
  destruct (loadable_loads L HL junk value order f' arch layers HLd') as (m' & H'). exists m'. split; [exact H'|].
  destruct (loaded_inv L HL junk value order f' true m' H') as (_ & made' & arch' & layers' & Hm' & HLd'' & Es' & _ & Hv' & _).
  assert (arch' = arch).
  { assert (A1 := l_arch _ _ _ _ _ HLd'). assert (A2 := l_arch _ _ _ _ _ HLd''). congruence. }
  subst arch'. rewrite new_settings in Es'. rewrite new_vocabulary in Hv'. split; congruence.
Qed.

(** Rows. *)
Lemma new_rows_same {V} (value : gty -> list N -> nat -> V) n t : named f n = Some t -> ~ wanted (st t) -> contained f t -> rows_of value f' n = rows_of value f n.
Proof.
  intros E Hnw Hct. unfold rows_of. assert (G := new_named n). rewrite E in *.
  destruct G as (w & o & Hn & (_ & _ & S0 & S1 & _) & Ht & Hb & _ & Hr). rewrite Hn, Hr.
  cbn [seen ti_type ti_ne0 ti_ne1]. rewrite S0, S1, Ht. cbn [st_info].
  destruct o as [ty bs]. cbn [fst snd] in *. inversion Hb; subst; try contradiction. cbn [st_info st_bytes].
  rewrite (region_memory junk f t Hct). reflexivity.
Qed.

Lemma new_rows_converted {V} (value : gty -> list N -> nat -> V) n t : named f n = Some t -> wanted (st t) -> contained f t ->
  rows_of value f' n = converted_rows value chunk widen qt f t.
Proof.
  intros E Hwt Hct. unfold rows_of, converted_rows. assert (G := new_named n). rewrite E in *.
  destruct G as (w & o & Hn & (_ & _ & S0 & S1 & _) & Ht & Hb & _ & Hr). rewrite Hn, Hr.
  cbn [seen ti_type ti_ne0 ti_ne1]. rewrite S0, S1, Ht. cbn [st_info]. cbv zeta.
  destruct o as [ty bs]. cbn [fst snd] in *. inversion Hb as [Hnw|? Et Hcv|? Et Hcv|? Et Hcv]; subst; try contradiction; try congruence;
    cbn [st_info st_bytes] in *; rewrite Et, (region_memory junk f t Hct); reflexivity.
Qed.

Lemma new_matrix r c n : matrix_at f r c n -> matrix_at f' r c n.
Proof.
  intros (t & E & Hct & H0 & H1 & H2 & H3). assert (G := new_named n). rewrite E in G.
  destruct G as (w & o & Hn & (_ & _ & S0 & S1 & S2 & S3) & _ & _ & Hct' & _). exists (seen w).
  cbn [st_info seen ti_ne0 ti_ne1 ti_ne2 ti_ne3] in *.
  split; [exact Hn|split; [exact Hct'|repeat split; congruence]].
Qed.

Lemma new_vector c n : (forall t, named f n = Some t -> ~ wanted (st t)) -> vector_at f c n -> vector_at f' c n.
Proof.
  intros Hnw (t & E & Hct & Ht & H0 & H1 & H2 & H3). assert (G := new_named n). rewrite E in G.
  destruct G as (w & o & Hn & (_ & _ & S0 & S1 & S2 & S3) & Ht' & Hb & Hct' & _). exists (seen w).
  cbn [st_info seen ti_ne0 ti_ne1 ti_ne2 ti_ne3 ti_type] in *. specialize (Hnw t E).
  split; [exact Hn|split; [exact Hct'|split; [|repeat split; congruence]]].
  rewrite Ht'. inversion Hb; try contradiction. exact Ht.
Qed.

Context (Hflat : norms_flat f).

(** Biases and layer norms are not converted. *)
Lemma bias_kept n t : last n 0%N = 115%N -> named f n = Some t -> ~ wanted (st t).
Proof. intros Hl E Hwt. apply wanted_last in Hwt. cbn [st_name] in Hwt. apply named_some in E as (_ & <-). congruence. Qed.
Lemma norm_kept p t : named f (p ++ u "LayerNorm.weight") = Some t -> ~ wanted (st t).
Proof.
  intros E (Hdim & _). apply named_some in E as (Hin & En). apply (Hflat t p Hin En). exact Hdim.
Qed.

Lemma layer_bias n p s t : s <> [] -> last s 0%N = 115%N -> named f (layer_name n (p ++ s)) = Some t -> ~ wanted (st t).
Proof.
  intros Hne Hl. apply bias_kept. unfold layer_name. rewrite !app_assoc, last_app_ne by exact Hne. exact Hl.
Qed.
Lemma layer_norm n p t : named f (layer_name n (p ++ u "LayerNorm.weight")) = Some t -> ~ wanted (st t).
Proof.
  unfold layer_name. rewrite !app_assoc. apply norm_kept.
Qed.

Lemma new_shaped h m layers segs words rows : well_shaped f h m layers segs words rows -> well_shaped f' h m layers segs words rows.
Proof.
  intros [W1 W2 W3 W4 W5 W6 W7]. constructor; try (apply new_matrix; assumption).
  - inversion W4 as [|? ? A1 A2]; subst. inversion A2 as [|? ? A3 A4]; subst. repeat constructor.
    + apply new_vector; [|exact A1]. intros t. apply (norm_kept (u "berts.bert.embeddings.")).
    + apply new_vector; [|exact A3]. intros t. apply bias_kept. reflexivity.
  - intros n Hn. destruct (W5 n Hn) as [Y1 Y2 Y3 Y4 Y5]. constructor; try (apply new_matrix; assumption).
    + eapply Forall_impl; [|exact Y1]. intros s. apply new_matrix.
    + apply new_vector; [|exact Y3]. intros t. apply (layer_bias n [] (u "intermediate.dense.bias")); [discriminate|reflexivity].
    + assert (Hv : forall s, In s [u "attention.self.query.bias"; u "attention.self.key.bias"; u "attention.self.value.bias";
         u "attention.output.dense.bias"; u "attention.output.LayerNorm.weight"; u "attention.output.LayerNorm.bias";
         u "output.dense.bias"; u "output.LayerNorm.weight"; u "output.LayerNorm.bias"] ->
         forall t, named f (layer_name n s) = Some t -> ~ wanted (st t)).
      { intros s Hs t. cbn [In] in Hs.
        destruct Hs as [<-|[<-|[<-|[<-|[<-|[<-|[<-|[<-|[<-|[]]]]]]]]]];
          first [apply (layer_norm n (u "attention.output."))|apply (layer_norm n (u "output."))|
                 apply (layer_bias n []); [discriminate|reflexivity]]. }
      rewrite Forall_forall in Y5 |- *. intros s Hs. apply new_vector; [apply Hv, Hs|apply Y5, Hs].
  - apply new_vector; [|exact W7]. intros t. apply bias_kept. reflexivity.
Qed.

Lemma new_head_shaped h words : head_shaped f h words -> head_shaped f' h words.
Proof.
  intros [H1 H2 H3 H4]. constructor; try (apply new_matrix; assumption).
  - inversion H3 as [|? ? A1 A2]; subst. inversion A2 as [|? ? A3 A4]; subst. inversion A4 as [|? ? A5 A6]; subst. repeat constructor.
    + apply new_vector; [|exact A1]. intros t. apply bias_kept. reflexivity.
    + apply new_vector; [|exact A3]. intros t. apply (norm_kept (u "berts.bert.predictions.transform.")).
    + apply new_vector; [|exact A5]. intros t. apply bias_kept. reflexivity.
  - apply new_vector; [|exact H4]. intros t. apply bias_kept. reflexivity.
Qed.
End Reload.
