(** Lemmas about evaluation requests. *)
From Coq Require Import Permutation.
From Verif Require Import Base Ggml_model Encoder_model Encoder_spec Encoder_proofs Eval_model Eval_spec.

(** ** Running a graph *)
Lemma run_does {A} L mem (b : B A) c k l Q :
  does b c k l Q ->
  exists a, Q a /\
    run L mem b = if (mem <? c + graph_overhead L)%N then UB
                  else if graph_nodes L <? k then Abort
                  else if looked_up l then Ok a else UB.
Proof.
  intros H.
  destruct (does_bind _ (fun x => step (graph_overhead L) 0 [] x) _ _ _ Q _ _ _ Q H
    (fun a Ha => does_step _ 0 [] a Q Ha)) as (a & Ha & HQ).
  exists a. split; [exact HQ|]. unfold run.
  rewrite Ha by (cbn; lia). unfold step. cbn [capacity used nodes lookups].
  rewrite N.add_0_l. destruct (mem <? c + graph_overhead L)%N; [reflexivity|].
  cbn [nodes lookups]. rewrite Nat.add_0_l, Nat.add_0_r, app_nil_l, app_nil_r. reflexivity.
Qed.

Lemma looked_up_true l : looked_up l = true <-> Forall (fun p => in_table (fst p) (snd p)) l.
Proof.
  unfold looked_up. rewrite forallb_forall, Forall_forall. split; intros H p Hp.
  - specialize (H p Hp). rewrite forallb_forall in H. apply Forall_forall. intros i Hi.
    specialize (H i Hi). apply andb_prop in H as (H1 & H2). lia.
  - specialize (H p Hp). unfold in_table in H. rewrite Forall_forall in H.
    apply forallb_forall. intros i Hi. specialize (H i Hi).
    apply andb_true_intro. split; lia.
Qed.

(** ** The array behind a matrix *)
Lemma data_mat {V} (P : prim V) t n d M : mat P t n d M -> data t = concat M.
Proof.
  intros Hm. pose proof Hm as (Ht & HL & HF & HE).
  assert (LC : length (concat M) = n * d).
  { rewrite (length_concat_uniform M d HF), HL. reflexivity. }
  unfold data. replace (numel t) with (n * d) by (unfold numel; rewrite Ht; cbn; nia).
  rewrite <- (map_nth_seq (concat M) (n * d) (p_zero P) LC).
  apply map_ext_in. intros i Hi. apply in_seq in Hi.
  destruct (Nat.eq_dec d 0) as [->|Hd]; [nia|].
  rewrite (nth_concat_uniform M d i (p_zero P)) by (assumption || nia).
  replace i with (i mod d + d * (i / d)) at 1 by (pose proof (Nat.div_mod i d Hd); lia).
  apply (flat_mat P t n d M); [exact Hm|apply Nat.mod_upper_bound, Hd|].
  apply Nat.div_lt_upper_bound; nia.
Qed.

(** ** Ids and positions *)
Lemma to_i32_small x : (x < 2147483648)%N -> to_i32 x = Z.of_N x.
Proof.
  intros H. unfold to_i32. rewrite N.mod_small by lia.
  destruct (x <? 2147483648)%N eqn:E; [reflexivity|lia].
Qed.

(** A 32-bit id is in a table iff it is a row number. *)
Lemma to_i32_in_table n x : (x < 4294967296)%N -> (N.of_nat n <= 2147483648)%N ->
  (0 <= to_i32 x < Z.of_nat n)%Z <-> (x < N.of_nat n)%N.
Proof.
  intros Hx Hn. unfold to_i32. rewrite N.mod_small by exact Hx.
  destruct (x <? 2147483648)%N eqn:E; lia.
Qed.

Lemma ordinary_cons pad t ts i :
  ordinary pad (t :: ts) (S i) = (if (t =? pad)%N then 0 else 1) + ordinary pad ts i.
Proof. unfold ordinary. cbn [firstn filter]. destruct (t =? pad)%N; reflexivity. Qed.

Lemma ordinary_first pad t ts : ordinary pad (t :: ts) 0 = if (t =? pad)%N then 0 else 1.
Proof. unfold ordinary. cbn [firstn filter]. destruct (t =? pad)%N; reflexivity. Qed.

Lemma ordinary_le pad ts i : ordinary pad ts i <= length ts.
Proof.
  unfold ordinary. revert i. induction ts as [|t ts IH]; intros i; [destruct i; cbn; lia|].
  cbn [firstn filter length]. destruct i as [|i].
  - destruct (t =? pad)%N; cbn; lia.
  - specialize (IH i). destruct (t =? pad)%N; cbn [negb length]; lia.
Qed.

Lemma ordinary_mono pad ts i j : i <= j -> ordinary pad ts i <= ordinary pad ts j.
Proof.
  revert i j. induction ts as [|t ts IH]; intros i j Hij; [unfold ordinary; rewrite !firstn_nil; lia|].
  destruct i as [|i], j as [|j]; try lia.
  - rewrite ordinary_first, ordinary_cons. lia.
  - rewrite !ordinary_cons. specialize (IH i j ltac:(lia)). lia.
Qed.

Lemma ordinary_step pad ts i j : i < j -> j < length ts -> nth j ts 0%N <> pad ->
  ordinary pad ts i < ordinary pad ts j.
Proof.
  revert i j. induction ts as [|t ts IH]; intros i j Hij Hj Hp; [simpl in Hj; lia|].
  destruct j as [|j]; [lia|]. cbn [nth length] in *. destruct i as [|i].
  - rewrite ordinary_first, ordinary_cons.
    destruct j as [|j].
    + destruct ts as [|u us]; [simpl in Hj; lia|]. rewrite ordinary_first. cbn [nth] in Hp.
      destruct (u =? pad)%N eqn:E; [apply N.eqb_eq in E; congruence|lia].
    + specialize (IH 0 (S j) ltac:(lia) ltac:(lia) Hp). lia.
  - rewrite !ordinary_cons. specialize (IH i j ltac:(lia) ltac:(lia) Hp). lia.
Qed.

Lemma ordinary_pos pad ts i : i < length ts -> nth i ts 0%N <> pad -> 0 < ordinary pad ts i.
Proof.
  revert i. induction ts as [|t ts IH]; intros i Hi Hp; [simpl in Hi; lia|].
  destruct i as [|i]; cbn [nth length] in *.
  - rewrite ordinary_first. destruct (t =? pad)%N eqn:E; [apply N.eqb_eq in E; congruence|lia].
  - rewrite ordinary_cons. specialize (IH i ltac:(lia) Hp). lia.
Qed.

Lemma roberta_positions_exact pad : forall ts v,
  roberta_positions_from pad v ts =
  map (fun i => if (nth i ts 0 =? pad)%N then 0%Z else to_i32 (v + N.of_nat (ordinary pad ts i) - 1))
      (seq 0 (length ts)).
Proof.
  induction ts as [|t ts IH]; intros v; [reflexivity|].
  cbn [roberta_positions_from length seq map nth].
  rewrite <- seq_shift, map_map. rewrite ordinary_first.
  destruct (t =? pad)%N eqn:E.
  - f_equal. rewrite IH. apply map_ext. intros i. cbn [nth]. rewrite ordinary_cons, E. reflexivity.
  - f_equal; [f_equal; lia|]. rewrite IH. apply map_ext. intros i. cbn [nth].
    rewrite ordinary_cons, E. destruct (nth i ts 0 =? pad)%N; [reflexivity|]. f_equal. lia.
Qed.

(** Small ids do not wrap. *)
Definition small_pad (f : flavour) (n : nat) : Prop :=
  match f with
  | Bert => (N.of_nat n <= 2147483648)%N
  | Roberta pad => (pad + N.of_nat n < 2147483648)%N
  end.

Lemma positions_spec f ts : small_pad f (length ts) -> positions f ts = position_ids f ts.
Proof.
  intros H. destruct f as [|pad]; cbn [positions position_ids small_pad] in *.
  - unfold bert_positions. apply map_ext_in. intros i Hi. apply in_seq in Hi.
    rewrite to_i32_small by lia. lia.
  - unfold roberta_positions. rewrite roberta_positions_exact. apply map_ext_in. intros i Hi.
    apply in_seq in Hi. destruct (nth i ts 0 =? pad)%N eqn:E; [reflexivity|].
    apply N.eqb_neq in E.
    pose proof (ordinary_le pad ts i). pose proof (ordinary_pos pad ts i ltac:(lia) E).
    rewrite to_i32_small by lia. lia.
Qed.

Lemma ordinary_all pad ts : ordinary pad ts (length ts) = ordinary pad ts (length ts - 1).
Proof.
  unfold ordinary. do 2 f_equal. destruct ts as [|t ts]; [reflexivity|].
  rewrite !firstn_all2; [reflexivity|cbn [length]; lia|lia].
Qed.

(** The last ordinary token has the largest position. *)
Lemma last_ordinary pad : forall ts, (exists t, In t ts /\ t <> pad) ->
  exists i, i < length ts /\ nth i ts 0%N <> pad /\ ordinary pad ts i = ordinary pad ts (length ts).
Proof.
  induction ts as [|t ts IH]; intros (u & Hu & Hp); [destruct Hu|].
  destruct (existsb (fun x => negb (x =? pad)%N) ts) eqn:E.
  - apply existsb_exists in E as (x & Hx & Hn).
    destruct IH as (i & Hi & Hne & Ho); [exists x; split; [exact Hx|]; intros ->; rewrite N.eqb_refl in Hn; discriminate|].
    exists (S i). cbn [length nth]. split; [lia|]. split; [exact Hne|].
    rewrite !ordinary_cons, Ho. reflexivity.
  - assert (HA : forall x, In x ts -> x = pad).
    { intros x Hx. destruct (x =? pad)%N eqn:Ex; [apply N.eqb_eq, Ex|].
      assert (existsb (fun x => negb (x =? pad)%N) ts = true) by
        (apply existsb_exists; exists x; rewrite Ex; auto). congruence. }
    exists 0. cbn [length nth]. split; [lia|].
    destruct Hu as [->|Hu]; [|elim Hp; apply HA, Hu]. split; [exact Hp|].
    rewrite ordinary_first, ordinary_cons.
    enough (ordinary pad ts (length ts) = 0) by lia.
    unfold ordinary. rewrite firstn_all2 by lia.
    clear - HA. induction ts as [|x ts IH]; [reflexivity|].
    cbn [filter]. rewrite (HA x (or_introl eq_refl)), N.eqb_refl. cbn [negb].
    apply IH. intros y Hy. apply HA. right. exact Hy.
Qed.

Lemma positions_in_table f rows ts : 0 < length ts -> small_pad f (length ts) ->
  in_table rows (position_ids f ts) <-> enough_rows f rows ts.
Proof.
  intros Hn Hs. unfold in_table. rewrite Forall_forall.
  destruct f as [|pad]; cbn [position_ids enough_rows small_pad] in *.
  - split.
    + intros H. specialize (H (Z.of_nat (length ts - 1))).
      enough (0 <= Z.of_nat (length ts - 1) < Z.of_nat rows)%Z by lia.
      apply H. apply in_map_iff. exists (length ts - 1). split; [reflexivity|]. apply in_seq. lia.
    + intros H i Hi. apply in_map_iff in Hi as (k & <- & Hk). apply in_seq in Hk. lia.
  - split.
    + intros H. split.
      * specialize (H _ (in_map _ _ 0 (proj2 (in_seq _ _ _) (conj (le_n 0) Hn)))).
        cbv beta in H. lia.
      * intros HE. destruct (last_ordinary pad ts HE) as (i & Hi & Hne & Ho).
        specialize (H _ (in_map _ _ i (proj2 (in_seq _ _ _) (conj (Nat.le_0_l i) Hi)))).
        cbv beta in H. apply N.eqb_neq in Hne. rewrite Hne in H. lia.
    + intros (H0 & H1) p Hp. apply in_map_iff in Hp as (i & <- & Hi). apply in_seq in Hi.
      destruct (nth i ts 0 =? pad)%N eqn:E; [lia|]. apply N.eqb_neq in E.
      assert (HX : (pad + N.of_nat (ordinary pad ts (length ts)) < N.of_nat rows)%N).
      { apply H1. exists (nth i ts 0%N). split; [apply nth_In; lia|exact E]. }
      pose proof (ordinary_mono pad ts i (length ts) ltac:(lia)). lia.
Qed.

(** ** Requests *)
Lemma needed_values hp p n :
  p <> PoolOther -> (N.of_nat n < 2147483648)%N -> (N.of_nat (hidden_dim hp) < 4294967296)%N ->
  needed hp p n = Some (N.of_nat (values hp p n)).
Proof.
  intros Hp Hn Hh. destruct p; cbn [needed values]; try reflexivity; [|congruence].
  f_equal. unfold w64. rewrite N.mod_small by nia. lia.
Qed.

Lemma names_resolve n l last : names_layer n l last -> (Z.of_nat n < 9223372036854775808)%Z ->
  resolve_layer n l = Ok last.
Proof.
  intros [k Hk|k H1 Hk] Hn; unfold resolve_layer.
  - replace (Z.of_nat k <? 0)%Z with false by lia.
    replace (Z.of_nat n <? Z.of_nat k)%Z with false by lia. f_equal. lia.
  - replace (- Z.of_nat k <? 0)%Z with true by lia.
    replace (- Z.of_nat k =? INT64_MIN)%Z with false by (unfold INT64_MIN; lia).
    replace (Z.of_nat n <? - - Z.of_nat k)%Z with false by lia. f_equal. lia.
Qed.

Lemma names_bound n l last : names_layer n l last -> last <= n.
Proof. intros [k Hk|k H1 Hk]; lia. Qed.

Lemma names_total n l : (- Z.of_nat n <= l <= Z.of_nat n)%Z -> exists last, names_layer n l last.
Proof.
  intros H. destruct (Z_lt_le_dec l 0) as [Hl|Hl].
  - exists (n + 1 - Z.to_nat (- l)). replace l with (- Z.of_nat (Z.to_nat (- l)))%Z at 1 by lia.
    constructor; lia.
  - exists (Z.to_nat l). replace l with (Z.of_nat (Z.to_nat l)) at 1 by lia. constructor; lia.
Qed.

Lemma resolve_rejects n l : l <> INT64_MIN -> ~ (- Z.of_nat n <= l <= Z.of_nat n)%Z ->
  resolve_layer n l = Fail.
Proof.
  intros Hm H. unfold resolve_layer. destruct (l <? 0)%Z eqn:E.
  - replace (l =? INT64_MIN)%Z with false by lia.
    replace (Z.of_nat n <? - l)%Z with true by lia. reflexivity.
  - replace (Z.of_nat n <? l)%Z with true by lia. reflexivity.
Qed.

Lemma segments_checked hp segments :
  existsb (fun s => (Z.of_nat (segment_count hp) <=? Z.of_N s)%Z) segments = false <->
  Forall (fun s => (s < N.of_nat (segment_count hp))%N) segments.
Proof.
  rewrite Forall_forall. split.
  - intros H s Hs.
    destruct (Z.of_nat (segment_count hp) <=? Z.of_N s)%Z eqn:E; [|lia].
    assert (existsb (fun s => (Z.of_nat (segment_count hp) <=? Z.of_N s)%Z) segments = true)
      by (apply existsb_exists; eauto). congruence.
  - intros H. apply not_true_is_false. intros E. apply existsb_exists in E as (s & Hs & E).
    specialize (H s Hs). lia.
Qed.

Section Eval.
Context {V : Type} (P : prim V) (L : lib).

Lemma eval_rejects (m : emodel V) tokens segments c cells cnt :
  output_layer c <> INT64_MIN -> ~ valid_request (em_hp m) tokens segments c ->
  exists cnt', eval P L m tokens segments c (Some cells) cnt = Ok (mkev false (Some cells) (Some cnt')).
Proof.
  intros Hm Hv. unfold eval.
  destruct (max_tokens (em_hp m) <? length tokens) eqn:E1; [eauto|].
  destruct (length tokens =? length segments) eqn:E2; cbn [negb]; [|eauto].
  destruct (existsb _ segments) eqn:E3; [eauto|]. apply segments_checked in E3.
  destruct (needed (em_hp m) (pool_type c) (length tokens)) as [need|] eqn:E4; [|eauto].
  rewrite resolve_rejects; [eauto|exact Hm|].
  intros H. apply Hv. constructor; auto.
  - apply Nat.ltb_ge, E1.
  - symmetry. apply Nat.eqb_eq, E2.
  - intros E. rewrite E in E4. discriminate.
Qed.

(** A validated request gets as far as running its graph. *)
Lemma eval_valid (m : emodel V) tokens segments c cells cnt last :
  valid_request (em_hp m) tokens segments c ->
  names_layer (n_layers (em_hp m)) (output_layer c) last ->
  (Z.of_nat (n_layers (em_hp m)) < 9223372036854775808)%Z ->
  exists need, needed (em_hp m) (pool_type c) (length tokens) = Some need /\
  eval P L m tokens segments c (Some cells) cnt =
    match run L (calc (get_context_buffer_size L (length tokens) (em_hp m) (pool_type c)) last)
            (build_graph P L (em_kind m) (em_hp m) (em_weights m) last (pool_type c) tokens segments) with
    | Ok x => obind (copy_n (data x) (N.to_nat (N.min cnt need)) cells) (fun cells' =>
                Ok (mkev true (Some cells') (Some need)))
    | Fail => Ok (mkev false (Some cells) (Some need))
    | UB => UB
    | Abort => Abort
    end.
Proof.
  intros Hv Hl Hb. unfold eval.
  replace (max_tokens (em_hp m) <? length tokens) with false
    by (symmetry; apply Nat.ltb_ge, (v_tokens _ _ _ _ Hv)).
  rewrite (v_segments _ _ _ _ Hv), Nat.eqb_refl. cbn [negb].
  rewrite (proj2 (segments_checked _ _) (v_range _ _ _ _ Hv)).
  destruct (needed (em_hp m) (pool_type c) (length tokens)) as [need|] eqn:E.
  - exists need. split; [reflexivity|].
    rewrite (names_resolve _ _ _ Hl Hb). reflexivity.
  - pose proof (v_pool _ _ _ _ Hv). destruct (pool_type c); try discriminate. congruence.
Qed.

Lemma fits_w64 z last : fits z last ->
  calc z last = (z_emb z + z_layer z * N.of_nat last + z_pooler z + z_graph z)%N.
Proof. intros H. unfold calc, w64. apply N.mod_small, H. Qed.

(** The estimate without the modulus. *)
Lemma estimate_fits hp p last n :
  hidden_dim hp = (hidden_dim hp / attn_heads hp) * attn_heads hp -> p <> PoolOther ->
  last <= n_layers hp -> fits (get_context_buffer_size L n hp p) last ->
  calc (get_context_buffer_size L n hp p) last = (graph_cost L hp p last n + graph_overhead L)%N.
Proof.
  intros Hd Hp Hl Hf.
  pose proof (sum_exact L hp p last n Hd Hp Hl) as E.
  rewrite (fits_w64 _ _ Hf). exact E.
Qed.

Lemma small_pad_sound m words rows s (tokens : list N) :
  sound P m words rows s -> length tokens <= max_tokens (em_hp m) -> small_pad (em_kind m) (length tokens).
Proof.
  intros Hs Hn. pose proof (s_pad _ _ _ _ _ Hs) as Hp. pose proof (s_max _ _ _ _ _ Hs).
  unfold small_pad. destruct (em_kind m); lia.
Qed.

Lemma word_ids tokens words : Forall (fun t => (t < 4294967296)%N) tokens -> (N.of_nat words <= 2147483648)%N ->
  in_table words (map to_i32 tokens) <-> known_tokens words tokens.
Proof.
  intros Ht Hw. unfold in_table, known_tokens. rewrite Forall_map, !Forall_forall in *.
  split; intros H t Hin; specialize (H t Hin); specialize (Ht t Hin);
    apply (to_i32_in_table words t Ht Hw); exact H.
Qed.

Lemma small_ids bound tokens : (N.of_nat bound <= 2147483648)%N ->
  Forall (fun t => (t < N.of_nat bound)%N) tokens -> map to_i32 tokens = map Z.of_N tokens.
Proof.
  intros Hb HF. apply map_ext_in. intros t Ht. rewrite Forall_forall in HF. specialize (HF t Ht).
  apply to_i32_small. lia.
Qed.

(** The graph of a request. *)
Lemma eval_graph m words rows s tokens segments c last :
  sound P m words rows s -> valid_request (em_hp m) tokens segments c -> 0 < length tokens ->
  names_layer (n_layers (em_hp m)) (output_layer c) last ->
  Forall (fun t => (t < 4294967296)%N) tokens ->
  let ids := [(words, map to_i32 tokens); (rows, positions (em_kind m) tokens);
              (segment_count (em_hp m), map to_i32 segments)] in
  does (build_graph P L (em_kind m) (em_hp m) (em_weights m) last (pool_type c) tokens segments)
    (graph_cost L (em_hp m) (pool_type c) last (length tokens)) (encoder_nodes (pool_type c) last) ids
    (fun t => (exists X, mat P t (out_rows (pool_type c) (length tokens)) (hidden_dim (em_hp m)) X) /\
              (looked_up ids = true -> data t = answer P m s (pool_type c) last tokens segments)).
Proof.
  intros Hs Hv Hn Hl Hu ids.
  assert (EN : encoder_nodes (pool_type c) last = 10 + last * 46 + pool_nodes (pool_type c)).
  { pose proof (v_pool _ _ _ _ Hv). unfold encoder_nodes, pool_nodes. destruct (pool_type c); try lia. congruence. }
  rewrite EN.
  destruct (looked_up ids) eqn:El.
  - apply looked_up_true in El. inversion El as [|? ? I1 El1]; subst. inversion El1 as [|? ? I2 El2]; subst.
    inversion El2 as [|? ? I3 _]; subst. cbn [fst snd] in I1, I2, I3.
    eapply does_conv; [eapply (does_build_graph P L (s_rows_ok _ _ _ _ _ Hs) (em_kind m) (em_hp m) words rows
      (em_weights m) s last (pool_type c) tokens segments)|reflexivity..|].
    + exact (s_weights _ _ _ _ _ Hs).
    + exact (s_heads _ _ _ _ _ Hs).
    + exact (s_hidden _ _ _ _ _ Hs).
    + right. split; [exact (s_act _ _ _ _ _ Hs)|exact (s_inter _ _ _ _ _ Hs)].
    + exact (v_pool _ _ _ _ Hv).
    + exact (names_bound _ _ _ Hl).
    + exact Hn.
    + exact (v_segments _ _ _ _ Hv).
    + exact I1.
    + exact I3.
    + exact I2.
    + intros t Ht. split; [eexists; exact Ht|]. intros _.
      rewrite (data_mat P t _ _ _ Ht). unfold answer, hidden_states.
      rewrite <- positions_spec by exact (small_pad_sound m words rows s tokens Hs (v_tokens _ _ _ _ Hv)).
      apply word_ids in I1; [|exact Hu|exact (s_words _ _ _ _ _ Hs)].
      rewrite (small_ids words tokens (s_words _ _ _ _ _ Hs) I1).
      rewrite (small_ids (segment_count (em_hp m)) segments); [reflexivity| |exact (v_range _ _ _ _ Hv)].
      pose proof (s_segs _ _ _ _ _ Hs). lia.
  - eapply does_conv; [eapply (does_build_graph_any P L (s_rows_ok _ _ _ _ _ Hs) (em_kind m) (em_hp m) words rows
      (em_weights m) s last (pool_type c) tokens segments)|reflexivity..|].
    + exact (s_weights _ _ _ _ _ Hs).
    + exact (s_heads _ _ _ _ _ Hs).
    + exact (s_hidden _ _ _ _ _ Hs).
    + right. split; [exact (s_act _ _ _ _ _ Hs)|exact (s_inter _ _ _ _ _ Hs)].
    + exact (v_pool _ _ _ _ Hv).
    + exact (names_bound _ _ _ Hl).
    + exact Hn.
    + exact (v_segments _ _ _ _ Hv).
    + intros t Ht. split; [exact Ht|discriminate].
Qed.

Lemma request_lookups m words rows s tokens segments c :
  sound P m words rows s -> valid_request (em_hp m) tokens segments c -> 0 < length tokens ->
  Forall (fun t => (t < 4294967296)%N) tokens ->
  looked_up [(words, map to_i32 tokens); (rows, positions (em_kind m) tokens);
             (segment_count (em_hp m), map to_i32 segments)] = true <->
  known_tokens words tokens /\ enough_rows (em_kind m) rows tokens.
Proof.
  intros Hs Hv Hn Hu. rewrite looked_up_true.
  assert (SP := small_pad_sound m words rows s tokens Hs (v_tokens _ _ _ _ Hv)).
  rewrite <- (word_ids tokens words Hu (s_words _ _ _ _ _ Hs)).
  rewrite <- (positions_in_table (em_kind m) rows tokens Hn SP), <- positions_spec by exact SP.
  split.
  - intros El. inversion El as [|? ? I1 El1]; subst. inversion El1 as [|? ? I2 El2]; subst. auto.
  - intros (I1 & I2). constructor; [exact I1|]. constructor; [exact I2|]. constructor; [|constructor].
    cbn [fst snd]. pose proof (s_segs _ _ _ _ _ Hs).
    rewrite (small_ids (segment_count (em_hp m)) segments) by (lia || exact (v_range _ _ _ _ Hv)).
    unfold in_table. apply Forall_map.
    pose proof (v_range _ _ _ _ Hv) as R. rewrite Forall_forall in *. intros x Hx. specialize (R x Hx). lia.
Qed.

Lemma eval_outcome m words rows s tokens segments c last cells cnt :
  sound P m words rows s -> valid_request (em_hp m) tokens segments c -> 0 < length tokens ->
  names_layer (n_layers (em_hp m)) (output_layer c) last ->
  Forall (fun t => (t < 4294967296)%N) tokens ->
  fits (get_context_buffer_size L (length tokens) (em_hp m) (pool_type c)) last ->
  let ids := [(words, map to_i32 tokens); (rows, positions (em_kind m) tokens);
              (segment_count (em_hp m), map to_i32 segments)] in
  let need := values (em_hp m) (pool_type c) (length tokens) in
  eval P L m tokens segments c (Some cells) cnt =
    (if graph_nodes L <? encoder_nodes (pool_type c) last then Abort
     else if looked_up ids then
       obind (copy_n (answer P m s (pool_type c) last tokens segments)
                     (N.to_nat (N.min cnt (N.of_nat need))) cells)
             (fun cells' => Ok (mkev true (Some cells') (Some (N.of_nat need))))
     else UB) /\
  (looked_up ids = true -> length (answer P m s (pool_type c) last tokens segments) = need).
Proof.
  intros Hs Hv Hn Hl Hu Hf ids need.
  destruct (eval_valid m tokens segments c cells cnt last Hv Hl) as (nd & Hnd & ->).
  { pose proof (s_layers _ _ _ _ _ Hs). lia. }
  pose proof (v_tokens _ _ _ _ Hv) as HT. pose proof (s_max _ _ _ _ _ Hs) as HM.
  rewrite (needed_values _ _ _ (v_pool _ _ _ _ Hv)) in Hnd
    by (lia || exact (s_dim _ _ _ _ _ Hs)). injection Hnd as <-.
  fold need.
  destruct (run_does L (calc (get_context_buffer_size L (length tokens) (em_hp m) (pool_type c)) last) _ _ _ _ _
    (eval_graph m words rows s tokens segments c last Hs Hv Hn Hl Hu)) as (t & ((X & Ht) & Hd) & ->).
  fold ids in Hd |- *.
  rewrite (estimate_fits _ _ _ _ (s_heads _ _ _ _ _ Hs) (v_pool _ _ _ _ Hv) (names_bound _ _ _ Hl) Hf).
  rewrite N.ltb_irrefl. split.
  - destruct (graph_nodes L <? encoder_nodes (pool_type c) last); [reflexivity|].
    destruct (looked_up ids); [|reflexivity]. rewrite Hd by reflexivity. reflexivity.
  - intros E. rewrite <- (Hd E). unfold data. rewrite map_length, seq_length.
    pose proof Ht as (Et & _). unfold numel. rewrite Et. cbn [ne0 ne1 ne2 ne3 packed].
    unfold need, values, out_rows. destruct (pool_type c); lia.
Qed.
End Eval.

(** ** Language-model head *)
Lemma sorts_length {V} (le : V -> V -> Prop) z argsort r : sorts le z argsort -> length (argsort r) = length r.
Proof.
  intros H. destruct (H r) as (ND & IN & _).
  rewrite <- (seq_length (length r) 0). apply Permutation_length.
  apply NoDup_Permutation; [exact ND|apply seq_NoDup|].
  intros i. rewrite IN, in_seq. lia.
Qed.

Lemma sorts_bound {V} (le : V -> V -> Prop) z argsort r : sorts le z argsort ->
  Forall (fun i => i < length r) (argsort r).
Proof. intros H. destruct (H r) as (_ & IN & _). apply Forall_forall. intros i. apply IN. Qed.

Lemma firstn_in {A} k (l : list A) x : In x (firstn k l) -> In x l.
Proof. intros H. rewrite <- (firstn_skipn k l). apply in_or_app. auto. Qed.

Lemma firstn_nodup {A} k (l : list A) : NoDup l -> NoDup (firstn k l).
Proof.
  revert k. induction l as [|x l IH]; intros [|k] H; try constructor.
  - intros Hin. inversion H; subst. apply H2. eapply firstn_in, Hin.
  - apply IH. inversion H; assumption.
Qed.

Lemma nth_firstn_lt {A} k (l : list A) i d : i < k -> nth i (firstn k l) d = nth i l d.
Proof.
  revert l i. induction k as [|k IH]; intros l i H; [lia|].
  destruct l as [|x l]; [reflexivity|]. destruct i as [|i]; [reflexivity|]. simpl. apply IH. lia.
Qed.

(** The first [k] of a sorted row are the best. *)
Lemma best_firstn {V} (le : V -> V -> Prop) z argsort k r :
  sorts le z argsort -> k <= length r ->
  best le z k r (firstn k (argsort r)) (map (fun i => nth i r z) (firstn k (argsort r))).
Proof.
  intros Hs Hk. pose proof (sorts_length le z argsort r Hs) as HL.
  destruct (Hs r) as (ND & IN & ORD).
  assert (FL : length (firstn k (argsort r)) = k) by (rewrite firstn_length; lia).
  assert (NTH : forall i, i < k ->
    nth i (map (fun i => nth i r z) (firstn k (argsort r))) z = nth (nth i (argsort r) 0) r z).
  { intros i Hi. rewrite (nth_map_lt _ _ i z 0) by lia. rewrite nth_firstn_lt by exact Hi. reflexivity. }
  constructor.
  - exact FL.
  - apply firstn_nodup, ND.
  - apply Forall_forall. intros i Hi. apply IN. eapply firstn_in, Hi.
  - intros i j Hij Hj. rewrite !NTH by lia. apply ORD; lia.
  - reflexivity.
  - intros other i Ho Hn Hi. rewrite NTH by exact Hi.
    apply IN in Ho. apply (In_nth _ _ 0) in Ho as (j & Hj & Ej).
    rewrite <- Ej. apply ORD; [|lia].
    destruct (Nat.lt_ge_cases j k) as [Hjk|Hjk]; [|lia]. exfalso. apply Hn.
    rewrite <- Ej, <- (nth_firstn_lt k (argsort r) j 0 Hjk). apply nth_In. lia.
Qed.

Lemma skipn_concat_uniform {A} d : forall (ls : list (list A)) t,
  Forall (fun l => length l = d) ls -> skipn (t * d) (concat ls) = concat (skipn t ls).
Proof.
  induction ls as [|l ls IH]; intros t HF; [rewrite !skipn_nil; reflexivity|].
  inversion HF as [|? ? Hl HF']; subst. destruct t as [|t]; [reflexivity|].
  cbn [concat skipn Nat.mul]. rewrite skipn_app, skipn_all2 by lia.
  replace (length l + t * length l - length l) with (t * length l) by lia. apply IH, HF'.
Qed.

Lemma row_of_concat {A} d (ls : list (list A)) t k :
  Forall (fun l => length l = d) ls -> t < length ls -> k <= d ->
  firstn k (skipn (t * d) (concat ls)) = firstn k (nth t ls []).
Proof.
  intros HF Ht Hk. rewrite (skipn_concat_uniform d ls t HF).
  assert (E : skipn t ls = nth t ls [] :: skipn (S t) ls).
  { clear - Ht. revert t Ht. induction ls as [|l ls IH]; intros t Ht; [simpl in Ht; lia|].
    destruct t as [|t]; [reflexivity|]. cbn [skipn nth length] in *. apply IH. lia. }
  rewrite E. cbn [concat]. rewrite firstn_app.
  assert (length (nth t ls []) = d) by (apply (Forall_nth_lt (fun l => length l = d)); assumption).
  replace (k - length (nth t ls [])) with 0 by lia. cbn [firstn]. apply app_nil_r.
Qed.

Section Lm.
Context {V : Type} (P : prim V) (L : lib).
Notation z := (p_zero P).

Lemma gather_row (R : list (list V)) d t ids :
  Forall (fun r => length r = d) R -> t < length R -> Forall (fun i => i < d) ids ->
  gather (concat R) (t * d) ids = Ok (map (fun i => nth i (nth t R []) z) ids).
Proof.
  intros HR Ht. induction ids as [|i ids IH]; intros HF; [reflexivity|].
  inversion HF as [|? ? Hi HF']; subst. cbn [gather map].
  assert (LC : length (concat R) = length R * d) by (apply length_concat_uniform, HR).
  rewrite (nth_error_nth' _ z) by nia.
  rewrite (nth_concat_uniform R d (t * d + i) z) by (assumption || nia).
  replace (t * d + i) with (i + t * d) by lia.
  rewrite Nat.mod_add, Nat.div_add, Nat.mod_small, Nat.div_small by lia.
  rewrite IH by exact HF'. reflexivity.
Qed.

Lemma read_row {A} (I : list (list A)) d t k :
  Forall (fun r => length r = d) I -> t < length I -> k <= d ->
  read_at (concat I) (t * d) k = Ok (firstn k (nth t I [])).
Proof.
  intros HI Ht Hk. unfold read_at.
  assert (LC : length (concat I) = length I * d) by (apply length_concat_uniform, HI).
  replace (length (concat I) <? t * d + k) with false by (symmetry; apply Nat.ltb_ge; nia).
  rewrite (row_of_concat d I t k HI Ht Hk). reflexivity.
Qed.

Lemma top_rows_spec (I : list (list nat)) (R : list (list V)) k max n :
  length I = n -> length R = n -> k <= max ->
  Forall (fun r => length r = max) R -> Forall (fun r => length r = max) I ->
  Forall (Forall (fun i => i < max)) I ->
  forall r t out outp, t + r = n -> n * k <= length out -> n * k <= length outp ->
  top_rows (concat I) (concat R) k max (seq t r) out outp =
  Ok (firstn (t * k) out ++ concat (map (fun j => firstn k (nth j I [])) (seq t r)) ++ skipn (n * k) out,
      firstn (t * k) outp ++
        concat (map (fun j => map (fun i => nth i (nth j R []) z) (firstn k (nth j I []))) (seq t r)) ++
        skipn (n * k) outp).
Proof.
  intros HI HR Hk FR FI FB. induction r as [|r IH]; intros t out outp Ht Ho Hp.
  - cbn [seq top_rows map concat app]. replace t with n by lia. rewrite !firstn_skipn. reflexivity.
  - cbn [seq top_rows].
    rewrite (read_row I max t k FI) by lia. cbn [obind].
    set (top := firstn k (nth t I [])).
    assert (TL : length top = k).
    { unfold top. rewrite firstn_length.
      pose proof (Forall_nth_lt (fun r => length r = max) I t [] FI ltac:(lia)) as E. cbv beta in E. lia. }
    assert (TB : Forall (fun i => i < max) top).
    { unfold top. pose proof (Forall_nth_lt _ I t [] FB ltac:(lia)) as E. cbv beta in E.
      apply Forall_forall. intros i Hi. rewrite Forall_forall in E. apply E. eapply firstn_in, Hi. }
    unfold write_at at 1. rewrite TL.
    replace (length out <? t * k + k) with false by (symmetry; apply Nat.ltb_ge; nia).
    cbn [obind]. rewrite (gather_row R max t top FR) by (assumption || lia). cbn [obind].
    set (ps := map (fun i => nth i (nth t R []) z) top).
    assert (PL : length ps = k) by (unfold ps; rewrite map_length; exact TL).
    unfold write_at. rewrite PL.
    replace (length outp <? t * k + k) with false by (symmetry; apply Nat.ltb_ge; nia).
    cbn [obind].
    assert (GEN : forall (A : Type) (o x : list A), length x = k -> n * k <= length o ->
      let o' := firstn (t * k) o ++ x ++ skipn (t * k + k) o in
      length o' = length o /\ firstn (S t * k) o' = firstn (t * k) o ++ x /\ skipn (n * k) o' = skipn (n * k) o).
    { intros A o x Hx Hlo o'.
      assert (L1 : length (firstn (t * k) o) = t * k) by (rewrite firstn_length; nia).
      split; [unfold o'; rewrite !app_length, skipn_length, L1, Hx; nia|]. split.
      - unfold o'. rewrite app_assoc, firstn_app.
        rewrite firstn_all2 by (rewrite app_length, L1, Hx; lia).
        replace (S t * k - length (firstn (t * k) o ++ x)) with 0 by (rewrite app_length, L1, Hx; lia).
        apply app_nil_r.
      - unfold o'. rewrite app_assoc, skipn_app.
        rewrite skipn_all2 by (rewrite app_length, L1, Hx; nia).
        rewrite app_length, L1, Hx, skipn_skipn. cbn [app]. f_equal. nia. }
    destruct (GEN nat out top TL Ho) as (G1 & G2 & G3).
    destruct (GEN V outp ps PL Hp) as (G4 & G5 & G6).
    rewrite IH by (lia || rewrite ?G1, ?G4; assumption).
    rewrite G2, G3, G5, G6. cbn [map concat]. fold top. fold ps.
    rewrite <- !app_assoc. reflexivity.
Qed.

Lemma lm_run m sh act hidden n :
  lm_sound P m sh act -> lm_runnable L m n -> n * hidden_dim (em_hp m) = length hidden ->
  let probs := lm_probs P (ln_eps (em_hp m)) act sh (hidden_dim (em_hp m)) n hidden in
  exists prob,
    run L (calc (get_context_buffer_size_for_lm L n (em_hp m) (em_vocab_count m)) 0)
      (build_lm_graph P L (em_kind m) (em_hp m) (em_weights m) (em_vocab_count m) hidden) =
    Ok (prob, map (p_argsort P) probs) /\
    data prob = concat probs /\ length probs = n /\
    Forall (fun r => length r = em_vocab_count m) probs.
Proof.
  intros Hs Hr HL probs.
  destruct (ls_head _ _ _ _ Hs) as (hd & Hlm & Hh).
  destruct (run_does L (calc (get_context_buffer_size_for_lm L n (em_hp m) (em_vocab_count m)) 0) _ _ _ _ _
    (does_build_lm P L (ls_rows_ok _ _ _ _ Hs) (em_kind m) (em_hp m) (em_weights m) hd sh (em_vocab_count m) act
       hidden n Hlm Hh (ls_act _ _ _ _ Hs) ltac:(lia) (ls_hidden _ _ _ _ Hs) (lr_some _ _ _ Hr) (ls_words _ _ _ _ Hs)))
    as ((prob, ids) & (Hm & Hi) & ->).
  cbn [fst snd] in Hm, Hi.
  pose proof (lm_sum_exact L (em_hp m) (em_vocab_count m) n) as E. cbv zeta in E.
  rewrite (fits_w64 _ _ (lr_fits _ _ _ Hr)), E, N.ltb_irrefl. clear E.
  pose proof (lr_nodes _ _ _ Hr). replace (graph_nodes L <? 15) with false by (symmetry; apply Nat.ltb_ge; lia).
  cbn [looked_up forallb]. exists prob. split; [rewrite Hi; reflexivity|].
  split; [exact (data_mat P _ _ _ _ Hm)|]. destruct Hm as (_ & A & B & _). split; assumption.
Qed.

(** What is checked before anything is computed. *)
Lemma lm_prefix m hidden n c ids_cells prob_cells cnt sh act :
  lm_sound P m sh act -> lm_runnable L m n ->
  n * hidden_dim (em_hp m) <= length hidden ->
  let h := hidden_dim (em_hp m) in
  let probs := lm_probs P (ln_eps (em_hp m)) act sh h n (firstn (n * h) hidden) in
  let k := if (top_k c <=? 0)%Z then em_vocab_count m else Nat.min (Z.to_nat (top_k c)) (em_vocab_count m) in
  eval_lm P L m hidden (n * h) c (Some ids_cells) (Some prob_cells) cnt =
  (if (top_k c <=? 0)%Z then
     let w := N.to_nat (N.min cnt (N.of_nat (k * n))) in
     obind (copy_n (concat (map (p_argsort P) probs)) w ids_cells) (fun o =>
     obind (copy_n (concat probs) w prob_cells) (fun p =>
       Ok (mklv true (Some o) (Some p) (Some (N.of_nat (k * n))))))
   else
     obind (top_rows (concat (map (p_argsort P) probs)) (concat probs) (Z.to_nat (top_k c)) (em_vocab_count m)
              (seq 0 n) ids_cells prob_cells) (fun r =>
       Ok (mklv true (Some (fst r)) (Some (snd r)) (Some (N.of_nat (k * n)))))).
Proof.
  intros Hs Hr HL h probs k. unfold eval_lm. fold h.
  assert (Hh : 0 < h) by exact (ls_hidden _ _ _ _ Hs).
  replace (h =? 0) with false by (symmetry; apply Nat.eqb_neq; lia).
  rewrite Nat.mod_mul, Nat.div_mul by lia. cbn [Nat.eqb negb].
  fold k.
  assert (Hk : k <= em_vocab_count m) by (unfold k; destruct (top_k c <=? 0)%Z; lia).
  pose proof (ls_bound _ _ _ _ Hs). pose proof (lr_bound _ _ _ Hr).
  replace (w64 (N.of_nat k * N.of_nat n)) with (N.of_nat (k * n))
    by (unfold w64; rewrite N.mod_small by nia; lia).
  replace (length hidden <? n * h) with false by (symmetry; apply Nat.ltb_ge; exact HL).
  destruct (ls_head _ _ _ _ Hs) as (hd & Hhd & _). rewrite Hhd. cbv iota.
  destruct (lm_run m sh act (firstn (n * h) hidden) n Hs Hr) as (prob & -> & D & _ & _).
  { rewrite firstn_length. fold h. lia. }
  rewrite D. reflexivity.
Qed.
End Lm.

(** ** Requests that stop while the graph is built *)
Inductive halt := HFail | HUB | HAbort.
Definition halted (A : Type) (h : halt) : outcome A :=
  match h with HFail => Fail | HUB => UB | HAbort => Abort end.

(** With [c] bytes to spare, [m] ends as [h]. *)
Definition stops {A} (m : B A) (c : N) (h : halt) : Prop :=
  forall s, (used s + c <= capacity s)%N -> m s = halted (A * arena) h.

Lemma stops_first {A C} (m : B A) (f : A -> B C) c h : stops m c h -> stops (bbind m f) c h.
Proof. intros H s Hs. unfold bbind. rewrite (H s Hs). destruct h; reflexivity. Qed.

Lemma stops_after {A C} (m : B A) (f : A -> B C) c1 k l Q c2 h :
  does m c1 k l Q -> (forall a, Q a -> stops (f a) c2 h) -> stops (bbind m f) (c1 + c2) h.
Proof.
  intros (a & Hm & HQ) Hf s Hs. unfold bbind. rewrite (Hm s) by lia. unfold step.
  replace (capacity s <? used s + c1)%N with false by lia. cbn [obind fst snd].
  apply Hf; [exact HQ|]. cbn [used capacity]. lia.
Qed.

Lemma stops_guard {A} c (m : B A) x h : c = true -> stops m x h -> stops (_ <- bassert c ;; m) x h.
Proof. intros -> H s Hs. unfold bbind, bassert. cbn [obind fst snd]. apply H, Hs. Qed.

Lemma stops_more {A} (m : B A) c c' h : stops m c h -> (c <= c')%N -> stops m c' h.
Proof. intros H Hc s Hs. apply H. lia. Qed.

Lemma run_stops {A} L mem (b : B A) c h : stops b c h -> (c <= mem)%N -> run L mem b = halted A h.
Proof.
  intros H Hc. unfold run, bbind. rewrite H by (cbn; lia). destruct h; reflexivity.
Qed.

Section Stops.
Context {V : Type} (P : prim V) (L : lib).
Notation TC := (get_tensor_size L).

(** A head count that does not divide the hidden size. *)
Lemma attention_aborts hp y s n x X :
  row_ops_ok P ->
  block_is P (hidden_dim hp) (intermediate_dim hp) y s ->
  hidden_dim hp <> (hidden_dim hp / attn_heads hp) * attn_heads hp ->
  0 < hidden_dim hp -> 0 < n -> mat P x n (hidden_dim hp) X ->
  stops (self_attention P L hp y n x) (3 * TC F32 (hidden_dim hp) n 1 1) HAbort.
Proof.
  intros OK Hb Hd Hh Hn Hx. unfold self_attention.
  eapply stops_more.
  { eapply stops_after.
    - exact (does_dense P L x _ _ n _ _ X _ _ Hx (b_qw _ _ _ _ _ Hb) (b_qb _ _ _ _ _ Hb) Hn Hh).
    - intros q Hq. apply (stops_first _ _ 0 HAbort). unfold g_reshape. apply stops_guard.
      + destruct Hq as (-> & _). apply packed_contiguous.
      + intros a Ha. destruct Hq as (Eq & _). unfold bbind, bassert, numel. rewrite Eq.
        cbn [ne0 ne1 ne2 ne3 packed].
        replace (hidden_dim hp * n * 1 * 1 =? hidden_dim hp / attn_heads hp * attn_heads hp * n * 1) with false; [reflexivity|].
        symmetry. apply Nat.eqb_neq. nia. }
  lia.
Qed.

(** An activation the encoder does not know. *)
Lemma intermediate_fails hp y s n x X :
  row_ops_ok P ->
  block_is P (hidden_dim hp) (intermediate_dim hp) y s -> hidden_act hp <> Gelu ->
  0 < intermediate_dim hp -> 0 < n -> mat P x n (hidden_dim hp) X ->
  stops (intermediate P L hp y x) (3 * TC F32 (intermediate_dim hp) n 1 1) HFail.
Proof.
  intros OK Hb Ha Hi Hn Hx. unfold intermediate.
  eapply stops_more.
  { eapply stops_after.
    - exact (does_dense P L x _ _ n _ _ X _ _ Hx (b_iw _ _ _ _ _ Hb) (b_ib _ _ _ _ _ Hb) Hn Hi).
    - intros r Hr. apply (stops_first _ _ 0 HFail). intros s' _. destruct (hidden_act hp); congruence || reflexivity. }
  lia.
Qed.

(** The first layer of a graph. *)
Lemma graph_first_layer m words rows s tokens segments last p c h :
  row_ops_ok P -> weights_are P (em_hp m) words rows (em_weights m) s ->
  0 < hidden_dim (em_hp m) -> attn_heads (em_hp m) <> 0 ->
  0 < length tokens -> length segments = length tokens ->
  1 <= last -> last <= n_layers (em_hp m) ->
  (forall y b x X, block_is P (hidden_dim (em_hp m)) (intermediate_dim (em_hp m)) y b ->
     mat P x (length tokens) (hidden_dim (em_hp m)) X ->
     stops (x <- self_attention P L (em_hp m) y (length tokens) x ;; intermediate P L (em_hp m) y x) c h) ->
  stops (build_graph P L (em_kind m) (em_hp m) (em_weights m) last p tokens segments)
    (embed_bytes L (hidden_dim (em_hp m)) (length tokens) + c) h.
Proof.
  intros OK Hw Hh Hhd Hn Hs Hl1 Hl2 HB. unfold build_graph.
  eapply stops_after.
  - exact (does_embed_any P L OK (em_hp m) words rows (em_weights m) s _ tokens segments Hw Hh Hn
      (positions_length (em_kind m) tokens) Hs).
  - intros x (X & Hx).
    replace (attn_heads (em_hp m) =? 0) with false by (symmetry; apply Nat.eqb_neq; exact Hhd).
    apply stops_first. destruct last as [|last]; [lia|].
    pose proof (w_count _ _ _ _ _ _ Hw) as HC. pose proof (w_layers _ _ _ _ _ _ Hw) as HL.
    destruct HL as [|y b ys bs Hb _]; [simpl in HC; lia|].
    cbn [encode]. intros st Hst. specialize (HB y b x X Hb Hx st Hst).
    unfold bbind in HB |- *.
    destruct (self_attention P L (em_hp m) y (length tokens) x st) as [(r & st')| | |]; cbn [obind fst snd] in *;
      try (destruct h; cbn in *; congruence).
    rewrite HB. destruct h; reflexivity.
Qed.

Lemma eval_heads_abort m words rows s tokens segments c last cells cnt :
  row_ops_ok P -> weights_are P (em_hp m) words rows (em_weights m) s ->
  0 < hidden_dim (em_hp m) -> attn_heads (em_hp m) <> 0 ->
  hidden_dim (em_hp m) mod attn_heads (em_hp m) <> 0 ->
  (N.of_nat (n_layers (em_hp m)) < 4294967296)%N ->
  valid_request (em_hp m) tokens segments c -> 0 < length tokens ->
  names_layer (n_layers (em_hp m)) (output_layer c) last -> 1 <= last ->
  fits (get_context_buffer_size L (length tokens) (em_hp m) (pool_type c)) last ->
  eval P L m tokens segments c (Some cells) cnt = Abort.
Proof.
  intros OK Hw Hh Hhd Hmod HN Hv Hn Hl Hl1 Hf.
  destruct (eval_valid P L m tokens segments c cells cnt last Hv Hl ltac:(lia)) as (need & _ & ->).
  assert (ND : hidden_dim (em_hp m) <> hidden_dim (em_hp m) / attn_heads (em_hp m) * attn_heads (em_hp m)).
  { pose proof (Nat.div_mod (hidden_dim (em_hp m)) (attn_heads (em_hp m)) Hhd). nia. }
  pose proof (names_bound _ _ _ Hl) as Hl2.
  rewrite (run_stops L _ _ (embed_bytes L (hidden_dim (em_hp m)) (length tokens)
             + 3 * TC F32 (hidden_dim (em_hp m)) (length tokens) 1 1) HAbort).
  - reflexivity.
  - apply (graph_first_layer m words rows s); try assumption; [exact (v_segments _ _ _ _ Hv)|].
    intros y b x X Hb Hx. apply stops_first. exact (attention_aborts _ y b _ x X OK Hb ND Hh Hn Hx).
  - rewrite (fits_w64 _ _ Hf). unfold get_context_buffer_size. cbn [z_emb z_layer z_pooler z_graph].
    replace (n_layers (em_hp m) =? 0) with false by (symmetry; apply Nat.eqb_neq; lia).
    unfold embed_bytes. set (T := TC F32 (hidden_dim (em_hp m)) (length tokens) 1 1).
    set (U := TC I32 (length tokens) 1 1 1).
    match goal with |- (_ <= _ + ?Z * _ + _ + _)%N => assert (HZ : (3 * T <= Z)%N) by lia; generalize dependent Z end.
    intros Z HZ. nia.
Qed.

Lemma eval_activation_fails m words rows s tokens segments c last cells cnt :
  row_ops_ok P -> weights_are P (em_hp m) words rows (em_weights m) s ->
  0 < hidden_dim (em_hp m) -> 0 < intermediate_dim (em_hp m) ->
  hidden_dim (em_hp m) = hidden_dim (em_hp m) / attn_heads (em_hp m) * attn_heads (em_hp m) ->
  hidden_act (em_hp m) <> Gelu ->
  (N.of_nat (n_layers (em_hp m)) < 4294967296)%N ->
  valid_request (em_hp m) tokens segments c -> 0 < length tokens ->
  names_layer (n_layers (em_hp m)) (output_layer c) last -> 1 <= last ->
  fits (get_context_buffer_size L (length tokens) (em_hp m) (pool_type c)) last ->
  exists need, eval P L m tokens segments c (Some cells) cnt = Ok (mkev false (Some cells) (Some need)).
Proof.
  intros OK Hw Hh Hi Hd Ha HN Hv Hn Hl Hl1 Hf.
  destruct (eval_valid P L m tokens segments c cells cnt last Hv Hl ltac:(lia)) as (need & _ & ->).
  pose proof (names_bound _ _ _ Hl) as Hl2.
  assert (Hhd : attn_heads (em_hp m) <> 0).
  { intros E. rewrite E, Nat.mul_0_r in Hd. lia. }
  rewrite (run_stops L _ _ (embed_bytes L (hidden_dim (em_hp m)) (length tokens)
             + (attention_bytes L (hidden_dim (em_hp m)) (attn_heads (em_hp m)) (length tokens)
             + 3 * TC F32 (intermediate_dim (em_hp m)) (length tokens) 1 1)) HFail).
  - exists need. reflexivity.
  - apply (graph_first_layer m words rows s); try assumption; [exact (v_segments _ _ _ _ Hv)|].
    intros y b x X Hb Hx. eapply stops_after.
    + exact (does_attention P L OK (em_hp m) y b _ x X Hb Hd Hh Hn Hx).
    + intros x1 Hx1. exact (intermediate_fails _ y b _ x1 _ OK Hb Ha Hi Hn Hx1).
  - rewrite (estimate_fits L _ _ _ _ Hd (v_pool _ _ _ _ Hv) Hl2 Hf).
    unfold graph_cost, layer_bytes, intermediate_bytes.
    set (T := TC F32 (intermediate_dim (em_hp m)) (length tokens) 1 1).
    set (U := TC F32 (hidden_dim (em_hp m)) (length tokens) 1 1).
    set (A := attention_bytes L (hidden_dim (em_hp m)) (attn_heads (em_hp m)) (length tokens)). nia.
Qed.

(** No tokens: a remainder of a division by zero. *)
Lemma eval_no_tokens m words rows s c cells cnt last :
  weights_are P (em_hp m) words rows (em_weights m) s -> 0 < hidden_dim (em_hp m) ->
  (N.of_nat (n_layers (em_hp m)) < 4294967296)%N ->
  valid_request (em_hp m) [] [] c -> names_layer (n_layers (em_hp m)) (output_layer c) last ->
  eval P L m [] [] c (Some cells) cnt = UB.
Proof.
  intros Hw Hh HN Hv Hl.
  destruct (eval_valid P L m [] [] c cells cnt last Hv Hl ltac:(lia)) as (need & _ & ->).
  assert (HU : forall s, build_graph P L (em_kind m) (em_hp m) (em_weights m) last (pool_type c) [] [] s = UB).
  { intros st. destruct (w_words _ _ _ _ _ _ Hw) as (A0 & _ & A2 & _).
    destruct (w_pos _ _ _ _ _ _ Hw) as (B0 & _ & B2 & _).
    replace (positions (em_kind m) []) with (@nil Z) by (destruct (em_kind m); reflexivity).
    unfold build_graph, embed, new_indices, g_get_rows, g_add, bassert, bmultiples, extents, bbind, step.
    replace (positions (em_kind m) []) with (@nil Z) by (destruct (em_kind m); reflexivity).
    rewrite A0, A2, B0, B2. cbn [Nat.eqb map length].
    repeat (cbn [obind fst snd capacity used nodes lookups];
            match goal with |- context [(?x <? ?y)%N] => destruct (x <? y)%N end; [reflexivity|]).
    cbn [obind fst snd packed ne0 ne1 ne2 ne3].
    rewrite Nat.eqb_refl. cbn [obind fst snd].
    assert (E0 : (hidden_dim (em_hp m) =? 0) = false) by (apply Nat.eqb_neq; lia).
    rewrite E0. unfold bassert. rewrite mod_self. reflexivity. }
  unfold run, bbind at 1. cbn [length]. rewrite HU. reflexivity.
Qed.
End Stops.

(** ** Overruns of the top-k loop *)
Lemma gather_outcome {V} (probs : list V) base ids :
  (exists ps, gather probs base ids = Ok ps /\ length ps = length ids) \/ gather probs base ids = UB.
Proof.
  induction ids as [|i ids IH]; cbn [gather]; [left; eexists; split; reflexivity|].
  destruct (nth_error probs (base + i)) as [p|]; [|right; reflexivity].
  destruct IH as [(ps & -> & E)| ->]; [left; eexists; split; [reflexivity|simpl; congruence]|right; reflexivity].
Qed.

(** One round either overruns or leaves buffers of the same length. *)
Lemma top_round {V} (ids : list nat) (probs : list V) k max t out outp rest :
  (t * max + k <= length ids /\ t * k + k <= length out /\ t * k + k <= length outp /\
   exists out' outp', length out' = length out /\ length outp' = length outp /\
     top_rows ids probs k max (t :: rest) out outp = top_rows ids probs k max rest out' outp')
  \/ top_rows ids probs k max (t :: rest) out outp = UB.
Proof.
  cbn [top_rows]. unfold read_at.
  destruct (length ids <? t * max + k) eqn:E1; [right; reflexivity|]. apply Nat.ltb_ge in E1.
  cbn [obind]. set (top := firstn k (skipn (t * max) ids)).
  assert (TL : length top = k) by (unfold top; rewrite firstn_length, skipn_length; lia).
  unfold write_at. rewrite TL.
  destruct (length out <? t * k + k) eqn:E2; [right; reflexivity|]. apply Nat.ltb_ge in E2.
  cbn [obind].
  destruct (gather_outcome probs (t * max) top) as [(ps & -> & PL)| ->]; [|right; reflexivity].
  cbn [obind]. rewrite PL, TL.
  destruct (length outp <? t * k + k) eqn:E3; [right; reflexivity|]. apply Nat.ltb_ge in E3.
  left. repeat (split; [assumption|]). cbn [obind].
  exists (firstn (t * k) out ++ top ++ skipn (t * k + k) out),
         (firstn (t * k) outp ++ ps ++ skipn (t * k + k) outp).
  split; [rewrite !app_length, firstn_length, skipn_length; lia|].
  split; [rewrite !app_length, firstn_length, skipn_length; lia|reflexivity].
Qed.

Lemma top_rows_overrun {V} (ids : list nat) (probs : list V) k max : forall r t out outp,
  length ids < (t + r) * max + k \/ length out < (t + r) * k + k \/ length outp < (t + r) * k + k ->
  top_rows ids probs k max (seq t (S r)) out outp = UB.
Proof.
  induction r as [|r IH]; intros t out outp H.
  1: destruct (top_round ids probs k max t out outp []) as [(A & B & C & out' & outp' & LO & LP & E)|E];
     [|exact E].
  2: destruct (top_round ids probs k max t out outp (seq (S t) (S r)))
       as [(A & B & C & out' & outp' & LO & LP & E)|E]; [|exact E].
  - exfalso. rewrite Nat.add_0_r in H. lia.
  - change (seq t (S (S r))) with (t :: seq (S t) (S r)). rewrite E. apply IH. rewrite LO, LP. replace (S t + r) with (t + S r) by lia. exact H.
Qed.
