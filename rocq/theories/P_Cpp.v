(** Theorems about the C++ overloads, the initial settings and the kind of a model. *)
From Verif Require Import Base Vocab_model Roberta_model Ggml_model Encoder_model Encoder_spec Eval_model Eval_spec Eval_proofs P_Eval
  Loader_model Loader_spec Loader_proofs P_Loader Cpp_model Cpp_proofs.
Local Open Scope nat_scope.

(** ** C135: the two interfaces *)

(** A vector and a count are the same request. *)
Theorem C135_cpp_is_c {V} (P : prim V) L ctx tokens extra c out cnt :
  cpp_eval P L ctx tokens c out cnt =
  berts_eval P L ctx (tokens ++ extra) None (length tokens) (Some c) out (Some cnt) /\
  forall segments more, length segments = length tokens ->
    cpp_eval_segments P L ctx tokens segments c out cnt =
    berts_eval P L ctx (tokens ++ extra) (Some (segments ++ more)) (length tokens) (Some c) out (Some cnt).
Proof.
  split.
  - destruct ctx as [| |m]; try reflexivity. cbn [cpp_eval berts_eval].
    replace (length (tokens ++ extra) <? length tokens) with false
      by (symmetry; apply Nat.ltb_ge; rewrite app_length; lia).
    rewrite firstn_app, Nat.sub_diag, firstn_all, firstn_O, app_nil_r. reflexivity.
  - intros segments more E. destruct ctx as [| |m]; try reflexivity. cbn [cpp_eval_segments berts_eval].
    replace (length (tokens ++ extra) <? length tokens) with false
      by (symmetry; apply Nat.ltb_ge; rewrite app_length; lia).
    replace (length (segments ++ more) <? length tokens) with false
      by (symmetry; apply Nat.ltb_ge; rewrite app_length; lia).
    rewrite !firstn_app, Nat.sub_diag, firstn_all, firstn_O, app_nil_r.
    rewrite <- E, Nat.sub_diag, firstn_all, firstn_O, app_nil_r. reflexivity.
Qed.
Print Assumptions C135_cpp_is_c.

(** Only the C++ interface can be given a segment list of another length; it refuses and
    leaves the caller's memory alone. *)
Theorem C135_unequal_lengths {V} (P : prim V) L ctx tokens segments c out cnt :
  length segments <> length tokens ->
  cpp_eval_segments P L ctx tokens segments c out cnt = Ok (mkev false out (Some cnt)).
Proof.
  intros H. destruct ctx as [| |m]; try reflexivity. cbn [cpp_eval_segments]. unfold eval.
  destruct (max_tokens (em_hp m) <? length tokens); [reflexivity|].
  replace (length tokens =? length segments) with false by (symmetry; apply Nat.eqb_neq; congruence). reflexivity.
Qed.
Print Assumptions C135_unequal_lengths.

Example C135_example :
  cpp_eval zprim lib64 (ELoaded demo) [0;2;1]%N (ask 0 PoolNone) (Some (repeat 0%Z 6)) 6%N =
    Ok (mkev true (Some [11;102;25;106;33;104]%Z) (Some 6%N)) /\
  cpp_eval_segments zprim lib64 (ELoaded demo) [0;2;1]%N [0;0;1]%N (ask 0 PoolNone) (Some (repeat 0%Z 6)) 6%N =
    Ok (mkev true (Some [11;102;25;106;33;204]%Z) (Some 6%N)) /\
  cpp_eval_segments zprim lib64 (ELoaded demo) [0;2;1]%N [0;0]%N (ask 0 PoolNone) (Some (repeat 0%Z 6)) 6%N =
    Ok (mkev false (Some (repeat 0%Z 6)) (Some 6%N)).
Proof. repeat split; vm_compute; reflexivity. Qed.

(** ** C136: the initial settings *)

(** A freshly initialised request for a model with at least one layer names its last
    layer and is answered by the pooler applied to the first token. *)
Theorem C136_initial_request {V} (P : prim V) L m words rows s toks segs count cells any c :
  arrays_ok toks segs count -> Forall (fun t => (t < 4294967296)%N) toks ->
  berts_init_eval_info (Some any) = Some c ->
  sound P m words rows s -> 1 <= n_layers (em_hp m) ->
  0 < count -> count <= max_tokens (em_hp m) ->
  Forall (fun s => (s < N.of_nat (segment_count (em_hp m)))%N) (given_segments segs count) ->
  fits (get_context_buffer_size L count (em_hp m) PoolCls) (n_layers (em_hp m)) ->
  encoder_nodes PoolCls (n_layers (em_hp m)) <= graph_nodes L ->
  known_tokens words (firstn count toks) -> enough_rows (em_kind m) rows (firstn count toks) ->
  length cells = hidden_dim (em_hp m) ->
  let states := hidden_states P m s (n_layers (em_hp m)) (firstn count toks) (given_segments segs count)
                  (position_ids (em_kind m) (firstn count toks)) in
  exists first, nth_error states 0 = Some first /\ length first = hidden_dim (em_hp m) /\
    berts_eval P L (ELoaded m) toks segs count (Some c) (Some cells) (Some (N.of_nat (length cells))) =
    Ok (mkev true (Some (concat (map (map (p_tanh P)) (s_dense P (sm_pw s) (sm_pb s) [first]))))
         (Some (N.of_nat (hidden_dim (em_hp m))))).
Proof.
  intros Ha Hu Hc Hs Hl Hn Hm Hr Hf Hg Hk He HL states.
  cbn [berts_init_eval_info] in Hc. injection Hc as <-.
  assert (LT : length (firstn count toks) = count) by (rewrite firstn_length; destruct Ha; lia).
  assert (LS : length (given_segments segs count) = count).
  { destruct segs as [sg|]; cbn; [|apply repeat_length]. destruct Ha as (_ & Ha). rewrite firstn_length. lia. }
  assert (R : runnable P L m words rows s (firstn count toks) (given_segments segs count) (mkei (-1) PoolCls)
                (n_layers (em_hp m))).
  { constructor; cbn [pool_type output_layer]; try assumption; rewrite ?LT; try assumption.
    - constructor; cbn [pool_type output_layer]; rewrite ?LT; try assumption; try discriminate; lia.
    - replace (-1)%Z with (- Z.of_nat 1)%Z by reflexivity.
      replace (n_layers (em_hp m)) with (n_layers (em_hp m) + 1 - 1) at 2 by lia. constructor; lia. }
  pose proof (C91_encoder_values P L m words rows s toks segs count _ _ cells Ha Hu R Hk He HL) as E.
  cbn [pool_type] in E. cbv zeta in E.
  destruct (runs P L m words rows s toks segs count _ _ cells (N.of_nat (length cells)) Ha Hu R Hk He) as (LA & _).
  { cbn [pool_type]. rewrite Nat2N.id. apply Nat.le_min_l. }
  assert (Hu' : Forall (fun t => (t < 4294967296)%N) (firstn count toks)).
  { apply Forall_forall. intros t Ht. rewrite Forall_forall in Hu. apply Hu. eapply firstn_in, Ht. }
  destruct (states_shape P m words rows s (firstn count toks) (given_segments segs count) _ (n_layers (em_hp m)) Hs
    (r_valid _ _ _ _ _ _ _ _ _ _ R) ltac:(lia) ltac:(lia) Hu' Hk He) as (SL & SF). fold states in SL, SF.
  destruct states as [|first rest] eqn:Est; [cbn in SL; lia|].
  exists first. split; [reflexivity|]. inversion SF; subst. split; [assumption|].
  rewrite E. cbn [pool_type] in LA. unfold answer in LA. fold states in LA. rewrite Est in LA.
  unfold states, hidden_states, s_encode in Est. rewrite Est. cbn [s_pooled nth] in *.
  cbn [s_output s_pooled nth values] in LA. rewrite LA. reflexivity.
Qed.
Print Assumptions C136_initial_request.

Theorem C136_null_ignored : berts_init_eval_info None = None /\ berts_init_eval_lm_info None = None.
Proof. split; reflexivity. Qed.
Print Assumptions C136_null_ignored.

(** The embedding alone (no layers): there is no last layer to name. *)
Definition flat_hp : hparams := mkhp 2 0 1 4 3 2 Gelu 4427486594234968593.
Definition flat : emodel Z :=
  mkem Z Bert flat_hp
    (mkweights Z (matrix_tensor (sm_words demo_sm) 3 2) (matrix_tensor (sm_segments demo_sm) 2 2)
       (matrix_tensor (sm_positions demo_sm) 4 2) (vector_tensor (sm_lw demo_sm) 2) (vector_tensor (sm_lb demo_sm) 2)
       [] (matrix_tensor (sm_pw demo_sm) 2 2) (vector_tensor (sm_pb demo_sm) 2) None) 3.
Definition flat_sm : s_model Z :=
  mksm (sm_words demo_sm) (sm_positions demo_sm) (sm_segments demo_sm) (sm_lw demo_sm) (sm_lb demo_sm) []
    (sm_pw demo_sm) (sm_pb demo_sm).

Lemma flat_sound : sound zprim flat 3 4 flat_sm.
Proof.
  pose proof demo_sound as D. pose proof demo_weights_are as W.
  constructor; try (cbn; lia); try reflexivity.
  - exact (Build_weights_are zprim flat_hp 3 4 (em_weights flat) flat_sm (w_words _ _ _ _ _ _ W) (w_segs _ _ _ _ _ _ W)
      (w_pos _ _ _ _ _ _ W) (w_lw _ _ _ _ _ _ W) (w_lb _ _ _ _ _ _ W) (Forall2_nil _) eq_refl
      (w_pw _ _ _ _ _ _ W) (w_pb _ _ _ _ _ _ W)).
  - exact zprim_rows.
Qed.

(** So "a freshly initialised request is accepted by every model" is false. *)
Theorem C136_always_accepted_refuted : exists (m : emodel Z) words rows s any c,
  sound zprim m words rows s /\ berts_init_eval_info (Some any) = Some c /\
  berts_eval zprim lib64 (ELoaded m) [0;2]%N None 2 (Some c) (Some [0;0]%Z) (Some 2%N) =
    Ok (mkev false (Some [0;0]%Z) (Some 2%N)) /\
  berts_eval zprim lib64 (ELoaded m) [0;2]%N None 2 (Some (mkei 0 PoolCls)) (Some [0;0]%Z) (Some 2%N) =
    Ok (mkev true (Some [18;110]%Z) (Some 2%N)).
Proof.
  exists flat, 3, 4, flat_sm, (mkei 5 PoolMax). eexists.
  split; [exact flat_sound|]. split; [reflexivity|]. split; vm_compute; reflexivity.
Qed.
Print Assumptions C136_always_accepted_refuted.

Example C136_example : exists c, berts_init_eval_info (Some (ask 7 PoolMax)) = Some c /\
  berts_eval zprim lib64 (ELoaded demo) [0;2;1]%N (Some [0;0;1]%N) 3 (Some c) (Some [0;0]%Z) (Some 2%N) =
  berts_eval zprim lib64 (ELoaded demo) [0;2;1]%N (Some [0;0;1]%N) 3 (Some (ask 1 PoolCls)) (Some [0;0]%Z) (Some 2%N).
Proof. eexists. split; [reflexivity|]. vm_compute. reflexivity. Qed.

(** ** C137: one evaluation serves all pooling types *)

(** The pooled results of a layer are functions of its unpooled result. *)
Theorem C137_pooled_from_states {V} (P : prim V) L m words rows s toks segs count p l last cells cells' :
  arrays_ok toks segs count -> Forall (fun t => (t < 4294967296)%N) toks ->
  runnable P L m words rows s (firstn count toks) (given_segments segs count) (mkei l PoolNone) last ->
  runnable P L m words rows s (firstn count toks) (given_segments segs count) (mkei l p) last -> p <> PoolNone ->
  known_tokens words (firstn count toks) -> enough_rows (em_kind m) rows (firstn count toks) ->
  length cells = count * hidden_dim (em_hp m) -> length cells' = hidden_dim (em_hp m) ->
  exists x y,
    berts_eval P L (ELoaded m) toks segs count (Some (mkei l PoolNone)) (Some cells) (Some (N.of_nat (length cells))) =
      Ok (mkev true (Some x) (Some (N.of_nat (length cells)))) /\
    berts_eval P L (ELoaded m) toks segs count (Some (mkei l p)) (Some cells') (Some (N.of_nat (length cells'))) =
      Ok (mkev true (Some y) (Some (N.of_nat (length cells')))) /\
    y = concat (map (map (p_tanh P)) (s_dense P (sm_pw s) (sm_pb s)
          [s_pooled P p (s_cut (hidden_dim (em_hp m)) count x)])).
Proof.
  intros Ha Hu R0 R1 Hp Hk He HL HL'.
  assert (LT : length (firstn count toks) = count) by (rewrite firstn_length; destruct Ha; lia).
  assert (Hu' : Forall (fun t => (t < 4294967296)%N) (firstn count toks)).
  { apply Forall_forall. intros t Ht. rewrite Forall_forall in Hu. apply Hu. eapply firstn_in, Ht. }
  destruct (runs P L m words rows s toks segs count _ _ cells (N.of_nat (length cells)) Ha Hu R0 Hk He) as (LA & E).
  { rewrite Nat2N.id. apply Nat.le_min_l. }
  destruct (runs P L m words rows s toks segs count _ _ cells' (N.of_nat (length cells')) Ha Hu R1 Hk He) as (LA' & E').
  { rewrite Nat2N.id. apply Nat.le_min_l. }
  assert (Ev : values (em_hp m) p count = hidden_dim (em_hp m)) by (destruct p; [congruence|reflexivity..]).
  cbn [pool_type] in *. rewrite Ev in *. cbn [values] in LA, E.
  rewrite Nat2N.id in E, E'. rewrite HL, Nat.min_id in E. rewrite HL', Nat.min_id in E'.
  rewrite <- LA, firstn_all in E. rewrite <- LA', firstn_all in E'.
  rewrite LA in E. rewrite LA' in E'.
  rewrite skipn_all2, app_nil_r in E by lia. rewrite skipn_all2, app_nil_r in E' by lia.
  eexists. eexists. rewrite HL, HL'. split; [exact E|]. split; [exact E'|].
  destruct (states_shape P m words rows s (firstn count toks) (given_segments segs count) _ last
    (r_sound _ _ _ _ _ _ _ _ _ _ R0)
    (r_valid _ _ _ _ _ _ _ _ _ _ R0) (r_some _ _ _ _ _ _ _ _ _ _ R0) (names_bound _ _ _ (r_layer _ _ _ _ _ _ _ _ _ _ R0))
    Hu' Hk He) as (SL & SF).
  unfold answer. cbn [s_output]. rewrite LT in SL. pose proof (cut_rows _ _ SF) as CR. rewrite SL in CR. rewrite CR.
  destruct p; [congruence|reflexivity..].
Qed.
Print Assumptions C137_pooled_from_states.

Example C137_example :
  match berts_eval zprim lib64 (ELoaded demo) [0;2;1]%N None 3 (Some (ask 0 PoolNone)) (Some (repeat 0%Z 6)) (Some 6%N),
        berts_eval zprim lib64 (ELoaded demo) [0;2;1]%N None 3 (Some (ask 0 PoolAvg)) (Some [0;0]%Z) (Some 2%N) with
  | Ok (mkev true (Some x) _), Ok (mkev true (Some y) _) =>
      x = [11;102;25;106;33;104]%Z /\ s_pooled zprim PoolAvg (s_cut 2 3 x) = [69;312]%Z /\ y = [69+7;312+8]%Z
  | _, _ => False
  end.
Proof. vm_compute. repeat split. Qed.

(** ** C138: what comes after the named layer does not matter *)

(** Two models that agree up to layer [last] answer alike, whatever their other layers
    and however many they have. *)
Theorem C138_later_layers {V} (P : prim V) L m m' words rows s s' toks segs count p l l' last cells :
  arrays_ok toks segs count -> Forall (fun t => (t < 4294967296)%N) toks ->
  runnable P L m words rows s (firstn count toks) (given_segments segs count) (mkei l p) last ->
  runnable P L m' words rows s' (firstn count toks) (given_segments segs count) (mkei l' p) last ->
  known_tokens words (firstn count toks) -> enough_rows (em_kind m) rows (firstn count toks) ->
  em_kind m' = em_kind m -> hidden_dim (em_hp m') = hidden_dim (em_hp m) ->
  attn_heads (em_hp m') = attn_heads (em_hp m) -> ln_eps (em_hp m') = ln_eps (em_hp m) ->
  sm_words s' = sm_words s -> sm_positions s' = sm_positions s -> sm_segments s' = sm_segments s ->
  sm_lw s' = sm_lw s -> sm_lb s' = sm_lb s -> sm_pw s' = sm_pw s -> sm_pb s' = sm_pb s ->
  firstn last (sm_blocks s') = firstn last (sm_blocks s) ->
  length cells = values (em_hp m) p count ->
  berts_eval P L (ELoaded m') toks segs count (Some (mkei l' p)) (Some cells) (Some (N.of_nat (length cells))) =
  berts_eval P L (ELoaded m) toks segs count (Some (mkei l p)) (Some cells) (Some (N.of_nat (length cells))).
Proof.
  intros Ha Hu R R' Hk He E1 E2 E3 E4 E5 E6 E7 E8 E9 E10 E11 E12 HL.
  assert (HL' : length cells = values (em_hp m') p count).
  { rewrite HL. unfold values. rewrite E2. reflexivity. }
  pose proof (C91_encoder_values P L m words rows s toks segs count _ _ cells Ha Hu R Hk He HL) as A.
  rewrite <- E1 in He.
  pose proof (C91_encoder_values P L m' words rows s' toks segs count _ _ cells Ha Hu R' Hk He HL') as A'.
  cbv zeta in A, A'. rewrite A, A'. rewrite E1, E2, E3, E4, E5, E6, E7, E8, E9, E10, E11, E12. reflexivity.
Qed.
Print Assumptions C138_later_layers.

(** The demo model, layer 0, against the model without layers. *)
Example C138_example :
  berts_eval zprim lib64 (ELoaded flat) [0;2;1]%N (Some [0;0;1]%N) 3 (Some (ask 0 PoolMax)) (Some [0;0]%Z) (Some 2%N) =
  berts_eval zprim lib64 (ELoaded demo) [0;2;1]%N (Some [0;0;1]%N) 3 (Some (ask 0 PoolMax)) (Some [0;0]%Z) (Some 2%N).
Proof.
  assert (R : forall m s, sound zprim m 3 4 s -> max_tokens (em_hp m) = 4 -> segment_count (em_hp m) = 2 ->
    fits (get_context_buffer_size lib64 3 (em_hp m) PoolMax) 0 ->
    runnable zprim lib64 m 3 4 s [0;2;1]%N [0;0;1]%N (ask 0 PoolMax) 0).
  { intros m s Hs Hm Hg Hf. constructor; try assumption; cbn; try lia.
    - constructor; cbn; rewrite ?Hm, ?Hg; try lia; [repeat constructor|discriminate].
    - change 0%Z with (Z.of_nat 0). constructor. lia. }
  apply (C138_later_layers zprim lib64 demo flat 3 4 demo_sm flat_sm [0;2;1]%N (Some [0;0;1]%N) 3 PoolMax 0 0 0 [0;0]%Z);
    try reflexivity.
  - exact demo_arrays.
  - repeat constructor.
  - apply R; try reflexivity. exact demo_sound.
  - apply R; try reflexivity. exact flat_sound.
  - exact demo_known.
  - exact demo_rows.
Qed.

(** ** C139: the kind of a loaded model *)

(** The kind is the file's; it is one of the two known kinds, and never the value that
    stands for no model. *)
Theorem C139_kind_of_model : forall L junk V (value : gty -> list N -> nat -> V) order f reopen m,
  lib_ok L -> load_from_file L junk value order (Some f) reopen = Ok (Loaded m) ->
  f_set f S_bert_type = Some (SU32 (berts_arch (Some m))) /\
  ((berts_arch (Some m) = 0%N /\ em_kind (evaluator m) = Bert) \/
   (berts_arch (Some m) = 1%N /\ exists pad, em_kind (evaluator m) = Roberta pad)) /\
  berts_arch (Some m) <> berts_arch (V := V) None.
Proof.
  intros L junk V value order f reopen m HL H.
  destruct (loaded_inv L HL junk value order f reopen m H) as (_ & made & arch & layers & Hm & HLd & Es & _ & Hv & _).
  destruct (read_settings_ok f _ Es) as (_ & arch' & vocab & h & layers' & heads & max & inter & segs & act & eps &
    E1 & E2 & E3 & E4 & E5 & E6 & E7 & E8 & E9 & Ee & E10).
  assert (Ea : berts_arch (Some m) = arch').
  { cbn [berts_arch]. rewrite E10. reflexivity. }
  rewrite Ea. split; [exact E1|].
  rewrite (l_arch _ _ _ _ _ HLd) in E1. injection E1 as <-. cbn [berts_arch]. unfold vocabulary in Hv. unfold evaluator.
  destruct (l_supported _ _ _ _ _ HLd) as [->| ->]; cbn [N.eqb] in Hv.
  - destruct (bert_init_vocab _ _ _); try discriminate. injection Hv as <-. split; [left; split; reflexivity|discriminate].
  - destruct (roberta_init_vocab _ _ _ _ _); try discriminate. injection Hv as <-.
    split; [right; split; [reflexivity|eexists; reflexivity]|discriminate].
Qed.
Print Assumptions C139_kind_of_model.

Example C139_example :
  match d_load d_file with
  | Ok (Loaded m) => berts_arch (Some m) = 0%N
  | _ => False
  end.
Proof. vm_compute. reflexivity. Qed.
