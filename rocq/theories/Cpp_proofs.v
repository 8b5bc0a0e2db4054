(** The shape of the hidden states. *)
From Verif Require Import Base Ggml_model Encoder_model Encoder_spec Encoder_proofs Eval_model Eval_spec Eval_proofs.
Local Open Scope nat_scope.

(** One row per token, each of the hidden size. *)
Lemma states_shape {V} (P : prim V) m words rows s tokens segments c last :
  sound P m words rows s -> valid_request (em_hp m) tokens segments c -> 0 < length tokens ->
  last <= n_layers (em_hp m) ->
  Forall (fun t => (t < 4294967296)%N) tokens ->
  known_tokens words tokens -> enough_rows (em_kind m) rows tokens ->
  length (hidden_states P m s last tokens segments (position_ids (em_kind m) tokens)) = length tokens /\
  Forall (fun r => length r = hidden_dim (em_hp m))
    (hidden_states P m s last tokens segments (position_ids (em_kind m) tokens)).
Proof.
  intros Hs Hv Hn Hl Hu Hk He.
  assert (El := proj2 (request_lookups P m words rows s tokens segments c Hs Hv Hn Hu) (conj Hk He)).
  apply looked_up_true in El. inversion El as [|? ? I1 El1]; subst. inversion El1 as [|? ? I2 El2]; subst.
  inversion El2 as [|? ? I3 _]; subst. cbn [fst snd] in I1, I2, I3.
  pose (L := mklib 0 0 1 0 0).
  assert (D := does_build_graph P L (s_rows_ok _ _ _ _ _ Hs) (em_kind m) (em_hp m) words rows
    (em_weights m) s last PoolNone tokens segments (s_weights _ _ _ _ _ Hs) (s_heads _ _ _ _ _ Hs)
    (s_hidden _ _ _ _ _ Hs) (or_intror (conj (s_act _ _ _ _ _ Hs) (s_inter _ _ _ _ _ Hs)))
    ltac:(discriminate) Hl Hn (v_segments _ _ _ _ Hv) I1 I3 I2).
  destruct (run_does L 0 _ _ _ _ _ D) as (t & Ht & _). destruct Ht as (_ & HL & HF & _).
  unfold hidden_states.
  rewrite <- positions_spec by exact (small_pad_sound P m words rows s tokens Hs (v_tokens _ _ _ _ Hv)).
  apply word_ids in I1; [|exact Hu|exact (s_words _ _ _ _ _ Hs)].
  rewrite (small_ids words tokens (s_words _ _ _ _ _ Hs) I1) in HL, HF.
  rewrite (small_ids (segment_count (em_hp m)) segments) in HL, HF
    by (exact (v_range _ _ _ _ Hv) || (pose proof (s_segs _ _ _ _ _ Hs); lia)).
  split; [exact HL|exact HF].
Qed.

(** Rows of one length can be cut apart again. *)
Lemma cut_rows {V} h (M : list (list V)) : Forall (fun r => length r = h) M -> s_cut h (length M) (concat M) = M.
Proof.
  unfold s_cut. intros H. induction H as [|r M Hr H IH]; [reflexivity|].
  cbn [length seq map concat]. f_equal.
  - cbn [Nat.mul skipn]. rewrite firstn_app, Hr, Nat.sub_diag, firstn_O, app_nil_r. rewrite <- Hr. apply firstn_all.
  - rewrite <- seq_shift, map_map. rewrite <- IH at 2. apply map_ext. intros j. cbn [Nat.mul].
    rewrite skipn_app, Hr. rewrite (skipn_all2 r) by (rewrite Hr; lia). cbn [app].
    replace (h + j * h - h) with (j * h) by lia. reflexivity.
Qed.
