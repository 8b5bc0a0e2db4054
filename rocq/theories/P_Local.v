(** What the embedding layer looks at: C152. *)
From Coq Require Import Permutation.
From Verif Require Import Base Api_model Ggml_model Encoder_model Encoder_spec Encoder_proofs Eval_model Eval_spec Eval_proofs
  Cpp_proofs P_Eval Real_spec Real_proofs.
Local Open Scope nat_scope.

Lemma positions_prefix f a b : firstn (length a) (position_ids f (a ++ b)) = position_ids f a.
Proof.
  destruct f as [|pad]; cbn [position_ids]; rewrite app_length, seq_app, map_app, firstn_app, map_length, seq_length, Nat.sub_diag;
    cbn [firstn]; rewrite app_nil_r, firstn_all2 by (rewrite map_length, seq_length; lia); [reflexivity|].
  apply map_ext_in. intros i Hi. apply in_seq in Hi. rewrite app_nth1 by lia. unfold ordinary.
  rewrite firstn_app. replace (S i - length a) with 0 by lia. cbn [firstn]. rewrite app_nil_r. reflexivity.
Qed.
Lemma positions_count f a : length (position_ids f a) = length a.
Proof. destruct f; cbn [position_ids]; rewrite map_length, seq_length; reflexivity. Qed.

(** The rows of the first tokens. *)
Lemma embedding_prefix {V} (P : prim V) m s a b sa sb : length sa = length a -> length sb = length b ->
  firstn (length a) (hidden_states P m s 0 (a ++ b) (sa ++ sb) (position_ids (em_kind m) (a ++ b))) =
  hidden_states P m s 0 a sa (position_ids (em_kind m) a).
Proof.
  intros Ha Hb. unfold hidden_states, s_encode. cbn [firstn fold_left].
  rewrite !s_embed_rows by (rewrite ?positions_count, ?map_length, ?app_length; lia).
  rewrite firstn_map, combine_firstn, combine_firstn, positions_prefix. do 3 f_equal; [|].
  - rewrite firstn_map, firstn_app, Nat.sub_diag, firstn_all. cbn [firstn]. rewrite app_nil_r. reflexivity.
  - rewrite firstn_map, firstn_app, <- Ha, Nat.sub_diag, firstn_all. cbn [firstn]. rewrite app_nil_r. reflexivity.
Qed.

Lemma firstn_rows {A} (h : nat) : forall (x : list (list A)) k, Forall (fun r => length r = h) x -> k <= length x ->
  firstn (k * h) (concat x) = concat (firstn k x).
Proof.
  induction x as [|r x IH]; intros k F Hk; [destruct k; [reflexivity|cbn in Hk; lia]|].
  destruct k as [|k]; [reflexivity|]. apply Forall_cons_iff in F as (F1 & F2). cbn [concat firstn Nat.mul].
  rewrite firstn_app, F1. replace (h + k * h - h) with (k * h) by lia. rewrite firstn_all2 by lia.
  rewrite IH; [reflexivity|exact F2|cbn in Hk; lia].
Qed.

(** The state of a token in the embedding layer does not depend on the tokens after it. *)
Theorem C152_embedding_sees_no_later_token : forall V (P : prim V) L m words rows s c a b b' sa sb sb' cells cells',
  let tokens := a ++ b in let segments := sa ++ sb in
  let tokens' := a ++ b' in let segments' := sa ++ sb' in
  length sa = length a -> 0 < length a ->
  runnable P L m words rows s tokens segments c 0 -> runnable P L m words rows s tokens' segments' c 0 ->
  known_tokens words tokens -> known_tokens words tokens' ->
  enough_rows (em_kind m) rows tokens -> enough_rows (em_kind m) rows tokens' ->
  Forall (fun t => (t < 4294967296)%N) tokens -> Forall (fun t => (t < 4294967296)%N) tokens' ->
  length cells = values (em_hp m) (pool_type c) (length tokens) ->
  length cells' = values (em_hp m) (pool_type c) (length tokens') ->
  pool_type c = PoolNone \/ pool_type c = PoolCls ->
  let ask tokens segments cells := berts_eval P L (ELoaded m) tokens (Some segments) (length tokens) (Some c)
                               (Some cells) (Some (N.of_nat (length cells))) in
  exists out out',
    ask tokens segments cells = Ok (mkev true (Some out) (Some (N.of_nat (length cells)))) /\
    ask tokens' segments' cells' = Ok (mkev true (Some out') (Some (N.of_nat (length cells')))) /\
    length out = length cells /\ length out' = length cells' /\
    firstn (values (em_hp m) (pool_type c) (length a)) out = firstn (values (em_hp m) (pool_type c) (length a)) out' /\
    (pool_type c = PoolCls -> out = out').
Proof.
  intros V P L m words rows s c a b b' sa sb sb' cells cells' tokens segments tokens' segments' Hsa Hna Hr Hr' Hk Hk' He He' Hu Hu' HC HC' HP ask.
  assert (RUN : forall ts sg cs, runnable P L m words rows s ts sg c 0 -> known_tokens words ts ->
     enough_rows (em_kind m) rows ts -> Forall (fun t => (t < 4294967296)%N) ts -> length cs = values (em_hp m) (pool_type c) (length ts) ->
     ask ts sg cs = Ok (mkev true (Some (answer P m s (pool_type c) 0 ts sg)) (Some (N.of_nat (length cs)))) /\
     length (answer P m s (pool_type c) 0 ts sg) = length cs).
  { intros ts sg cs H3 H4 H5 H6 H7. unfold ask. pose proof (v_segments _ _ _ _ (r_valid _ _ _ _ _ _ _ _ _ _ H3)) as H1.
    destruct (runs P L m words rows s ts (Some sg) (length ts) c 0 cs (N.of_nat (length cs))) as (LA & E).
    - split; [lia|lia].
    - exact H6.
    - cbn [given_segments]. rewrite (firstn_all2 sg) by lia. rewrite firstn_all. exact H3.
    - rewrite firstn_all. exact H4.
    - rewrite firstn_all. exact H5.
    - rewrite Nat2N.id. apply Nat.le_min_l.
    - cbv zeta in LA, E. cbn [given_segments] in LA, E. rewrite (firstn_all2 sg) in LA, E by lia. rewrite firstn_all in LA, E.
      rewrite Nat2N.id, H7, Nat.min_id in E. rewrite H7.
      rewrite (firstn_all2 (answer P m s (pool_type c) 0 ts sg)), skipn_all2, app_nil_r in E by lia.
      split; [exact E|exact LA]. }
  destruct (RUN tokens segments cells Hr Hk He Hu HC) as (E1 & L1).
  destruct (RUN tokens' segments' cells' Hr' Hk' He' Hu' HC') as (E2 & L2).
  exists (answer P m s (pool_type c) 0 tokens segments), (answer P m s (pool_type c) 0 tokens' segments').
  split; [exact E1|]. split; [exact E2|]. split; [exact L1|]. split; [exact L2|]. clear E1 E2.
  pose proof (r_sound _ _ _ _ _ _ _ _ _ _ Hr) as Hs.
  pose proof (r_valid _ _ _ _ _ _ _ _ _ _ Hr) as Hv. pose proof (r_valid _ _ _ _ _ _ _ _ _ _ Hr') as Hv'.
  pose proof (r_some _ _ _ _ _ _ _ _ _ _ Hr) as Hn. pose proof (r_some _ _ _ _ _ _ _ _ _ _ Hr') as Hn'.
  destruct (states_shape P m words rows s _ _ c 0 Hs Hv Hn ltac:(lia) Hu Hk He) as (SL & SF).
  destruct (states_shape P m words rows s _ _ c 0 Hs Hv' Hn' ltac:(lia) Hu' Hk' He') as (SL' & SF').
  pose proof (v_segments _ _ _ _ Hv) as HS. pose proof (v_segments _ _ _ _ Hv') as HS'.
  unfold tokens, segments, tokens', segments' in *. rewrite !app_length in *.
  assert (X := embedding_prefix P m s a b sa sb Hsa ltac:(lia)). assert (X' := embedding_prefix P m s a b' sa sb' Hsa ltac:(lia)).
  unfold answer. destruct HP as [HP|HP]; rewrite HP in *; cbn [s_output s_pooled values] in *.
  - split; [|discriminate].
    rewrite !(firstn_rows (hidden_dim (em_hp m))) by (assumption || lia). rewrite X, X'. reflexivity.
  - assert (Q : nth 0 (hidden_states P m s 0 (a ++ b) (sa ++ sb) (position_ids (em_kind m) (a ++ b))) [] =
      nth 0 (hidden_states P m s 0 (a ++ b') (sa ++ sb') (position_ids (em_kind m) (a ++ b'))) []).
    { rewrite <- (firstn_skipn (length a) (hidden_states P m s 0 (a ++ b) (sa ++ sb) _)), X.
      rewrite <- (firstn_skipn (length a) (hidden_states P m s 0 (a ++ b') (sa ++ sb') _)), X'.
      assert (Y : length (hidden_states P m s 0 a sa (position_ids (em_kind m) a)) = length a).
      { rewrite <- X, firstn_length, SL. lia. }
      rewrite !app_nth1 by lia. reflexivity. }
    rewrite Q. split; reflexivity.
Qed.
Print Assumptions C152_embedding_sees_no_later_token.

(** A request for the embedding of two tokens and of three; after layer 1 the first rows
    are not the same. *)
Example C152_example :
  (forall toks, 0 < length toks <= 4 -> runnable zprim lib64 rdemo 3 4 demo_sm toks (repeat 0%N (length toks)) (ask 0 PoolNone) 0) /\
  berts_eval zprim lib64 (ELoaded rdemo) [2;0]%N (Some [0;0]%N) 2 (Some (ask 0 PoolNone)) (Some [9;9;9;9]%Z) (Some 4%N) =
    Ok (mkev true (Some [35;106;41;102]%Z) (Some 4%N)) /\
  berts_eval zprim lib64 (ELoaded rdemo) [2;0;1]%N (Some [0;0;0]%N) 3 (Some (ask 0 PoolNone)) (Some [9;9;9;9;9;9]%Z) (Some 6%N) =
    Ok (mkev true (Some [35;106;41;102;13;104]%Z) (Some 6%N)) /\
  (forall out out',
   berts_eval zprim lib64 (ELoaded rdemo) [2;0]%N (Some [0;0]%N) 2 (Some (ask 1 PoolNone)) (Some [9;9;9;9]%Z) (Some 4%N) =
     Ok (mkev true (Some out) (Some 4%N)) ->
   berts_eval zprim lib64 (ELoaded rdemo) [2;0;1]%N (Some [0;0;0]%N) 3 (Some (ask 1 PoolNone)) (Some [9;9;9;9;9;9]%Z) (Some 6%N) =
     Ok (mkev true (Some out') (Some 6%N)) -> firstn 4 out <> firstn 4 out').
Proof.
  split; [intros toks H; exact (rdemo_runnable toks 0 PoolNone H ltac:(lia) ltac:(discriminate))|].
  split; [vm_compute; reflexivity|]. split; [vm_compute; reflexivity|].
  assert (G : forall (x : outcome (evaluated Z)) out out' n, x = Ok (mkev true (Some out) n) -> match x with Ok r => e_out r | _ => None end = Some out' -> out = out').
  { intros x out out' n -> E. injection E as ->. reflexivity. }
  intros out out' H H'.
  assert (E := G _ _ _ _ H ltac:(vm_compute; reflexivity)). assert (E' := G _ _ _ _ H' ltac:(vm_compute; reflexivity)). subst.
  intros Q. discriminate Q.
Qed.
