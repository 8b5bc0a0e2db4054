(** Lemmas about the logs of evaluation. *)
From Verif Require Import Base Vocab_model Log_model Ggml_model Encoder_model Eval_model Says_model Says_eval_model.
From Verif Require Import Log_spec Vocab_spec Eval_spec Says_spec P_Log Says_proofs.
Local Open Scope nat_scope.

(** ** Texts without percent signs and NULs *)

Definition text_of (c : log_call) : list N := snd (message_of c).
Definition quiet_call (c : log_call) : Prop := says c /\ harmless (text_of c).

(** What is written: the messages of the level, each on its line. *)
Definition lines_at (l : Z) (ms : list message) : list N :=
  flat_map (fun x => snd x ++ [10]%N) (filter (fun x : message => (l <=? fst x)%Z) ms).

Lemma harmless_app a b : harmless a -> harmless b -> harmless (a ++ b).
Proof. intros (A1 & A2) (B1 & B2). split; intros H; apply in_app_or in H as [H|H]; auto. Qed.

Lemma harmless_cut m : harmless m -> cut_at_nul m m /\ escaped m m.
Proof.
  intros (H1 & H2). split; [split; [exact H2|left; reflexivity]|].
  clear H2. induction m as [|b m IH]; [constructor|]. apply esc_char; [intros ->; apply H1; left; reflexivity|].
  apply IH. intros K. apply H1. right. exact K.
Qed.

Lemma lines_log l ms : Forall (fun x : message => harmless (snd x)) ms -> log_of l ms (lines_at l ms).
Proof.
  induction 1 as [|[r m] ms H F IH]; [constructor|]. unfold lines_at. cbn [filter fst].
  destruct (Z.leb_spec l r) as [L|L].
  - cbn [flat_map snd]. rewrite <- app_assoc. destruct (harmless_cut m H) as (C & E).
    eapply log_line; eauto.
  - apply log_skip; [exact L|exact IH].
Qed.

Lemma quiet_logged {A} l (a : A) tr : Forall quiet_call tr ->
  logged (mkls l true) (Ok (a, tr)) = Ok (a, lines_at l (map message_of tr)).
Proof.
  intros H. apply logged_log.
  - eapply Forall_impl; [|exact H]. intros c K. apply K.
  - apply lines_log. clear a. induction H as [|c tr (K & K') H IH]; constructor; assumption.
Qed.

Lemma quiet_logged_no_file {A} l (a : A) tr : Forall quiet_call tr -> logged (mkls l false) (Ok (a, tr)) = Ok (a, []).
Proof.
  intros H. unfold logged. cbn [obind fst snd]. rewrite calls_no_file; [reflexivity|].
  eapply Forall_impl; [|exact H]. intros c K. apply K.
Qed.

Lemma lines_app l a b : lines_at l (a ++ b) = lines_at l a ++ lines_at l b.
Proof. unfold lines_at. rewrite filter_app, flat_map_app. reflexivity. Qed.

(** ** The texts of evaluation *)

Lemma digits_not fuel c : (c < 48 \/ 57 < c)%N -> forall n, ~ In c (digits fuel n).
Proof.
  intros Hc. induction fuel as [|fuel IH]; intros n; [intros []|]. cbn [digits]. destruct (N.ltb_spec n 10) as [L|L].
  - intros [K|[]]. lia.
  - intros K. apply in_app_or in K as [K|[K|[]]]; [exact (IH _ K)|]. pose proof (N.mod_lt n 10). lia.
Qed.

Lemma decimal_harmless n : harmless (decimal n).
Proof. split; apply digits_not; lia. Qed.
Lemma number_harmless n : harmless (number n).
Proof. apply decimal_harmless. Qed.
Lemma signed_harmless z : harmless (signed z).
Proof.
  unfold signed. destruct (z <? 0)%Z; [|apply decimal_harmless].
  apply harmless_app; [split; vm_compute; intuition discriminate|apply decimal_harmless].
Qed.
Lemma name_harmless k : harmless (model_name k).
Proof. destruct k; split; vm_compute; intuition discriminate. Qed.
Lemma pool_harmless p : harmless (pool_type_str p).
Proof. destruct p; split; vm_compute; intuition discriminate. Qed.

Lemma hex_digit_range n : (n < 16)%N -> (48 <= hex_digit n <= 102)%N.
Proof. intros H. unfold hex_digit. destruct (N.ltb_spec n 10); lia. Qed.
Lemma hex16_harmless n : harmless (hex16 n).
Proof.
  assert (X : forall c, In c (hex16 n) -> (48 <= c <= 102)%N).
  { intros c H. unfold hex16 in H. apply in_map_iff in H as (i & <- & _). apply hex_digit_range.
    change 15%N with (N.ones 4). rewrite N.land_ones. apply N.mod_lt. discriminate. }
  split; intros H; apply X in H; lia.
Qed.

Ltac harm := first
  [ apply hex16_harmless | apply harmless_app; [harm|harm] | apply decimal_harmless | apply number_harmless | apply signed_harmless
  | apply name_harmless | apply pool_harmless | split; vm_compute; intuition discriminate ].
Ltac quiet := repeat (first [ apply Forall_nil | apply Forall_cons; [split; [exact I|unfold text_of; cbn [message_of snd]; harm]|] ]).

Lemma check_quiet h : Forall quiet_call (check_model_says h).
Proof. destruct h; cbn [check_model_says]; quiet. Qed.

Section Evaluation.
Context {V : Type} (P : prim V) (L : lib) (ptr : N).

Lemma eval_quiet (m : emodel V) tokens segments c threads code out cnt :
  Forall quiet_call (eval_says P L ptr m tokens segments c threads code out cnt).
Proof.
  unfold eval_says. apply Forall_app; split; [quiet|].
  destruct (_ <? _); [quiet|]. destruct (negb _); [quiet|]. destruct (find _ _) as [s|]; [quiet|].
  destruct (needed _ _ _) as [need|]; [|quiet]. apply Forall_app; split; [unfold eval_info_says; quiet|].
  destruct out; [|quiet]. destruct (resolve_layer _ _); [|quiet|quiet|quiet].
  apply Forall_cons; [split; [exact I|unfold text_of; cbn [message_of snd]; harm]|].
  destruct (run _ _ _); quiet.
Qed.

Lemma eval_lm_quiet (m : emodel V) hidden count c out outp :
  Forall quiet_call (eval_lm_says P L ptr m hidden count c out outp).
Proof.
  unfold eval_lm_says. apply Forall_cons; [split; [exact I|unfold text_of; cbn [message_of snd]; harm]|].
  destruct (negb _); [quiet|]. apply Forall_cons; [split; [exact I|unfold text_of; cbn [message_of snd]; harm]|].
  destruct out, outp; [|quiet|quiet|quiet]. apply Forall_app; split; [destruct (em_kind m), (hidden_act (em_hp m)); quiet|].
  apply Forall_cons; [split; [exact I|unfold text_of; cbn [message_of snd]; harm]|].
  destruct (run _ _ _); [quiet| |quiet|quiet]. destruct (lm _); quiet.
Qed.

(** ** Graphs that cannot fail *)

Definition never_fails {A} (b : B A) : Prop := forall s, b s <> Fail.

Lemma nf_bind {A C} (b : B A) (k : A -> B C) : never_fails b -> (forall a, never_fails (k a)) -> never_fails (bbind b k).
Proof.
  intros Hb Hk s. unfold bbind. specialize (Hb s). destruct (b s) as [[a s']| | |]; cbn [obind fst snd]; try congruence; apply Hk.
Qed.
Lemma nf_ret {A} (a : A) : never_fails (bret a).
Proof. intros s. discriminate. Qed.
Lemma nf_ub {A} : never_fails (bub (A := A)).
Proof. intros s. discriminate. Qed.
Lemma nf_assert c : never_fails (bassert c).
Proof. intros s. unfold bassert. destruct c; discriminate. Qed.
Lemma nf_step {A} cost k l (a : A) : never_fails (step cost k l a).
Proof. intros s. unfold step. destruct (_ <? _)%N; discriminate. Qed.
Lemma nf_multiples l : never_fails (bmultiples l).
Proof.
  induction l as [|[a b] l IH]; cbn [bmultiples]; [apply nf_ret|]. destruct (a =? 0); [apply nf_ub|].
  apply nf_bind; [apply nf_assert|intros; exact IH].
Qed.

Ltac nf := repeat (first
  [ apply nf_bind; [|intros ?] | apply nf_ret | apply nf_ub | apply nf_assert | apply nf_step | apply nf_multiples ]).

Lemma nf_dense (x w b : tensor V) : never_fails (bert_dense P L x w b).
Proof. unfold bert_dense, g_mul_mat, g_repeat, g_add, dup_op, fresh_op. nf. Qed.
Lemma nf_layer_norm (x w b : tensor V) e : never_fails (bert_layer_norm P L x w b e).
Proof. unfold bert_layer_norm, g_norm, g_mul, g_repeat, g_add, dup_op, fresh_op. nf. Qed.

Ltac nf' := repeat (first
  [ apply nf_dense | apply nf_layer_norm | apply nf_bind; [|intros ?] | apply nf_ret | apply nf_ub | apply nf_assert | apply nf_step | apply nf_multiples ]).

Lemma nf_embed hp (w : weights V) pos tokens segments : never_fails (embed P L hp w pos tokens segments).
Proof. unfold embed, new_indices, g_get_rows, g_add, dup_op, fresh_op. nf'. Qed.

Lemma nf_attention hp (y : block V) n x : never_fails (self_attention P L hp y n x).
Proof.
  unfold self_attention, g_reshape, g_permute, g_cont, g_mul_mat, g_soft_max_ext, new_tensor, g_cpy, g_add, dup_op, fresh_op. nf'.
Qed.

Lemma nf_intermediate hp (y : block V) x : hidden_act hp = Gelu -> never_fails (intermediate P L hp y x).
Proof. intros E. unfold intermediate, g_unary, g_add, dup_op, fresh_op. rewrite E. nf'. Qed.

Lemma nf_encode hp : hidden_act hp = Gelu -> forall last ys n (x : tensor V), never_fails (Encoder_model.encode P L hp last ys n x).
Proof.
  intros E. induction last as [|last IH]; intros ys n x; cbn [Encoder_model.encode]; [apply nf_ret|].
  destruct ys as [|y ys]; [apply nf_ret|].
  apply nf_bind; [apply nf_attention|intros x1]. apply nf_bind; [apply nf_intermediate, E|intros x2]. apply IH.
Qed.

Lemma nf_pool hp (w : weights V) p n x : p <> PoolOther -> never_fails (pool P L hp w p n x).
Proof.
  intros H. unfold pool, g_view_1d, g_pool_2d, g_unary, dup_op, fresh_op.
  destruct p; [apply nf_ret|nf'| | |congruence]; destruct (n =? 0); nf'.
Qed.

Lemma nf_graph f hp (w : weights V) last p tokens segments : hidden_act hp = Gelu \/ last = 0 -> p <> PoolOther ->
  never_fails (build_graph P L f hp w last p tokens segments).
Proof.
  intros E H. unfold build_graph. apply nf_bind; [apply nf_embed|intros x]. destruct (_ =? 0); [apply nf_ub|].
  apply nf_bind; [destruct E as [E|E]; [apply nf_encode, E|subst last; cbn [Encoder_model.encode]; apply nf_ret]|].
  intros x2. apply nf_pool, H.
Qed.

Lemma run_never_fails {A} mem (b : B A) : never_fails b -> run L mem b <> Fail.
Proof.
  intros H. unfold run.
  assert (K : never_fails (bbind b (fun x => step (graph_overhead L) 0 [] x))) by (apply nf_bind; [exact H|intros; apply nf_step]).
  specialize (K (mkarena mem 0 0 [])). destruct (bbind _ _ _) as [[x s]| | |]; try congruence.
  destruct (_ <? _); [discriminate|]. destruct (looked_up _); discriminate.
Qed.

Lemma nf_lm f hp (w : weights V) vocab hidden : lm w <> None -> f <> Bert \/ hidden_act hp <> GeluNew ->
  never_fails (build_lm_graph P L f hp w vocab hidden).
Proof.
  intros H A. unfold build_lm_graph. destruct (lm w) as [h|]; [|congruence].
  assert (X : forall x, never_fails (lm_activation P L f (hidden_act hp) x)).
  { intros x. unfold lm_activation, g_unary, dup_op, fresh_op.
    destruct f; [destruct (hidden_act hp); try nf'; destruct A; congruence|nf']. }
  unfold new_tensor, g_reshape, g_soft_max, g_argsort, dup_op, fresh_op.
  repeat first [apply X | apply nf_dense | apply nf_layer_norm | apply nf_bind; [|intros ?] | apply nf_ret | apply nf_ub | apply nf_assert | apply nf_step | apply nf_multiples].
Qed.

(** ** What is written at the default level *)

Lemma find_existsb {A} (f : A -> bool) l : existsb f l = match find f l with Some _ => true | None => false end.
Proof. induction l as [|a l IH]; [reflexivity|]. cbn. destruct (f a); [reflexivity|exact IH]. Qed.

Definition line (s : list N) : list N := s ++ [10]%N.

Lemma eval_default (m : emodel V) tokens segments c threads code out cnt r :
  eval P L m tokens segments c out cnt = Ok r ->
  lines_at 2 (map message_of (eval_says P L ptr m tokens segments c threads code out cnt)) =
    match out with
    | None => []
    | Some _ => if e_ok r then [] else
        match resolve_layer (n_layers (em_hp m)) (output_layer c), needed (em_hp m) (pool_type c) (length tokens) with
        | Ok last, Some _ =>
            if (length tokens <=? max_tokens (em_hp m)) && (length tokens =? length segments) &&
               negb (existsb (fun s => (Z.of_nat (segment_count (em_hp m)) <=? Z.of_N s)%Z) segments)
            then line (u "unknown activation function") else []
        | _, _ => []
        end
    end.
Proof.
  unfold eval, eval_says. rewrite find_existsb, map_app, lines_app. cbn [map message_of rank guard].
  change (lines_at 2 [_; _]) with (@nil N). cbn [app].
  destruct (Nat.ltb_spec (max_tokens (em_hp m)) (length tokens)) as [Lt|Lt].
  { intros H. assert (E : e_ok r = false) by (injection H as <-; reflexivity). rewrite E.
    replace (_ <=? _) with false by (symmetry; apply Nat.leb_gt; exact Lt). cbn [andb].
    destruct out; [|reflexivity]. destruct (resolve_layer (n_layers (em_hp m)) (output_layer c)), (needed (em_hp m) (pool_type c) (length tokens)); reflexivity. }
  replace (_ <=? _) with true by (symmetry; apply Nat.leb_le; exact Lt). cbn [andb].
  destruct (length tokens =? length segments); cbn [negb andb].
  2: { intros H. assert (E : e_ok r = false) by (injection H as <-; reflexivity). rewrite E.
       destruct out; [|reflexivity]. destruct (resolve_layer (n_layers (em_hp m)) (output_layer c)), (needed (em_hp m) (pool_type c) (length tokens)); reflexivity. }
  destruct (find _ segments) as [s|].
  { intros H. assert (E : e_ok r = false) by (injection H as <-; reflexivity). rewrite E.
    destruct out; [|reflexivity]. destruct (resolve_layer (n_layers (em_hp m)) (output_layer c)), (needed (em_hp m) (pool_type c) (length tokens)); reflexivity. }
  cbn [negb]. destruct (needed _ _ _) as [need|].
  2: { intros H. assert (E : e_ok r = false) by (injection H as <-; reflexivity). rewrite E.
       destruct out; [|reflexivity]. destruct (resolve_layer _ _); reflexivity. }
  rewrite map_app, lines_app. change (lines_at 2 (map message_of (eval_info_says c threads need cnt))) with (@nil N). cbn [app].
  destruct out as [cells|]; [|reflexivity].
  destruct (resolve_layer _ _) as [last| | |].
  2,3,4: intros H; destruct (e_ok r); reflexivity.
  cbv zeta. destruct (run _ _ _) as [x| | |]; try discriminate.
  - destruct (copy_n _ _ _) as [cells'| | |]; try discriminate. cbn [obind]. intros H. assert (E : e_ok r = true) by (injection H as <-; reflexivity).
    rewrite E. reflexivity.
  - intros H. assert (E : e_ok r = false) by (injection H as <-; reflexivity). rewrite E. reflexivity.
Qed.

Lemma checks_valid hp tokens segments c : output_layer c <> INT64_MIN ->
  (valid_request hp tokens segments c <->
   (exists last, resolve_layer (n_layers hp) (output_layer c) = Ok last) /\
   (exists need, needed hp (pool_type c) (length tokens) = Some need) /\
   (length tokens <=? max_tokens hp) && (length tokens =? length segments) &&
     negb (existsb (fun s => (Z.of_nat (segment_count hp) <=? Z.of_N s)%Z) segments) = true).
Proof.
  intros HM. split.
  - intros [H1 H2 H3 H4 H5]. split; [|split].
    + unfold resolve_layer. destruct (Z.ltb_spec (output_layer c) 0) as [Ng|Ng].
      * destruct (Z.eqb_spec (output_layer c) INT64_MIN) as [E|_]; [congruence|].
        replace (_ <? _)%Z with false by lia. eexists; reflexivity.
      * replace (_ <? _)%Z with false by lia. eexists; reflexivity.
    + destruct (pool_type c); try (eexists; reflexivity). congruence.
    + rewrite (proj2 (Nat.leb_le _ _) H1), (proj2 (Nat.eqb_eq _ _) (eq_sym H2)). cbn [andb].
      apply Bool.negb_true_iff. destruct (existsb _ segments) eqn:E; [|reflexivity].
      apply existsb_exists in E as (s & Hs & E). rewrite Forall_forall in H3. specialize (H3 s Hs). lia.
  - intros ((last & R) & (need & D) & B). apply andb_prop in B as [B B3]. apply andb_prop in B as [B1 B2]. constructor.
    + apply Nat.leb_le, B1.
    + apply Nat.eqb_eq in B2. auto.
    + apply Forall_forall. intros s Hs. apply Bool.negb_true_iff in B3.
      destruct (N.ltb_spec s (N.of_nat (segment_count hp))) as [X|X]; [exact X|].
      assert (existsb (fun s => (Z.of_nat (segment_count hp) <=? Z.of_N s)%Z) segments = true); [|congruence].
      apply existsb_exists. exists s. split; [exact Hs|]. lia.
    + intros E. rewrite E in D. discriminate.
    + unfold resolve_layer in R. destruct (Z.ltb_spec (output_layer c) 0) as [Ng|Ng].
      * destruct (_ =? _)%Z; [discriminate|]. destruct (Z.ltb_spec (Z.of_nat (n_layers hp)) (- output_layer c)); [discriminate|]. lia.
      * destruct (Z.ltb_spec (Z.of_nat (n_layers hp)) (output_layer c)); [discriminate|]. lia.
Qed.

Lemma resolve_min n : resolve_layer n INT64_MIN = UB.
Proof. reflexivity. Qed.
End Evaluation.
