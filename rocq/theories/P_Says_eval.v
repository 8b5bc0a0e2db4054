(** Theorems about what evaluation writes to the log. *)
From Verif Require Import Base Vocab_model Log_model Ggml_model Encoder_model Eval_model Says_model Says_eval_model.
From Verif Require Import Log_spec Eval_spec Says_spec Says_proofs Says_eval_proofs P_Eval.
Local Open Scope nat_scope.

(** An address. *)
Definition somewhere : N := 0x7f12ab34cd56.

(** ** C175: logging cannot harm evaluation *)

Lemma eval_call_quiet {V} (P : prim V) L ptr ctx toks segs count c threads code (out : option (list V)) cnt :
  Forall quiet_call (check_model_says (handle_of ctx) ++
           match ctx, c, cnt with
           | ELoaded m, Some c, Some n =>
               eval_says P L ptr m (firstn count toks)
                 (match segs with Some sg => firstn count sg | None => repeat 0%N count end) c threads code out n
           | _, _, _ => []
           end).
Proof.
  apply Forall_app; split; [apply check_quiet|]. destruct ctx, c, cnt; first [apply eval_quiet|apply Forall_nil].
Qed.

Lemma eval_lm_call_quiet {V} (P : prim V) L ptr ctx hidden count c out (outp : option (list V)) (cnt : option N) :
  Forall quiet_call (check_model_says (handle_of ctx) ++
           match ctx, c, cnt with
           | ELoaded m, Some c, Some _ => eval_lm_says P L ptr m hidden count c out outp
           | _, _, _ => []
           end).
Proof.
  apply Forall_app; split; [apply check_quiet|]. destruct ctx, c, cnt; first [apply eval_lm_quiet|apply Forall_nil].
Qed.

Lemma logged_same {A} (r : outcome A) (f : A -> list log_call) st :
  (forall a, Forall quiet_call (f a)) ->
  (forall a, (exists o, logged st (obind r (fun a => Ok (a, f a))) = Ok (a, o)) <-> r = Ok a) /\
  (logged st (obind r (fun a => Ok (a, f a))) = UB <-> r = UB) /\
  (logged st (obind r (fun a => Ok (a, f a))) = Abort <-> r = Abort).
Proof.
  intros Q. destruct st as [l b].
  assert (X : forall a, exists o, logged (mkls l b) (Ok (a, f a)) = Ok (a, o)).
  { intros a. destruct b; [exists (lines_at l (map message_of (f a))); apply quiet_logged, Q|].
    exists []. apply quiet_logged_no_file, Q. }
  destruct r as [a| | |]; cbn [obind].
  2,3,4: repeat split; try discriminate; try (intros; reflexivity); try (intros (o & K); discriminate).
  destruct (X a) as (o & E). rewrite E. repeat split; try discriminate.
  - intros (o' & K). assert (a = a0) as -> by congruence. reflexivity.
  - intros K. assert (a = a0) as -> by congruence. exists o. reflexivity.
Qed.

Theorem C175_eval_logging {V} (P : prim V) L ptr ctx toks segs count c threads code (out : option (list V)) cnt st :
  let plain := berts_eval P L ctx toks segs count c out cnt in
  let logging := logged st (berts_eval_logged P L ptr ctx toks segs count c threads code out cnt) in
  (forall r, (exists o, logging = Ok (r, o)) <-> plain = Ok r) /\
  (logging = UB <-> plain = UB) /\ (logging = Abort <-> plain = Abort).
Proof. apply logged_same. intros r. apply eval_call_quiet. Qed.
Print Assumptions C175_eval_logging.

Theorem C175_eval_lm_logging {V} (P : prim V) L ptr ctx hidden count c out (outp : option (list V)) cnt st :
  let plain := berts_eval_lm P L ctx hidden count c out outp cnt in
  let logging := logged st (berts_eval_lm_logged P L ptr ctx hidden count c out outp cnt) in
  (forall r, (exists o, logging = Ok (r, o)) <-> plain = Ok r) /\
  (logging = UB <-> plain = UB) /\ (logging = Abort <-> plain = Abort).
Proof. apply logged_same. intros r. apply eval_lm_call_quiet. Qed.
Print Assumptions C175_eval_lm_logging.

(** ** C176: what is written at the default level *)

Lemma eval_lines {V} (P : prim V) L ptr ctx toks segs count c threads code (out : option (list V)) cnt l r o :
  logged (mkls l true) (berts_eval_logged P L ptr ctx toks segs count c threads code out cnt) = Ok (r, o) ->
  berts_eval P L ctx toks segs count c out cnt = Ok r /\
  o = lines_at l (map message_of (check_model_says (handle_of ctx) ++
           match ctx, c, cnt with
           | ELoaded m, Some c, Some n =>
               eval_says P L ptr m (firstn count toks)
                 (match segs with Some sg => firstn count sg | None => repeat 0%N count end) c threads code out n
           | _, _, _ => []
           end)).
Proof.
  unfold berts_eval_logged. destruct (berts_eval _ _ _ _ _ _ _ _ _) as [x| | |]; try discriminate. cbn [obind].
  rewrite quiet_logged by apply eval_call_quiet. intros H. split; congruence.
Qed.

(** Calls without a model. *)
Theorem C176_without_model {V} (P : prim V) L ptr ctx toks segs count c threads code (out : option (list V)) cnt :
  let logging := logged log_start (berts_eval_logged P L ptr ctx toks segs count c threads code out cnt) in
  (ctx = ENullCtx -> logging = Ok (mkev false out cnt, line (u "ctx=nullptr"))) /\
  (ctx = ENoModel -> logging = Ok (mkev false out cnt, line (u "model is not loaded"))).
Proof. split; intros ->; reflexivity. Qed.
Print Assumptions C176_without_model.

(** With a model only one thing is ever reported: a request that is valid and refused
    all the same. *)
Theorem C176_default_log {V} (P : prim V) L ptr m toks segs count c threads code (out : option (list V)) cnt r o :
  output_layer c <> INT64_MIN ->
  logged log_start (berts_eval_logged P L ptr (ELoaded m) toks segs count (Some c) threads code out (Some cnt)) = Ok (r, o) ->
  let refused_valid := out <> None /\ e_ok r = false /\
                       valid_request (em_hp m) (firstn count toks) (given_segments segs count) c in
  (refused_valid /\ o = line (u "unknown activation function")) \/ (~ refused_valid /\ o = []).
Proof.
  intros HM H. change log_start with (mkls 2 true) in H. apply eval_lines in H as (H & ->). cbn [handle_of check_model_says app]. cbv zeta.
  assert (E : eval P L m (firstn count toks) (given_segments segs count) c out cnt = Ok r).
  { cbn [berts_eval] in H. destruct (_ <? _); [discriminate|]. unfold given_segments. destruct segs as [sg|]; [|exact H].
    destruct (_ <? _); [discriminate|exact H]. }
  fold (given_segments segs count). rewrite (eval_default P L ptr m _ _ c threads code out cnt r E).
  destruct out as [cells|]; [|right; split; [intros (K & _); congruence|reflexivity]].
  destruct (e_ok r); [right; split; [intros (_ & K & _); discriminate|reflexivity]|].
  pose proof (checks_valid (em_hp m) (firstn count toks) (given_segments segs count) c HM) as CV.
  destruct (resolve_layer _ _) as [last| | |];
    try (right; split; [intros (_ & _ & K); apply CV in K as ((x & K) & _); discriminate|reflexivity]).
  destruct (needed _ _ _) as [need|]; [|right; split; [intros (_ & _ & K); apply CV in K as (_ & (x & K) & _); discriminate|reflexivity]].
  destruct (_ && _)%bool; [left; split; [|reflexivity]|right; split; [|reflexivity]].
  - split; [discriminate|]. split; [reflexivity|]. apply CV. split; [eexists; reflexivity|]. split; [eexists; reflexivity|reflexivity].
  - intros (_ & _ & K). apply CV in K as (_ & _ & K). discriminate.
Qed.
Print Assumptions C176_default_log.

(** With GELU, or when no layer is asked for, valid requests are never refused. *)
Theorem C176_gelu_never_refused {V} (P : prim V) L m toks segs count c cells cnt r :
  output_layer c <> INT64_MIN ->
  hidden_act (em_hp m) = Gelu \/ output_layer c = 0%Z ->
  valid_request (em_hp m) (firstn count toks) (given_segments segs count) c ->
  berts_eval P L (ELoaded m) toks segs count (Some c) (Some cells) (Some cnt) = Ok r -> e_ok r = true.
Proof.
  intros HM HA HV H.
  assert (E : eval P L m (firstn count toks) (given_segments segs count) c (Some cells) cnt = Ok r).
  { cbn [berts_eval] in H. destruct (_ <? _); [discriminate|]. unfold given_segments. destruct segs as [sg|]; [|exact H].
    destruct (_ <? _); [discriminate|exact H]. }
  revert E. pose proof HV as HV'. apply (checks_valid _ _ _ _ HM) in HV as ((last & R) & (need & D) & K).
  apply andb_prop in K as [K K3]. apply andb_prop in K as [K1 K2].
  unfold eval. rewrite Nat.ltb_antisym, K1, K2. apply Bool.negb_true_iff in K3. rewrite K3. cbn [negb]. rewrite D, R. cbv zeta.
  destruct (run _ _ _) as [x| | |] eqn:RN; try discriminate.
  - destruct (copy_n _ _ _); try discriminate. cbn [obind]. intros E. injection E as <-. reflexivity.
  - exfalso. revert RN. apply run_never_fails, nf_graph.
    + destruct HA as [HA|HA]; [left; exact HA|right]. rewrite HA in R. unfold resolve_layer in R.
      change (0 <? 0)%Z with false in R. cbv iota in R. destruct (_ <? _)%Z; [discriminate|]. injection R as <-. reflexivity.
    + apply (v_pool _ _ _ _ HV').
Qed.
Print Assumptions C176_gelu_never_refused.

(** "A refused call says why at the default level" is false: too many tokens, a null
    pointer, a layer that does not exist are refused in silence. *)
Theorem C177_refusals_reported_refuted :
  exists (m : emodel Z) toks count c1 c2 cells,
    logged log_start (berts_eval_logged zprim lib64 somewhere (ELoaded m) toks None count (Some c1) 1 0 (Some cells) (Some 2%N)) =
      Ok (mkev false (Some cells) (Some 2%N), []) /\
    logged log_start (berts_eval_logged zprim lib64 somewhere (ELoaded m) toks None 1 (Some c2) 1 0 (Some cells) (Some 2%N)) =
      Ok (mkev false (Some cells) (Some 2%N), []) /\
    (forall l, logged (mkls l true) (berts_eval_logged zprim lib64 somewhere (ELoaded m) toks None 1 None 1 0 (Some cells) (Some 2%N)) =
      Ok (mkev false (Some cells) (Some 2%N), [])).
Proof.
  exists demo, [0;1;2;0;1]%N, 5, (ask 1 PoolCls), (ask (-2) PoolCls), [9;9]%Z.
  split; [vm_compute; reflexivity|]. split; [vm_compute; reflexivity|].
  intros l. unfold berts_eval_logged. cbn. reflexivity.
Qed.
Print Assumptions C177_refusals_reported_refuted.

(** ** At the level INFO *)

(** The last line of a call that succeeded. *)
Definition finish_line (k : flavour) (dry : bool) : list N :=
  line (u "finish evaluating " ++ model_name k ++ (if dry then u " (dry run)" else [])).

Definition ends (o e : list N) : Prop := exists b, o = b ++ e.

Lemma lines_last l ms r m : (l <= r)%Z -> ends (lines_at l (ms ++ [(r, m)])) (line m).
Proof.
  intros H. exists (lines_at l ms). rewrite lines_app. f_equal. unfold lines_at. cbn [filter fst].
  replace (l <=? r)%Z with true by lia. cbn [flat_map snd]. rewrite app_nil_r. reflexivity.
Qed.

(** No line of a refusal looks like it: the ends differ. *)
Definition digit (d : N) : Prop := (48 <= d <= 57)%N.

Lemma digits_end fuel n : (fuel <> 0)%nat -> exists p d, digits fuel n = p ++ [d] /\ digit d.
Proof.
  destruct fuel as [|fuel]; [congruence|]. intros _. cbn [digits]. destruct (N.ltb_spec n 10) as [X|X].
  - exists [], (48 + n)%N. split; [reflexivity|unfold digit; lia].
  - eexists _, _. split; [reflexivity|]. pose proof (N.mod_lt n 10 ltac:(discriminate)). unfold digit. lia.
Qed.
Lemma decimal_end n : exists p d, decimal n = p ++ [d] /\ digit d.
Proof. apply digits_end. discriminate. Qed.
Lemma signed_end z : exists p d, signed z = p ++ [d] /\ digit d.
Proof.
  unfold signed. destruct (z <? 0)%Z; [|apply decimal_end]. destruct (decimal_end (Z.to_N (- z))) as (p & d & -> & D).
  exists (u "-" ++ p), d. rewrite app_assoc. auto.
Qed.

Definition error_end (m : list N) : Prop :=
  (exists p d, m = p ++ [d] /\ digit d) \/ (exists p d, m = p ++ [d] ++ [41]%N /\ digit d) \/
  m = u "unknown activation function".

Lemma error_not_finish o m k dry : ends o (line m) -> error_end m -> ends o (finish_line k dry) -> False.
Proof.
  intros (b & ->) He (b' & E). unfold finish_line, line in E. rewrite !app_assoc in E.
  apply app_inj_tail in E as (E & _). apply (f_equal (@rev N)) in E. rewrite !rev_app_distr in E.
  destruct He as [(p & d & -> & D)|[(p & d & -> & D)| ->]].
  - rewrite rev_app_distr in E. destruct k, dry; cbn in E; injection E as E _; unfold digit in D; lia.
  - rewrite !rev_app_distr in E. destruct k, dry; cbn in E; try discriminate E.
    all: injection E as E _; unfold digit in D; lia.
  - destruct k, dry; cbn in E; discriminate E.
Qed.

Lemma number_paren m n : exists p d, (m ++ number n ++ u ")" = p ++ [d] ++ [41]%N) /\ digit d.
Proof.
  destruct (decimal_end (N.of_nat n)) as (p & d & E & D). exists (m ++ p), d. split; [|exact D].
  unfold number. rewrite E, <- !app_assoc. reflexivity.
Qed.
Lemma signed_paren m z : exists p d, (m ++ signed z ++ u ")" = p ++ [d] ++ [41]%N) /\ digit d.
Proof.
  destruct (signed_end z) as (p & d & E & D). exists (m ++ p), d. split; [|exact D]. rewrite E, <- !app_assoc. reflexivity.
Qed.

Lemma eval_finish {V} (P : prim V) L ptr m tokens segments c threads code (out : option (list V)) cnt r :
  eval P L m tokens segments c out cnt = Ok r ->
  exists ms x e rest, map message_of (eval_says P L ptr m tokens segments c threads code out cnt) = ms ++ [(x, e)] ++ rest /\ (1 <= x)%Z /\
    Forall (fun y : message => fst y = 0%Z) rest /\
    (if e_ok r then line e = finish_line (em_kind m) (match out with None => true | _ => false end) else error_end e).
Proof.
  unfold eval, eval_says. rewrite find_existsb. intros H.
  set (start := [Formatted Info _; Formatted Debug _]).
  destruct (max_tokens (em_hp m) <? length tokens).
  { exists (map message_of start). eexists _, _, []. rewrite map_app. split; [reflexivity|]. split; [cbn; lia|]. split; [constructor|].
    assert (E : e_ok r = false) by (injection H as <-; reflexivity). rewrite E. right; left.
    rewrite !app_assoc. rewrite <- (app_assoc _ (number _)). apply number_paren. }
  destruct (negb (length tokens =? length segments)).
  { exists (map message_of start). eexists _, _, []. rewrite map_app. split; [reflexivity|]. split; [cbn; lia|]. split; [constructor|].
    assert (E : e_ok r = false) by (injection H as <-; reflexivity). rewrite E. right; left.
    rewrite !app_assoc. rewrite <- (app_assoc _ (number _)). apply number_paren. }
  destruct (find _ segments) as [sg|].
  { exists (map message_of start). eexists _, _, []. rewrite map_app. split; [reflexivity|]. split; [cbn; lia|]. split; [constructor|].
    assert (E : e_ok r = false) by (injection H as <-; reflexivity). rewrite E. right; left.
    rewrite !app_assoc. rewrite <- (app_assoc _ (signed _)). apply signed_paren. }
  destruct (needed _ _ _) as [need|].
  2: { exists (map message_of start). eexists _, _, []. rewrite map_app. split; [reflexivity|]. split; [cbn; lia|]. split; [constructor|].
    assert (E : e_ok r = false) by (injection H as <-; reflexivity). rewrite E. left.
    destruct (signed_end code) as (p & d & -> & D). eexists _, d. split; [|exact D]. rewrite app_assoc. reflexivity. }
  rewrite !map_app. destruct out as [cells|].
  2: { exists (map message_of start ++ map message_of (eval_info_says c threads need cnt)). eexists _, _, [].
       split; [rewrite <- app_assoc; reflexivity|]. split; [cbn; lia|]. split; [constructor|].
       assert (E : e_ok r = true) by (injection H as <-; reflexivity). rewrite E. reflexivity. }
  destruct (resolve_layer _ _) as [last| | |] eqn:R; try discriminate.
  2: { exists (map message_of start ++ map message_of (eval_info_says c threads need cnt)). eexists _, _, [].
       split; [rewrite <- app_assoc; reflexivity|]. split; [cbn; lia|]. split; [constructor|].
       assert (E : e_ok r = false) by (injection H as <-; reflexivity). rewrite E. right; left.
       rewrite !app_assoc. rewrite <- (app_assoc _ (number _)). apply number_paren. }
  cbv zeta in H |- *. destruct (run _ _ _) as [x| | |]; try discriminate.
  - destruct (copy_n _ _ _) as [cells'| | |]; try discriminate. cbn [obind] in H.
    eexists (map message_of start ++ map message_of (eval_info_says c threads need cnt) ++ [_; _]), _, _, [_].
    split; [rewrite <- !app_assoc; reflexivity|]. split; [cbn; lia|]. split; [repeat constructor|].
    assert (E : e_ok r = true) by (injection H as <-; reflexivity). rewrite E. unfold finish_line. rewrite app_nil_r. reflexivity.
  - eexists (map message_of start ++ map message_of (eval_info_says c threads need cnt) ++ [_; _]), _, _, [_].
    split; [rewrite <- !app_assoc; reflexivity|]. split; [cbn; lia|]. split; [repeat constructor|].
    assert (E : e_ok r = false) by (injection H as <-; reflexivity). rewrite E. right; right. reflexivity.
Qed.

(** C177: at the level INFO the log tells success from refusal: its last line is the
    closing one if and only if the call succeeded.  (At DEBUG a line about the ggml
    context follows: C182.) *)
Theorem C177_last_line_tells {V} (P : prim V) L ptr m toks segs count c threads code (out : option (list V)) cnt r o :
  logged (mkls 1 true) (berts_eval_logged P L ptr (ELoaded m) toks segs count (Some c) threads code out (Some cnt)) = Ok (r, o) ->
  (e_ok r = true <-> ends o (finish_line (em_kind m) (match out with None => true | _ => false end))).
Proof.
  intros H. apply eval_lines in H as (H & ->). cbn [handle_of check_model_says app].
  assert (E : eval P L m (firstn count toks) (given_segments segs count) c out cnt = Ok r).
  { cbn [berts_eval] in H. destruct (_ <? _); [discriminate|]. unfold given_segments. destruct segs as [sg|]; [|exact H].
    destruct (_ <? _); [discriminate|exact H]. }
  fold (given_segments segs count).
  destruct (eval_finish P L ptr m _ _ c threads code out cnt r E) as (ms & x & e & rest & -> & Hx & Hr & D).
  rewrite app_assoc, lines_app.
  assert (RN : lines_at 1 rest = []).
  { clear -Hr. induction Hr as [|y rest K Hr IH]; [reflexivity|]. unfold lines_at in *. cbn [filter]. rewrite K. exact IH. }
  rewrite RN, app_nil_r.
  pose proof (lines_last 1 ms x e ltac:(lia)) as LL. destruct (e_ok r).
  - split; [intros _|reflexivity]. rewrite <- D. exact LL.
  - split; [discriminate|]. intros K. exfalso. exact (error_not_finish _ e _ _ LL D K).
Qed.
Print Assumptions C177_last_line_tells.

(** ** C178: the head *)

(** What the default level shows of a call that got as far as the head. *)
Definition lm_report (m : hparams) (k : flavour) (head both one : bool) : list N :=
  let gelu_new := match k, hidden_act m with Bert, GeluNew => true | _, _ => false end in
  if one then line (u "output buffer is not specified")
  else if both then
    (if gelu_new then line (u "gelu_new is not implmented yet") else []) ++
    (if head then if gelu_new then line (u "gelu_new is not implmented yet") else []
     else line (u "LM weights are not loaded"))
  else [].

Lemma eval_lm_lines {V} (P : prim V) L ptr ctx hidden count c out (outp : option (list V)) cnt l r o :
  logged (mkls l true) (berts_eval_lm_logged P L ptr ctx hidden count c out outp cnt) = Ok (r, o) ->
  berts_eval_lm P L ctx hidden count c out outp cnt = Ok r /\
  o = lines_at l (map message_of (check_model_says (handle_of ctx) ++
           match ctx, c, cnt with
           | ELoaded m, Some c, Some _ => eval_lm_says P L ptr m hidden count c out outp
           | _, _, _ => []
           end)).
Proof.
  unfold berts_eval_lm_logged. destruct (berts_eval_lm _ _ _ _ _ _ _ _ _) as [x| | |]; try discriminate. cbn [obind].
  rewrite quiet_logged by apply eval_lm_call_quiet. intros H. split; congruence.
Qed.

Theorem C178_lm_default_log {V} (P : prim V) L ptr m hidden count c out (outp : option (list V)) cnt r o :
  logged log_start (berts_eval_lm_logged P L ptr (ELoaded m) hidden count (Some c) out outp (Some cnt)) = Ok (r, o) ->
  let a := match out with Some _ => true | None => false end in
  let b := match outp with Some _ => true | None => false end in
  let head := match lm (em_weights m) with Some _ => true | None => false end in
  o = (if count mod hidden_dim (em_hp m) =? 0
       then lm_report (em_hp m) (em_kind m) head (a && b) (xorb a b) else []) /\
  (l_ok r = true <-> count mod hidden_dim (em_hp m) = 0 /\ o = []).
Proof.
  intros H. change log_start with (mkls 2 true) in H. apply eval_lm_lines in H as (H & ->). cbn [handle_of check_model_says app berts_eval_lm] in H |- *. cbv zeta.
  unfold eval_lm in H. unfold eval_lm_says.
  destruct (Nat.eqb_spec (hidden_dim (em_hp m)) 0) as [Hz|Hz]; [discriminate|]. cbv zeta in H |- *.
  destruct (Nat.eqb_spec (count mod hidden_dim (em_hp m)) 0) as [Hm|Hm]; cbn [negb] in H |- *.
  2: { assert (E : l_ok r = false) by (injection H as <-; reflexivity). rewrite E. split; [reflexivity|].
       split; [discriminate|]. intros (K & _). congruence. }
  destruct out as [ids|], outp as [probs|].
  2,3: assert (E : l_ok r = false) by (injection H as <-; reflexivity); rewrite E; (split; [reflexivity|]);
       split; [discriminate|]; intros (_ & K); discriminate K.
  2: { assert (E : l_ok r = true) by (injection H as <-; reflexivity). rewrite E. split; [reflexivity|]. split; [intros _; split; [exact Hm|reflexivity]|reflexivity]. }
  set (gn := match em_kind m, hidden_act (em_hp m) with Bert, GeluNew => [Plain Error (u "gelu_new is not implmented yet")] | _, _ => [] end).
  match type of H with match run _ ?mem ?g with _ => _ end = _ => set (graph := g) in *; set (size := mem) in * end.
  assert (G : gn = [] /\ (match em_kind m, hidden_act (em_hp m) with Bert, GeluNew => true | _, _ => false end) = false /\
                (em_kind m <> Bert \/ hidden_act (em_hp m) <> GeluNew) \/
              gn = [Plain Error (u "gelu_new is not implmented yet")] /\
                (match em_kind m, hidden_act (em_hp m) with Bert, GeluNew => true | _, _ => false end) = true /\
                em_kind m = Bert /\ hidden_act (em_hp m) = GeluNew).
  { subst gn. destruct (em_kind m); [destruct (hidden_act (em_hp m))|]; cbv iota; auto 6.
    - left. split; [reflexivity|]. split; [reflexivity|]. right. discriminate.
    - left. split; [reflexivity|]. split; [reflexivity|]. right. discriminate.
    - left. split; [reflexivity|]. split; [reflexivity|]. right. discriminate.
    - left. split; [reflexivity|]. split; [reflexivity|]. left. discriminate. }
  assert (OKF : forall x, run L size graph = Ok x -> lm (em_weights m) <> None /\ ~ (em_kind m = Bert /\ hidden_act (em_hp m) = GeluNew)).
  { intros x. subst graph. unfold run, bbind, build_lm_graph.
    destruct (lm (em_weights m)) as [h|]; [|discriminate]. destruct (length hidden <? count); [discriminate|]. intros R. split; [discriminate|]. intros (E1 & E2).
    rewrite E1, E2 in R. unfold lm_activation, bbind, bfail in R.
    repeat match type of R with context [obind ?q _] => match q with obind _ _ => fail 1 | _ => destruct q as [[? ?]| | |]; cbn [obind fst snd] in R; try discriminate R end end. }
  unfold lm_report. cbn [andb xorb].
  match goal with |- context [lines_at 2 (map message_of (?x :: ?y :: gn ++ ?z ++ ?t ++ ?e))] =>
    replace (lines_at 2 (map message_of (x :: y :: gn ++ z ++ t ++ e))) with (lines_at 2 (map message_of gn) ++ lines_at 2 (map message_of t))
      by (change (x :: y :: gn ++ z ++ t ++ e) with ([x; y] ++ gn ++ z ++ t ++ e); rewrite !map_app, !lines_app;
          change (lines_at 2 (map message_of [x; y])) with (@nil N); change (lines_at 2 (map message_of z)) with (@nil N);
          change (lines_at 2 (map message_of e)) with (@nil N); rewrite app_nil_r; reflexivity) end.
  destruct (run L size graph) as [[prob sorted]| | |] eqn:R; try discriminate H.
  - destruct (OKF _ eq_refl) as (O1 & O2).
    assert (l_ok r = true) as ->.
    { destruct (_ <=? _)%Z.
      - destruct (copy_n _ _ ids); try discriminate H. cbn [obind] in H. destruct (copy_n _ _ probs); try discriminate H.
        cbn [obind] in H. injection H as <-. reflexivity.
      - destruct (top_rows _ _ _ _ _ _ _); try discriminate H. cbn [obind] in H. injection H as <-. reflexivity. }
    destruct G as [(-> & -> & _)|(_ & _ & G)]; [|contradiction]. destruct (lm (em_weights m)) as [h|]; [|congruence].
    split; [reflexivity|]. split; [intros _; split; [exact Hm|reflexivity]|reflexivity].
  - assert (l_ok r = false) as -> by (injection H as <-; reflexivity).
    assert (X : lm (em_weights m) = None \/ em_kind m = Bert /\ hidden_act (em_hp m) = GeluNew).
    { destruct G as [(_ & _ & G)|(_ & _ & G)]; [|right; exact G].
      destruct (lm (em_weights m)) as [h|] eqn:LM; [|left; reflexivity]. exfalso.
      revert R. apply run_never_fails. subst graph. cbv iota. destruct (_ <? _); [apply nf_ub|]. apply nf_lm; [congruence|exact G]. }
    destruct (lm (em_weights m)) as [h|].
    + destruct X as [X|X]; [discriminate|]. destruct G as [(_ & _ & G)|(-> & -> & _)]; [destruct X, G; congruence|].
      split; [reflexivity|]. split; [discriminate|]. intros (_ & K). discriminate K.
    + destruct G as [(-> & -> & _)|(-> & -> & _)]; (split; [reflexivity|]); (split; [discriminate|]); intros (_ & K); discriminate K.
Qed.
Print Assumptions C178_lm_default_log.

Theorem C178_lm_without_model {V} (P : prim V) L ptr ctx hidden count c out (outp : option (list V)) cnt :
  let logging := logged log_start (berts_eval_lm_logged P L ptr ctx hidden count c out outp cnt) in
  (ctx = ENullCtx -> logging = Ok (mklv false out outp cnt, line (u "ctx=nullptr"))) /\
  (ctx = ENoModel -> logging = Ok (mklv false out outp cnt, line (u "model is not loaded"))) /\
  (forall m, ctx = ELoaded m -> c = None \/ cnt = None -> forall l,
     logged (mkls l true) (berts_eval_lm_logged P L ptr ctx hidden count c out outp cnt) = Ok (mklv false out outp cnt, [])).
Proof.
  split; [intros ->; reflexivity|]. split; [intros ->; reflexivity|]. intros m -> H l.
  unfold berts_eval_lm_logged. destruct c as [c|], cnt as [n|]; try reflexivity. destruct H; discriminate.
Qed.
Print Assumptions C178_lm_without_model.

(** ** Examples *)

(** A successful call, its log at DEBUG and at the default level. *)
Example C175_example :
  let call := berts_eval_logged zprim lib64 somewhere (ELoaded demo) [0;2]%N None 2 (Some (ask 0 PoolNone)) 4 0 None (Some 7%N) in
  logged log_start call = Ok (mkev true None (Some 4%N), []) /\
  logged (mkls 1 true) call = Ok (mkev true None (Some 4%N),
    u "start evaluating BERT" ++ [10]%N ++ u "  berts_eval_info {" ++ [10]%N ++ u "    output_layer = 0;" ++ [10]%N ++
    u "    pool_type = none;" ++ [10]%N ++ u "    n_threads = 4" ++ [10]%N ++ u "  }" ++ [10]%N ++
    u "finish evaluating BERT (dry run)" ++ [10]%N).
Proof. split; vm_compute; reflexivity. Qed.

(** A model with RELU: a valid request is refused, and that is reported. *)
Example C176_example :
  logged log_start (berts_eval_logged zprim lib64 somewhere (ELoaded relu_model) [0;2]%N None 2 (Some (ask 1 PoolCls)) 1 0 (Some [9;9]%Z) (Some 2%N)) =
    Ok (mkev false (Some [9;9]%Z) (Some 2%N), line (u "unknown activation function")) /\
  valid_request (em_hp relu_model) (firstn 2 [0;2]%N) (given_segments None 2) (ask 1 PoolCls) /\
  logged (mkls 1 true) (berts_eval_logged zprim lib64 somewhere (ELoaded demo) [0;1;2;0;1]%N None 5 (Some (ask 1 PoolCls)) 1 0 (Some [9;9]%Z) (Some 2%N)) =
    Ok (mkev false (Some [9;9]%Z) (Some 2%N), line (u "start evaluating BERT") ++ line (u "too many tokens (5) for this model (4)")).
Proof.
  split; [vm_compute; reflexivity|]. split; [|vm_compute; reflexivity].
  constructor; [cbn; lia|reflexivity|repeat (apply Forall_cons; [vm_compute; reflexivity|]); constructor|discriminate|vm_compute; split; discriminate].
Qed.

(** No head: reported; a head and gelu_new: reported twice. *)
Definition gelu_new_model : emodel Z := mkem Z Bert (mkhp 2 1 1 4 3 2 GeluNew 4427486594234968593) demo_weights 3.
Example C178_example :
  logged log_start (berts_eval_lm_logged zprim lib64 somewhere (ELoaded headless) [1;2]%Z 2 (Some (mkli 1)) (Some [0]) (Some [0]%Z) (Some 1%N)) =
    Ok (mklv false (Some [0]) (Some [0]%Z) (Some 1%N), line (u "LM weights are not loaded")) /\
  (exists cnt, logged log_start (berts_eval_lm_logged zprim lib64 somewhere (ELoaded gelu_new_model) [1;2]%Z 2 (Some (mkli 1)) (Some [0]) (Some [0]%Z) (Some 1%N)) =
    Ok (mklv false (Some [0]) (Some [0]%Z) (Some cnt), line (u "gelu_new is not implmented yet") ++ line (u "gelu_new is not implmented yet"))) /\
  logged log_start (berts_eval_lm_logged zprim lib64 somewhere (ELoaded demo) [1;2]%Z 2 (Some (mkli 1)) (Some [0]) None (Some 1%N)) =
    Ok (mklv false (Some [0]) None (Some 1%N), line (u "output buffer is not specified")).
Proof. split; [vm_compute; reflexivity|]. split; [exists 1%N; vm_compute; reflexivity|vm_compute; reflexivity]. Qed.
