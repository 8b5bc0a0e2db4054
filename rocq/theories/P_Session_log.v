(** Which calls on a model take an entry of the table of contexts, by what they say. *)
From Verif Require Import Base Bert_model Ggml_model Encoder_model Eval_model Log_model Says_model Says_eval_model Session_model.
From Verif Require Api_model Fill_model P_Session P_Eval.
Local Open Scope nat_scope.

(** ** Specification *)

(** The message of level DEBUG that a context of the tensor library has been made *)
Definition makes_context (c : log_call) : bool :=
  match c with Formatted Debug t => list_N_eqb (firstn 12 t) (u "ggml_init @ ") | _ => false end.

(** ** Proofs *)

Lemma forallb_find {A} (f g : A -> bool) l : (forall x, f x = negb (g x)) -> forallb f l = match find g l with Some _ => false | None => true end.
Proof.
  intros H. induction l as [|x l IH]; [reflexivity|]. cbn [forallb find]. rewrite H. destruct (g x); [reflexivity|]. exact IH.
Qed.

(** C212: the calls that need an entry of the table are those whose log at level DEBUG says
    that a context was made. *)
Theorem C212_encode_takes : forall V (P : prim V) L ptr (m : Fill_model.opened (V := V)) tokens segments n c threads code out cnt r tr,
  berts_eval_logged P L ptr (ELoaded (Fill_model.op_eval m)) tokens segments n c threads code out cnt = Ok (r, tr) ->
  computes m (Encode tokens segments n c out cnt) = existsb makes_context tr.
Proof.
  intros V P L ptr m tokens segments n c threads code out cnt r tr. unfold berts_eval_logged.
  destruct (berts_eval P L (ELoaded (Fill_model.op_eval m)) tokens segments n c out cnt) as [x| | |] eqn:E; try discriminate. cbn [obind].
  intros H. assert (T := f_equal (fun o => match o with Ok p => snd p | _ => [] end) H). cbn [snd] in T. rewrite <- T. clear T H.
  cbn [handle_of check_model_says app]. destruct c as [c|]; [|reflexivity]. destruct cnt as [cnt|]; [|cbn [computes]; destruct out; reflexivity].
  cbn [berts_eval] in E. destruct (length tokens <? n) eqn:HT; [discriminate|]. apply Nat.ltb_ge in HT.
  assert (HL : length (firstn n tokens) = n) by (apply firstn_length_le; exact HT).
  set (hp := em_hp (Fill_model.op_eval m)).
  assert (MAIN : forall sg, length sg = n ->
    eval P L (Fill_model.op_eval m) (firstn n tokens) sg c out cnt = Ok x ->
    existsb makes_context (eval_says P L ptr (Fill_model.op_eval m) (firstn n tokens) sg c threads code out cnt) =
    match out with None => false | Some _ =>
      (n <=? max_tokens hp) && forallb (fun s => (Z.of_N s <? Z.of_nat (segment_count hp))%Z) sg &&
      match needed hp (pool_type c) n with Some _ => true | None => false end &&
      match resolve_layer (n_layers hp) (output_layer c) with Ok _ => true | _ => false end
    end).
  { intros sg HS _. unfold eval_says. cbv zeta. fold hp. rewrite existsb_app, HL, HS, Nat.eqb_refl.
    rewrite (forallb_find _ (fun s => (Z.of_nat (segment_count hp) <=? Z.of_N s)%Z)) by (intros s; rewrite Z.leb_antisym; destruct (_ <? _)%Z; reflexivity).
    replace (n <=? max_tokens hp) with (negb (max_tokens hp <? n)) by (rewrite Nat.leb_antisym; reflexivity).
    destruct (max_tokens hp <? n); [destruct out; reflexivity|]. cbn [negb andb].
    destruct (find _ sg); [destruct out; reflexivity|]. destruct (needed hp (pool_type c) n); [|destruct out; reflexivity].
    destruct out; [|reflexivity]. destruct (resolve_layer (n_layers hp) (output_layer c)); reflexivity. }
  destruct segments as [sg|].
  - destruct (length sg <? n) eqn:HS; [discriminate|]. apply Nat.ltb_ge in HS.
    rewrite (MAIN (firstn n sg)); [|apply firstn_length_le; exact HS|exact E]. cbn [computes]. fold hp. destruct out as [o|]; [|reflexivity].
    rewrite (proj2 (Nat.leb_le _ _) HT), (proj2 (Nat.leb_le _ _) HS). reflexivity.
  - rewrite (MAIN (repeat 0%N n)); [|apply repeat_length|exact E]. cbn [computes]. fold hp. destruct out as [o|]; [|reflexivity].
    rewrite (proj2 (Nat.leb_le _ _) HT). cbn [andb]. replace ((n =? 0) || (0 <? segment_count hp)) with (forallb (fun s => (Z.of_N s <? Z.of_nat (segment_count hp))%Z) (repeat 0%N n)); [reflexivity|].
    destruct n as [|n']; [reflexivity|]. cbn [Nat.eqb orb]. cbn [repeat forallb].
    assert (B : (Z.of_N 0 <? Z.of_nat (segment_count hp))%Z = (0 <? segment_count hp)) by (destruct (segment_count hp); reflexivity).
    rewrite B. destruct (0 <? segment_count hp); [|reflexivity]. cbn [andb]. clear -B. induction n' as [|k IH]; [reflexivity|]. cbn [repeat forallb]. rewrite B, IH. reflexivity.
Qed.
Print Assumptions C212_encode_takes.

Theorem C212_predict_takes : forall V (P : prim V) L ptr (m : Fill_model.opened (V := V)) hidden count c out out_probs cnt r tr,
  berts_eval_lm_logged P L ptr (ELoaded (Fill_model.op_eval m)) hidden count c out out_probs cnt = Ok (r, tr) ->
  computes m (Predict hidden count c out out_probs cnt) = existsb makes_context tr.
Proof.
  intros V P L ptr m hidden count c out out_probs cnt r tr. unfold berts_eval_lm_logged.
  destruct (berts_eval_lm P L (ELoaded (Fill_model.op_eval m)) hidden count c out out_probs cnt) as [x| | |] eqn:E; try discriminate. cbn [obind].
  intros H. assert (T := f_equal (fun o => match o with Ok p => snd p | _ => [] end) H). cbn [snd] in T. rewrite <- T. clear T H.
  cbn [handle_of check_model_says app]. destruct c as [c|]; [|reflexivity].
  destruct cnt as [cnt|]; [|cbn [computes]; destruct out; [destruct out_probs|]; reflexivity].
  cbn [berts_eval_lm] in E. unfold eval_lm in E. cbv zeta in E. destruct (hidden_dim (em_hp (Fill_model.op_eval m)) =? 0) eqn:H0; [discriminate|].
  unfold eval_lm_says. cbv zeta. cbn [computes existsb makes_context orb]. rewrite H0. cbn [negb andb].
  destruct (count mod hidden_dim (em_hp (Fill_model.op_eval m)) =? 0); cbn [negb]; [|destruct out, out_probs; reflexivity].
  destruct out, out_probs; try reflexivity. cbn [existsb makes_context orb]. symmetry. rewrite existsb_app. cbn [app existsb]. apply orb_true_r.
Qed.
Print Assumptions C212_predict_takes.

(** Two tokens with an output buffer take an entry, more tokens than the model allows do not. *)
Example C212_example :
  computes P_Session.d_opened P_Session.d_query = true /\
  match P_Session.d_query with
  | Encode tokens segments n c out cnt =>
      match berts_eval_logged P_Eval.zprim P_Eval.lib64 4096 (ELoaded (Fill_model.op_eval P_Session.d_opened)) tokens segments n c 1 0 out cnt with
      | Ok (r, tr) => e_ok r = true /\ existsb makes_context tr = true
      | _ => False
      end /\
      let n' := S (max_tokens (em_hp (Fill_model.op_eval P_Session.d_opened))) in
      match berts_eval_logged P_Eval.zprim P_Eval.lib64 4096 (ELoaded (Fill_model.op_eval P_Session.d_opened)) (repeat 1%N n') None n' c 1 0 out cnt with
      | Ok (r, tr) => e_ok r = false /\ existsb makes_context tr = false
      | _ => False
      end
  | _ => False
  end.
Proof. split; [vm_compute; reflexivity|]. split; vm_compute; split; reflexivity. Qed.
