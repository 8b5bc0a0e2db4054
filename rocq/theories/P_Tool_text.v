(** Theorems about what the quantization tool prints. *)
From Verif Require Import Base Bert_model Vocab_model Bpe_model Roberta_model Loader_model Log_model.
From Verif Require Import Says_model Says_eval_model Says_load_model Quantize_model Says_quantize_model Tool_model Tool_text_model.
From Verif Require Import Log_spec Loader_spec Says_spec Quantize_spec Tool_spec Says_quantize_spec Says_load_spec.
From Verif Require Import P_Log Says_proofs Says_eval_proofs Loader_proofs Says_load_proofs Quantize_proofs Says_quantize_proofs Tool_proofs.
From Verif Require Import Says_load_spec.
From Verif Require P_Tool P_Says_load P_Says_quantize P_Quantize P_Loader P_Eval.
Local Open Scope N_scope.

(** ** Specification *)

(** [l] ends with [e]. *)
Definition ends_with (l e : list N) : Prop := exists pre, l = pre ++ e.

(** The messages that are not of level DEBUG. *)
Definition no_debug (c : log_call) : bool := match c with Plain Debug _ | Formatted Debug _ => false | _ => true end.

(** [full] writes what [part] writes, but any messages of level DEBUG in between. *)
Definition with_debug {A} (full part : outcome (A * list log_call)) : Prop :=
  match full with
  | Ok (a, tr) => Forall says tr /\ exists tr', part = Ok (a, tr') /\ filter no_debug tr' = filter no_debug tr
  | Fail => part = Fail
  | UB => part = UB
  | Abort => part = Abort
  end.

(** ** Proofs *)

Lemma tool_argv version bpw R (run : list N -> list N -> gty -> outcome ((bool * R) * list log_call)) exe input type output t :
  Forall (fun c => c < 256) type -> ~ Exists negative_char type -> ~ too_large type -> names_type type t ->
  quant_tool version bpw run [exe; input; type; output] =
  obind (logged (mkls LOG_ALL true) (run input output t)) (fun r =>
    let '((ok, kept), log) := r in
    Ok (mktr R 0 (u "input:  " ++ input ++ [10] ++ u "output: " ++ output ++ [10] ++ u "type: " ++ type_name t ++ [10]
                  ++ (if ok then u "done" else u "fail to quantize model") ++ [10])
             (banner version ++ log) (Some kept))).
Proof.
  intros Hb Hn Hl NT. cbn [quant_tool].
  assert (TN : type <> []).
  { intros ->. pose proof (proj1 (P_Tool.C67_accepts_partial unit (fun _ _ _ => Ok (true, tt)) [] [] [] [] Hb Hn Hl) t NT) as X. discriminate X. }
  replace (length type =? 0)%nat with false by (destruct type; [congruence|reflexivity]).
  assert (PT : parse_ftype type = Ok (Some t)).
  { pose proof (proj1 (P_Tool.C67_accepts_partial gty (fun _ _ t => Ok (true, t)) [] [] type [] Hb Hn Hl) t NT) as X. cbn [quant_main obind snd] in X.
    replace (length type =? 0)%nat with false in X by (destruct type; [congruence|reflexivity]).
    destruct (parse_ftype type) as [[t'|]| | |]; cbn [obind snd] in X; try discriminate. congruence. }
  rewrite PT. cbn [obind]. rewrite <- (proj2 (P_Tool.C67_unambiguous type t NT)). reflexivity.
Qed.

(** C202: the last line of stdout tells whether the conversion succeeded (the exit status does
    not); the type shown is the one that was named. *)
Theorem C202_output : forall version bpw R (run : list N -> list N -> gty -> outcome ((bool * R) * list log_call)) exe input type output t r,
  Forall (fun c => c < 256) type -> ~ Exists negative_char type -> ~ too_large type -> names_type type t ->
  quant_tool version bpw run [exe; input; type; output] = Ok r ->
  exists ok kept log, logged (mkls 0 true) (run input output t) = Ok ((ok, kept), log) /\
    tr_status r = 0 /\ tr_kept r = Some kept /\ tr_err r = u "* berts.cpp v" ++ version ++ u " quant" ++ [10] ++ log /\
    (exists rest, tr_out r = u "input:  " ++ input ++ [10] ++ u "output: " ++ output ++ [10] ++ u "type: " ++ type_name t ++ [10] ++ rest) /\
    (ends_with (tr_out r) ([10] ++ u "done" ++ [10]) <-> ok = true) /\
    (ends_with (tr_out r) ([10] ++ u "fail to quantize model" ++ [10]) <-> ok = false).
Proof.
  intros version bpw R run exe input type output t r Hb Hn Hl NT H. rewrite (tool_argv _ _ _ _ _ _ _ _ _ Hb Hn Hl NT) in H.
  change LOG_ALL with 0%Z in H. destruct (logged (mkls 0 true) (run input output t)) as [[[ok kept] log]| | |]; try discriminate.
  cbn [obind] in H. apply (f_equal (fun x => match x with Ok y => y | _ => r end)) in H. cbv beta iota in H. subst r. exists ok, kept, log. cbn [tr_status tr_kept tr_err tr_out]. split; [reflexivity|]. split; [reflexivity|].
  split; [reflexivity|]. split; [unfold banner; rewrite <- !app_assoc; reflexivity|]. split; [eexists; reflexivity|].
  set (head := u "input:  " ++ input ++ [10] ++ u "output: " ++ output ++ [10] ++ u "type: " ++ type_name t).
  assert (E : forall e : list N, u "input:  " ++ input ++ [10] ++ u "output: " ++ output ++ [10] ++ u "type: " ++ type_name t ++ [10] ++ e ++ [10]
              = head ++ [10] ++ e ++ [10]) by (intros e; unfold head; rewrite <- !app_assoc; reflexivity).
  rewrite E.
  assert (D : forall a e : list N, (6 <= length e)%nat -> firstn 6 (rev (a ++ e)) = firstn 6 (rev e)).
  { intros a e He. rewrite rev_app_distr, firstn_app, rev_length. replace (6 - length e)%nat with 0%nat by lia. cbn [firstn]. apply app_nil_r. }
  destruct ok; split; split; intros K; try reflexivity; try discriminate; try (exists head; reflexivity); exfalso; destruct K as (pre & K);
    apply (f_equal (fun l => firstn 6 (rev l))) in K; rewrite (D head), (D pre) in K by (vm_compute; lia); vm_compute in K; discriminate K.
Qed.
Print Assumptions C202_output.

(** Wrong arguments: nothing is converted, and the usage lists the types and how to name them. *)
Theorem C202_usage : forall version bpw R (run : list N -> list N -> gty -> outcome ((bool * R) * list log_call)) exe args,
(forall a b, ~ In 10 (bpw a b)) ->
  (forall input type output, args = [input; type; output] ->
     Forall (fun c => c < 256) type /\ ~ Exists negative_char type /\ ~ too_large type /\ forall t, ~ names_type type t) ->
  exists r lines, quant_tool version bpw run (exe :: args) = Ok r /\ tr_status r = 1 /\ tr_kept r = None /\
    tr_err r = u "* berts.cpp v" ++ version ++ u " quant" ++ [10] /\
    tr_out r = u "usage: " ++ exe ++ u " input.gguf type output.gguf" ++ [10; 10] ++ u "Allowed quantization types:" ++ [10] ++ concat lines /\
    Forall2 (fun t l => exists number about, l = u "  " ++ number ++ u " or " ++ type_name t ++ u " : " ++ about ++ [10] /\
               ~ In 10 about /\ names_type number t /\ names_type (type_name t) t) offered lines.
Proof.
  intros version bpw R run exe args HP H.
  exists (mktr R 1 (usage bpw exe) (banner version) None), (map (usage_line bpw) quant_types). cbn [tr_status tr_kept tr_err tr_out].
  split; [|split; [reflexivity|split; [reflexivity|split; [reflexivity|split]]]].
  - cbn [quant_tool]. destruct args as [|input [|type [|output [|x args]]]]; try reflexivity.
    destruct (H input type output eq_refl) as (Hb & Hn & Hl & HT). destruct (length type =? 0)%nat eqn:E; [reflexivity|].
    pose proof (proj2 (P_Tool.C67_accepts_partial unit (fun _ _ _ => Ok (true, tt)) exe input type output Hb Hn Hl) HT) as X. cbn [quant_main] in X. rewrite E in X.
    destruct (parse_ftype type) as [[t|]| | |]; cbn [obind] in X; try discriminate. reflexivity.
  - unfold usage. rewrite flat_map_concat_map. reflexivity.
  - assert (ND : forall o, In o quant_types -> exists about, usage_line bpw o = u "  " ++ decimal (code (o_type o)) ++ u " or " ++ o_name o ++ u " : " ++ about ++ [10] /\ ~ In 10 about).
    { intros o Ho. exists (o_about o ++ u " (bpw=" ++ bpw (o_bits o) (o_per o) ++ u ")"). split; [unfold usage_line; rewrite <- !app_assoc; reflexivity|].
      rewrite !in_app_iff. intros [K|[K|[K|K]]]; [|vm_compute in K; intuition discriminate|exact (HP _ _ K)|vm_compute in K; intuition discriminate].
      cbn [quant_types In] in Ho. repeat (destruct Ho as [<-|Ho]; [vm_compute in K; intuition discriminate|]). contradiction. }
    assert (NT : forall o, In o quant_types -> In (o_type o) offered /\ o_name o = type_name (o_type o) /\
       map capital (type_name (o_type o)) = type_name (o_type o) /\ numeral (decimal (code (o_type o))) (Z.of_N (code (o_type o)))).
    { assert (ONE : forall d, d < 10 -> numeral [48 + d] (Z.of_N d)) by (intros d Hd; apply numeral_plain, digits_one, Hd).
      assert (TWO : forall d, d < 10 -> numeral [49; 48 + d] (Z.of_N (10 * 1 + d)))
        by (intros d Hd; apply numeral_plain; apply (digits_more [48 + 1] 1 d); [apply digits_one; lia|exact Hd]).
      intros o Ho. cbn [quant_types In] in Ho.
      destruct Ho as [<-|[<-|[<-|[<-|[<-|[<-|[<-|[<-|[<-|[<-|[<-|[<-|[<-|[]]]]]]]]]]]]]]; (split; [vm_compute; tauto|]; split; [reflexivity|]; split; [reflexivity|]).
      1: exact (ONE 0 eq_refl). 1: exact (ONE 1 eq_refl). 1: exact (ONE 2 eq_refl). 1: exact (ONE 3 eq_refl). 1: exact (ONE 6 eq_refl).
      1: exact (ONE 7 eq_refl). 1: exact (ONE 8 eq_refl). 1: exact (ONE 9 eq_refl). 1: exact (TWO 0 eq_refl). 1: exact (TWO 1 eq_refl).
      1: exact (TWO 2 eq_refl). 1: exact (TWO 3 eq_refl). exact (TWO 4 eq_refl). }
    assert (MO : offered = map o_type quant_types) by reflexivity. rewrite MO. revert ND NT. generalize quant_types. intros l ND NT.
    induction l as [|o l IH]; [constructor|]. cbn [map]. constructor; [|apply IH; intros; [apply ND|apply NT]; right; assumption].
    destruct (ND o (or_introl eq_refl)) as (about & E & A). destruct (NT o (or_introl eq_refl)) as (IO & EN & CP & NU).
    exists (decimal (code (o_type o))), about. rewrite <- EN. split; [exact E|]. split; [exact A|].
    split; [apply by_number; assumption|]. rewrite EN. apply by_name; assumption.
Qed.
Print Assumptions C202_usage.

(** ** The log *)

Lemma says_filter tr : Forall says (filter no_debug tr) -> Forall says tr.
Proof.
  intros H. apply Forall_forall. intros c Hc. destruct (no_debug c) eqn:E.
  - apply (proj1 (Forall_forall _ _) H). apply filter_In. auto.
  - destruct c as [l|b|s m|s m]; try discriminate; exact Logic.I.
Qed.
Lemma debug_rank c : (1 <= fst (message_of c))%Z -> no_debug c = true.
Proof. destruct c as [l|b|[] m|[] m]; cbn; try reflexivity; lia. Qed.

Lemma debug_erase {A} full (part : outcome (A * list log_call)) a o : with_debug full part -> logged (mkls 0 true) full = Ok (a, o) ->
  exists tr, part = Ok (a, tr) /\ Forall says tr /\ exists o', logged (mkls 1 true) part = Ok (a, o').
Proof.
  intros W H. destruct full as [[a' tr]| | |]; try discriminate. destruct W as (S & tr' & -> & F).
  assert (a = a') as -> by (eapply (proj1 (logged_says (mkls 0 true) a' tr S)); eauto).
  assert (S' : Forall says tr').
  { apply says_filter. rewrite F. apply Forall_forall. intros c Hc. apply filter_In in Hc as (Hc & _). exact (proj1 (Forall_forall _ _) S c Hc). }
  exists tr'. split; [reflexivity|]. split; [exact S'|].
  apply (logged_log 0 a' tr o S) in H. assert (Q := proj1 (log_exists 0 _) (ex_intro _ o H)).
  assert (Q1 : Forall (fun x : message => (1 <= fst x)%Z -> printable_text (snd x)) (map message_of tr')).
  { apply Forall_forall. intros x Hx K. apply in_map_iff in Hx as (c & <- & Hc).
    assert (I : In c (filter no_debug tr)) by (rewrite <- F; apply filter_In; split; [exact Hc|apply debug_rank; exact K]).
    apply filter_In in I as (I & _). apply (proj1 (Forall_forall _ _) Q); [apply in_map; exact I|lia]. }
  apply (proj2 (log_exists 1 _)) in Q1 as (o1 & Q1). exists o1. apply (logged_log 1 _ _ o1 S'). exact Q1.
Qed.

(** C203: the tool sets the level at which everything is written, so an input path that is no
    format for printf makes it undefined, whatever the file. *)
Theorem C203_path_undefined : forall version bpw chunk widen kib mib bins L junk V (value : gty -> list N -> nat -> V) order
    text double in_kv file reopen opens n_kv kv dev run exe input type output t,
  Forall (fun c => c < 256) type -> ~ Exists negative_char type -> ~ too_large type -> names_type type t ->
  (forall o t, with_debug (run input o t)
     (quantize_logged chunk widen kib mib bins L junk value order input o text double in_kv file reopen opens n_kv kv dev t)) ->
  (exists a, berts_model_quantize chunk widen L junk value order file reopen opens n_kv kv dev t = Ok a) ->
  ~ printable_text input ->
  quant_tool version bpw run [exe; input; type; output] = UB.
Proof.
  intros version bpw chunk widen kib mib bins L junk V value order text double in_kv file reopen opens n_kv kv dev run exe input type output t
    Hb Hn Hl NT HR (a & HA) HP. rewrite (tool_argv _ _ _ _ _ _ _ _ _ Hb Hn Hl NT).
  rewrite <- (run_erase chunk widen kib mib bins L junk value order input output text double in_kv) in HA.
  assert (W := HR output t). unfold with_debug in W. destruct (run input output t) as [[a' tr0]| | |] eqn:ER; try (rewrite W in HA; discriminate).
  destruct W as (S0 & _). destruct (proj2 (logged_says (mkls LOG_ALL true) a' tr0 S0)) as [(log & E)|E]; [exfalso|rewrite E; reflexivity].
  rewrite <- ER in E. change LOG_ALL with 0%Z in E.
  destruct (debug_erase _ _ _ _ (HR output t) E) as (tr & EP & S & o' & E').
  rewrite EP in E'. apply (logged_log 1 _ tr o' S) in E'. apply run_inv in EP as (r' & tl & EL & C).
  destruct (P_Says_load.path_first _ _ _ _ _ _ _ _ _ _ _ _ _ EL) as (rest & ->).
  assert (Q := proj1 (log_exists 1 _) (ex_intro _ o' E')). rewrite Forall_forall in Q. apply HP.
  rewrite <- (printable_app (u "loading model: ")) by (split; vm_compute; intuition discriminate).
  apply (Q (1%Z, u "loading model: " ++ input)); [|cbn; lia]. apply in_map_iff. exists (Formatted Info (u "loading model: " ++ input)).
  split; [reflexivity|]. destruct C as [(m & f & ts & t1 & t2 & _ & _ & -> & _ & _ & ->)|(_ & _ & ->)]; right; left; reflexivity.
Qed.
Print Assumptions C203_path_undefined.

(** With the file of P_Says_quantize, and without a file. *)
Definition y_run (f : option file) (input output : list N) (qt : gty) : outcome ((bool * option (list N)) * list log_call) :=
  quantize_logged P_Quantize.d_chunk P_Quantize.d_widen (fun n => decimal (n / 1024) ++ u ".0") (fun n => u "0.0") (fun _ => [])
    P_Eval.lib64 P_Loader.d_junk P_Loader.d_value (fun x => x) input output (fun _ => []) (fun _ => u "0") 9 f true true 1 P_Quantize.d_kv (fun _ => 4000%nat) qt.
Definition y_tool (f : option file) := quant_tool (u "0.1.0") (fun _ _ => u "1.000") (y_run f).

Example C202_example :
  (match y_tool (Some P_Loader.d_file) [u "quant"; u "m.gguf"; u "f16"; u "q.gguf"] with
   | Ok r => tr_status r = 0 /\
       tr_out r = u "input:  m.gguf" ++ [10] ++ u "output: q.gguf" ++ [10] ++ u "type: F16" ++ [10] ++ u "done" ++ [10]
   | _ => False
   end) /\
  (match y_tool None [u "quant"; u "m.gguf"; u "8"; u "q.gguf"] with
   | Ok r => tr_status r = 0 /\ tr_kept r = Some None /\
       tr_out r = u "input:  m.gguf" ++ [10] ++ u "output: q.gguf" ++ [10] ++ u "type: Q8_0" ++ [10] ++ u "fail to quantize model" ++ [10] /\
       tr_err r = u "* berts.cpp v0.1.0 quant" ++ [10] ++ line (u "start quantization") ++ line (u "loading model: m.gguf") ++
                  line (u "fail to load gguf file: m.gguf") ++ line (u "fail to load model: m.gguf")
   | _ => False
   end) /\
  (match y_tool None [u "quant"; u "m.gguf"; u "Q9"; u "q.gguf"] with
   | Ok r => tr_status r = 1 /\
       firstn 113 (tr_out r) = u "usage: quant input.gguf type output.gguf" ++ [10; 10] ++ u "Allowed quantization types:" ++ [10] ++
                              u "  0 or F32 : 32-bit float (bpw=1.000)" ++ [10] ++ u "  1 o"
   | _ => False
   end).
Proof. split; [vm_compute; split; reflexivity|]. split; vm_compute; repeat split; reflexivity. Qed.

Example C203_example : with_debug (y_run None (u "50%.gguf") (u "q.gguf") TF16) (y_run None (u "50%.gguf") (u "q.gguf") TF16) /\
  ~ printable_text (u "50%.gguf") /\ y_tool None [u "quant"; u "50%.gguf"; u "f16"; u "q.gguf"] = UB.
Proof.
  split; [vm_compute; split; [repeat constructor|eexists; split; reflexivity]|]. split; [|vm_compute; reflexivity].
  intros (t & p & C & E). apply cut_fun in C. subst t. apply escaped_fun in E. vm_compute in E. discriminate.
Qed.
