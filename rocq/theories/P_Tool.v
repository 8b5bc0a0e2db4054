(** Properties of the quantization tool. *)
From Verif Require Import Base Bert_model Vocab_model Bpe_model Roberta_model Loader_model Loader_spec
  Quantize_model Quantize_spec Tool_model Tool_spec Tool_proofs P_Loader P_Quantize.
From Verif Require P_Eval.
Local Open Scope nat_scope.

(** ** C67: the command line *)

(** An argument is accepted exactly if it names a type, and that type is used.  What
    happens to other strings: the usage text and status 1. *)
Theorem C67_accepts_partial : forall R (quantize : list N -> list N -> gty -> outcome (bool * R)) exe input type output,
  Forall (fun c => (c < 256)%N) type -> ~ Exists negative_char type -> ~ too_large type ->
  (forall t, names_type type t ->
     quant_main quantize [exe; input; type; output] = obind (quantize input output t) (fun r => Ok (0%N, Some (snd r)))) /\
  ((forall t, ~ names_type type t) -> quant_main quantize [exe; input; type; output] = Ok (1%N, None)).
Proof.
  intros R quantize exe input type output Hb Hn Hl. cbn [quant_main]. destruct type as [|c type].
  { cbn [length Nat.eqb]. split; [|reflexivity]. intros t [Ht H|Ht H].
    - cbn [map] in H. cbn [offered In] in Ht. exfalso. intuition (subst; discriminate).
    - inversion H as [s n H1|]; subst. apply digits_iff in H1. tauto. }
  cbn [length Nat.eqb]. destruct (parse_spec (c :: type) ltac:(discriminate) Hb) as (_ & H).
  destruct (H Hn Hl) as (Hs & Hno). split.
  - intros t Ht. rewrite (proj2 (Hs t) Ht). reflexivity.
  - intros Ht. rewrite (proj2 Hno Ht). reflexivity.
Qed.
Print Assumptions C67_accepts_partial.

(** No type has two meanings, and the name printed is that of the type used. *)
Theorem C67_unambiguous : forall s t, names_type s t ->
  (forall t', names_type s t' -> t' = t) /\ ftype_to_str t = type_name t.
Proof.
  intros s t H. split; [intros t' H'; exact (names_type_fun s t' t H' H)|].
  assert (Ht : In t offered) by (destruct H; assumption). cbn [offered In] in Ht. intuition (subst; reflexivity).
Qed.
Print Assumptions C67_unambiguous.

(** Any other number of arguments is refused. *)
Theorem C67_argument_count : forall R (quantize : list N -> list N -> gty -> outcome (bool * R)) argv,
  length argv <> 4 -> quant_main quantize argv = Ok (1%N, None).
Proof.
  intros R quantize argv H. unfold quant_main. do 4 (destruct argv as [|? argv]; [reflexivity|]).
  destruct argv; [cbn in H; congruence|reflexivity].
Qed.
Print Assumptions C67_argument_count.

(** Not every argument has a defined meaning: exactly these have none. *)
Theorem C67_undefined_iff : forall R (quantize : list N -> list N -> gty -> outcome (bool * R)) exe input type output,
  (forall t, quantize input output t <> UB) -> Forall (fun c => (c < 256)%N) type ->
  (quant_main quantize [exe; input; type; output] = UB <-> Exists negative_char type \/ too_large type).
Proof.
  intros R quantize exe input type output Hq Hb. cbn [quant_main]. destruct type as [|c type].
  { cbn [length Nat.eqb]. split; [discriminate|]. intros [H|(z & H & _)]; [inversion H|].
    inversion H as [s n H1|]; subst. apply digits_iff in H1. tauto. }
  cbn [length Nat.eqb]. destruct (parse_spec (c :: type) ltac:(discriminate) Hb) as (HU & _). rewrite <- HU.
  destruct (parse_ftype (c :: type)) as [[t|]| | |]; cbn [obind]; try (split; [discriminate|discriminate]); [|tauto].
  split; [|discriminate]. intros H. destruct (quantize input output t) as [r| | |] eqn:E; try discriminate. elim (Hq t E).
Qed.
Print Assumptions C67_undefined_iff.

(** "accepts exactly ..." is false: some arguments are neither accepted nor refused. *)
Theorem C67_arguments_refuted : forall R (quantize : list N -> list N -> gty -> outcome (bool * R)) exe input output,
  exists type, quant_main quantize [exe; input; type; output] = UB /\ type = u "99999999999".
Proof. intros. exists (u "99999999999"). split; reflexivity. Qed.
Print Assumptions C67_arguments_refuted.

(** The status is 0 whether or not the conversion succeeds. *)
Theorem C67_exit_status_refuted : exists f,
  quant_main (fun _ _ qt => q_with d_kv f plenty qt) [u "quant"; u "in"; u "q8_0"; u "out"] = Ok (0%N, Some None) /\
  q_with d_kv f plenty TQ8_0 = Ok (false, None).
Proof. exists (a_file 1 0 d_pieces). split; vm_compute; reflexivity. Qed.
Print Assumptions C67_exit_status_refuted.

Theorem C67_status_ignores_result : forall R (quantize : list N -> list N -> gty -> outcome (bool * R)) argv n r,
  quant_main quantize argv = Ok (n, Some r) -> n = 0%N.
Proof.
  intros R quantize argv n r H. unfold quant_main in H.
  do 4 (destruct argv as [|? argv]; [discriminate H|]). destruct argv; [|discriminate H].
  destruct (length _ =? 0); [discriminate H|]. destruct (parse_ftype _) as [[t|]| | |]; try discriminate H. cbn [obind] in H.
  destruct (quantize _ _ t) as [x| | |]; try discriminate H. cbn [obind] in H. congruence.
Qed.
Print Assumptions C67_status_ignores_result.

Example C67_example :
  names_type (u "q4_k") TQ4_K /\ names_type (u "012") TQ4_K /\ names_type (u "-0") TF32 /\
  (forall t, ~ names_type (u "4") t) /\
  Forall (fun c => (c < 256)%N) (u "q4_k") /\ ~ Exists negative_char (u "q4_k") /\ ~ too_large (u "q4_k") /\
  map parse_ftype [u "Q5_1"; u "7"; u "0x7"; u "7 "; u "-1"] = [Ok (Some TQ5_1); Ok (Some TQ5_1); Ok None; Ok None; Ok None].
Proof.
  assert (B : forall s, forallb (fun c => (c <? 128)%N) s = true -> Forall (fun c => (c < 256)%N) s /\ ~ Exists negative_char s).
  { intros s H. rewrite forallb_forall in H. split.
    - apply Forall_forall. intros c Hc. specialize (H c Hc). lia.
    - intros E. apply Exists_exists in E as (c & Hc & Hn). specialize (H c Hc). unfold negative_char in Hn. lia. }
  assert (P : forall s t, s <> [] -> forallb (fun c => (c <? 128)%N) s = true -> parse_ftype s = Ok (Some t) -> names_type s t).
  { intros s t Hs Hb E. destruct (B s Hb) as (B1 & B2). destruct (parse_spec s Hs B1) as (HU & HP).
    assert (Hl : ~ too_large s) by (intros H; rewrite (proj2 HU (or_intror H)) in E; discriminate).
    apply (HP B2 Hl). exact E. }
  split; [apply P; [discriminate|reflexivity|reflexivity]|].
  split; [apply P; [discriminate|reflexivity|reflexivity]|].
  split; [apply P; [discriminate|reflexivity|reflexivity]|].
  split.
  { destruct (B (u "4") eq_refl) as (B1 & B2). destruct (parse_spec (u "4") ltac:(discriminate) B1) as (HU & HP).
    assert (Hl : ~ too_large (u "4")) by (intros H; assert (X := proj2 HU (or_intror H)); vm_compute in X; discriminate).
    apply (HP B2 Hl). reflexivity. }
  destruct (B (u "q4_k") eq_refl) as (B1 & B2). split; [exact B1|]. split; [exact B2|].
  destruct (parse_spec (u "q4_k") ltac:(discriminate) B1) as (HU & _).
  split; [intros H; assert (X := proj2 HU (or_intror H)); vm_compute in X; discriminate|reflexivity].
Qed.

(** ** C107: the bits per weight of the usage text *)

(** The number shown for an option is that of ggml's blocks. *)
Definition bits_right (o : quant_option) : Prop :=
  (o_bits o * blck_size (o_type o) = 8 * type_size (o_type o) * o_per o)%N.

Theorem C107_bits_per_weight_refuted : exists o, In o quant_types /\ ~ bits_right o /\ o_type o = TQ4_0.
Proof.
  exists (mkopt TQ4_0 (u "Q4_0") 160 32 (u "4-bit x 32 + 32-bit scale")). split; [cbn; tauto|]. split; [|reflexivity].
  unfold bits_right. vm_compute. discriminate.
Qed.
Print Assumptions C107_bits_per_weight_refuted.

Theorem C107_bits_per_weight_iff : forall o, In o quant_types ->
  (bits_right o <-> ~ In (o_type o) [TQ4_0; TQ4_1; TQ8_0]).
Proof.
  intros o H. unfold bits_right. cbn [quant_types In] in H.
  intuition subst; cbn [o_type o_bits o_per In] in *; try discriminate; try (vm_compute; reflexivity);
    try (exfalso; intuition discriminate); intuition discriminate.
Qed.
Print Assumptions C107_bits_per_weight_iff.

(** The size of a converted matrix follows: it has those bits per weight. *)
Theorem C107_size_partial : forall chunk o data n, chunk_ok chunk -> In o quant_types -> convertible (o_type o) = true ->
  ~ In (o_type o) [TQ4_0; TQ4_1; TQ8_0] -> (N.of_nat n mod blck_size (o_type o) = 0)%N ->
  (8 * N.of_nat (length (chunk (o_type o) data n)) * o_per o = o_bits o * N.of_nat n)%N.
Proof.
  intros chunk o data n Hc Ho Hv Hn Hm. rewrite (Hc _ data n Hv).
  assert (R := proj2 (C107_bits_per_weight_iff o Ho) Hn). unfold bits_right in R.
  assert (D := N.div_mod (N.of_nat n) (blck_size (o_type o))).
  assert (B : (blck_size (o_type o) <> 0)%N) by (destruct (o_type o); vm_compute; discriminate).
  specialize (D B). rewrite Hm, N.add_0_r in D. set (q := (N.of_nat n / blck_size (o_type o))%N) in *. nia.
Qed.
Print Assumptions C107_size_partial.

Example C107_example : In (mkopt TQ5_0 (u "Q5_0") 176 32 (u "5-bit x 32 + 16-bit scale")) quant_types /\
  length (d_chunk TQ5_0 [] 64) = 44 /\ (8 * 44 * 32 = 176 * 64)%N.
Proof. split; [cbn; tauto|]. split; reflexivity. Qed.
