(** Theorems about what quantization writes to the log. *)
From Verif Require Import Base Bert_model Vocab_model Bpe_model Roberta_model Loader_model Log_model.
From Verif Require Import Says_model Says_eval_model Says_load_model Quantize_model Says_quantize_model.
From Verif Require Import Log_spec Loader_spec Says_spec Quantize_spec Says_quantize_spec Says_load_spec.
From Verif Require Import P_Log Says_proofs Says_eval_proofs P_Says_vocab Says_load_proofs Says_load_lines Loader_proofs Quantize_proofs Says_quantize_proofs.
From Verif Require Import Says_load_spec.
From Verif Require Ggml_model P_Loader P_Eval P_Quantize P_Says_load.
Local Open Scope N_scope.

(** C194: logging does not change what quantization does, except that it may be undefined. *)
Theorem C194_same_result : forall chunk widen kib mib bins L junk V (value : gty -> list N -> nat -> V) order input output text double in_kv
    file reopen opens n_kv kv dev qt st,
  let r := logged st (quantize_logged chunk widen kib mib bins L junk value order input output text double in_kv file reopen opens n_kv kv dev qt) in
  match berts_model_quantize chunk widen L junk value order file reopen opens n_kv kv dev qt with
  | Ok a => (exists o, r = Ok (a, o)) \/ (r = UB /\ has_file st = true /\ (lvl st <= 3)%Z)
  | Fail => r = Fail
  | UB => r = UB
  | Abort => r = Abort
  end.
Proof.
  intros chunk widen kib mib bins L junk V value order input output text double in_kv file reopen opens n_kv kv dev qt st r.
  rewrite <- (run_erase chunk widen kib mib bins L junk value order input output text double in_kv). subst r.
  destruct (quantize_logged chunk widen kib mib bins L junk value order input output text double in_kv file reopen opens n_kv kv dev qt)
    as [[a tr]| | |] eqn:E; try reflexivity.
  cbn [obind fst]. assert (S := says_run _ _ _ _ _ _ _ _ _ _ _ _ _ _ _ _ _ _ _ _ _ _ _ E).
  destruct (proj2 (logged_says st a tr S)) as [(o & K)|K]; [left; eauto|]. right. split; [exact K|].
  destruct st as [l f]. cbn [has_file lvl]. destruct f.
  - split; [reflexivity|]. destruct (Z.leb_spec l 3) as [H|H]; [exact H|]. exfalso.
    assert (X : log_of l (map message_of tr) []).
    { clear -S H. induction S as [|c tr Hc S IH]; [constructor|]. cbn [map]. destruct (message_of c) as [r t] eqn:Em.
      apply log_skip; [|exact IH]. destruct c as [|x|s t'|s t']; cbn [says] in Hc; try contradiction;
        cbn [message_of] in Em; destruct s; cbn in Em; injection Em as <- _; lia. }
    apply (logged_log l a tr [] S) in X. congruence.
  - exfalso. unfold logged in K. cbn [obind fst snd] in K. rewrite (calls_no_file l tr S) in K. discriminate.
Qed.
Print Assumptions C194_same_result.

(** ** The default level *)

Lemma low_end ms o a b : Forall (fun x : message => (fst x < 2)%Z) a -> Forall (fun x : message => (fst x < 2)%Z) b ->
  (log_of 2 (a ++ ms ++ b) o <-> log_of 2 ms o).
Proof.
  intros HA HB. assert (F : forall l, Forall (fun x : message => (fst x < 2)%Z) l -> filter (fun x : message => (2 <=? fst x)%Z) l = []).
  { induction 1 as [|x l Hx H IH]; [reflexivity|]. cbn [filter]. rewrite IH. destruct (Z.leb_spec 2 (fst x)); [lia|reflexivity]. }
  rewrite (log_filter 2 (a ++ ms ++ b)), (log_filter 2 ms), !filter_app, (F _ HA), (F _ HB), app_nil_r. reflexivity.
Qed.

(** C195: at the default level quantization writes what loading the file writes, and
    nothing else, whatever comes of it. *)
Theorem C195_default_log : forall chunk widen kib mib bins L junk V (value : gty -> list N -> nat -> V) order input output text double in_kv
    file reopen opens n_kv kv dev qt a o,
  berts_model_quantize chunk widen L junk value order file reopen opens n_kv kv dev qt = Ok a ->
  (logged log_start (quantize_logged chunk widen kib mib bins L junk value order input output text double in_kv file reopen opens n_kv kv dev qt)
     = Ok (a, o) <->
   exists r, logged log_start (load_logged L junk value order input text double in_kv file reopen) = Ok (r, o)).
Proof.
  intros chunk widen kib mib bins L junk V value order input output text double in_kv file reopen opens n_kv kv dev qt a o HB.
  rewrite <- (run_erase chunk widen kib mib bins L junk value order input output text double in_kv) in HB.
  destruct (quantize_logged chunk widen kib mib bins L junk value order input output text double in_kv file reopen opens n_kv kv dev qt)
    as [[a' tr]| | |] eqn:E; try discriminate. cbn [obind fst] in HB. injection HB as ->.
  assert (S := says_run _ _ _ _ _ _ _ _ _ _ _ _ _ _ _ _ _ _ _ _ _ _ _ E).
  change log_start with (mkls 2 true). rewrite (logged_log 2 a tr o S).
  apply run_inv in E as (r & tl & E & C). assert (SL := says_load _ _ _ _ _ _ _ _ _ _ _ _ E).
  assert (B : exists pre post, map message_of tr = pre ++ map message_of tl ++ post /\
            Forall (fun x : message => (fst x < 2)%Z) pre /\ Forall (fun x : message => (fst x < 2)%Z) post).
  { destruct C as [(m & f & ts & t1 & t2 & -> & -> & -> & Q & _ & ->)|(_ & -> & ->)].
    - apply says_to in Q as (_ & Q). exists [(1%Z, u "start quantization")], ((1%Z, u "model loaded: " ++ input) :: map message_of t2).
      split; [cbn [map message_of app]; rewrite map_app; reflexivity|]. split; repeat constructor. exact Q.
    - exists [(1%Z, u "start quantization")], [(1%Z, u "fail to load model: " ++ input)].
      split; [cbn [map message_of app]; rewrite map_app; reflexivity|]. split; repeat constructor. }
  destruct B as (pre & post & -> & HP & HQ). rewrite (low_end _ o pre post HP HQ), <- (logged_log 2 r tl o SL), E. split.
  - intros H. exists r. exact H.
  - intros (r' & H). assert (r' = r) as <- by (eapply (proj1 (logged_says (mkls 2 true) r tl SL)); eauto). exact H.
Qed.
Print Assumptions C195_default_log.

(** ** INFO *)

Lemma shift l (a : message) ms o m : (l <= fst a)%Z -> a = (fst a, m) -> harmless m -> log_of l (a :: ms) o -> exists o', o = line m ++ o' /\ log_of l ms o'.
Proof.
  intros Hl Ea Hm H. change (a :: ms) with ([a] ++ ms) in H. apply log_split in H as (oa & ob & H1 & H2 & ->).
  rewrite Ea in H1. apply log_one in H1; [|exact Hl|exact Hm]. subst oa. exists ob. auto.
Qed.

(** C196: the log of a success at INFO, for a file whose tensors have distinct names: one
    report per tensor, in the order of the file, and the sizes together. *)
Theorem C196_success_log : forall chunk widen kib mib bins L junk V (value : gty -> list N -> nat -> V) order input output text double in_kv
    f reopen opens n_kv kv dev qt bytes o,
  lib_ok L -> distinct_names f ->
  logged (mkls 1 true) (quantize_logged chunk widen kib mib bins L junk value order input output text double in_kv (Some f) reopen opens n_kv kv dev qt)
    = Ok ((true, bytes), o) ->
  exists m ol o' outs done reports,
    logged (mkls 1 true) (load_logged L junk value order input text double in_kv (Some f) reopen) = Ok (Loaded m, ol) /\
    o = line (u "start quantization") ++ ol ++ o' /\
    Forall2 (fun s o => becomes chunk widen qt s (fst o) (snd o)) (tensors_of junk f) outs /\
    conversions (tensors_of junk f) outs done /\
    Forall2 (fun so m => report kib (fst so) (snd so) m) (combine (tensors_of junk f) outs) reports /\
    log_of 1 ([(1%Z, u "model loaded: " ++ input); (1%Z, u "converting...")] ++ reports ++
              [(1%Z, u "writing metadata...");
               (1%Z, summary mib (total (map (fun s => nbytes (st_info s)) (tensors_of junk f)))
                       (total (map (fun o => N.of_nat (length (snd o))) outs)) (bins done));
               (1%Z, u "quantization completed")]) o'.
Proof.
  intros chunk widen kib mib bins L junk V value order input output text double in_kv f reopen opens n_kv kv dev qt bytes o HL HD H.
  destruct (quantize_logged chunk widen kib mib bins L junk value order input output text double in_kv (Some f) reopen opens n_kv kv dev qt)
    as [[a' tr]| | |] eqn:E; try discriminate.
  assert (S := says_run _ _ _ _ _ _ _ _ _ _ _ _ _ _ _ _ _ _ _ _ _ _ _ E).
  assert ((true, bytes) = a') as <- by (eapply (proj1 (logged_says (mkls 1 true) a' tr S)); eauto).
  apply (logged_log 1 _ tr o S) in H.
  apply run_inv in E as (r & tl & E & [(m & f' & ts & t1 & t2 & -> & Ef & -> & Q & RT & ->)|(_ & X & _)]); [|discriminate].
  injection Ef as <-. assert (SL := says_load _ _ _ _ _ _ _ _ _ _ _ _ E).
  assert (F : load_from_file L junk value order (Some f) reopen = Ok (Loaded m)).
  { rewrite <- (load_result_same L junk value order input text double in_kv), E. reflexivity. }
  destruct (loaded_inv L HL junk value order f reopen m F) as (_ & made & arch & layers & Hm & HLd & _).
  destruct (pool_size L HL f made (l_names _ _ _ _ _ HLd) Hm) as (Es & _). rewrite Es in RT. cbn [obind] in RT.
  rewrite (proj1 (read_all L HL junk f made (l_names _ _ _ _ _ HLd) Hm) (l_readable _ _ _ _ _ HLd)) in RT.
  injection RT as <-. rewrite (kept_distinct junk f made HD Hm) in Q.
  unfold quantize_to_logged in Q. destruct opens; cbn [negb] in Q; [|discriminate].
  destruct (add_all _ _ []) as [ws| | |]; try discriminate. cbn [obind] in Q.
  destruct (convert_logged chunk widen kib (tensors_of junk f) qt (map ti_name (f_tensors f)) ws (mktally 0 0 [])) as [[[os r] t1]| | |] eqn:C; try discriminate.
  cbn [obind] in Q. destruct r as [[ws' c]|]; [|discriminate]. apply ok_pair in Q as (_ & <-).
  rewrite <- (names_tensors junk f) in C. apply convert_lines in C.
  2: { unfold tensors_of. apply Forall_map. exact (l_names _ _ _ _ _ HLd). }
  2: { rewrite names_tensors. exact HD. }
  2: { auto. }
  destruct C as (outs & done & HB & HC & HR & ->).
  cbn [map message_of] in H. apply (shift 1 _ _ _ (u "start quantization")) in H as (o1 & -> & H);
    [|cbn; lia|reflexivity|split; vm_compute; intuition discriminate].
  rewrite map_app in H. apply log_split in H as (ol & o' & H1 & H2 & ->).
  exists m, ol, o', outs, done, (map message_of t1). rewrite E. split; [apply (logged_log 1 _ tl ol SL); exact H1|]. split; [reflexivity|].
  split; [exact HB|]. split; [exact HC|]. split; [exact HR|].
  cbn [app map message_of] in H2. rewrite map_app in H2. cbn [map message_of dump_says t_before t_after t_done app N.add] in H2. exact H2.
Qed.
Print Assumptions C196_success_log.

(** The texts of a refusal. *)
Lemma told_last l ms r p q o : (l <= r)%Z -> harmless p -> ~ In 10 p -> ~ In 10 q -> log_of l (ms ++ [(r, p ++ q)]) o ->
  exists rest, ~ In 10 rest /\ last_line o (p ++ rest).
Proof.
  intros Hl Hp N1 N2 H. apply log_split in H as (oa & ob & H1 & H2 & ->).
  apply log_cons in H2 as [(H2 & _)|(_ & t & pr & o' & C & P & H2 & ->)]; [cbn in H2; lia|]. inversion H2; subst o'.
  assert (Sub : exists t', t = p ++ t' /\ ~ In 10 t').
  { destruct C as (NZ & C). destruct C as [C|(rest & C)].
    - exists q. split; [symmetry; exact C|exact N2].
    - assert (G : forall p q t, ~ In 0 p -> ~ In 10 q -> p ++ q = t ++ 0 :: rest -> exists t', t = p ++ t' /\ ~ In 10 t').
      { clear. induction p as [|x p IH]; intros q t Hp Hq E.
        - exists t. split; [reflexivity|]. intros K. apply Hq. cbn in E. rewrite E. apply in_or_app. left. exact K.
        - destruct t as [|y t]; cbn in E; [injection E as -> _; elim Hp; left; reflexivity|]. injection E as -> E.
          destruct (IH q t) as (t' & -> & K); [intros K; apply Hp; right; exact K|exact Hq|exact E|]. exists t'. split; [reflexivity|exact K]. }
      apply (G p q t); [apply Hp|exact N2|exact C]. }
  destruct Sub as (t' & -> & N3).
  assert (G : forall p t' pr, ~ In 37 p -> escaped (p ++ t') pr -> exists pr', pr = p ++ pr' /\ escaped t' pr').
  { clear. induction p as [|x p IH]; intros t' pr Hp E; [exists pr; split; [reflexivity|exact E]|]. cbn in E. inversion E as [|t0 p0 E0|c0 t0 p0 Hc E0]; subst.
    - elim Hp. left. reflexivity.
    - apply IH in E0 as (pr' & -> & E0); [|intros K; apply Hp; right; exact K]. exists pr'. split; [reflexivity|exact E0]. }
  apply G in P as (pr' & -> & P); [|apply Hp].
  exists pr'. split.
  - clear -P N3. induction P as [|t p P IH|c t p Hc P IH]; [intros []| |].
    + intros [Q|Q]; [discriminate|apply IH; [intros Y; apply N3; right; right; exact Y|exact Q]].
    + intros [Q|Q]; [apply N3; left; exact Q|apply IH; [intros Y; apply N3; right; exact Y|exact Q]].
  - rewrite app_nil_r. destruct (log_ends _ _ _ H1) as [->|(b & ->)]; [left; reflexivity|]. right. exists b. unfold line. rewrite <- !app_assoc. reflexivity.
Qed.

(** C197: at INFO the last line tells whether quantization succeeded. *)
Theorem C197_last_line : forall chunk widen kib mib bins L junk V (value : gty -> list N -> nat -> V) order input output text double in_kv
    file reopen opens n_kv kv dev qt a o,
  ~ In 10 input -> ~ In 10 output ->
  logged (mkls 1 true) (quantize_logged chunk widen kib mib bins L junk value order input output text double in_kv file reopen opens n_kv kv dev qt)
    = Ok (a, o) ->
  (last_line o (u "quantization completed") <-> fst a = true).
Proof.
  intros chunk widen kib mib bins L junk V value order input output text double in_kv file reopen opens n_kv kv dev qt a o NI NO H.
  destruct (quantize_logged chunk widen kib mib bins L junk value order input output text double in_kv file reopen opens n_kv kv dev qt)
    as [[a' tr]| | |] eqn:E; try discriminate.
  assert (S := says_run _ _ _ _ _ _ _ _ _ _ _ _ _ _ _ _ _ _ _ _ _ _ _ E).
  assert (a = a') as <- by (eapply (proj1 (logged_says (mkls 1 true) a' tr S)); eauto).
  apply (logged_log 1 _ tr o S) in H.
  assert (BAD : forall ms p q, map message_of tr = ms ++ [(1%Z, p ++ q)] -> harmless p -> ~ In 10 p -> ~ In 10 q ->
            (forall rest, p ++ rest <> u "quantization completed") -> ~ last_line o (u "quantization completed")).
  { intros ms p q Et Hp N1 N2 NE K. rewrite Et in H. apply told_last in H as (rest & N3 & LL); [|lia|exact Hp|exact N1|exact N2].
    apply (NE rest). eapply last_line_fun; [| |exact LL|exact K].
    - intros Y. apply in_app_iff in Y as [Y|Y]; auto.
    - vm_compute. intuition discriminate. }
  apply run_inv in E as (r & tl & E & [(m & f' & ts & t1 & t2 & -> & Ef & -> & Q & RT & ->)|(_ & -> & ->)]).
  2: { split; [|discriminate]. intros K. exfalso. eapply (BAD _ (u "fail to load model: ") input); [|split; vm_compute; intuition discriminate| |exact NI| |exact K].
       - cbn [map message_of]. rewrite map_app. cbn [map message_of]. rewrite app_comm_cons. reflexivity.
       - vm_compute. intuition discriminate.
       - intros rest. discriminate. }
  unfold quantize_to_logged in Q. destruct opens; cbn [negb] in Q.
  2: { apply ok_pair in Q as (<- & <-). split; [|discriminate]. intros K. exfalso.
       eapply (BAD _ (u "failed to open ") output); [|split; vm_compute; intuition discriminate| |exact NO| |exact K].
       - cbn [map message_of]. rewrite map_app. cbn [map message_of]. rewrite app_comm_cons.
         change [?x; ?y] with ([x] ++ [y]). rewrite app_assoc. reflexivity.
       - vm_compute. intuition discriminate.
       - intros rest. discriminate. }
  destruct (add_all _ _ []) as [ws| | |]; try discriminate. cbn [obind] in Q.
  destruct (convert_logged chunk widen kib ts qt _ ws (mktally 0 0 [])) as [[[os r] t1]| | |] eqn:C; try discriminate.
  cbn [obind] in Q. destruct r as [[ws' c]|]; apply ok_pair in Q as (<- & <-); cbn [fst].
  - split; [reflexivity|]. intros _.
    cbn [map message_of] in H. rewrite map_app in H. cbn [map message_of app] in H. rewrite map_app in H. cbn [map message_of] in H.
    match type of H with log_of _ (?a :: ?b ++ ?c :: ?d :: ?e ++ [?x; ?y; ?z]) _ =>
      apply (last_last_line 1 (a :: b ++ c :: d :: e ++ [x; y]) 1%Z); [lia|split; vm_compute; intuition discriminate|] end.
    cbn [app]. rewrite <- app_assoc. cbn [app]. rewrite <- app_assoc. exact H.
  - split; [|discriminate]. intros K. exfalso.
    assert (T : exists ms lab, map message_of t1 = ms ++ [(1%Z, u "input type must be f16 or f32, but " ++ lab)] /\ ~ In 10 lab).
    { clear -C. revert ws os t1 C. generalize (mktally 0 0 []). induction (map ti_name (f_tensors f')) as [|n names IH]; intros c ws os t1 C; [discriminate|].
      cbn [convert_logged] in C. destruct (convert_one_logged chunk widen kib ts qt n ws c) as [[[[[os1 ws1] c1]|] t]| | |] eqn:E1; try discriminate; cbn [obind] in C.
      - destruct (convert_logged chunk widen kib ts qt names ws1 c1) as [[[os' r'] tr']| | |] eqn:E2; try discriminate. cbn [obind] in C.
        injection C as _ -> <-. apply IH in E2 as (ms & lab & E2 & NL). exists (map message_of t ++ ms), lab. rewrite map_app, E2, app_assoc. auto.
      - injection C as _ <-. unfold convert_one_logged in E1. destruct (get_tensor st_name ts n) as [s|]; [|discriminate]. cbv zeta in E1.
        destruct (if is_weight n && (ti_dims (st_info s) =? 2) then quantize chunk widen s qt else Some (st_bytes s)) as [bs|].
        + destruct (set_tensor_type n _ ws); try discriminate. cbn [obind] in E1. destruct (set_tensor_data n _ _); discriminate.
        + injection E1 as <-. exists [], (type_label (ti_type (st_info s))). split; [reflexivity|].
          destruct (ti_type (st_info s)); vm_compute; intuition discriminate. }
    destruct T as (ms & lab & T & NL).
    eapply (BAD _ (u "input type must be f16 or f32, but ") lab); [|split; vm_compute; intuition discriminate| |exact NL| |exact K].
    + cbn [map message_of]. rewrite map_app. cbn [map message_of app]. rewrite T.
      rewrite (app_comm_cons ms), (app_comm_cons (_ :: ms)), app_assoc, app_comm_cons. reflexivity.
    + vm_compute. intuition discriminate.
    + intros rest. discriminate.
Qed.
Print Assumptions C197_last_line.

(** ** Examples *)

Definition z_log (l : Z) (output : list N) (f : option file) (opens : bool) (qt : gty) : outcome ((bool * option (list N)) * list N) :=
  logged (mkls l true) (quantize_logged P_Quantize.d_chunk P_Quantize.d_widen (fun n => decimal (n / 1024) ++ u ".0") (fun n => u "0.0") (fun _ => [])
    P_Eval.lib64 P_Loader.d_junk P_Loader.d_value (fun x => x) (u "m.gguf") output (fun _ => []) (fun _ => u "0") 9 f true opens 1 P_Quantize.d_kv (fun _ => 4000%nat) qt).
Definition z_out (o : outcome ((bool * option (list N)) * list N)) : option (bool * list N) :=
  match o with Ok ((b, _), o) => Some (b, o) | _ => None end.

(** Refusals are not reported at the default level: if the output cannot be written the log
    is that of a success. *)
Theorem C195_refusal_reported_refuted : exists f o,
  z_out (z_log 2 (u "q.gguf") (Some f) true TF16) = Some (true, o) /\
  z_out (z_log 2 (u "q.gguf") (Some f) false TF16) = Some (false, o).
Proof. exists P_Loader.d_file. eexists. split; vm_compute; reflexivity. Qed.
Print Assumptions C195_refusal_reported_refuted.

Example C195_example :
  z_out (z_log 2 (u "q.gguf") None true TF16) = Some (false, []) /\
  z_out (z_log 1 (u "q.gguf") None true TF16) =
    Some (false, line (u "start quantization") ++ line (u "loading model: m.gguf") ++ line (u "fail to load gguf file: m.gguf") ++
                 line (u "fail to load model: m.gguf")).
Proof. vm_compute. split; reflexivity. Qed.

Fixpoint contains_b (o e : list N) : bool :=
  list_N_eqb (firstn (length e) o) e || match o with _ :: o' => contains_b o' e | [] => false end.

Example C196_example :
  match z_out (z_log 1 (u "q.gguf") (Some P_Loader.d_file) true TF16) with
  | Some (true, o) =>
      contains_b o (line (u "model loaded: m.gguf") ++ line (u "converting...") ++ line (u "berts.vocab.size:") ++ line (u "  quantized = false") ++ line (u "  n_dims = 1")) &&
      contains_b o (line (u "berts.bert.embeddings.word_embeddings.weight:") ++ line (u "  quantized = true") ++ line (u "  n_dims = 2")) &&
      contains_b o (line (u "writing metadata...") ++ line (u "========================================") ++ line (u "original size  = 435 (0.0 MiB)") ++
                    line (u "quantized size = 307 (0.0 MiB)") ++ line (u "========================================") ++ line (u "quantization completed"))
  | _ => false
  end = true.
Proof. vm_compute. reflexivity. Qed.

(** A word embedding of 8-bit integers is refused, and its type is misnamed. *)
Definition z_ints : list P_Loader.piece :=
  P_Loader.d_vocab ++ P_Loader.mkpiece (u "berts.bert.embeddings.word_embeddings.weight") TI8 2 5 [1;2;3;4;5;6;7;8;9;10] ::
  P_Loader.d_rest ++ P_Loader.d_layer ++ P_Loader.d_pooler.
Example C197_example :
  match z_out (z_log 1 (u "q.gguf") (Some (P_Loader.a_file 0 0 z_ints)) true TF16) with
  | Some (false, o) => contains_b o (line (u "input type must be f16 or f32, but MOSTLY_Q5_K_S")) && negb (contains_b o (u "quantization completed"))
  | _ => false
  end = true.
Proof. vm_compute. reflexivity. Qed.

(** With a line break in the path the last line can be made to say anything. *)
Theorem C197_path_refuted : exists output o,
  z_out (z_log 1 output (Some P_Loader.d_file) false TF16) = Some (false, o) /\ P_Says_load.ends_b o (10 :: line (u "quantization completed")) 4000 = true.
Proof.
  exists (u "q" ++ [10] ++ u "quantization completed").
  assert (H : match z_out (z_log 1 (u "q" ++ [10] ++ u "quantization completed") (Some P_Loader.d_file) false TF16) with
              | Some (false, o) => P_Says_load.ends_b o (10 :: line (u "quantization completed")) 4000 | _ => false end = true) by (vm_compute; reflexivity).
  destruct (z_out (z_log 1 (u "q" ++ [10] ++ u "quantization completed") (Some P_Loader.d_file) false TF16)) as [[[|] o]|]; try discriminate.
  exists o. split; [reflexivity|exact H].
Qed.
Print Assumptions C197_path_refuted.
