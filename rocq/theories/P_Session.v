(** Programs of many calls, in one thread or in several. *)
From Verif Require Import Base Bert_model Vocab_model Bpe_model Roberta_model Ggml_model Encoder_model Eval_model Api_model Loader_model Quantize_model Fill_model Session_model Session_spec Session_proofs.
From Verif Require P_Eval P_Loader P_Bert Loader_spec Loader_proofs.
Local Open Scope nat_scope.

(** ** Any schedule *)

(** With an entry of the library's table for every model file that is read and for every
    thread, no schedule changes what a thread is told, and nothing else ends the process.  A
    thread that gets three turns per call comes to its end. *)
Theorem C130_schedules : forall V (P : prim V) L junk value order k engine ws pick sporder chunk widen slots shared used programs schedule,
  used + list_sum (map loads programs) + length programs <= slots ->
  let alone := alone P L junk value order k engine ws pick sporder chunk widen shared in
  match run_schedule P L junk value order k engine ws pick sporder chunk widen slots shared schedule (start used programs) with
  | Ok p =>
      forall i calls, nth_error programs i = Some calls ->
        exists t finished, nth_error (p_threads p) i = Some t /\ calls = finished ++ t_todo t /\ alone finished = Ok (t_said t) /\
          (3 * length calls <= count_occ Nat.eq_dec schedule i -> t_todo t = [])
  | Fail => exists calls n, In calls programs /\ alone (firstn n calls) = Fail
  | UB => exists calls n, In calls programs /\ alone (firstn n calls) = UB
  | Abort => exists calls n, In calls programs /\ alone (firstn n calls) = Abort
  end.
Proof.
  intros V P L junk value order k engine ws pick sporder chunk widen slots shared used programs schedule Hb alone.
  destruct (start_inv P L junk value order k engine ws pick sporder chunk widen shared programs) as (H1 & H2).
  assert (H := run_inv P L junk value order k engine ws pick sporder chunk widen slots shared used programs Hb schedule _ _ used H1).
  rewrite H2, Nat.add_0_r in H. specialize (H eq_refl). unfold start.
  destruct (run_schedule P L junk value order k engine ws pick sporder chunk widen slots shared schedule _) as [p| | |].
  2-4: destruct H as (i & calls & n & Hi & Ha); exists calls, n; split; [eapply nth_error_In; eassumption|]; unfold alone, Session_spec.alone; rewrite Ha; reflexivity.
  destruct H as (ds & Hinv & _ & Hm). intros i calls Hi.
  destruct (proj2 (proj2 Hinv) i calls Hi) as (d & t & _ & Et & Hc & Ha & Hph).
  exists t, d. split; [assumption|]. split; [assumption|]. split; [unfold alone, Session_spec.alone; rewrite Ha; reflexivity|].
  intros Hcount. specialize (Hm i (mkth calls Start [] []) t). rewrite nth_error_map, Hi in Hm. specialize (Hm eq_refl Et).
  unfold measure in Hm. cbn [t_todo t_phase held] in Hm.
  destruct (t_todo t) as [|c rest]; [reflexivity|]. cbn [length] in Hm. destruct (t_phase t); cbn [held] in Hm; lia.
Qed.
Print Assumptions C130_schedules.

(** ** One thread *)

(** Exactly what a program in one thread is told: there is room for one model less than the
    table has entries, and when it is used up loading gives a null pointer.  Evaluations are
    not affected. *)
Theorem C131_single_thread : forall V (P : prim V) L junk value order k engine ws pick sporder chunk widen slots shared used calls m,
  used < slots -> 3 * length calls <= m ->
  match answers_limited P L junk value order k engine ws pick sporder chunk widen shared (slots - 1 - used) [] calls with
  | Ok r => exists used', run_schedule P L junk value order k engine ws pick sporder chunk widen slots shared (repeat 0 m) (start used [calls]) =
      Ok (mkpr used' [mkth [] Start (fst r) (snd r)])
  | Fail => run_schedule P L junk value order k engine ws pick sporder chunk widen slots shared (repeat 0 m) (start used [calls]) = Fail
  | UB => run_schedule P L junk value order k engine ws pick sporder chunk widen slots shared (repeat 0 m) (start used [calls]) = UB
  | Abort => run_schedule P L junk value order k engine ws pick sporder chunk widen slots shared (repeat 0 m) (start used [calls]) = Abort
  end.
Proof.
  intros V P L junk value order k engine ws pick sporder chunk widen slots shared used calls m Hu Hm.
  destruct (single P L junk value order k engine ws pick sporder chunk widen slots shared calls used [] [] m Hu Hm) as (used' & _ & H).
  cbn [start map]. unfold start. cbn [map]. destruct (answers_limited P L junk value order k engine ws pick sporder chunk widen shared (slots - 1 - used) [] calls) as [r| | |];
    cbn [obind app] in H; eauto.
Qed.
Print Assumptions C131_single_thread.

(** Loading and freeing the same model [n] times *)
Definition load_and_free {V} (f : file) (n : nat) : list (call V) := flat_map (fun i => [Load (Some f) true; Free i]) (seq 0 n).

Section Repeat.
Context {V : Type} (P : prim V) (L : lib) (junk : nat -> N) (value : gty -> list N -> nat -> V).
Context (order : list (ustring * N) -> list (ustring * N)) (k : icu) (engine : list N -> list (option (nat * nat))) (ws : N -> bool) (pick : picker).
Context (sporder : list (list N) -> list (list N)) (chunk : gty -> list N -> nat -> list N) (widen : list N -> list N) (shared : list (opened (V := V))).
Context (f : file) (m : Loader_model.loaded (V := V)) (Hf : load_from_file L junk value order (Some f) true = Ok (Loaded m)).

Lemma described : description_read L (Some f) = Ok tt.
Proof.
  unfold description_read. cbn [load_from_file] in Hf. destruct (read_metadata f); try discriminate Hf. cbn [obind] in *.
  destruct (ctx_size L (f_tensors f) (f_tensors f)); try discriminate Hf. reflexivity.
Qed.

Lemma refers_last (l : list (variable V)) x : refers shared (l ++ [x]) (Own (length l)) = x.
Proof. unfold refers. rewrite nth_error_app2, Nat.sub_diag by lia. reflexivity. Qed.
Lemma split_last {A} (l : list A) x y : firstn (length l) (l ++ [x]) ++ y :: skipn (S (length l)) (l ++ [x]) = l ++ [y].
Proof.
  rewrite firstn_app, firstn_all, Nat.sub_diag, firstn_O, app_nil_r. rewrite (skipn_all2 (l ++ [x])); [reflexivity|].
  rewrite app_length. cbn. lia.
Qed.

Lemma answers_again n : forall vars start_, length vars = start_ -> exists vars',
  answers P L junk value order k engine ws pick sporder chunk widen shared vars (flat_map (fun i => [Load (Some f) true; Free i]) (seq start_ n)) =
  Ok (vars', flat_map (fun _ => [GotContext true; Freed]) (seq start_ n)).
Proof.
  induction n as [|n IH]; intros vars st Hl; [exists vars; reflexivity|].
  cbn [seq flat_map app answers answer]. rewrite Hf. cbn [obind pointer is_valid fst snd]. subst st. rewrite refers_last.
  cbn [obind fst snd]. rewrite split_last.
  destruct (IH (vars ++ [Dangling]) (S (length vars))) as (vars' & ->); [rewrite app_length; cbn; lia|]. exists vars'. reflexivity.
Qed.

Lemma limited_again n : forall room vars start_, length vars = start_ -> exists vars',
  answers_limited P L junk value order k engine ws pick sporder chunk widen shared room vars (flat_map (fun i => [Load (Some f) true; Free i]) (seq start_ n)) =
  Ok (vars', flat_map (fun i => [GotContext (i <? start_ + room); Freed]) (seq start_ n)).
Proof.
  induction n as [|n IH]; intros room vars st Hl; [exists vars; reflexivity|].
  cbn [seq flat_map app answers_limited answer answer_full takes_room]. rewrite Hf, described. subst st. destruct room as [|room]; cbn [obind fst snd pointer is_valid].
  - rewrite refers_last. cbn [obind fst snd Nat.sub].
    destruct (IH 0 (vars ++ [NullPtr]) (S (length vars))) as (vars' & ->); [rewrite app_length; cbn; lia|]. exists vars'. cbn [obind fst snd].
    replace (length vars <? length vars + 0) with false by lia. do 3 f_equal.
    assert (X : forall l, Forall (fun i => length vars < i) l ->
      flat_map (fun i => [GotContext (i <? S (length vars) + 0); Freed]) l = flat_map (fun i => [GotContext (V := V) (i <? length vars + 0); Freed]) l).
    { intros l Hl. induction Hl as [|i l Hi Hl IHl]; [reflexivity|]. cbn [flat_map]. rewrite IHl.
      replace (i <? S (length vars) + 0) with (i <? length vars + 0) by lia. reflexivity. }
    rewrite X; [reflexivity|]. apply Forall_forall. intros i Hi. apply in_seq in Hi. lia.
  - replace (match (if true then S room - 1 else S room) with 0 => answer_full P L junk value order k engine ws pick sporder chunk widen shared (vars ++ [Valid (mkopened (api_of k engine ws pick sporder m) (evaluator m))]) (Free (length vars)) | S _ => _ end)
      with (answer P L junk value order k engine ws pick sporder chunk widen shared (vars ++ [Valid (mkopened (api_of k engine ws pick sporder m) (evaluator m))]) (Free (length vars)))
      by (destruct (if true then S room - 1 else S room); reflexivity).
    cbn [answer]. rewrite refers_last. cbn [obind fst snd]. rewrite split_last.
    replace (S room - 1) with room by lia.
    destruct (IH room (vars ++ [Dangling]) (S (length vars))) as (vars' & ->); [rewrite app_length; cbn; lia|]. exists vars'. cbn [obind fst snd].
    replace (length vars <? length vars + S room) with true by lia. replace (S (length vars) + room) with (length vars + S room) by lia. reflexivity.
Qed.
End Repeat.

(** Freeing gives nothing back: the first [slots - 1] loads of a good file succeed, all later
    ones return null. *)
Theorem C131_load_and_free : forall V (P : prim V) L junk value order k engine ws pick sporder chunk widen slots shared f m n steps,
  load_from_file L junk value order (Some f) true = Ok (Loaded m) -> 1 <= slots -> 6 * n <= steps ->
  exists used vars, run_schedule P L junk value order k engine ws pick sporder chunk widen slots shared (repeat 0 steps) (start 0 [load_and_free f n]) =
    Ok (mkpr used [mkth [] Start vars (flat_map (fun i => [GotContext (i <? slots - 1); Freed]) (seq 0 n))]).
Proof.
  intros V P L junk value order k engine ws pick sporder chunk widen slots shared f m n steps Hf Hs Hn.
  assert (Hlen : length (load_and_free (V := V) f n) = 2 * n).
  { unfold load_and_free. clear Hn. assert (X : forall a b, length (flat_map (fun i => [Load (V := V) (Some f) true; Free i]) (seq a b)) = 2 * b).
    { intros a b. revert a. induction b as [|b IH]; intros a; [reflexivity|]. cbn [seq flat_map app length]. rewrite IH. lia. }
    apply X. }
  assert (H := C131_single_thread V P L junk value order k engine ws pick sporder chunk widen slots shared 0 (load_and_free f n) steps ltac:(lia) ltac:(lia)).
  destruct (limited_again P L junk value order k engine ws pick sporder chunk widen shared f m Hf n (slots - 1 - 0) [] 0 eq_refl) as (vars' & E).
  unfold load_and_free in *. rewrite E in H. cbn [fst snd] in H. destruct H as (used & ->). exists used, vars'.
  rewrite Nat.add_0_l, Nat.sub_0_r. reflexivity.
Qed.
Print Assumptions C131_load_and_free.

(** Loads that fail after the tensors were read use up the room as well. *)
Theorem C131_failed_loads : forall V (P : prim V) L junk value order k engine ws pick sporder chunk widen slots shared bad f m n steps,
  load_from_file L junk value order (Some bad) true = Ok (Null true) -> load_from_file L junk value order (Some f) true = Ok (Loaded m) ->
  1 <= slots -> 3 * S n <= steps ->
  exists used vars, run_schedule P L junk value order k engine ws pick sporder chunk widen slots shared (repeat 0 steps)
      (start 0 [repeat (Load (Some bad) true) n ++ [Load (Some f) true]]) =
    Ok (mkpr used [mkth [] Start vars (repeat (GotContext false) n ++ [GotContext (n <? slots - 1)])]).
Proof.
  intros V P L junk value order k engine ws pick sporder chunk widen slots shared bad f m n steps Hb Hf Hs Hn.
  assert (H := C131_single_thread V P L junk value order k engine ws pick sporder chunk widen slots shared 0 (repeat (Load (Some bad) true) n ++ [Load (Some f) true]) steps ltac:(lia)).
  rewrite app_length, repeat_length in H. cbn [length] in H. specialize (H ltac:(lia)).
  assert (Db : description_read L (Some bad) = Ok tt).
  { unfold description_read. cbn [load_from_file] in Hb. destruct (read_metadata bad); try discriminate Hb. cbn [obind] in *.
    destruct (ctx_size L (f_tensors bad) (f_tensors bad)); try discriminate Hb. reflexivity. }
  assert (Df := described L junk value order f m Hf).
  assert (X : forall n room vars, exists vars', answers_limited P L junk value order k engine ws pick sporder chunk widen shared room vars
      (repeat (Load (Some bad) true) n ++ [Load (Some f) true]) = Ok (vars', repeat (GotContext false) n ++ [GotContext (n <? room)])).
  { clear - Hb Hf Db Df. induction n as [|n IH]; intros room vars.
    - cbn [repeat app answers_limited answer answer_full]. rewrite Hf, Df. destruct room; cbn [obind fst snd pointer is_valid]; eexists; reflexivity.
    - cbn [repeat app answers_limited answer answer_full takes_room]. rewrite Hb, Db. destruct room as [|room]; cbn [obind fst snd pointer is_valid Nat.sub].
      + destruct (IH 0 (vars ++ [NullPtr])) as (vars' & ->). exists vars'. reflexivity.
      + rewrite Nat.sub_0_r. destruct (IH room (vars ++ [NullPtr])) as (vars' & ->). exists vars'. reflexivity. }
  destruct (X n (slots - 1 - 0) []) as (vars' & E). rewrite E in H. cbn [fst snd] in H. destruct H as (used & ->).
  exists used, vars'. rewrite Nat.sub_0_r. reflexivity.
Qed.
Print Assumptions C131_failed_loads.

(** ** Refutations, with the 64 entries of the pinned library *)

Definition d_engine (_ : list N) : list (option (nat * nat)) := [].
Definition d_alone := alone P_Eval.zprim P_Eval.lib64 P_Loader.d_junk P_Loader.d_value (fun l => l) P_Bert.demo_icu d_engine (fun c => (c =? 32)%N)
  (fun _ => None) (fun l => l) (fun _ _ _ => []) (fun l => l).
Definition d_run := run_schedule P_Eval.zprim P_Eval.lib64 P_Loader.d_junk P_Loader.d_value (fun l => l) P_Bert.demo_icu d_engine (fun c => (c =? 32)%N)
  (fun _ => None) (fun l => l) (fun _ _ _ => []) (fun l => l) 64.

(** 64 times in a row: every load is in order, but the last one returns null. *)
Theorem C131_any_number_refuted : exists f used vars said,
  d_alone [] (load_and_free f 64) = Ok (flat_map (fun _ => [GotContext true; Freed]) (seq 0 64)) /\
  d_run [] (repeat 0 384) (start 0 [load_and_free f 64]) = Ok (mkpr used [mkth [] Start vars said]) /\
  nth_error said 126 = Some (GotContext false).
Proof.
  exists P_Loader.d_file.
  assert (H : exists m, load_from_file P_Eval.lib64 P_Loader.d_junk P_Loader.d_value (fun l => l) (Some P_Loader.d_file) true = Ok (Loaded m))
    by (eexists; vm_compute; reflexivity).
  destruct H as (m & H).
  destruct (C131_load_and_free Z P_Eval.zprim P_Eval.lib64 P_Loader.d_junk P_Loader.d_value (fun l => l) P_Bert.demo_icu d_engine (fun c => (c =? 32)%N)
    (fun _ => None) (fun l => l) (fun _ _ _ => []) (fun l => l) 64 [] P_Loader.d_file m 64 384 H ltac:(lia) ltac:(lia)) as (used & vars & E).
  exists used, vars. eexists. split; [|split; [exact E|reflexivity]].
  destruct (answers_again P_Eval.zprim P_Eval.lib64 P_Loader.d_junk P_Loader.d_value (fun l => l) P_Bert.demo_icu d_engine (fun c => (c =? 32)%N)
    (fun _ => None) (fun l => l) (fun _ _ _ => []) (fun l => l) [] P_Loader.d_file m H 64 [] 0 eq_refl) as (vars' & Ea).
  unfold d_alone, alone, load_and_free. rewrite Ea. reflexivity.
Qed.
Print Assumptions C131_any_number_refuted.

(** With one entry left, an evaluation in one thread makes every load and every evaluation
    that starts meanwhile in another thread undefined: the library's null pointer is used. *)
Theorem C132_full_table : forall V (P : prim V) L junk value order k engine ws pick sporder chunk widen slots shared used n m q other,
  S used = slots -> nth_error shared n = Some m -> computes m q = true ->
  (exists f reopen, other = Load (Some f) reopen) \/
  (exists n' m' q', other = Ask (Shared n') q' /\ nth_error shared n' = Some m' /\ computes m' q' = true /\ without_context m' q' = false) ->
  run_schedule P L junk value order k engine ws pick sporder chunk widen slots shared [0; 1] (start used [[Ask (Shared n) q]; [other]]) = UB.
Proof.
  intros V P L junk value order k engine ws pick sporder chunk widen slots shared used n m q other Hs Hn Hc Ho.
  unfold start. cbn [map run_schedule p_threads p_used nth_error]. unfold step at 1. cbn [t_todo t_vars lookup t_phase]. rewrite Hn, Hc.
  replace (used <? slots) with true by lia. cbn [obind fst snd replace p_threads p_used nth_error].
  unfold step. cbn [t_todo t_vars t_phase]. destruct Ho as [(f & reopen & ->)|(n' & m' & q' & -> & Hn' & Hc' & Hw)].
  - cbn [input]. replace (S used <? slots) with false by lia. reflexivity.
  - cbn [lookup]. rewrite Hn', Hc', Hw. replace (S used <? slots) with false by lia. reflexivity.
Qed.
Print Assumptions C132_full_table.

Definition d_opened : opened (V := Z) :=
  match P_Loader.d_load P_Loader.d_file with
  | Ok (Loaded m) => mkopened (api_of P_Bert.demo_icu d_engine (fun c => (c =? 32)%N) (fun _ => None) (fun l => l) m) (evaluator m)
  | _ => mkopened (mkam 0 0 0 0 0 0 0 (fun _ => UB) (fun _ => UB) 0 (fun _ => UB)) P_Eval.demo
  end.
Definition d_query : query Z := Encode [0; 2; 1]%N None 3 (Some (mkei (-1) PoolCls)) (Some [0; 0]%Z) (Some 2%N).

(** 63 models are loaded, two threads evaluate one of them: each is in order on its own. *)
Theorem C132_concurrent_refuted : exists shared programs schedule,
  length shared = 63 /\ (forall calls, In calls programs -> exists r, d_alone shared calls = Ok r) /\
  d_run shared schedule (start 63 programs) = UB.
Proof.
  exists (repeat d_opened 63), [[Ask (Shared 0) d_query]; [Ask (Shared 0) d_query]], [0; 1].
  split; [apply repeat_length|]. split.
  - intros calls H. cbn [In] in H.
    assert (X : exists r, d_alone (repeat d_opened 63) [Ask (Shared 0) d_query] = Ok r) by (eexists; vm_compute; reflexivity).
    destruct H as [<-|[<-|H]]; [exact X|exact X|destruct H].
  - apply (C132_full_table Z) with (m := d_opened); [reflexivity|reflexivity|vm_compute; reflexivity|].
    right. exists 0, d_opened, d_query. split; [reflexivity|]. split; [reflexivity|]. split; vm_compute; reflexivity.
Qed.
Print Assumptions C132_concurrent_refuted.

(** ** Examples *)

Definition d_program : list (call Z) :=
  [Load (Some P_Loader.d_file) true; Ask (Own 0) VocabSize; Ask (Own 0) d_query; Free 0; Ask (Shared 0) d_query].
Definition d_three : list (list (call Z)) := [d_program; [Ask (Shared 0) d_query; Ask (Shared 0) (IdToToken 2 None (Some 0%N))]; d_program].
Definition d_turns : list nat := [0;1;2;0;2;1;1;0;2;0;0;1;2;1;2;0;1;2;0;0;2;2;1;0;2;1;0;2;0;2;0;1;2;0;2;0;2;0;2;0;2;0;2].

(** Three threads with a model in common and models of their own *)
Example C130_example :
  1 + list_sum (map loads d_three) + length d_three <= 64 /\
  exists said p, d_alone [d_opened] d_program = Ok said /\ length said = 5 /\
    d_run [d_opened] d_turns (start 1 d_three) = Ok p /\ map t_todo (p_threads p) = [[]; []; []] /\
    map t_said (p_threads p) = [said; [GotValues (mkev true (Some [1510015; 6779724]%Z) (Some 2%N)); GotText (mkret true None (Some 6%N))]; said].
Proof. split; [vm_compute; lia|]. eexists. eexists. split; [vm_compute; reflexivity|]. split; [reflexivity|]. split; [vm_compute; reflexivity|]. split; vm_compute; reflexivity. Qed.

(** The 63rd load succeeds, the 64th does not. *)
Example C131_example :
  (exists m, load_from_file P_Eval.lib64 P_Loader.d_junk P_Loader.d_value (fun l => l) (Some P_Loader.d_file) true = Ok (Loaded m)) /\
  load_from_file P_Eval.lib64 P_Loader.d_junk P_Loader.d_value (fun l => l)
    (Some (P_Loader.a_file 0 0 (P_Loader.d_vocab ++ P_Loader.d_rest ++ P_Loader.d_layer ++ P_Loader.d_pooler))) true = Ok (Null true) /\
  (62 <? 64 - 1) = true /\ (63 <? 64 - 1) = false.
Proof. split; [eexists; vm_compute; reflexivity|]. split; [vm_compute; reflexivity|]. split; reflexivity. Qed.
