(** Lemmas for P_Session. *)
From Verif Require Import Base Bert_model Vocab_model Bpe_model Roberta_model Ggml_model Encoder_model Eval_model Api_model Loader_model Quantize_model Quantize_proofs Fill_model Session_model Session_spec.
Local Open Scope nat_scope.

Lemma replace_nth {A} i (x : A) l j : nth_error (replace i x l) j =
  if (i =? j) && (j <? length l) then Some x else nth_error l j.
Proof.
  revert i j. induction l as [|y l IH]; intros i j.
  - cbn. destruct j; rewrite andb_false_r; reflexivity.
  - destruct i, j; cbn; try reflexivity. rewrite IH. reflexivity.
Qed.
Lemma replace_length {A} i (x : A) l : length (replace i x l) = length l.
Proof. revert i. induction l; intros [|i]; cbn; auto. Qed.

Section Proofs.
Context {V : Type} (P : prim V) (L : lib) (junk : nat -> N) (value : gty -> list N -> nat -> V).
Context (order : list (ustring * N) -> list (ustring * N)).
Context (k : icu) (engine : list N -> list (option (nat * nat))) (ws : N -> bool) (pick : picker).
Context (sporder : list (list N) -> list (list N)).
Context (chunk : gty -> list N -> nat -> list N) (widen : list N -> list N).
Context (slots : nat) (shared : list (opened (V := V))).
Notation load := (load_from_file L junk value order).
Notation answer := (answer P L junk value order k engine ws pick sporder chunk widen shared).
Notation answers := (answers P L junk value order k engine ws pick sporder chunk widen shared).
Notation step := (step P L junk value order k engine ws pick sporder chunk widen slots shared).
Notation run_schedule := (run_schedule P L junk value order k engine ws pick sporder chunk widen slots shared).
Notation quantize j := (berts_model_quantize chunk widen L junk value order (j_input j) (j_reopen j) (j_opens j) (j_n_kv j) (j_kv j) (j_dev j) (j_type j)).

Lemma replace_split {A} (x : A) : forall l n, n < length l -> replace n x l = firstn n l ++ x :: skipn (S n) l.
Proof. induction l as [|y l IH]; intros [|n] H; cbn [length] in H; try lia; [reflexivity|]. cbn [replace]. rewrite (IH n) by lia. reflexivity. Qed.
Lemma refers_lookup vars h : refers shared vars h = lookup shared vars h.
Proof.
  unfold refers. destruct h as [n|n]; cbn; [destruct (nth_error shared n); reflexivity|].
  revert n. induction vars as [|v vars IH]; intros [|n]; try reflexivity. apply IH.
Qed.
Lemma answer_free vars n : answer vars (Free n) =
  match nth n vars NullPtr with Valid _ => Ok (replace n Dangling vars, Freed) | NullPtr => Ok (vars, Freed) | Dangling => UB end.
Proof.
  unfold Session_spec.answer. rewrite refers_lookup. cbn [lookup]. destruct (nth n vars NullPtr) as [m| |] eqn:E; try reflexivity.
  rewrite replace_split; [reflexivity|]. destruct (Nat.lt_ge_cases n (length vars)) as [H|H]; [exact H|].
  rewrite (nth_overflow vars NullPtr H) in E. discriminate E.
Qed.
Lemma respond_ask m q : respond P L (Some m) q = ask P L (Api_model.Loaded (op_api m)) (ELoaded (op_eval m)) q.
Proof. destruct q; reflexivity. Qed.
Lemma respond_null q : respond P L None q = ask P L NullCtx (ENullCtx (V := V)) q.
Proof. destruct q; reflexivity. Qed.
Lemma answer_ask vars h q : answer vars (Ask h q) =
  match lookup shared vars h with
  | Valid m => obind (ask P L (Api_model.Loaded (op_api m)) (ELoaded (op_eval m)) q) (fun r => Ok (vars, r))
  | NullPtr => obind (ask P L NullCtx (ENullCtx (V := V)) q) (fun r => Ok (vars, r))
  | Dangling => UB
  end.
Proof. unfold Session_spec.answer. rewrite refers_lookup. destruct (lookup shared vars h); [rewrite respond_ask|rewrite respond_null|]; reflexivity. Qed.

Lemma quantize_null j h : load (j_input j) (j_reopen j) = Ok (Null h) -> quantize j = Ok (false, None).
Proof. intros H. unfold berts_model_quantize. destruct (code_ok (j_type j)) as (s & ->). cbn [obind]. rewrite H. reflexivity. Qed.

Lemma description_load f r : forall b, obind (description_read L (Some f)) (fun _ => load (Some f) r) = b -> b = load (Some f) r.
Proof.
  intros b <-. unfold description_read. cbn [load_from_file]. destruct (read_metadata f); try reflexivity.
  cbn [obind]. destruct (ctx_size L (f_tensors f) (f_tensors f)); reflexivity.
Qed.

Lemma answers_snoc vars a c : answers vars (a ++ [c]) =
  obind (answers vars a) (fun x => obind (answer (fst x) c) (fun b => Ok (fst b, snd x ++ [snd b]))).
Proof.
  revert vars. induction a as [|d a IH]; intros vars; cbn [app Session_spec.answers].
  - cbn [obind fst snd]. destruct (answer vars c) as [[v r]| | |]; reflexivity.
  - destruct (answer vars d) as [[v r]| | |]; cbn [obind]; try reflexivity. rewrite IH. cbn [fst snd].
    destruct (answers v a) as [[v' rs]| | |]; cbn [obind fst snd]; try reflexivity.
    destruct (answer v' c) as [[v2 r2]| | |]; reflexivity.
Qed.

(** ** A call that reads a file, through [finish_load] *)
Definition is_load (c : call V) : bool := match c with Load _ _ | Quantize _ => true | _ => false end.
Lemma input_load c x : input c = Some x -> is_load c = true.
Proof. destruct c; cbn; congruence. Qed.

Lemma finish_answer t c f r : input c = Some (f, r) -> forall b,
  obind (load f r) (fun x => obind (finish_load L junk value order k engine ws pick sporder chunk widen t c x) (fun t' => Ok t')) = b ->
  b = obind (answer (t_vars t) c) (fun a => Ok (say t (fst a) (snd a))).
Proof.
  intros Hi b <-. destruct c as [f0 r0|j|n|h q]; cbn [input] in Hi; try discriminate Hi; injection Hi as <- <-; cbn [Session_spec.answer].
  - destruct (load f0 r0) as [[m|h]| | |]; reflexivity.
  - unfold finish_load. destruct (load (j_input j) (j_reopen j)) as [[m|h]| | |] eqn:E; cbn [obind].
    + destruct (quantize j) as [w| | |]; reflexivity.
    + rewrite (quantize_null j h E). reflexivity.
    + unfold berts_model_quantize. destruct (code_ok (j_type j)) as (s & ->). cbn [obind]. rewrite E. reflexivity.
    + unfold berts_model_quantize. destruct (code_ok (j_type j)) as (s & ->). cbn [obind]. rewrite E. reflexivity.
    + unfold berts_model_quantize. destruct (code_ok (j_type j)) as (s & ->). cbn [obind]. rewrite E. reflexivity.
Qed.

(** ** Several threads *)

Definition held (p : phase) : nat := match p with Start => 0 | Described | Computing => 1 | Loading => 2 end.
Definition kept_call (c : call V) : nat :=
  match input c with Some (f, r) => match load f r with Ok x => kept x | _ => 0 end | None => 0 end.
Definition kept_calls (l : list (call V)) : nat := list_sum (map kept_call l).

Lemma kept_loads l : kept_calls l <= loads l.
Proof.
  unfold kept_calls, loads. induction l as [|c l IH]; cbn [map list_sum fold_right filter length]; [lia|].
  assert (kept_call c <= if is_load c then 1 else 0).
  { unfold kept_call. destruct c; cbn [input is_load]; try lia.
    - destruct (load f reopen) as [[m|[]]| | |]; cbn; lia.
    - destruct (load (j_input j) (j_reopen j)) as [[m|[]]| | |]; cbn; lia. }
  unfold list_sum in IH. destruct c; cbn [is_load length] in *; lia.
Qed.
Lemma loads_app a b : loads (V := V) (a ++ b) = loads a + loads b.
Proof. unfold loads. rewrite filter_app, app_length. reflexivity. Qed.
Lemma kept_app a b : kept_calls (a ++ b) = kept_calls a + kept_calls b.
Proof. unfold kept_calls. rewrite map_app. apply list_sum_app. Qed.

Definition phase_ok (t : thread (V := V)) : Prop :=
  match t_phase t with
  | Start => True
  | Described | Loading => exists c rest f r, t_todo t = c :: rest /\ input c = Some (Some f, r)
  | Computing => exists h q m rest, t_todo t = Ask h q :: rest /\ lookup shared (t_vars t) h = Valid m
  end.
Definition inv (prog : list (call V)) (t : thread (V := V)) (done : list (call V)) : Prop :=
  prog = done ++ t_todo t /\ answers [] done = Ok (t_vars t, t_said t) /\ phase_ok t.
Definition measure (t : thread (V := V)) : nat := 3 * length (t_todo t) - held (t_phase t).

(** The next call of a thread ends in [X] *)
Definition ends (prog done : list (call V)) (X : forall A, outcome A) : Prop :=
  exists c, answers [] (done ++ [c]) = X _ /\ exists rest, prog = done ++ c :: rest.

Lemma said_next t done c rest : t_todo t = c :: rest -> answers [] done = Ok (t_vars t, t_said t) ->
  answers [] (done ++ [c]) = obind (answer (t_vars t) c) (fun b => Ok (fst b, t_said t ++ [snd b])).
Proof. intros _ H. rewrite answers_snoc, H. reflexivity. Qed.

Lemma step_load used t c rest fo r : t_todo t = c :: rest -> input c = Some (fo, r) ->
  step used t =
  match fo with
  | None => obind (finish_load L junk value order k engine ws pick sporder chunk widen t c (Null false)) (fun t' => Ok (used, t'))
  | Some f =>
      match t_phase t with
      | Start | Computing => if used <? slots then Ok (S used, go t Described) else UB
      | Described =>
          obind (read_metadata f) (fun _ =>
          obind (ctx_size L (f_tensors f) (f_tensors f)) (fun _ =>
          if used <? slots then Ok (S used, go t Loading)
          else obind (finish_load L junk value order k engine ws pick sporder chunk widen t c (Null false)) (fun t' => Ok (used - 1, t'))))
      | Loading =>
          obind (load (Some f) r) (fun r =>
          obind (finish_load L junk value order k engine ws pick sporder chunk widen t c r) (fun t' => Ok (used - 2 + kept r, t')))
      end
  end.
Proof.
  intros Ht Hi. unfold Session_model.step. rewrite Ht. destruct c as [f0 r0|j|n|h q]; cbn [input] in Hi |- *; try discriminate Hi.
  - injection Hi as -> ->. destruct fo; reflexivity.
  - injection Hi as -> ->. destruct fo; reflexivity.
Qed.

(** One step of a thread that finds room: its weight changes with the number of entries. *)
Lemma step_thread prog t done used :
  inv prog t done -> held (t_phase t) <= used ->
  (t_phase t = Start \/ t_phase t = Described -> t_todo t <> [] -> used < slots) ->
  match step used t with
  | Ok (used', t') =>
      exists done', inv prog t' done' /\
        used' + (kept_calls done + held (t_phase t)) = used + (kept_calls done' + held (t_phase t')) /\
        measure t' <= measure t - 1
  | Fail => ends prog done (fun A => Fail)
  | UB => ends prog done (fun A => UB)
  | Abort => ends prog done (fun A => Abort)
  end.
Proof.
  intros (Hp & Ha & Hph) Hh Hroom. destruct (t_todo t) as [|c rest] eqn:Et.
  { unfold Session_model.step. rewrite Et. exists done. unfold inv, measure. rewrite Et. cbn [length]. repeat split; auto. }
  assert (Hs := said_next t done c rest Et Ha).
  assert (Hnext : forall vars' r, answer (t_vars t) c = Ok (vars', r) -> inv prog (say t vars' r) (done ++ [c])).
  { intros vars' r E. unfold inv, say, phase_ok. cbn [t_todo t_vars t_said t_phase]. rewrite Et. cbn [tl].
    split; [rewrite <- app_assoc; exact Hp|]. split; [|exact I]. rewrite Hs, E. reflexivity. }
  assert (Hme : forall vars' r, measure (say t vars' r) <= measure t - 1).
  { intros vars' r. unfold measure, say. cbn [t_todo t_phase]. rewrite Et. cbn [tl length]. unfold held. destruct (t_phase t); lia. }
  assert (Hend : forall X : forall A, outcome A, obind (answer (t_vars t) c) (fun b => Ok (fst b, t_said t ++ [snd b])) = X _ -> ends prog done X).
  { intros X E. exists c. split; [rewrite Hs; exact E|]. exists rest. exact Hp. }
  (* calls without the table *)
  assert (Hplain : kept_call c = 0 -> t_phase t = Start -> forall b, b = obind (answer (t_vars t) c) (fun a => Ok (used, say t (fst a) (snd a))) ->
    match b with
    | Ok (used', t') => exists done', inv prog t' done' /\
        used' + (kept_calls done + held (t_phase t)) = used + (kept_calls done' + held (t_phase t')) /\ measure t' <= measure t - 1
    | Fail => ends prog done (fun A => Fail)
    | UB => ends prog done (fun A => UB)
    | Abort => ends prog done (fun A => Abort)
    end).
  { intros Hk0 Hst b ->. destruct (answer (t_vars t) c) as [[vars' r]| | |] eqn:E; cbn [obind fst snd].
    - exists (done ++ [c]). split; [apply Hnext; reflexivity|]. split; [|apply Hme].
      rewrite kept_app. unfold kept_calls at 3. cbn [map list_sum fold_right]. rewrite Hk0, Hst. cbn. lia.
    - apply (Hend (fun A => Fail)). reflexivity.
    - apply (Hend (fun A => UB)). reflexivity.
    - apply (Hend (fun A => Abort)). reflexivity. }
  assert (Hst : is_load c = false -> (forall h q, c <> Ask h q) -> t_phase t = Start).
  { intros H1 H2. unfold phase_ok in Hph. rewrite Et in Hph. destruct (t_phase t); [reflexivity| | |].
    - destruct Hph as (c' & rest' & f & r & E & Hi). injection E as <- <-. apply input_load in Hi. congruence.
    - destruct Hph as (c' & rest' & f & r & E & Hi). injection E as <- <-. apply input_load in Hi. congruence.
    - destruct Hph as (h & q & m & rest' & E & _). injection E as -> <-. destruct (H2 h q eq_refl). }

  destruct (input c) as [[fo r]|] eqn:Hi.
  - (* a file is read *)
    assert (Hkc : kept_call c = match load fo r with Ok x => kept x | _ => 0 end) by (unfold kept_call; rewrite Hi; reflexivity).
    assert (Hfin := finish_answer t c fo r Hi _ eq_refl).
    assert (Hgo : forall p, t_phase t = Start /\ p = Described \/ t_phase t = Described /\ p = Loading -> fo <> None -> inv prog (go t p) done /\
       kept_calls done + held p = S (kept_calls done + held (t_phase t)) /\ measure (go t p) <= measure t - 1).
    { intros p Hpp Hfo. unfold go, inv, phase_ok, measure. cbn [t_todo t_vars t_said t_phase]. rewrite Et.
      destruct fo as [f|]; [|destruct (Hfo eq_refl)].
      destruct Hpp as [(-> & ->)|(-> & ->)]; cbn [held length]; (repeat split; [assumption|assumption|exists c, rest, f, r; auto| |]); lia. }
    rewrite (step_load used t c rest fo r Et Hi).
    destruct fo as [f|].
    + unfold phase_ok in Hph. destruct (t_phase t) eqn:Eph.
      * assert (used < slots) as Hlt by (apply Hroom; [left; reflexivity|discriminate]).
        apply Nat.ltb_lt in Hlt. rewrite Hlt. exists done. destruct (Hgo Described (or_introl (conj eq_refl eq_refl))) as (H1 & H2 & H3); [discriminate|].
        split; [exact H1|]. cbn [go t_phase]. split; [lia|exact H3].
      * assert (used < slots) as Hlt by (apply Hroom; [right; reflexivity|discriminate]).
        apply Nat.ltb_lt in Hlt. rewrite Hlt.
        assert (Hd := description_load f r _ eq_refl). unfold description_read in Hd.
        destruct (read_metadata f) as [u1| | |]; cbn [obind] in Hd |- *.
        -- destruct (ctx_size L (f_tensors f) (f_tensors f)) as [u2| | |]; cbn [obind] in Hd |- *.
           ++ exists done. destruct (Hgo Loading (or_intror (conj eq_refl eq_refl))) as (H1 & H2 & H3); [discriminate|].
              split; [exact H1|]. cbn [go t_phase]. split; [lia|exact H3].
           ++ rewrite <- Hd in Hfin. cbn [obind] in Hfin. apply (Hend (fun A => Fail)). destruct (answer (t_vars t) c); cbn [obind] in Hfin |- *; congruence.
           ++ rewrite <- Hd in Hfin. cbn [obind] in Hfin. apply (Hend (fun A => UB)). destruct (answer (t_vars t) c); cbn [obind] in Hfin |- *; congruence.
           ++ rewrite <- Hd in Hfin. cbn [obind] in Hfin. apply (Hend (fun A => Abort)). destruct (answer (t_vars t) c); cbn [obind] in Hfin |- *; congruence.
        -- rewrite <- Hd in Hfin. cbn [obind] in Hfin. apply (Hend (fun A => Fail)). destruct (answer (t_vars t) c); cbn [obind] in Hfin |- *; congruence.
        -- rewrite <- Hd in Hfin. cbn [obind] in Hfin. apply (Hend (fun A => UB)). destruct (answer (t_vars t) c); cbn [obind] in Hfin |- *; congruence.
        -- rewrite <- Hd in Hfin. cbn [obind] in Hfin. apply (Hend (fun A => Abort)). destruct (answer (t_vars t) c); cbn [obind] in Hfin |- *; congruence.
      * destruct (load (Some f) r) as [x| | |] eqn:El; cbn [obind] in Hfin |- *.
        -- destruct (finish_load L junk value order k engine ws pick sporder chunk widen t c x) as [t'| | |]; cbn [obind] in Hfin |- *.
           ++ destruct (answer (t_vars t) c) as [[vars' r']| | |] eqn:Ean; cbn [obind fst snd] in Hfin; try discriminate Hfin.
              injection Hfin as ->. exists (done ++ [c]). split; [apply Hnext; reflexivity|]. split; [|apply Hme].
              rewrite kept_app. unfold kept_calls at 3. cbn [map list_sum fold_right]. rewrite Hkc. cbn [say t_phase held] in Hh |- *. lia.
           ++ apply (Hend (fun A => Fail)). destruct (answer (t_vars t) c); cbn [obind] in Hfin |- *; congruence.
           ++ apply (Hend (fun A => UB)). destruct (answer (t_vars t) c); cbn [obind] in Hfin |- *; congruence.
           ++ apply (Hend (fun A => Abort)). destruct (answer (t_vars t) c); cbn [obind] in Hfin |- *; congruence.
        -- apply (Hend (fun A => Fail)). destruct (answer (t_vars t) c); cbn [obind] in Hfin |- *; congruence.
        -- apply (Hend (fun A => UB)). destruct (answer (t_vars t) c); cbn [obind] in Hfin |- *; congruence.
        -- apply (Hend (fun A => Abort)). destruct (answer (t_vars t) c); cbn [obind] in Hfin |- *; congruence.
      * destruct Hph as (h & q & m & rest' & E & _). rewrite Et in E. injection E as -> <-. discriminate Hi.
    + assert (Est : t_phase t = Start).
      { unfold phase_ok in Hph. rewrite Et in Hph. destruct (t_phase t); [reflexivity| | |].
        - destruct Hph as (c' & rest' & f & r' & E & Hi'). injection E as <- <-. congruence.
        - destruct Hph as (c' & rest' & f & r' & E & Hi'). injection E as <- <-. congruence.
        - destruct Hph as (h & q & m & rest' & E & _). injection E as -> <-. discriminate Hi. }
      apply Hplain; [rewrite Hkc; reflexivity|exact Est|]. cbn [load_from_file obind] in Hfin.
      destruct (finish_load L junk value order k engine ws pick sporder chunk widen t c (Null false)) as [t'| | |];
        destruct (answer (t_vars t) c) as [[vars' r']| | |]; cbn [obind fst snd] in Hfin |- *; congruence.
  - unfold Session_model.step. rewrite Et. destruct c as [f0 r0|j|n|h q]; try discriminate Hi.
    + apply Hplain; [reflexivity|apply Hst; [reflexivity|discriminate]|].
      rewrite answer_free. destruct (nth n (t_vars t) NullPtr); reflexivity.
    + rewrite answer_ask in *. unfold phase_ok in Hph. rewrite Et in Hph.
      destruct (t_phase t) eqn:Eph.
      2,3: destruct Hph as (c' & rest' & f & r' & E & Hi'); injection E as <- <-; discriminate Hi'.
      * destruct (lookup shared (t_vars t) h) as [m| |] eqn:El.
        -- destruct (computes m q).
           ++ assert (used < slots) as Hlt by (apply Hroom; [left; reflexivity|discriminate]).
              apply Nat.ltb_lt in Hlt. rewrite Hlt. exists done. unfold inv, go, phase_ok, measure. cbn [t_todo t_vars t_said t_phase]. rewrite Et, Eph.
              cbn [held length]. split; [split; [assumption|split; [assumption|]]|lia].
              exists h, q, m, rest. auto.
           ++ apply Hplain; [reflexivity|reflexivity|].
              destruct (ask P L (Api_model.Loaded (op_api m)) (ELoaded (op_eval m)) q); reflexivity.
        -- apply Hplain; [reflexivity|reflexivity|]. destruct (ask P L NullCtx (ENullCtx (V := V)) q); reflexivity.
        -- apply (Hend (fun A => UB)). reflexivity.
      * destruct Hph as (h' & q' & m & rest' & E & Hl). injection E as <- <- <-. rewrite Hl in *.
        destruct (ask P L (Api_model.Loaded (op_api m)) (ELoaded (op_eval m)) q) as [r| | |]; cbn [obind] in *.
        -- exists (done ++ [Ask h q]). split; [apply Hnext; reflexivity|]. split; [|apply Hme].
           rewrite kept_app. unfold kept_calls at 3, kept_call. cbn [map list_sum fold_right input say t_phase held] in Hh |- *. lia.
        -- apply (Hend (fun A => Fail)). reflexivity.
        -- apply (Hend (fun A => UB)). reflexivity.
        -- apply (Hend (fun A => Abort)). reflexivity.
Qed.

(** All threads together.  [ds]: the calls each thread has finished. *)
Definition weight (d : list (call V)) (t : thread (V := V)) : nat := kept_calls d + held (t_phase t).
Definition weights (ds : list (list (call V))) (ts : list (thread (V := V))) : nat :=
  list_sum (map (fun x => weight (fst x) (snd x)) (combine ds ts)).

Lemma weights_replace ds ts i d t d' t' :
  nth_error ds i = Some d -> nth_error ts i = Some t ->
  weights (replace i d' ds) (replace i t' ts) + weight d t = weights ds ts + weight d' t'.
Proof.
  unfold weights. revert ts i. induction ds as [|x ds IH]; intros [|y ts] [|i] Hd Ht; cbn in Hd, Ht; try discriminate.
  - injection Hd as <-. injection Ht as <-. cbn [replace combine map list_sum fold_right fst snd]. lia.
  - specialize (IH ts i Hd Ht). cbn [replace combine map list_sum fold_right fst snd] in *. unfold list_sum in IH. lia.
Qed.

Definition invs (progs ds : list (list (call V))) (ts : list (thread (V := V))) : Prop :=
  length ds = length progs /\ length ts = length progs /\
  forall i prog, nth_error progs i = Some prog -> exists d t, nth_error ds i = Some d /\ nth_error ts i = Some t /\ inv prog t d.

(** Where room is needed, the other threads leave it. *)
Definition bound (prog d : list (call V)) (t : thread (V := V)) : Prop := weight d t <= loads prog + 1.
Lemma inv_bound prog d t : inv prog t d -> weight d t <= loads prog + 1 /\
  (t_phase t = Start \/ t_phase t = Described -> t_todo t <> [] -> weight d t <= loads prog).
Proof.
  intros (Hp & Ha & Hph). unfold weight. assert (Hk := kept_loads d). rewrite Hp, loads_app. unfold phase_ok in Hph.
  destruct (t_phase t); cbn [held].
  - split; [lia|]. intros. lia.
  - destruct Hph as (c & rest & f & r & -> & Hi). apply input_load in Hi. unfold loads at 2 4. cbn [filter].
    destruct c; try discriminate Hi; cbn [length]; split; lia.
  - destruct Hph as (c & rest & f & r & -> & Hi). apply input_load in Hi. unfold loads at 2 4. cbn [filter].
    destruct c; try discriminate Hi; cbn [length]; split; try lia; intros [E|E]; discriminate E.
  - split; [lia|]. intros [E|E]; discriminate E.
Qed.

Lemma weights_bound progs ds ts i prog d t : invs progs ds ts ->
  nth_error progs i = Some prog -> nth_error ds i = Some d -> nth_error ts i = Some t ->
  weights ds ts <= list_sum (map loads progs) + length progs /\
  (t_phase t = Start \/ t_phase t = Described -> t_todo t <> [] -> weights ds ts < list_sum (map loads progs) + length progs) /\
  held (t_phase t) <= weights ds ts.
Proof.
  revert ds ts i prog d t. induction progs as [|p progs IH]; intros ds ts i prog d t (Hl1 & Hl2 & H) Hi Hd Ht; [destruct i; discriminate Hi|].
  destruct ds as [|d0 ds]; [discriminate Hl1|]. destruct ts as [|t0 ts]; [discriminate Hl2|].
  cbn [length] in Hl1, Hl2. injection Hl1 as Hl1. injection Hl2 as Hl2.
  destruct (H 0 p eq_refl) as (d1 & t1 & E1 & E2 & Hinv). cbn in E1, E2. injection E1 as <-. injection E2 as <-.
  assert (Hrest : invs progs ds ts).
  { split; [assumption|]. split; [assumption|]. intros j q Hj. exact (H (S j) q Hj). }
  assert (Hw : weights (d0 :: ds) (t0 :: ts) = weight d0 t0 + weights ds ts) by reflexivity.
  assert (Hall : weights ds ts <= list_sum (map loads progs) + length progs).
  { destruct progs as [|q progs']; [destruct ds; [|discriminate Hl1]; cbn; lia|].
    destruct (proj2 (proj2 Hrest) 0 q eq_refl) as (d2 & t2 & F1 & F2 & _).
    exact (proj1 (IH ds ts 0 q d2 t2 Hrest eq_refl F1 F2)). }
  destruct (inv_bound p d0 t0 Hinv) as (B1 & B2).
  cbn [map list_sum fold_right length]. unfold list_sum in *. rewrite Hw. destruct i as [|i].
  - cbn in Hi, Hd, Ht. injection Hi as <-. injection Hd as <-. injection Ht as <-.
    split; [lia|]. split; [intros E1 E2; specialize (B2 E1 E2); lia|]. unfold weight. lia.
  - cbn in Hi, Hd, Ht. destruct (IH ds ts i prog d t Hrest Hi Hd Ht) as (C1 & C2 & C3).
    split; [lia|]. split; [intros E1 E2; specialize (C2 E1 E2); lia|]. lia.
Qed.

Lemma invs_replace progs ds ts i prog d' t' : invs progs ds ts -> nth_error progs i = Some prog -> inv prog t' d' ->
  invs progs (replace i d' ds) (replace i t' ts).
Proof.
  intros (H1 & H2 & H) Hi Hinv. split; [rewrite replace_length; assumption|]. split; [rewrite replace_length; assumption|].
  intros j q Hj. rewrite !replace_nth, H1, H2.
  assert (Hlt : j < length progs) by (apply nth_error_Some; congruence). apply Nat.ltb_lt in Hlt. rewrite Hlt, andb_true_r.
  destruct (i =? j) eqn:E.
  - apply Nat.eqb_eq in E as <-. rewrite Hi in Hj. injection Hj as <-. exists d', t'. auto.
  - exact (H j q Hj).
Qed.

(** A run: every thread has been told what it would have been told alone, and it has gone on. *)
Lemma run_inv used0 progs : used0 + list_sum (map loads progs) + length progs <= slots ->
  forall sched ds ts used, invs progs ds ts -> used = used0 + weights ds ts ->
  match run_schedule sched (mkpr used ts) with
  | Ok p => exists ds', invs progs ds' (p_threads p) /\ p_used p = used0 + weights ds' (p_threads p) /\
      forall i t t', nth_error ts i = Some t -> nth_error (p_threads p) i = Some t' ->
        measure t' <= measure t - count_occ Nat.eq_dec sched i
  | Fail => exists i prog n, nth_error progs i = Some prog /\ answers [] (firstn n prog) = Fail
  | UB => exists i prog n, nth_error progs i = Some prog /\ answers [] (firstn n prog) = UB
  | Abort => exists i prog n, nth_error progs i = Some prog /\ answers [] (firstn n prog) = Abort
  end.
Proof.
  intros Hb. induction sched as [|i sched IH]; intros ds ts used Hinv Hu.
  { cbn. exists ds. split; [assumption|]. split; [assumption|]. intros i t t' H1 H2. rewrite H1 in H2. injection H2 as <-. lia. }
  cbn [Session_model.run_schedule p_threads p_used]. destruct (nth_error ts i) as [t|] eqn:Et.
  2:{ specialize (IH ds ts used Hinv Hu). destruct (run_schedule sched (mkpr used ts)) as [p| | |]; try exact IH.
      destruct IH as (ds' & H1 & H2 & H3). exists ds'. split; [assumption|]. split; [assumption|].
      intros j x x' Hx Hx'. cbn [count_occ]. destruct (Nat.eq_dec i j) as [<-|]; [congruence|]. exact (H3 j x x' Hx Hx'). }
  assert (Hi : i < length progs).
  { rewrite <- (proj1 (proj2 Hinv)). apply nth_error_Some. congruence. }
  destruct (nth_error progs i) as [prog|] eqn:Ep; [|apply nth_error_None in Ep; lia].
  destruct (proj2 (proj2 Hinv) i prog Ep) as (d & t0 & Ed & Et0 & Hi1). rewrite Et in Et0. injection Et0 as <-.
  destruct (weights_bound progs ds ts i prog d t Hinv Ep Ed Et) as (B1 & B2 & B3).
  assert (Hstep := step_thread prog t d used Hi1). 
  destruct (step used t) as [[used' t']| | |]; cbn [obind fst snd].
  - destruct Hstep as (d' & Hinv' & Hw & Hm); [lia| |]. { intros E1 E2. specialize (B2 E1 E2). lia. }
    assert (Hr := weights_replace ds ts i d t d' t' Ed Et). fold (weight d t) in Hw. fold (weight d' t') in Hw.
    specialize (IH (replace i d' ds) (replace i t' ts) used' (invs_replace _ _ _ _ _ _ _ Hinv Ep Hinv')).
    assert (Hu' : used' = used0 + weights (replace i d' ds) (replace i t' ts)) by lia. specialize (IH Hu').
    destruct (run_schedule sched (mkpr used' (replace i t' ts))) as [p| | |]; try exact IH.
    destruct IH as (ds' & H1 & H2 & H3). exists ds'. split; [assumption|]. split; [assumption|].
    intros j x x' Hx Hx'. cbn [count_occ]. specialize (H3 j).
    rewrite replace_nth in H3. destruct (Nat.eq_dec i j) as [<-|Hne].
    + rewrite Nat.eqb_refl, (proj1 (proj2 Hinv)) in H3. apply Nat.ltb_lt in Hi. rewrite Hi in H3. cbn [andb] in H3.
      specialize (H3 t' x' eq_refl Hx'). rewrite Et in Hx. injection Hx as <-. lia.
    + replace (i =? j) with false in H3 by (symmetry; apply Nat.eqb_neq; assumption). cbn [andb] in H3. exact (H3 x x' Hx Hx').
  - destruct Hstep as (c & H1 & rest & ->); [lia| |]. { intros E1 E2. specialize (B2 E1 E2). lia. }
    exists i, (d ++ c :: rest), (length (d ++ [c])). split; [assumption|].
    replace (d ++ c :: rest) with ((d ++ [c]) ++ rest) by (rewrite <- app_assoc; reflexivity).
    rewrite firstn_app, firstn_all, Nat.sub_diag. cbn [firstn]. rewrite app_nil_r. exact H1.
  - destruct Hstep as (c & H1 & rest & ->); [lia| |]. { intros E1 E2. specialize (B2 E1 E2). lia. }
    exists i, (d ++ c :: rest), (length (d ++ [c])). split; [assumption|].
    replace (d ++ c :: rest) with ((d ++ [c]) ++ rest) by (rewrite <- app_assoc; reflexivity).
    rewrite firstn_app, firstn_all, Nat.sub_diag. cbn [firstn]. rewrite app_nil_r. exact H1.
  - destruct Hstep as (c & H1 & rest & ->); [lia| |]. { intros E1 E2. specialize (B2 E1 E2). lia. }
    exists i, (d ++ c :: rest), (length (d ++ [c])). split; [assumption|].
    replace (d ++ c :: rest) with ((d ++ [c]) ++ rest) by (rewrite <- app_assoc; reflexivity).
    rewrite firstn_app, firstn_all, Nat.sub_diag. cbn [firstn]. rewrite app_nil_r. exact H1.
Qed.

Lemma start_inv progs : invs progs (map (fun _ => []) progs) (map (fun calls => mkth calls Start [] []) progs) /\
  weights (map (fun _ => []) progs) (map (fun calls => mkth calls Start [] []) progs) = 0.
Proof.
  split.
  - split; [apply map_length|]. split; [apply map_length|]. intros i prog H.
    exists [], (mkth prog Start [] []). rewrite !nth_error_map, H. repeat split.
  - unfold weights. induction progs as [|p progs IH]; [reflexivity|]. cbn [map combine list_sum fold_right fst snd]. exact IH.
Qed.

(** ** One thread *)
Notation answer_full := (answer_full P L junk value order k engine ws pick sporder chunk widen shared).
Notation answers_limited := (answers_limited P L junk value order k engine ws pick sporder chunk widen shared).
Notation takes_room := (takes_room L junk value order).

Lemma takes_kept c fo r : input c = Some (fo, r) ->
  takes_room c = match load fo r with Ok x => 0 <? kept x | _ => false end.
Proof.
  destruct c as [f0 r0|j|n|h q]; cbn; intros H; try discriminate H; injection H as <- <-.
  - destruct (load f0 r0) as [[m|[]]| | |]; reflexivity.
  - destruct (load (j_input j) (j_reopen j)) as [[m|[]]| | |]; reflexivity.
Qed.
Lemma full_null t c fo r : input c = Some (fo, r) ->
  obind (finish_load L junk value order k engine ws pick sporder chunk widen t c (Null false)) (fun t' => Ok t') =
  obind (match c with Load _ _ => Ok (t_vars t ++ [NullPtr], GotContext false) | _ => Ok (t_vars t, GotFile (false, None)) end)
    (fun a => Ok (say t (fst a) (snd a))).
Proof. destruct c; cbn; intros H; try discriminate H; reflexivity. Qed.

Lemma step1 used t s : run_schedule (0 :: s) (mkpr used [t]) = obind (step used t) (fun r => run_schedule s (mkpr (fst r) [snd r])).
Proof. reflexivity. Qed.

Lemma one_call used c rest vars said : used < slots ->
  exists n, n <= 3 /\ forall s,
    run_schedule (repeat 0 n ++ s) (mkpr used [mkth (c :: rest) Start vars said]) =
    obind (match slots - 1 - used with 0 => answer_full vars c | S _ => answer vars c end) (fun a =>
      run_schedule s (mkpr (used + (if takes_room c && (0 <? slots - 1 - used) then 1 else 0)) [mkth rest Start (fst a) (said ++ [snd a])])).
Proof.
  intros Hu. set (t := mkth (c :: rest) Start vars said).
  destruct (input c) as [[fo r]|] eqn:Hi.
  - assert (Hsay : forall v x, say t v x = mkth rest Start v (said ++ [x])) by reflexivity.
    assert (Hgo : go (go t Described) Loading = go t Loading) by reflexivity.
    destruct fo as [f|].
    + destruct (slots - 1 - used) as [|room] eqn:Er.
      * (* no room *)
        exists 2. split; [lia|]. intros s. cbn [repeat app]. rewrite step1, (step_load used t c rest (Some f) r eq_refl Hi).
        replace (t_phase t) with Start by reflexivity. replace (used <? slots) with true by lia. cbn [obind fst snd].
        rewrite step1, (step_load (S used) (go t Described) c rest (Some f) r eq_refl Hi).
        replace (t_phase (go t Described)) with Described by reflexivity. replace (S used <? slots) with false by lia.
        rewrite andb_false_r, Nat.add_0_r.
        assert (Hf : answer_full vars c = obind (description_read L (Some f)) (fun _ =>
            match c with Load _ _ => Ok (vars ++ [NullPtr], GotContext false) | _ => Ok (vars, GotFile (false, None)) end)).
        { destruct c; cbn in Hi; try discriminate Hi; injection Hi as Hi1 _; unfold Session_spec.answer_full; rewrite Hi1; reflexivity. }
        rewrite Hf. unfold description_read. destruct (read_metadata f); try reflexivity. cbn [obind].
        destruct (ctx_size L (f_tensors f) (f_tensors f)); try reflexivity. cbn [obind].
        assert (E := full_null (go t Described) c (Some f) r Hi). cbn [go t_vars t] in E. fold (go t Described) in E.
        destruct c as [f0 r0|j|n|h q]; try discriminate Hi; cbn [finish_load obind fst snd say t_todo tl t_vars t_said go t];
          replace (S used - 1) with used by lia; reflexivity.
      * exists 3. split; [lia|]. intros s. cbn [repeat app]. rewrite step1, (step_load used t c rest (Some f) r eq_refl Hi).
        replace (t_phase t) with Start by reflexivity. replace (used <? slots) with true by lia. cbn [obind fst snd].
        rewrite step1, (step_load (S used) (go t Described) c rest (Some f) r eq_refl Hi).
        replace (t_phase (go t Described)) with Described by reflexivity. replace (S used <? slots) with true by lia.
        rewrite (takes_kept c (Some f) r Hi).
        assert (Hfin := finish_answer (go (go t Described) Loading) c (Some f) r Hi _ eq_refl).
        replace (t_vars (go (go t Described) Loading)) with vars in Hfin by reflexivity.
        assert (Hd := description_load f r _ eq_refl). unfold description_read in Hd.
        destruct (read_metadata f) as [u1| | |]; cbn [obind] in Hd |- *.
        2-4: rewrite <- Hd in Hfin; cbn [obind] in Hfin; destruct (answer vars c); cbn [obind] in Hfin |- *; congruence.
        destruct (ctx_size L (f_tensors f) (f_tensors f)) as [u2| | |]; cbn [obind] in Hd |- *.
        2-4: rewrite <- Hd in Hfin; cbn [obind] in Hfin; destruct (answer vars c); cbn [obind] in Hfin |- *; congruence.
        cbn [fst snd]. rewrite step1, (step_load (S (S used)) (go (go t Described) Loading) c rest (Some f) r eq_refl Hi).
        replace (t_phase (go (go t Described) Loading)) with Loading by reflexivity.
        destruct (load (Some f) r) as [x| | |]; cbn [obind] in Hfin |- *.
        2-4: destruct (answer vars c); cbn [obind] in Hfin |- *; congruence.
        destruct (finish_load L junk value order k engine ws pick sporder chunk widen (go (go t Described) Loading) c x) as [t'| | |]; cbn [obind] in Hfin |- *.
        2-4: destruct (answer vars c); cbn [obind] in Hfin |- *; congruence.
        destruct (answer vars c) as [[v y]| | |]; cbn [obind fst snd] in Hfin |- *; try discriminate Hfin. injection Hfin as ->.
        replace (S (S used) - 2 + kept x) with (used + (if (0 <? kept x) && (0 <? S room) then 1 else 0)); [reflexivity|].
        destruct x as [m|[]]; cbn; lia.
    + exists 1. split; [lia|]. intros s. cbn [repeat app]. rewrite step1, (step_load used t c rest None r eq_refl Hi).
      rewrite (takes_kept c None r Hi). cbn [load_from_file kept Nat.ltb Nat.leb andb]. rewrite Nat.add_0_r.
      destruct c as [f0 r0|j|n|h q]; cbn in Hi; try discriminate Hi; injection Hi as Hi1 Hi2.
      * subst f0 r0. destruct (slots - 1 - used); reflexivity.
      * assert (Hq : quantize j = Ok (false, None)) by (apply (quantize_null j false); rewrite Hi1; reflexivity).
        destruct (slots - 1 - used); cbn [Session_spec.answer Session_spec.answer_full]; [rewrite Hi1; reflexivity|rewrite Hq; reflexivity].
  - replace (takes_room c) with false by (destruct c; try discriminate Hi; reflexivity). cbn [andb]. rewrite Nat.add_0_r.
    replace (match slots - 1 - used with 0 => answer_full vars c | S _ => answer vars c end) with (answer vars c)
      by (destruct (slots - 1 - used), c; try discriminate Hi; reflexivity).
    destruct c as [f0 r0|j|n|h q]; try discriminate Hi.
    + exists 1. split; [lia|]. intros s. cbn [repeat app]. rewrite step1. unfold Session_model.step. cbn [t_todo t t_vars t_phase]. rewrite answer_free.
      destruct (nth n vars NullPtr); reflexivity.
    + rewrite answer_ask. destruct (lookup shared vars h) as [m| |] eqn:El.
      * destruct (computes m q) eqn:Ec.
        -- exists 2. split; [lia|]. intros s. cbn [repeat app]. rewrite step1. unfold Session_model.step at 1. cbn [t_todo t t_vars t_phase].
           rewrite El, Ec. replace (used <? slots) with true by lia. cbn [obind fst snd]. rewrite step1. unfold Session_model.step.
           cbn [go t_todo t t_vars t_phase]. rewrite El.
           destruct (ask P L (Api_model.Loaded (op_api m)) (ELoaded (op_eval m)) q); cbn [obind fst snd]; try reflexivity.
           replace (S used - 1) with used by lia. reflexivity.
        -- exists 1. split; [lia|]. intros s. cbn [repeat app]. rewrite step1. unfold Session_model.step. cbn [t_todo t t_vars t_phase].
           rewrite El, Ec. destruct (ask P L (Api_model.Loaded (op_api m)) (ELoaded (op_eval m)) q); reflexivity.
      * exists 1. split; [lia|]. intros s. cbn [repeat app]. rewrite step1. unfold Session_model.step. cbn [t_todo t t_vars t_phase].
        rewrite El. destruct (ask P L NullCtx (ENullCtx (V := V)) q); reflexivity.
      * exists 1. split; [lia|]. intros s. cbn [repeat app]. rewrite step1. unfold Session_model.step. cbn [t_todo t t_vars t_phase].
        rewrite El. reflexivity.
Qed.

Lemma idle n used vars said : run_schedule (repeat 0 n) (mkpr used [mkth [] Start vars said]) = Ok (mkpr used [mkth [] Start vars said]).
Proof. induction n as [|n IH]; [reflexivity|]. cbn [repeat]. rewrite step1. exact IH. Qed.

(** A whole program *)
Lemma single calls : forall used vars said m, used < slots -> 3 * length calls <= m ->
  exists used', used' < slots /\
  run_schedule (repeat 0 m) (mkpr used [mkth calls Start vars said]) =
  obind (answers_limited (slots - 1 - used) vars calls) (fun r => Ok (mkpr used' [mkth [] Start (fst r) (said ++ snd r)])).
Proof.
  induction calls as [|c calls IH]; intros used vars said m Hu Hm.
  - exists used. split; [assumption|]. rewrite idle. cbn. rewrite app_nil_r. reflexivity.
  - destruct (one_call used c calls vars said Hu) as (n & Hn & H). cbn [length] in Hm.
    replace m with (n + (m - n)) by lia. rewrite repeat_app, H.
    assert (Hu' : used + (if takes_room c && (0 <? slots - 1 - used) then 1 else 0) < slots) by (destruct (takes_room c), (slots - 1 - used) eqn:E; cbn; lia).
    cbn [Session_spec.answers_limited].
    destruct (match slots - 1 - used with 0 => answer_full vars c | S _ => answer vars c end) as [[v x]| | |]; cbn [obind fst snd].
    2-4: exists used; split; [assumption|reflexivity].
    destruct (IH _ v (said ++ [x]) (m - n) Hu' ltac:(lia)) as (used' & H1 & H2). exists used'. split; [assumption|]. rewrite H2.
    replace (slots - 1 - (used + (if takes_room c && (0 <? slots - 1 - used) then 1 else 0)))
      with (if takes_room c then slots - 1 - used - 1 else slots - 1 - used) by (destruct (takes_room c), (slots - 1 - used) eqn:E; cbn; lia).
    destruct (answers_limited (if takes_room c then slots - 1 - used - 1 else slots - 1 - used) v calls) as [[v' xs]| | |]; cbn [obind fst snd]; try reflexivity.
    rewrite <- app_assoc. reflexivity.
Qed.
End Proofs.
