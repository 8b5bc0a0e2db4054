(** Lemmas about what quantization writes to the log. *)
From Verif Require Import Base Bert_model Vocab_model Bpe_model Roberta_model Loader_model Log_model.
From Verif Require Import Says_model Says_eval_model Says_load_model Quantize_model Says_quantize_model.
From Verif Require Import Log_spec Loader_spec Says_spec Quantize_spec Says_quantize_spec Says_load_spec.
From Verif Require Import P_Log Says_proofs Says_eval_proofs P_Says_vocab Says_load_proofs Says_load_lines Loader_proofs Quantize_proofs.
From Verif Require Ggml_model.
Local Open Scope N_scope.

Lemma ok_pair {A B} (a c : A) (b d : B) : Ok (a, b) = Ok (c, d) -> a = c /\ b = d.
Proof. intros H. injection H. auto. Qed.

Section Q.
Context (chunk : gty -> list N -> nat -> list N) (widen : list N -> list N).
Context (kib mib : N -> list N) (bins : list (list N) -> list N).

Lemma one_erase ts qt n ws c :
  obind (convert_one_logged chunk widen kib ts qt n ws c) (fun p => Ok (option_map fst (fst p))) = convert_one chunk widen ts qt n ws.
Proof.
  unfold convert_one_logged, convert_one. destruct (get_tensor st_name ts n) as [s|]; [|reflexivity]. cbv zeta.
  destruct (if is_weight n && (ti_dims (st_info s) =? 2) then quantize chunk widen s qt else Some (st_bytes s)) as [bs|]; [|reflexivity].
  destruct (set_tensor_type n _ ws) as [ws1| | |]; try reflexivity. cbn [obind].
  destruct (set_tensor_data n _ ws1) as [ws2| | |]; reflexivity.
Qed.

Lemma convert_erase ts qt : forall names ws c,
  obind (convert_logged chunk widen kib ts qt names ws c) (fun '(os, r, tr) => Ok (os, option_map fst r)) = convert chunk widen ts qt names ws.
Proof.
  induction names as [|n names IH]; intros ws c; [reflexivity|]. cbn [convert_logged convert]. rewrite <- (one_erase ts qt n ws c).
  destruct (convert_one_logged chunk widen kib ts qt n ws c) as [[[[[os ws'] c']|] tr]| | |]; cbn [obind fst option_map]; try reflexivity.
  rewrite <- (IH ws' c'). destruct (convert_logged chunk widen kib ts qt names ws' c') as [[[os' r'] tr']| | |]; reflexivity.
Qed.

Lemma to_erase output ts names opens n_kv kv dev qt :
  obind (quantize_to_logged chunk widen kib mib bins output ts names opens n_kv kv dev qt) (fun p => Ok (fst p)) =
  quantize_to chunk widen ts names opens n_kv kv dev qt.
Proof.
  unfold quantize_to_logged, quantize_to, program. destruct opens; [|reflexivity]. cbn [negb].
  destruct (add_all ts names []) as [ws| | |]; try reflexivity. cbn [obind]. rewrite <- (convert_erase ts qt names ws (mktally 0 0 [])).
  destruct (convert_logged chunk widen kib ts qt names ws (mktally 0 0 [])) as [[[os [[ws' c]|]] tr]| | |]; reflexivity.
Qed.

(** Every message of the conversion can be written. *)
Lemma says_convert ts qt : forall names ws c os r tr,
  convert_logged chunk widen kib ts qt names ws c = Ok (os, r, tr) -> Forall says tr /\ Forall (fun x : message => (fst x < 2)%Z) (map message_of tr).
Proof.
  induction names as [|n names IH]; intros ws c os r tr H; cbn [convert_logged] in H.
  - injection H as <- <- <-. split; constructor.
  - destruct (convert_one_logged chunk widen kib ts qt n ws c) as [[o t1]| | |] eqn:E; try discriminate. cbn [obind] in H.
    assert (S : Forall says t1 /\ Forall (fun x : message => (fst x < 2)%Z) (map message_of t1)).
    { unfold convert_one_logged in E. destruct (get_tensor st_name ts n) as [s|]; [|discriminate]. cbv zeta in E.
      destruct (if is_weight n && (ti_dims (st_info s) =? 2) then quantize chunk widen s qt else Some (st_bytes s)) as [bs|].
      - destruct (set_tensor_type n _ ws) as [ws1| | |]; try discriminate. cbn [obind] in E.
        destruct (set_tensor_data n _ ws1) as [ws2| | |]; try discriminate. cbn [obind] in E. injection E as _ <-.
        split; repeat constructor.
      - injection E as _ <-. split; repeat constructor. }
    destruct o as [[[os1 ws'] c']|].
    + destruct (convert_logged chunk widen kib ts qt names ws' c') as [[[os' r'] tr']| | |] eqn:E'; try discriminate. cbn [obind] in H.
      injection H as _ _ <-. apply IH in E'. destruct S, E'. rewrite map_app. split; apply Forall_app; auto.
    + injection H as _ _ <-. exact S.
Qed.

Lemma says_to output ts names opens n_kv kv dev qt a tr :
  quantize_to_logged chunk widen kib mib bins output ts names opens n_kv kv dev qt = Ok (a, tr) ->
  Forall says tr /\ Forall (fun x : message => (fst x < 2)%Z) (map message_of tr).
Proof.
  unfold quantize_to_logged. destruct opens; cbn [negb]; [|intros H; apply ok_pair in H as (_ & <-); split; repeat constructor].
  destruct (add_all ts names []) as [ws| | |]; try discriminate. cbn [obind].
  destruct (convert_logged chunk widen kib ts qt names ws (mktally 0 0 [])) as [[[os r] t1]| | |] eqn:E; try discriminate. cbn [obind].
  apply says_convert in E as (S1 & S2). destruct r as [[ws' c]|]; intros H; apply ok_pair in H as (_ & <-).
  - split; [constructor; [exact I|]; apply Forall_app; split; [exact S1|repeat constructor]|].
    cbn [app map]. constructor; [cbn; lia|]. rewrite map_app. apply Forall_app; split; [exact S2|repeat constructor].
  - split; (constructor; [cbn; auto; lia|assumption]).
Qed.

(** The messages about tensors of distinct, short names. *)
Lemma convert_lines ts qt : Forall (fun s => (length (st_name s) < 64)%nat) ts -> NoDup (map st_name ts) ->
  forall rest ws c os r tr, (forall s, In s rest -> In s ts) ->
  convert_logged chunk widen kib ts qt (map st_name rest) ws c = Ok (os, r, tr) ->
  match r with
  | Some (ws', c') => exists outs done, Forall2 (fun s o => becomes chunk widen qt s (fst o) (snd o)) rest outs /\ conversions rest outs done /\
      Forall2 (fun so m => report kib (fst so) (snd so) m) (combine rest outs) (map message_of tr) /\
      c' = mktally (t_before c + total (map (fun s => nbytes (st_info s)) rest)) (t_after c + total (map (fun o => N.of_nat (length (snd o))) outs))
             (t_done c ++ done)
  | None => exists pre s post outs ms, rest = pre ++ s :: post /\
      Forall2 (fun s o => becomes chunk widen qt s (fst o) (snd o)) pre outs /\
      Forall2 (fun so m => report kib (fst so) (snd so) m) (combine pre outs) ms /\
      wanted s /\ ~ float_type (ti_type (st_info s)) /\
      map message_of tr = ms ++ [(1%Z, u "input type must be f16 or f32, but " ++ type_label (ti_type (st_info s)))]
  end.
Proof.
  intros Hs Hd. induction rest as [|s rest IH]; intros ws c os r tr HI H; cbn [map convert_logged] in H.
  - injection H as <- <- <-. exists [], []. destruct c as [b a d]. cbn. rewrite !N.add_0_r, app_nil_r. repeat split; constructor.
  - destruct (convert_one_logged chunk widen kib ts qt (st_name s) ws c) as [[o t1]| | |] eqn:E; try discriminate. cbn [obind] in H.
    unfold convert_one_logged in E. rewrite (get_self ts s Hs Hd) in E by (apply HI; left; reflexivity). cbv zeta in E.
    pose proof (out_becomes chunk widen qt s) as OB. pose proof (out_none chunk widen qt s) as ON. unfold out_of in OB, ON.
    pose proof (wanted_iff s) as WI.
    destruct (is_weight (st_name s) && (ti_dims (st_info s) =? 2)) eqn:W.
    + assert (WS : wanted s) by (apply WI; reflexivity). destruct (quantize chunk widen s qt) as [bs|].
      * destruct (set_tensor_type (st_name s) _ ws) as [ws1| | |]; try discriminate. cbn [obind] in E.
        destruct (set_tensor_data (st_name s) _ ws1) as [ws2| | |]; try discriminate. cbn [obind] in E. injection E as <- <-.
        destruct (convert_logged chunk widen kib ts qt (map st_name rest) ws2 _) as [[[os' r'] tr']| | |] eqn:E'; try discriminate.
        cbn [obind] in H. injection H as _ <- <-. apply IH in E'; [|intros x Hx; apply HI; right; exact Hx].
        assert (B : becomes chunk widen qt s (fst (qt, bs)) (snd (qt, bs))) by (apply OB; reflexivity).
        assert (R : report kib s (qt, bs) (message_of (report_says kib (st_name s) true (ti_dims (st_info s)) (nbytes (st_info s)) (N.of_nat (length bs))))).
        { rewrite (proj1 WS). apply (report_converted kib s (qt, bs) WS). }
        destruct r' as [[ws' c']|].
        -- destruct E' as (outs & done & F & C & M & ->). exists ((qt, bs) :: outs), (bs :: done). cbn [t_before t_after t_done].
           split; [constructor; assumption|]. split; [apply (conv_yes s (qt, bs)); assumption|]. split; [constructor; assumption|].
           cbn [map total fold_right snd]. unfold total. rewrite <- !app_assoc, !N.add_assoc. reflexivity.
        -- destruct E' as (pre & s' & post & outs & ms & -> & F & M & W' & NF & T). exists (s :: pre), s', post, ((qt, bs) :: outs), (message_of (report_says kib (st_name s) true (ti_dims (st_info s)) (nbytes (st_info s)) (N.of_nat (length bs))) :: ms).
           split; [reflexivity|]. split; [constructor; assumption|]. split; [constructor; assumption|]. split; [exact W'|]. split; [exact NF|].
           cbn [app map]. rewrite T. reflexivity.
      * injection E as <- <-. injection H as _ <- <-. exists [], s, rest, [], []. split; [reflexivity|].
        split; [constructor|]. split; [constructor|]. split; [exact WS|]. split; [apply ON; reflexivity|]. reflexivity.
    + assert (WS : ~ wanted s) by (intros K; apply WI in K; discriminate).
      destruct (set_tensor_type (st_name s) _ ws) as [ws1| | |]; try discriminate. cbn [obind] in E.
      destruct (set_tensor_data (st_name s) _ ws1) as [ws2| | |]; try discriminate. cbn [obind] in E. injection E as <- <-.
      destruct (convert_logged chunk widen kib ts qt (map st_name rest) ws2 _) as [[[os' r'] tr']| | |] eqn:E'; try discriminate.
      cbn [obind] in H. injection H as _ <- <-. apply IH in E'; [|intros x Hx; apply HI; right; exact Hx].
      set (o := (ti_type (st_info s), st_bytes s)) in *.
      assert (B : becomes chunk widen qt s (fst o) (snd o)) by (apply OB; reflexivity).
      assert (R : report kib s o (message_of (report_says kib (st_name s) false (ti_dims (st_info s)) (nbytes (st_info s)) (N.of_nat (length (st_bytes s)))))).
      { apply (report_kept kib s o WS). }
      destruct r' as [[ws' c']|].
      * destruct E' as (outs & done & F & C & M & ->). exists (o :: outs), done. cbn [t_before t_after t_done].
        split; [constructor; assumption|]. split; [apply (conv_no s o); assumption|]. split; [constructor; assumption|].
        cbn [map total fold_right snd]. unfold total. rewrite <- !app_assoc, !N.add_assoc. reflexivity.
      * destruct E' as (pre & s' & post & outs & ms & -> & F & M & W' & NF & T).
        exists (s :: pre), s', post, (o :: outs), (message_of (report_says kib (st_name s) false (ti_dims (st_info s)) (nbytes (st_info s)) (N.of_nat (length (st_bytes s)))) :: ms).
        split; [reflexivity|]. split; [constructor; assumption|]. split; [constructor; assumption|]. split; [exact W'|]. split; [exact NF|].
        cbn [app map]. rewrite T. reflexivity.
Qed.

Context (L : Ggml_model.lib) (junk : nat -> N) {V : Type} (value : gty -> list N -> nat -> V).
Context (order : list (ustring * N) -> list (ustring * N)).
Context (input output : list N) (text : skey -> list N) (double : N -> list N) (in_kv : N).

Local Notation load file reopen := (load_logged L junk value order input text double in_kv file reopen).
Local Notation run file reopen opens n_kv kv dev qt :=
  (quantize_logged chunk widen kib mib bins L junk value order input output text double in_kv file reopen opens n_kv kv dev qt).

Lemma run_erase file reopen opens n_kv kv dev qt :
  obind (run file reopen opens n_kv kv dev qt) (fun p => Ok (fst p)) =
  berts_model_quantize chunk widen L junk value order file reopen opens n_kv kv dev qt.
Proof.
  unfold quantize_logged, berts_model_quantize. destruct (type_to_str qt); try reflexivity. cbn [obind].
  rewrite <- (load_result_same L junk value order input text double in_kv file reopen).
  destruct (load file reopen) as [[[m|b] tr]| | |]; try reflexivity. cbn [obind fst].
  destruct file as [f|]; [|reflexivity]. destruct (ctx_size L _ _) as [size| | |]; try reflexivity. cbn [obind].
  destruct (read_tensors L junk f size 0 false (f_tensors f)) as [ts| | |]; try reflexivity. cbn [obind].
  rewrite <- (to_erase output). destruct (quantize_to_logged _ _ _ _ _ _ _ _ _ _ _ _ _) as [[x tr']| | |]; reflexivity.
Qed.

(** The trace: that of loading in the middle. *)
Lemma run_inv file reopen opens n_kv kv dev qt a tr : run file reopen opens n_kv kv dev qt = Ok (a, tr) ->
  exists r tl, load file reopen = Ok (r, tl) /\
  ((exists m f ts t1 t2, r = Loaded m /\ file = Some f /\ t1 = Formatted Info (u "model loaded: " ++ input) :: t2 /\
      quantize_to_logged chunk widen kib mib bins output ts (map ti_name (f_tensors f)) opens n_kv kv dev qt = Ok (a, t2) /\
      obind (ctx_size L (f_tensors f) (f_tensors f)) (fun size => read_tensors L junk f size 0 false (f_tensors f)) = Ok ts /\
      tr = Plain Info (u "start quantization") :: tl ++ t1) \/
   (~ (exists m, r = Loaded m) /\ a = (false, None) /\
      tr = Plain Info (u "start quantization") :: tl ++ [Formatted Error (u "fail to load model: " ++ input)])).
Proof.
  unfold quantize_logged. destruct (type_to_str qt); try discriminate. cbn [obind].
  destruct (load file reopen) as [[r tl]| | |] eqn:E; try discriminate. cbn [obind]. intros H. exists r, tl. split; [reflexivity|].
  destruct r as [m|b].
  - left. destruct file as [f|].
    2: { cbn in E. discriminate. }
    destruct (ctx_size L _ _) as [size| | |] eqn:EC; try discriminate. cbn [obind] in H.
    destruct (read_tensors L junk f size 0 false (f_tensors f)) as [ts| | |] eqn:ER; try discriminate. cbn [obind] in H.
    destruct (quantize_to_logged _ _ _ _ _ _ _ _ _ _ _ _ _) as [[a' t2]| | |] eqn:Q; try discriminate. cbn [obind] in H.
    apply ok_pair in H as (-> & <-). exists m, f, ts, (Formatted Info (u "model loaded: " ++ input) :: t2), t2.
    split; [reflexivity|]. split; [reflexivity|]. split; [reflexivity|]. split; [exact Q|]. split; [rewrite EC; exact ER|reflexivity].
  - right. assert (X : (false, None, [Plain Info (u "start quantization")] ++ tl ++ [Formatted Error (u "fail to load model: " ++ input)]) = (a, tr))
      by (destruct file; congruence).
    inversion X; subst. split; [intros (m & K); discriminate|]. split; reflexivity.
Qed.

Lemma says_run file reopen opens n_kv kv dev qt a tr : run file reopen opens n_kv kv dev qt = Ok (a, tr) -> Forall says tr.
Proof.
  intros H. apply run_inv in H as (r & tl & E & [(m & f & ts & t1 & t2 & -> & -> & -> & Q & _ & ->)|(_ & -> & ->)]).
  - apply says_load in E. apply says_to in Q as (Q & _). constructor; [exact I|]. apply Forall_app; split; [exact E|]. constructor; [exact I|exact Q].
  - apply says_load in E. constructor; [exact I|]. apply Forall_app; split; [exact E|repeat constructor].
Qed.
End Q.
