(** Theorems about what loading a file writes to the log. *)
From Verif Require Import Base Utf_model Bert_model Vocab_model Bpe_model Roberta_model Log_model Loader_model.
From Verif Require Import Says_model Says_eval_model Says_load_model.
From Verif Require Import Log_spec Vocab_spec Loader_spec Says_spec P_Log Says_proofs Says_eval_proofs Vocab_proofs.
From Verif Require Import P_Says_vocab Says_load_spec Says_load_proofs Says_load_lines Loader_proofs.
From Verif Require P_Loader P_Eval Ggml_model Encoder_model.
Local Open Scope N_scope.

(** ** The result *)

(** C186: logging does not change what is loaded, except that it may be undefined; with
    nothing to write to, or above ERROR, not even that. *)
Theorem C186_same_result : forall L junk V (value : gty -> list N -> nat -> V) order path text double n_kv file reopen st,
  let r := logged st (load_logged L junk value order path text double n_kv file reopen) in
  match load_from_file L junk value order file reopen with
  | Ok m => (exists o, r = Ok (m, o)) \/ (r = UB /\ has_file st = true /\ (lvl st <= 3)%Z)
  | Fail => r = Fail
  | UB => r = UB
  | Abort => r = Abort
  end.
Proof.
  intros L junk V value order path text double n_kv file reopen st r.
  rewrite <- (load_result_same L junk value order path text double n_kv file reopen). subst r.
  destruct (load_logged L junk value order path text double n_kv file reopen) as [[m tr]| | |] eqn:E; try reflexivity.
  cbn [obind fst]. assert (S := says_load _ _ _ _ _ _ _ _ _ _ _ _ E).
  destruct (proj2 (logged_says st m tr S)) as [(o & K)|K]; [left; eauto|]. right. split; [exact K|].
  destruct st as [l f]. cbn [has_file lvl]. destruct f.
  - split; [reflexivity|]. destruct (Z.leb_spec l 3) as [H|H]; [exact H|]. exfalso.
    assert (X : log_of l (map message_of tr) []).
    { clear -S H. induction S as [|c tr Hc S IH]; [constructor|]. cbn [map]. destruct (message_of c) as [r t] eqn:Em.
      apply log_skip; [|exact IH]. destruct c as [|x|s t'|s t']; cbn [says] in Hc; try contradiction;
        cbn [message_of] in Em; destruct s; cbn in Em; injection Em as <- _; lia. }
    apply (logged_log l m tr [] S) in X. congruence.
  - exfalso. unfold logged in K. cbn [obind fst snd] in K. rewrite (calls_no_file l tr S) in K. discriminate.
Qed.
Print Assumptions C186_same_result.

(** ** The default level *)

(** C187: everything loading writes at the default level, and with which result. *)
Theorem C187_default_log : forall L junk V (value : gty -> list N -> nat -> V) order path text double n_kv file reopen r o,
  lib_ok L -> match file with Some f => sane junk f | None => True end ->
  logged log_start (load_logged L junk value order path text double n_kv file reopen) = Ok (r, o) ->
  load_writes junk file reopen r o.
Proof. intros. eapply load_lines; eauto. Qed.
Print Assumptions C187_default_log.

(** Nothing written at that level can be undefined but a repeated token. *)
Theorem C187_default_defined : forall L junk V (value : gty -> list N -> nat -> V) order path text double n_kv file reopen,
  lib_ok L -> match file with Some f => sane junk f | None => True end ->
  logged log_start (load_logged L junk value order path text double n_kv file reopen) = UB ->
  load_from_file L junk value order file reopen = UB \/
  exists f lens data t, file = Some f /\
    vocab_at junk f (u "berts.vocab.size") = Some (mkt 1 T_I8 lens) /\
    vocab_at junk f (u "berts.vocab.data") = Some (mkt 1 T_I8 data) /\
    repeats lens data t /\ ~ printable_text t.
Proof.
  intros L junk V value order path text double n_kv file reopen HL SA H.
  destruct (load_logged L junk value order path text double n_kv file reopen) as [[r tr]| | |] eqn:E; try discriminate.
  2: { left. rewrite <- (load_result_same L junk value order path text double n_kv file reopen), E. reflexivity. }
  right. assert (S := says_load _ _ _ _ _ _ _ _ _ _ _ _ E).
  assert (NL : ~ Forall loud_ok (map message_of tr)).
  { intros F. apply (proj2 (log_exists 2 (map message_of tr))) in F as (o & F). apply (logged_log 2 r tr o S) in F.
    change log_start with (mkls 2 true) in H. congruence. }
  clear H. assert (HX : forall m, harmless m -> Forall loud_ok (map message_of [Plain Error m])).
  { intros m Hm. apply Forall_cons; [apply harmless_loud, Hm|constructor]. }
  apply (load_inv L HL) in E as [(-> & -> & ->)|(f & size & -> & Hg & Hs & C)].
  { elim NL. apply low_loud. repeat constructor. }
  assert (OL : Forall loud_ok (map message_of (opening path text n_kv f size))) by apply low_loud, opening_low.
  assert (OH : forall s, Forall loud_ok (map message_of (opening path text n_kv f size ++ [hparams_says double f s]))).
  { intros s. rewrite map_app. apply Forall_app. split; [exact OL|apply low_loud; repeat constructor]. }
  destruct C as [(-> & -> & ->)|[(-> & NR & -> & ->)|(-> & R & made & s & Hm & Es & C)]].
  - elim NL. rewrite map_app. apply Forall_app. split; [exact OL|apply HX; split; vm_compute; intuition discriminate].
  - elim NL. rewrite map_app. apply Forall_app. split; [exact OL|apply HX; split; vm_compute; intuition discriminate].
  - destruct C as [(A & -> & ->)|[(A & NA & -> & ->)|(A & Ha & tr' & C & ->)]].
    + elim NL. rewrite map_app. apply Forall_app. split; [apply OH|apply low_loud; repeat constructor].
    + elim NL. rewrite map_app. apply Forall_app. split; [apply OH|apply low_loud; repeat constructor].
    + exists f. apply context_inv in C as (v & tv & Ev & C).
      assert (TV : Forall loud_ok (map message_of tv) \/ exists lens data t,
                vocab_at junk f (u "berts.vocab.size") = Some (mkt 1 T_I8 lens) /\
                vocab_at junk f (u "berts.vocab.data") = Some (mkt 1 T_I8 data) /\
                repeats lens data t /\ ~ printable_text t).
      { destruct (init_vocab_loud junk order (se_arch s) f made v tv SA Hs Hm Ha Ev) as [T|T]; auto. }
      destruct TV as [TV|(lens & data & t & T)]; [|exists lens, data, t; split; [reflexivity|exact T]].
      elim NL. rewrite map_app. apply Forall_app. split; [apply OH|].
      cbv zeta in C. destruct v as [v|].
      * destruct (weights_init value _ _) as [w|]; destruct C as (_ & ->); rewrite !map_app.
        all: apply Forall_app; split; [exact TV|]; apply Forall_app; split; [apply low_loud; repeat constructor|].
        all: apply Forall_app; split; [apply low_loud, weights_low; assumption|].
        -- apply low_loud; repeat constructor.
        -- apply HX. split; vm_compute; intuition discriminate.
      * destruct C as (_ & ->). rewrite map_app. apply Forall_app. split; [exact TV|]. apply HX. split; vm_compute; intuition discriminate.
Qed.
Print Assumptions C187_default_defined.

(** ** INFO *)

Lemma as_i32_int n : as_int n (as_i32 n).
Proof.
  unfold as_int, as_i32. intros H. destruct (N.ltb_spec n 2147483648) as [K|K].
  - split; [reflexivity|]. lia.
  - split; [|lia]. replace (Z.of_N n - 4294967296)%Z with (Z.of_N n + (-1) * 2 ^ 32)%Z by lia. apply Z.mod_add. discriminate.
Qed.

Local Ltac plain_text := split; vm_compute; intuition discriminate.

(** C188: from INFO on the last line says what happened, and with which result. *)
Theorem C188_last_line : forall L junk V (value : gty -> list N -> nat -> V) order path text double n_kv f reopen r o,
  lib_ok L -> logged (mkls 1 true) (load_logged L junk value order path text double n_kv (Some f) reopen) = Ok (r, o) ->
  exists m, told f reopen r m /\ last_line o m.
Proof.
  intros L junk V value order path text double n_kv f reopen r o HL H.
  destruct (load_logged L junk value order path text double n_kv (Some f) reopen) as [[r' tr]| | |] eqn:E; try discriminate.
  assert (S := says_load _ _ _ _ _ _ _ _ _ _ _ _ E).
  assert (r = r') as -> by (eapply (proj1 (logged_says (mkls 1 true) r' tr S)); eauto).
  apply (logged_log 1 r' tr o S) in H.
  apply (load_inv L HL) in E as [(E & _)|(f' & size & E & Hg & Hs & C)]; [discriminate|]. injection E as <-.
  assert (LAST : forall front c r0 m, tr = front ++ [c] -> message_of c = (r0, m) -> (1 <= r0)%Z -> harmless m -> last_line o m).
  { intros front c r0 m -> Ec Hr Hm. rewrite map_app in H. cbn [map] in H. rewrite Ec in H. eapply last_last_line; eauto. }
  destruct C as [(-> & -> & Et)|[(-> & NR & -> & Et)|(-> & R & made & s & Hm & Es & C)]].
  - eexists. split; [apply told_gone|]. eapply LAST; [exact Et|reflexivity|cbn; lia|plain_text].
  - eexists. split; [apply told_cut, NR|]. eapply LAST; [exact Et|reflexivity|cbn; lia|plain_text].
  - destruct (read_settings_ok f s Es) as (Hset & arch & vocab & h & layers & heads & max & inter & segs & act & eps &
      E1 & E2 & E3 & E4 & E5 & E6 & E7 & E8 & E9 & Ee & E10).
    assert (X1 : se_arch s = arch) by (rewrite E10; reflexivity).
    assert (X2 : se_act s = act) by (rewrite E10; reflexivity).
    assert (X3 : Encoder_model.n_layers (se_hp s) = N.to_nat layers) by (rewrite E10; reflexivity).
    clear E10.
    destruct C as [(A & -> & Et)|[(A & NA & -> & Et)|(A & Ha & tr' & C & Et)]].
    + eexists. split; [eapply (told_act f act (as_i32 (se_act s))); [exact R|exact E9|congruence|rewrite X2; apply as_i32_int]|].
      eapply LAST; [exact Et|reflexivity|cbn; lia|]. apply harmless_app; [plain_text|apply signed_harmless].
    + eexists. split; [eapply (told_type f arch (as_i32 (se_arch s))); [exact R|congruence|exact E1|congruence|rewrite X1; apply as_i32_int]|].
      eapply LAST; [exact Et|reflexivity|cbn; lia|]. apply harmless_app; [plain_text|apply signed_harmless].
    + apply context_inv in C as (v & tv & Ev & C). cbv zeta in C. destruct v as [v|].
      * pose proof (weights_iff junk value f made (Encoder_model.n_layers (se_hp s)) Hs Hm) as WI.
        destruct (weights_init value _ _) as [w|] eqn:EW; destruct C as (-> & C).
        -- eexists. split; [eapply told_good; [exact R|exact E4|rewrite <- X3; apply WI; discriminate]|].
           eapply LAST; [rewrite Et, C, !app_assoc; reflexivity|reflexivity|cbn; lia|plain_text].
        -- eexists. split; [eapply told_weights; [exact R|exact E4|rewrite <- X3; intros K; apply WI in K; congruence]|].
           eapply LAST; [rewrite Et, C, !app_assoc; reflexivity|reflexivity|cbn; lia|plain_text].
      * destruct C as (-> & C). eexists. split; [apply told_vocab, R|].
        eapply LAST; [rewrite Et, C, !app_assoc; reflexivity|reflexivity|cbn; lia|plain_text].
Qed.
Print Assumptions C188_last_line.

(** A model was loaded iff the last line says so. *)
Theorem C188_finish_iff : forall L junk V (value : gty -> list N -> nat -> V) order path text double n_kv file reopen r o,
  lib_ok L -> (file = None -> ~ In 10 path) ->
  logged (mkls 1 true) (load_logged L junk value order path text double n_kv file reopen) = Ok (r, o) ->
  (last_line o (u "finish initializing weights") <-> exists m, r = Loaded m).
Proof.
  intros L junk V value order path text double n_kv file reopen r o HL HP H. destruct file as [f|].
  - apply (C188_last_line _ _ _ _ _ _ _ _ _ _ _ _ _ HL) in H as (m & T & LL). split.
    + intros K. assert (X : forall m', m = m' -> ~ In 10 m' -> m' = u "finish initializing weights").
      { intros m' -> Hn. eapply last_line_fun; [exact Hn| |exact LL|exact K]. vm_compute. intuition discriminate. }
      destruct T as [|? |n z ? ? ? ?|n z ? ? ? ? ?|?|? ? ? ?|layers mm ? ? ?]; try (exfalso; specialize (X _ eq_refl);
        assert (Y := X ltac:(vm_compute; intuition discriminate)); discriminate Y).
      * exfalso. specialize (X _ eq_refl). assert (Y : ~ In 10 (u "unknown hidden_act: " ++ signed z)).
        { intros Y. apply in_app_iff in Y as [Y|Y]; [revert Y; vm_compute; intuition discriminate|exact (signed_no_nl _ Y)]. }
        apply X in Y. discriminate Y.
      * exfalso. specialize (X _ eq_refl). assert (Y : ~ In 10 (u "unknown bert_type: " ++ signed z)).
        { intros Y. apply in_app_iff in Y as [Y|Y]; [revert Y; vm_compute; intuition discriminate|exact (signed_no_nl _ Y)]. }
        apply X in Y. discriminate Y.
      * exists mm. reflexivity.
    + intros (mm & ->). inversion T; subst. exact LL.
  - cbn [load_logged] in H. specialize (HP eq_refl).
    assert (S : Forall (fun c => says c) [Formatted Info (u "loading model: " ++ path); Formatted Error (u "fail to load gguf file: " ++ path)]) by repeat constructor.
    assert (r = Null false) as -> by (eapply (proj1 (logged_says (mkls 1 true) _ _ S)); eauto).
    split; [|intros (m & K); discriminate]. intros K. exfalso.
    apply (logged_log 1 _ _ o S) in H. cbn [map message_of] in H.
    change [?a; ?b] with ([a] ++ [b]) in H. apply log_split in H as (oa & ob & H1 & H2 & ->).
    apply log_cons in H2 as [(Hl & _)|(_ & t & p & o' & Hc & He & H2 & ->)]; [cbn in Hl; lia|]. inversion H2; subst o'.
    assert (LL : last_line (oa ++ p ++ [10] ++ []) p).
    { rewrite app_nil_r. destruct (log_ends _ _ _ H1) as [->|(b & ->)]; [left; reflexivity|]. right. exists b. rewrite <- app_assoc. reflexivity. }
    assert (NP : ~ In 10 p /\ exists q, p = u "fail" ++ q).
    { destruct Hc as (_ & Hc).
      assert (Sub : ~ In 10 t /\ exists q, t = u "fail" ++ q).
      { destruct Hc as [Hc|(rest & Hc)].
        - subst t. split; [|eexists; reflexivity]. intros Q. apply in_app_iff in Q as [Q|Q]; [revert Q; vm_compute; intuition discriminate|exact (HP Q)].
        - split.
          + intros Q. assert (Q' : In 10 (u "fail to load gguf file: " ++ path)) by (rewrite Hc; apply in_or_app; left; exact Q).
            apply in_app_iff in Q' as [Q'|Q']; [revert Q'; vm_compute; intuition discriminate|exact (HP Q')].
          + destruct t as [|t1 [|t2 [|t3 [|t4 t]]]]; cbn in Hc; try discriminate Hc.
            injection Hc as <- <- <- <- _. exists t. reflexivity. }
      destruct Sub as (S1 & q & S2). split.
      - clear -He S1. induction He as [|t p He IH|c t p Hc He IH]; [intros []| |].
        + intros [Q|Q]; [discriminate|apply IH; [intros Y; apply S1; right; right; exact Y|exact Q]].
        + intros [Q|Q]; [apply S1; left; exact Q|apply IH; [intros Y; apply S1; right; exact Y|exact Q]].
      - subst t. cbn in He. do 4 (inversion He as [| |? ? ? ? He']; subst; clear He; rename He' into He). eexists. reflexivity. }
    destruct NP as (N1 & q & N2). assert (Y : p = u "finish initializing weights").
    { eapply last_line_fun; [exact N1| |exact LL|exact K]. vm_compute. intuition discriminate. }
    rewrite N2 in Y. discriminate Y.
Qed.
Print Assumptions C188_finish_iff.

(** ** Weights *)

(** C189: the lines about weights: those of missing optional tensors and of tensors
    nothing uses; or the first required tensor that is missing. *)
Theorem C189_weights_log : forall L junk V (value : gty -> list N -> nat -> V) order path text double n_kv f reopen r o,
  lib_ok L -> logged (mkls 1 true) (load_logged L junk value order path text double n_kv (Some f) reopen) = Ok (r, o) ->
  (exists m, r = Loaded m) \/ last_line o (u "fail to load weights") ->
  exists layers before, f_set f S_n_layers = Some (SU32 layers) /\
    match r with
    | Loaded _ => exists heads ms rest, absent f head_names heads /\ unused (used_names (N.to_nat layers)) 0 (f_tensors f) ms /\
        log_of 1 ms rest /\
        o = before ++ line (u "initializing weights") ++ heads ++ rest ++ line (u "finish initializing weights")
    | Null _ => exists k, first_missing f (required_names (N.to_nat layers)) k /\
        o = before ++ line (u "initializing weights") ++ line (u "failed to read tensor: " ++ k) ++ line (u "fail to load weights")
    end.
Proof.
  intros L junk V value order path text double n_kv f reopen r o HL H W.
  destruct (load_logged L junk value order path text double n_kv (Some f) reopen) as [[r' tr]| | |] eqn:E; try discriminate.
  assert (S := says_load _ _ _ _ _ _ _ _ _ _ _ _ E).
  assert (r = r') as -> by (eapply (proj1 (logged_says (mkls 1 true) r' tr S)); eauto).
  apply (logged_log 1 r' tr o S) in H.
  apply (load_inv L HL) in E as [(E & _)|(f' & size & E & Hg & Hs & C)]; [discriminate|]. injection E as <-.
  assert (LAST : forall front c r0 m, tr = front ++ [c] -> message_of c = (r0, m) -> (1 <= r0)%Z -> harmless m -> ~ In 10 m ->
            last_line o (u "fail to load weights") -> m = u "fail to load weights").
  { intros front c r0 m -> Ec Hr Hm Hn K. rewrite map_app in H. cbn [map] in H. rewrite Ec in H. apply last_last_line in H; [|assumption|assumption].
    eapply last_line_fun; eauto. vm_compute. intuition discriminate. }
  assert (NO : forall m, ~ (exists m', @Null V m = Loaded m')) by (intros m (m' & K); discriminate).
  destruct C as [(-> & -> & Et)|[(-> & NR & -> & Et)|(-> & R & made & s & Hm & Es & C)]].
  - exfalso. destruct W as [W|W]; [exact (NO _ W)|]. eapply LAST in W; [|exact Et|reflexivity|cbn; lia|plain_text|vm_compute; intuition discriminate]; discriminate W.
  - exfalso. destruct W as [W|W]; [exact (NO _ W)|]. eapply LAST in W; [|exact Et|reflexivity|cbn; lia|plain_text|vm_compute; intuition discriminate]; discriminate W.
  - destruct (read_settings_ok f s Es) as (Hset & arch & vocab & h & layers & heads & max & inter & segs & act & eps &
      E1 & E2 & E3 & E4 & E5 & E6 & E7 & E8 & E9 & Ee & E10).
    assert (X3 : Encoder_model.n_layers (se_hp s) = N.to_nat layers) by (rewrite E10; reflexivity).
    clear E10.
    destruct C as [(A & -> & Et)|[(A & NA & -> & Et)|(A & Ha & tr' & C & Et)]].
    + exfalso. destruct W as [W|W]; [exact (NO _ W)|]. eapply LAST in W; [|exact Et|reflexivity|cbn; lia| |]; [discriminate W| |].
      * apply harmless_app; [plain_text|apply signed_harmless].
      * intros Y. apply in_app_iff in Y as [Y|Y]; [revert Y; vm_compute; intuition discriminate|exact (signed_no_nl _ Y)].
    + exfalso. destruct W as [W|W]; [exact (NO _ W)|]. eapply LAST in W; [|exact Et|reflexivity|cbn; lia| |]; [discriminate W| |].
      * apply harmless_app; [plain_text|apply signed_harmless].
      * intros Y. apply in_app_iff in Y as [Y|Y]; [revert Y; vm_compute; intuition discriminate|exact (signed_no_nl _ Y)].
    + exists layers. apply context_inv in C as (v & tv & Ev & C). cbv zeta in C. destruct v as [v|].
      * pose proof (weights_iff junk value f made (Encoder_model.n_layers (se_hp s)) Hs Hm) as WI.
        destruct (weights_init value _ _) as [w|] eqn:EW; destruct C as (-> & C).
        all: rewrite Et, C, !map_app in H; apply log_split in H as (o1 & o2 & H1 & H2 & ->).
        all: apply log_split in H2 as (o3 & o4 & H2 & H3 & ->); apply log_split in H3 as (o5 & o6 & H3 & H4 & ->).
        all: apply log_split in H4 as (o7 & o8 & H4 & H5 & ->).
        all: apply log_one in H3; [|cbn; lia|plain_text]; apply log_one in H5; [|cbn; lia|plain_text]; subst o5 o8.
        all: destruct (weights_lines junk f made _ o7 Hs Hm H4) as [(F & hd & ms & o9 & F1 & F2 & F3 & ->)|(k & F1 & ->)].
        -- exists (o1 ++ o3). split; [exact E4|]. exists hd, ms, o9. rewrite <- X3, <- !app_assoc. auto.
        -- exfalso. assert (K : Forall (has f) (required_names (Encoder_model.n_layers (se_hp s)))) by (apply WI; discriminate).
           destruct F1 as (b & a & Eq & _ & F1). rewrite Eq in K. apply Forall_app in K as (_ & K). apply F1. inversion K; assumption.
        -- exfalso. apply WI in F. congruence.
        -- exists (o1 ++ o3). split; [exact E4|]. exists k. rewrite <- X3, <- !app_assoc. auto.
      * exfalso. destruct C as (-> & C). destruct W as [W|W]; [exact (NO _ W)|].
        eapply LAST in W; [|rewrite Et, C, !app_assoc; reflexivity|reflexivity|cbn; lia|plain_text|vm_compute; intuition discriminate]; discriminate W.
Qed.
Print Assumptions C189_weights_log.

(** C190: a tensor is listed as unused, with its place in the file, iff no weight, head
    weight or vocabulary tensor has its name. *)
Lemma unused_in used ms : forall ts n, unused used n ts ms ->
  forall m, In m ms <-> exists i t, nth_error ts i = Some t /\ ~ In (ti_name t) used /\
    m = (1%Z, u "  unused " ++ decimal (N.of_nat (n + i)) ++ u " " ++ ti_name t).
Proof.
  intros ts n H. induction H as [n|n t ts ms Hu H IH|n t ts ms Hu H IH]; intros m.
  - split; [intros []|]. intros (i & t & E & _). destruct i; discriminate.
  - rewrite IH. split; intros (i & t' & E & K & ->).
    + exists (S i), t'. rewrite Nat.add_succ_r. auto.
    + destruct i as [|i]; [cbn in E; injection E as <-; contradiction|]. exists i, t'. rewrite <- Nat.add_succ_comm. auto.
  - cbn [In]. rewrite IH. split.
    + intros [<-|(i & t' & E & K & ->)]; [exists 0%nat, t; rewrite Nat.add_0_r; auto|]. exists (S i), t'. rewrite Nat.add_succ_r. auto.
    + intros (i & t' & E & K & ->). destruct i as [|i]; [left; cbn in E; injection E as <-; rewrite Nat.add_0_r; reflexivity|].
      right. exists i, t'. rewrite <- Nat.add_succ_comm. auto.
Qed.

(** With printable names these messages are lines of the log. *)
Theorem C190_unused_lines : forall L junk V (value : gty -> list N -> nat -> V) order path text double n_kv f reopen m o,
  lib_ok L -> logged (mkls 1 true) (load_logged L junk value order path text double n_kv (Some f) reopen) = Ok (Loaded m, o) ->
  exists layers before heads ms rest, f_set f S_n_layers = Some (SU32 layers) /\ log_of 1 ms rest /\
    o = before ++ line (u "initializing weights") ++ heads ++ rest ++ line (u "finish initializing weights") /\
    forall x, In x ms <-> exists i t, nth_error (f_tensors f) i = Some t /\ ~ In (ti_name t) (used_names (N.to_nat layers)) /\
      x = (1%Z, u "  unused " ++ decimal (N.of_nat i) ++ u " " ++ ti_name t).
Proof.
  intros L junk V value order path text double n_kv f reopen m o HL H.
  destruct (C189_weights_log _ _ _ _ _ _ _ _ _ _ _ _ _ HL H (or_introl (ex_intro _ m eq_refl))) as (layers & before & E & heads & ms & rest & A & U & G & ->).
  exists layers, before, heads, ms, rest. split; [exact E|]. split; [exact G|]. split; [reflexivity|]. intros x. exact (unused_in _ _ _ _ U x).
Qed.
Print Assumptions C190_unused_lines.

(** A RoBERTa model that was loaded has its merges listed among them. *)
Theorem C190_merges_listed : forall L junk V (value : gty -> list N -> nat -> V) order path text double n_kv f reopen m o,
  lib_ok L -> f_set f S_bert_type = Some (SU32 1) ->
  logged (mkls 1 true) (load_logged L junk value order path text double n_kv (Some f) reopen) = Ok (Loaded m, o) ->
  exists layers before heads ms rest i, f_set f S_n_layers = Some (SU32 layers) /\ log_of 1 ms rest /\
    o = before ++ line (u "initializing weights") ++ heads ++ rest ++ line (u "finish initializing weights") /\
    In (1%Z, u "  unused " ++ decimal (N.of_nat i) ++ u " berts.merge.data") ms.
Proof.
  intros L junk V value order path text double n_kv f reopen m o HL HT H.
  destruct (C190_unused_lines _ _ _ _ _ _ _ _ _ _ _ _ _ HL H) as (layers & before & heads & ms & rest & E & G & -> & I).
  assert (F : load_from_file L junk value order (Some f) reopen = Ok (Loaded m)).
  { pose proof (C186_same_result L junk V value order path text double n_kv (Some f) reopen (mkls 1 true)) as C. cbv zeta in C. rewrite H in C.
    destruct (load_from_file L junk value order (Some f) reopen) as [r| | |]; try discriminate C.
    destruct C as [(o & C)|(C & _)]; [|discriminate C]. congruence. }
  assert (HM : has f (u "berts.merge.data")).
  { exact (merges_needed L HL junk value order f reopen m HT F). }
  destruct HM as (t & Ht & En). apply In_nth_error in Ht as (i & Hi).
  exists layers, before, heads, ms, rest, i. split; [exact E|]. split; [exact G|]. split; [reflexivity|]. apply I.
  exists i, t. split; [exact Hi|]. rewrite En. split; [|reflexivity]. apply merges_outside.
Qed.
Print Assumptions C190_merges_listed.

(** ** Texts as formats *)

(** The first message is about the path. *)
Lemma path_first L junk V (value : gty -> list N -> nat -> V) order path text double n_kv file reopen r tr :
  load_logged L junk value order path text double n_kv file reopen = Ok (r, tr) ->
  exists rest, tr = Formatted Info (u "loading model: " ++ path) :: rest.
Proof.
  intros E. unfold load_logged in E. destruct file as [f|]; [|injection E as _ <-; eexists; reflexivity].
  destruct (read_metadata f) as [[]| | |]; try discriminate. cbn [obind] in E.
  destruct (ctx_size _ _ _) as [size| | |]; try discriminate. cbn [obind app] in E.
  destruct (negb reopen); [injection E as _ <-; eexists; reflexivity|].
  destruct (read_tensors _ _ _ _ _ _ _) as [ts| | |]; try discriminate; [|injection E as _ <-; eexists; reflexivity].
  destruct (read_settings f) as [s| | |]; try discriminate. cbn [obind] in E.
  destruct (need_u32 _ _) as [t| | |]; try discriminate. cbn [obind] in E.
  destruct (ftype t) as [t'| | |]; try discriminate. cbn [obind] in E.
  destruct (negb (se_act s =? 0)); [injection E as _ <-; eexists; reflexivity|].
  destruct (negb _); [injection E as _ <-; eexists; reflexivity|].
  destruct (new_context_logged _ _ _ _ _) as [p| | |]; try discriminate. cbn [obind] in E. injection E as _ <-. eexists. reflexivity.
Qed.

(** C191: with a path without '%' and NUL the log at INFO starts with it. *)
Theorem C191_first_line : forall L junk V (value : gty -> list N -> nat -> V) order path text double n_kv file reopen l r o,
  (l <= 1)%Z -> harmless path ->
  logged (mkls l true) (load_logged L junk value order path text double n_kv file reopen) = Ok (r, o) ->
  exists rest, o = line (u "loading model: " ++ path) ++ rest.
Proof.
  intros L junk V value order path text double n_kv file reopen l r o Hl HP H.
  destruct (load_logged L junk value order path text double n_kv file reopen) as [[r' tr]| | |] eqn:E; try discriminate.
  assert (S := says_load _ _ _ _ _ _ _ _ _ _ _ _ E).
  assert (r = r') as -> by (eapply (proj1 (logged_says (mkls l true) r' tr S)); eauto).
  apply (logged_log l r' tr o S) in H. destruct (path_first _ _ _ _ _ _ _ _ _ _ _ _ _ E) as (rest & ->).
  cbn [map message_of] in H. apply log_cons in H as [(H & _)|(_ & t & p & o' & C & P & _ & ->)]; [exfalso; cbn in H; lia|].
  destruct (harmless_cut (u "loading model: " ++ path)) as (C' & P'); [apply harmless_app; [split; vm_compute; intuition discriminate|exact HP]|].
  exists o'. unfold line. rewrite <- app_assoc. f_equal.
  assert (t = u "loading model: " ++ path) as -> by (apply cut_fun in C; apply cut_fun in C'; congruence).
  apply escaped_fun in P. apply escaped_fun in P'. congruence.
Qed.
Print Assumptions C191_first_line.

(** C191: from INFO on the path is part of a format; one that printf cannot take makes
    loading any file undefined. *)
Theorem C191_path_undefined : forall L junk V (value : gty -> list N -> nat -> V) order path text double n_kv file reopen l r,
  load_from_file L junk value order file reopen = Ok r -> (l <= 1)%Z -> ~ printable_text path ->
  logged (mkls l true) (load_logged L junk value order path text double n_kv file reopen) = UB.
Proof.
  intros L junk V value order path text double n_kv file reopen l r F Hl HP.
  pose proof (C186_same_result L junk V value order path text double n_kv file reopen (mkls l true)) as C. cbv zeta in C. rewrite F in C.
  destruct C as [(o & C)|(C & _)]; [exfalso|exact C].
  destruct (load_logged L junk value order path text double n_kv file reopen) as [[r' tr]| | |] eqn:E; try discriminate.
  assert (S := says_load _ _ _ _ _ _ _ _ _ _ _ _ E).
  assert (r = r') as -> by (eapply (proj1 (logged_says (mkls l true) r' tr S)); eauto).
  apply (logged_log l r' tr o S) in C.
  destruct (path_first _ _ _ _ _ _ _ _ _ _ _ _ _ E) as (rest & ->).
  cbn [map message_of] in C. apply log_cons in C as [(K & _)|(_ & t & p & o' & Hc & He & _)]; [cbn in K; lia|].
  apply HP. rewrite <- (printable_app (u "loading model: ")) by (split; vm_compute; intuition discriminate). exists t, p. auto.
Qed.
Print Assumptions C191_path_undefined.

(** The same for the name of a tensor that nothing uses, in a file that can be loaded. *)
Theorem C191_name_undefined : forall L junk V (value : gty -> list N -> nat -> V) order path text double n_kv f reopen l m layers t,
  lib_ok L -> load_from_file L junk value order (Some f) reopen = Ok (Loaded m) -> (l <= 1)%Z ->
  f_set f S_n_layers = Some (SU32 layers) -> In t (f_tensors f) -> ~ In (ti_name t) (used_names (N.to_nat layers)) ->
  ~ printable_text (ti_name t) ->
  logged (mkls l true) (load_logged L junk value order path text double n_kv (Some f) reopen) = UB.
Proof.
  intros L junk V value order path text double n_kv f reopen l m layers t HL F Hl Hn Ht Hu HP.
  pose proof (C186_same_result L junk V value order path text double n_kv (Some f) reopen (mkls l true)) as C. cbv zeta in C. rewrite F in C.
  destruct C as [(o & C)|(C & _)]; [exfalso|exact C].
  assert (C1 : exists o1, logged (mkls 1 true) (load_logged L junk value order path text double n_kv (Some f) reopen) = Ok (Loaded m, o1)).
  { destruct (load_logged L junk value order path text double n_kv (Some f) reopen) as [[r' tr]| | |] eqn:E; try discriminate.
    assert (S := says_load _ _ _ _ _ _ _ _ _ _ _ _ E).
    assert (Loaded m = r') as <- by (eapply (proj1 (logged_says (mkls l true) r' tr S)); eauto).
    apply (logged_log l _ tr o S) in C. assert (Q := proj1 (log_exists l _) (ex_intro _ o C)).
    assert (Q1 : Forall (fun x : message => (1 <= fst x)%Z -> printable_text (snd x)) (map message_of tr)).
    { eapply Forall_impl; [|exact Q]. cbv beta. intros x K1 K2. apply K1. lia. }
    apply (proj2 (log_exists 1 _)) in Q1 as (o1 & Q1). exists o1. apply (logged_log 1 _ tr o1 S). exact Q1. }
  destruct C1 as (o1 & C1).
  destruct (C190_unused_lines _ _ _ _ _ _ _ _ _ _ _ _ _ HL C1) as (layers' & before & heads & ms & rest & E & G & _ & I).
  rewrite Hn in E. injection E as <-. apply In_nth_error in Ht as (i & Hi).
  assert (X : In (1%Z, u "  unused " ++ decimal (N.of_nat i) ++ u " " ++ ti_name t) ms) by (apply I; exists i, t; auto).
  assert (Q := proj1 (log_exists 1 _) (ex_intro _ rest G)). rewrite Forall_forall in Q. specialize (Q _ X ltac:(cbn; lia)). cbn [snd] in Q.
  apply HP. rewrite !app_assoc in Q. rewrite <- app_assoc in Q.
  rewrite <- (printable_app ((u "  unused " ++ decimal (N.of_nat i)) ++ u " ")); [rewrite <- app_assoc; exact Q|].
  repeat apply harmless_app; [split; vm_compute; intuition discriminate|apply decimal_harmless|split; vm_compute; intuition discriminate].
Qed.
Print Assumptions C191_name_undefined.

(** ** Examples *)

Definition x_log (l : Z) (path : list N) (f : option file) (reopen : bool) : outcome (load_result (V := Z) * list N) :=
  logged (mkls l true) (load_logged P_Eval.lib64 P_Loader.d_junk P_Loader.d_value (fun x => x) path (fun _ => []) (fun _ => u "0") 9 f reopen).
Definition x_out (o : outcome (load_result (V := Z) * list N)) : option (bool * list N) :=
  match o with Ok (Loaded _, o) => Some (true, o) | Ok (Null _, o) => Some (false, o) | _ => None end.

(** A file that is loaded: the default level shows where each id was looked for. *)
Example C187_example :
  option_map fst (x_out (x_log 2 (u "m.gguf") (Some P_Loader.d_file) true)) = Some true /\
  x_out (x_log 2 (u "m.gguf") None true) = Some (false, []) /\
  x_out (x_log 2 (u "m.gguf") (Some P_Loader.d_file) false) = Some (false, line (u "fail to open gguf file")) /\
  x_out (x_log 2 (u "m.gguf") (Some (P_Loader.a_file 1 0 P_Loader.d_pieces)) true) = Some (false, []).
Proof. vm_compute. repeat split; reflexivity. Qed.

(** A refusal is not always reported at the default level. *)
Theorem C187_refusal_reported_refuted : exists f, sane P_Loader.d_junk f /\ exists b,
  x_log 2 (u "m.gguf") (Some f) true = Ok (Null b, []).
Proof.
  exists (P_Loader.a_file 1 0 P_Loader.d_pieces). split.
  - split; [|split].
    + apply Forall_forall. intros x Hx. assert (B : forallb (fun y => y <? 256) (f_bytes (P_Loader.a_file 1 0 P_Loader.d_pieces)) = true) by (vm_compute; reflexivity).
      rewrite forallb_forall in B. specialize (B x Hx). lia.
    + intros i. reflexivity.
    + intros t E. vm_compute in E. injection E as <-. vm_compute. reflexivity.
  - exists false. vm_compute. reflexivity.
Qed.
Print Assumptions C187_refusal_reported_refuted.

Fixpoint ends_b (o e : list N) (fuel : nat) : bool :=
  list_N_eqb o e || match fuel, o with S k, _ :: o' => ends_b o' e k | _, _ => false end.

(** The head is missing, and a tensor nobody knows is there. *)
Definition x_extra : list P_Loader.piece := P_Loader.d_vocab ++ P_Loader.d_words :: P_Loader.d_rest ++ P_Loader.d_layer ++ P_Loader.d_pooler
  ++ [P_Loader.vec (u "extra") [1; 1]].
Example C189_example :
  exists o b, x_log 1 (u "m.gguf") (Some (P_Loader.a_file 0 0 x_extra)) true = Ok (b, o) /\ (exists m, b = Loaded m) /\
    ends_b o (line (u "failed to read tensor: berts.bert.predictions.decoder.bias") ++ line (u "  unused 25 extra")
              ++ line (u "finish initializing weights")) 4000 = true.
Proof.
  destruct (x_log 1 (u "m.gguf") (Some (P_Loader.a_file 0 0 x_extra)) true) as [[b o]| | |] eqn:E.
  2,3,4: exfalso; revert E; vm_compute; discriminate.
  exists o, b. split; [reflexivity|].
  assert (Q : x_out (x_log 1 (u "m.gguf") (Some (P_Loader.a_file 0 0 x_extra)) true) = x_out (Ok (b, o))) by (rewrite E; reflexivity).
  assert (R : match x_out (x_log 1 (u "m.gguf") (Some (P_Loader.a_file 0 0 x_extra)) true) with
              | Some (true, o) => ends_b o (line (u "failed to read tensor: berts.bert.predictions.decoder.bias") ++ line (u "  unused 25 extra")
                 ++ line (u "finish initializing weights")) 4000
              | _ => false end = true) by (vm_compute; reflexivity).
  rewrite Q in R. destruct b as [m|h]; cbn [x_out] in R; [split; [eauto|exact R]|discriminate R].
Qed.
Example C189_example_missing :
  match x_out (x_log 1 (u "m.gguf") (Some (P_Loader.a_file 0 0 (P_Loader.d_vocab ++ P_Loader.d_words :: P_Loader.d_rest ++ P_Loader.d_layer))) true) with
  | Some (false, o) => ends_b o (line (u "initializing weights") ++ line (u "failed to read tensor: berts.bert.pooler.dense.weight")
       ++ line (u "fail to load weights")) 4000
  | _ => false end = true.
Proof. vm_compute. reflexivity. Qed.

(** Without the condition on the path the last line can be forged. *)
Theorem C188_path_refuted : exists path o,
  x_log 1 path None true = Ok (Null false, o) /\ last_line o (u "finish initializing weights").
Proof.
  exists ([10] ++ u "finish initializing weights"). eexists. split; [vm_compute; reflexivity|].
  right. eexists (u "loading model: " ++ [10] ++ u "finish initializing weights" ++ [10] ++ u "fail to load gguf file: "). vm_compute. reflexivity.
Qed.
Print Assumptions C188_path_refuted.

(** A RoBERTa file: removing the tensor listed as unused makes it unloadable. *)
Definition x_words : list (list N) := [u "<s>"; u "</s>"; u "<mask>"; u "<pad>"; u "<unk>"; u "a"; u "b"; u "ab"].
Definition x_roberta (merges : bool) : file :=
  P_Loader.a_file 0 1 ([P_Loader.mkpiece (u "berts.vocab.size") TI8 8 1 [3; 4; 6; 5; 5; 1; 1; 2];
     P_Loader.mkpiece (u "berts.vocab.data") TI8 27 1 (concat x_words)]
   ++ P_Loader.d_words :: P_Loader.d_rest ++ P_Loader.d_layer ++ P_Loader.d_pooler ++ P_Loader.d_head
   ++ (if merges then [P_Loader.mkpiece (u "berts.merge.data") TI32 3 1 [5; 0; 0; 0; 6; 0; 0; 0; 0; 0; 0; 0]] else [])).
Theorem C190_unused_removable_refuted :
  (exists t, f_tensors (x_roberta true) = f_tensors (x_roberta false) ++ [t] /\ ti_name t = u "berts.merge.data") /\
  match x_out (x_log 1 (u "m.gguf") (Some (x_roberta true)) true) with
  | Some (true, o) => ends_b o (line (u "  unused 31 berts.merge.data") ++ line (u "finish initializing weights")) 4000
  | _ => false end = true /\
  option_map fst (x_out (x_log 1 (u "m.gguf") (Some (x_roberta false)) true)) = Some false.
Proof.
  split; [eexists; split; [vm_compute; reflexivity|reflexivity]|]. vm_compute. split; reflexivity.
Qed.
Print Assumptions C190_unused_removable_refuted.

(** A file called "50%.gguf": fine at the default level, undefined at INFO. *)
Example C191_example :
  option_map fst (x_out (x_log 2 (u "50%.gguf") (Some P_Loader.d_file) true)) = Some true /\
  x_log 1 (u "50%.gguf") (Some P_Loader.d_file) true = UB /\
  x_log 1 (u "m.gguf") (Some (P_Loader.a_file 0 0 (P_Loader.d_pieces ++ [P_Loader.vec (u "%d") [1]]))) true = UB.
Proof. vm_compute. repeat split; reflexivity. Qed.

(** Loading a model does not always work at INFO when it does at the default level. *)
Theorem C191_literal_refuted : exists path f, sane P_Loader.d_junk f /\
  (exists m o, x_log 2 path (Some f) true = Ok (Loaded m, o)) /\ x_log 1 path (Some f) true = UB.
Proof.
  exists (u "50%.gguf"), P_Loader.d_file. split; [|split; [|vm_compute; reflexivity]].
  - split; [|split].
    + apply Forall_forall. intros x Hx. assert (B : forallb (fun y => y <? 256) (f_bytes P_Loader.d_file) = true) by (vm_compute; reflexivity).
      rewrite forallb_forall in B. specialize (B x Hx). lia.
    + intros i. reflexivity.
    + intros t E. vm_compute in E. injection E as <-. vm_compute. reflexivity.
  - assert (H : option_map fst (x_out (x_log 2 (u "50%.gguf") (Some P_Loader.d_file) true)) = Some true) by (vm_compute; reflexivity).
    destruct (x_log 2 (u "50%.gguf") (Some P_Loader.d_file) true) as [[[m|b] o]| | |]; try discriminate. exists m, o. reflexivity.
Qed.
Print Assumptions C191_literal_refuted.
