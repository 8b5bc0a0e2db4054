(** Lemmas about the lines written while loading a file. *)
From Verif Require Import Base Utf_model Bert_model Vocab_model Bpe_model Roberta_model Log_model Loader_model.
From Verif Require Import Says_model Says_eval_model Says_load_model.
From Verif Require Import Log_spec Vocab_spec Roberta_spec Loader_spec Says_spec P_Log Says_proofs Says_eval_proofs Vocab_proofs Roberta_proofs.
From Verif Require Import P_Vocab P_Says_vocab Says_load_spec Says_load_proofs Loader_proofs.
From Verif Require Ggml_model Encoder_model P_Says.
Local Open Scope N_scope.

(** ** The default level *)

Lemma low_app a b o : Forall (fun x : message => (fst x < 2)%Z) a -> log_of 2 b o -> log_of 2 (a ++ b) o.
Proof. intros H K. apply (log_app 2 a b [] o); [apply low_messages, H|exact K]. Qed.

Lemma one_line m : harmless m -> log_of 2 [(3%Z, m)] (line m).
Proof.
  intros H. destruct (harmless_cut m H) as (C & E). unfold line.
  change (m ++ [10]) with (m ++ [10] ++ []). eapply log_line; [lia|exact C|exact E|constructor].
Qed.

(** Reading the tokens: the first one that is there already. *)
Lemma read_tokens_fail : forall lens data p v ts0, bytes_ok lens -> voc_ok v ts0 -> p <= N.of_nat (length data) ->
  read_tokens lens data p v = Fail ->
  exists l1 l2 d1 d2 ts t, lens = l1 ++ N.of_nat (length t) mod 256 :: l2 /\ skipn (N.to_nat p) data = d1 ++ t ++ d2 /\
    layout l1 d1 ts /\ NoDup (ts0 ++ ts) /\ In t (ts0 ++ ts) /\ (1 <= length t <= 256)%nat.
Proof.
  induction lens as [|b lens IH]; intros data p v ts0 B V P H; [discriminate|]. cbn [read_tokens] in H.
  assert (Hb : b < 256) by (inversion B; assumption). assert (B' : bytes_ok lens) by (inversion B; assumption).
  destruct (N.ltb_spec (N.of_nat (length data)) (p + tok_len b)) as [K|K]; [discriminate|].
  set (t := firstn (N.to_nat (tok_len b)) (skipn (N.to_nat p) data)) in *.
  assert (Lt : N.of_nat (length t) = tok_len b).
  { unfold t. rewrite firstn_length, skipn_length. lia. }
  assert (Hl : (1 <= length t <= 256)%nat).
  { unfold tok_len in Lt. destruct (b =? 0) eqn:E; lia. }
  assert (Eb : N.of_nat (length t) mod 256 = b).
  { rewrite Lt. unfold tok_len. destruct (N.eqb_spec b 0) as [->|E]; [reflexivity|]. apply N.mod_small. exact Hb. }
  assert (Es : skipn (N.to_nat p) data = t ++ skipn (N.to_nat (p + tok_len b)) data).
  { rewrite <- (firstn_skipn (N.to_nat (tok_len b)) (skipn (N.to_nat p) data)) at 1. fold t. f_equal.
    rewrite N2Nat.inj_add. clear. generalize (N.to_nat (tok_len b)). intros a. revert data. generalize (N.to_nat p). clear.
    induction n as [|n IH]; intros data; [reflexivity|]. destruct data; [destruct a; reflexivity|]. cbn [skipn plus]. apply IH. }
  destruct (add_token v t) as [v'|] eqn:A.
  - destruct (add_token_ok v ts0 t v' V A) as (V' & _).
    destruct (IH data (p + tok_len b) v' (ts0 ++ [t]) B' V' ltac:(lia) H) as (l1 & l2 & d1 & d2 & ts & t' & E1 & E2 & LY & ND & HI & HL).
    exists (b :: l1), l2, (t ++ d1), d2, (t :: ts), t'. rewrite E1, Es, E2. rewrite <- !app_assoc in *. repeat split; try assumption; try lia.
    rewrite <- Eb. constructor; assumption.
  - apply (add_token_none v ts0 t V) in A.
    exists [], lens, [], (skipn (N.to_nat (p + tok_len b)) data), [], t. rewrite Eb, app_nil_r. repeat split; try assumption; try lia.
    + constructor.
    + apply V.
Qed.

Lemma read_tokens_quiet : forall lens data p v q, read_tokens lens data p v = Ok q -> read_tokens_says lens data p v = [].
Proof.
  induction lens as [|b lens IH]; intros data p v q; [reflexivity|].
  cbn [read_tokens read_tokens_says]. destruct (_ <? _); [discriminate|]. destruct (add_token _ _); [apply IH|discriminate].
Qed.

(** The lines about ids. *)
Lemma reports_of g v ts ws : voc_ok v ts -> N.of_nat (length ts) < 4294967296 -> Forall tidy ws ->
  Forall (fun w => typed_u32 g (fst (fst w))) ws ->
  exists reports, Forall2 (id_report g ts) ws reports /\
    log_of 2 (map message_of (flat_map (fun w => get_token_id_says g v (fst (fst w)) (snd (fst w)) (snd w)) ws)) (concat reports).
Proof.
  intros V B. induction 1 as [|w ws Tw T IH]; intros TY; [exists []; split; constructor|].
  inversion TY; subst. destruct IH as (rs & F & K); [assumption|].
  destruct (id_report_total g ts w ltac:(assumption)) as (o & Ho). exists (o :: rs). split; [constructor; assumption|].
  cbn [flat_map concat]. rewrite map_app. apply log_app; [eapply id_default; eauto|exact K].
Qed.

Lemma r_places_tidy : Forall tidy r_places.
Proof.
  unfold r_places. repeat (apply Forall_cons; [split; [split; vm_compute; intuition discriminate|
    repeat (apply Forall_cons; [split; vm_compute; intuition discriminate|]); constructor]|]). constructor.
Qed.

Lemma id_to_token_low tokens i : Forall (fun x : message => (fst x < 2)%Z) (map message_of (id_to_token_says tokens i)).
Proof. unfold id_to_token_says. destruct (_ <=? _); repeat constructor. Qed.

Lemma low_flat_map {A} (g : A -> list log_call) l :
  (forall a, Forall (fun x : message => (fst x < 2)%Z) (map message_of (g a))) ->
  Forall (fun x : message => (fst x < 2)%Z) (map message_of (flat_map g l)).
Proof. intros H. induction l as [|a l IH]; [constructor|]. cbn [flat_map]. rewrite map_app. apply Forall_app; auto. Qed.

Lemma place_of_key k : In k bert_keys -> exists w, In w places /\ fst (fst w) = k /\ snd w = bert_spellings k.
Proof.
  intros H. change bert_keys with (map (fun w : Vocab_model.key * list N * list (list N) => fst (fst w)) places) in H.
  apply in_map_iff in H as (w & <- & H). exists w. split; [exact H|split; [reflexivity|]].
  unfold places in H. cbn [In] in H. repeat (destruct H as [<-|H]; [reflexivity|]). destruct H.
Qed.

Lemma key_of_place w : In w places -> In (fst (fst w)) bert_keys /\ snd w = bert_spellings (fst (fst w)).
Proof.
  intros H. split.
  - change bert_keys with (map (fun w : Vocab_model.key * list N * list (list N) => fst (fst w)) places).
    exact (in_map (fun w : Vocab_model.key * list N * list (list N) => fst (fst w)) places w H).
  - unfold places in H. cbn [In] in H. repeat (destruct H as [<-|H]; [reflexivity|]). destruct H.
Qed.

Lemma bert_complete_iff g ts : bert_complete g ts <-> forall k, In k bert_keys -> exists n, special_id (stored g k) ts (bert_spellings k) n.
Proof.
  unfold bert_complete. split.
  - intros H k Hk. destruct (place_of_key k Hk) as (w & Hw & <- & <-). apply H, Hw.
  - intros H w Hw. destruct (key_of_place w Hw) as (Hk & ->). apply H, Hk.
Qed.

(** *** BERT *)
Lemma bert_writes g lens data b tr o m : bytes_ok lens -> N.of_nat (length lens) < 2 ^ 32 ->
  vocab_logged g lens data = Ok (b, tr) -> log_of 2 (map message_of tr) o ->
  vocab_writes g 0 (Some (mkt 1 T_I8 lens)) (Some (mkt 1 T_I8 data)) m (match b with Some _ => true | None => false end) o.
Proof.
  intros B LB H K. unfold vocab_logged in H.
  pose proof (read_tokens_inv lens data 0 voc0 [] [] [] B voc_ok0 lay_nil (ex_intro _ data eq_refl) eq_refl) as R.
  destruct (read_tokens lens data 0 voc0) as [[p v]| | |] eqn:E; try discriminate.
  - rewrite (read_tokens_quiet lens data 0 voc0 _ E), app_nil_r in H. destruct R as (ts & d & VO & LY & (rest & Ed) & P). cbn [app] in LY.
    assert (Bt : N.of_nat (length ts) < 2 ^ 32).
    { rewrite <- (layout_len lens d ts LY). exact LB. }
    destruct (N.eqb_spec p (N.of_nat (length data))) as [Q|Q]; cbn [negb] in H.
    + assert (rest = []) as ->.
      { rewrite Ed, app_length in Q. destruct rest; [reflexivity|]. cbn [length] in Q. lia. }
      rewrite app_nil_r in Ed. subst d.
      pose proof (C19_bert_outcomes g lens data ts LY (proj1 (proj2 VO)) Bt) as C. cbv zeta in C.
      assert (RV : bert_init_vocab g (Some (mkt 1 T_I8 lens)) (Some (mkt 1 T_I8 data)) = bert_vocab_init g v).
      { unfold bert_init_vocab, read_vocab. cbn [t_dims t_type t_data N.eqb Pos.eqb negb orb]. rewrite E, (proj2 (N.eqb_eq _ _) Q). reflexivity. }
      rewrite RV in C.
      assert (TY : forall k, In k bert_keys -> typed_u32 g k).
      { destruct (bert_vocab_init g v); try discriminate; tauto. }
      destruct (reports_of g v ts places VO Bt places_tidy) as (reports & FR & LR).
      { unfold places. repeat (apply Forall_cons; [apply TY; simpl; auto 8|]). constructor. }
      assert (HEAD : forall rest ro, log_of 2 (map message_of rest) ro ->
        log_of 2 (map message_of ([Plain Info (u "loading vocab"); Formatted Debug (u "  vocab count: " ++ decimal (N.of_nat (length lens)))] ++ rest)) ro).
      { intros rs ro HR. rewrite map_app. apply low_app; [repeat constructor|exact HR]. }
      assert (INIT : forall why rs ro,
        (existsb (fun w => match get_token_id g (token_to_id v) (fst (fst w)) (snd w) with Ok i => i =? INVALID | _ => false end) wanted_ids = true /\ why = [] \/
         existsb (fun w => match get_token_id g (token_to_id v) (fst (fst w)) (snd w) with Ok i => i =? INVALID | _ => false end) wanted_ids = false /\
           why = if (length ts =? 0)%nat then line (u "fail to build vocab") else []) ->
        log_of 2 (map message_of rs) ro ->
        log_of 2 (map message_of (init_says g v ++ rs)) (concat reports ++ why ++ ro)).
      { intros why rs ro Hw HR. unfold init_says. change wanted_ids with places in *. rewrite <- !app_assoc, !map_app.
        apply log_app; [exact LR|]. apply low_app; [apply low_flat_map; intros a; apply id_line_low|].
        destruct Hw as [(X & ->)|(X & ->)]; rewrite X; [exact HR|]. rewrite map_app. rewrite <- !app_assoc. apply low_app.
        - destruct (gguf_bool g K_lower true), (gguf_bool g K_basic true), (gguf_bool g K_cjk true); try constructor.
          destruct (gguf_bool g K_accent a); try constructor; unfold info_says; cbn [map message_of]; repeat constructor.
        - rewrite (proj1 VO). apply log_app; [|exact HR]. destruct (length ts =? 0)%nat; [|constructor].
          apply one_line. split; vm_compute; intuition discriminate. }
      assert (BAD : forall bs, existsb (fun w => match get_token_id g (token_to_id v) (fst (fst w)) (snd w) with Ok i => i =? INVALID | _ => false end) wanted_ids = bs ->
               (bs = true <-> ~ bert_complete g ts)).
      { intros bs <-. destruct (voc_find v ts VO Bt) as (F1 & F2). rewrite bert_complete_iff.
        assert (G : forall k, In k bert_keys -> exists i, get_token_id g (token_to_id v) k (bert_spellings k) = Ok i /\
          ((i <> INVALID /\ special_id (stored g k) ts (bert_spellings k) i) \/ (i = INVALID /\ forall j, ~ special_id (stored g k) ts (bert_spellings k) j)))
          by (intros k Hk; apply (get_token_id_ok g (token_to_id v) ts F1 F2 k (bert_spellings k) (TY k Hk))).
        split.
        - intros X A. apply existsb_exists in X as (w & Hw & X).
          destruct (key_of_place w Hw) as (Hk & Y2). set (k := fst (fst w)) in *. rewrite Y2 in X. destruct (G k Hk) as (i & Gi & [(Ni & _)|(-> & Nj)]); rewrite Gi in X.
          + apply N.eqb_eq in X. contradiction.
          + destruct (A k Hk) as (n & Hn). exact (Nj n Hn).
        - intros NA. destruct (existsb _ wanted_ids) eqn:X; [reflexivity|]. exfalso. apply NA. intros k Hk.
          destruct (G k Hk) as (i & Gi & [(Ni & Si)|(-> & Nj)]); [eauto|].
          destruct (place_of_key k Hk) as (w & Hw & Y1 & Y2).
          assert (X' : existsb (fun w => match get_token_id g (token_to_id v) (fst (fst w)) (snd w) with Ok i => i =? INVALID | _ => false end) wanted_ids = true).
          { apply existsb_exists. exists w. split; [exact Hw|]. rewrite Y1, Y2, Gi. reflexivity. }
          congruence. }
      specialize (BAD _ eq_refl).
      destruct (existsb _ wanted_ids) eqn:X.
      * assert (NC := proj1 BAD eq_refl).
        assert (FB : bert_vocab_init g v = Fail).
        { destruct (bert_vocab_init g v) eqn:Y; try discriminate; [|reflexivity].
          exfalso. apply NC. apply bert_complete_iff. apply C. }
        rewrite FB in H. assert (E1 : b = None) by congruence. subst b.
        assert (o = concat reports ++ [] ++ line (u "fail to build vocab")) as ->.
        { eapply log_fun; [exact K|]. assert (T : tr = [Plain Info (u "loading vocab"); Formatted Debug (u "  vocab count: " ++ decimal (N.of_nat (length lens)))] ++ init_says g v ++ [Plain Error (u "fail to build vocab")]) by congruence.
          rewrite T. apply HEAD. apply INIT; [left; split; reflexivity|]. apply one_line. split; vm_compute; intuition discriminate. }
        eapply refused; eauto; [|apply no_id; auto]. apply VO.
      * assert (BC : bert_complete g ts).
        { destruct (bert_vocab_init g v) eqn:Y; try discriminate; apply bert_complete_iff.
          - apply C.
          - destruct C as (_ & [(k & Hk & Nk)|((_ & C) & _)]); [|exact C].
            exfalso. assert (Z : ~ bert_complete g ts) by (rewrite bert_complete_iff; intros A; apply Nk, A, Hk). apply BAD in Z. discriminate. }
        destruct (bert_vocab_init g v) as [bv| | |] eqn:Y; try discriminate.
        -- assert (E1 : b = Some bv) by congruence. subst b.
           assert (o = concat reports ++ [] ++ []) as ->.
           { eapply log_fun; [exact K|]. assert (T : tr = [Plain Info (u "loading vocab"); Formatted Debug (u "  vocab count: " ++ decimal (N.of_nat (length lens)))] ++ init_says g v ++ [Plain Info (u "finish loading vocab")]) by congruence.
             rewrite T. apply HEAD. apply INIT.
             - right. split; [reflexivity|]. destruct C as (_ & _ & _ & NE & _). destruct ts; [congruence|reflexivity].
             - apply low_messages. repeat constructor. }
           rewrite !app_nil_r. eapply accepted; eauto; [apply VO|]. cbn [N.eqb]. split; [exact BC|apply C].
        -- assert (E1 : b = None) by congruence. subst b.
           assert (NT : ts = []).
           { destruct C as (_ & [(k & Hk & Nk)|(_ & _ & C)]); [|exact C]. exfalso. rewrite bert_complete_iff in BC. apply Nk, BC, Hk. }
           assert (o = concat reports ++ line (u "fail to build vocab") ++ line (u "fail to build vocab")) as ->.
           { eapply log_fun; [exact K|]. assert (T : tr = [Plain Info (u "loading vocab"); Formatted Debug (u "  vocab count: " ++ decimal (N.of_nat (length lens)))] ++ init_says g v ++ [Plain Error (u "fail to build vocab")]) by congruence.
             rewrite T. apply HEAD. apply INIT; [right; split; [reflexivity|subst ts; reflexivity]|]. apply one_line. split; vm_compute; intuition discriminate. }
           eapply refused; eauto; [apply VO|apply no_tokens; auto].
    + assert (E1 : b = None) by congruence. subst b.
      assert (o = line (u "something wrong")) as ->.
      { eapply log_fun; [exact K|]. assert (T : tr = [Plain Info (u "loading vocab"); Formatted Debug (u "  vocab count: " ++ decimal (N.of_nat (length lens)))] ++ [Plain Error (u "something wrong")]) by congruence.
        rewrite T, map_app. apply low_app; [repeat constructor|]. apply one_line. split; vm_compute; intuition discriminate. }
      subst data. eapply too_long; eauto; [|apply VO]. intros ->. apply Q. rewrite app_nil_r, P. reflexivity.
  - assert (E1 : b = None) by congruence. subst b.
    destruct (read_tokens_fail lens data 0 voc0 [] B voc_ok0 ltac:(lia) E) as (l1 & l2 & d1 & d2 & ts & t & E1 & E2 & LY & ND & HI & HL).
    cbn [N.to_nat skipn app] in E2, ND, HI. subst lens data.
    eapply repeated; eauto.
    destruct (repeat_read l1 d1 ts LY t l2 d2 [] voc0 0 [] voc_ok0 ND HI HL eq_refl) as (_ & R2). cbn [app] in R2.
    assert (T : map message_of tr = [(1%Z, u "loading vocab"); (0%Z, u "  vocab count: " ++ decimal (N.of_nat (length (l1 ++ N.of_nat (length t) mod 256 :: l2))));
      (2%Z, u "  token " ++ t ++ u " already exists"); (1%Z, u "failed to add token: " ++ t)]).
    { rewrite R2 in H. injection H as <-. reflexivity. }
    rewrite T in K. apply log_filter in K. exact K.
Qed.

(** *** RoBERTa *)

Lemma merges_cases m :
  (merges_says m = [] /\ merge_table (option_map as_vocab m) /\ exists ms, read_merges (option_map as_vocab m) = Ok ms) \/
  (exists e, merges_says m = [Formatted Error e] /\ ~ merge_table (option_map as_vocab m) /\ read_merges (option_map as_vocab m) = Fail).
Proof.
  unfold merge_table. destruct m as [s|].
  2: { right. eexists. split; [reflexivity|]. split; [|reflexivity]. intros (l & E & _). discriminate. }
  unfold merges_says, read_merges. cbn [option_map]. unfold as_vocab.
  assert (D : t_dims match ti_type (st_info s) with
            | TI8 => mkt (ti_dims (st_info s)) T_I8 (st_bytes s)
            | TI32 => mkt (ti_dims (st_info s)) T_I32 (words32 (st_bytes s))
            | _ => mkt (ti_dims (st_info s)) T_other []
            end = ti_dims (st_info s)) by (destruct (ti_type (st_info s)); reflexivity).
  rewrite D. destruct (N.eqb_spec (ti_dims (st_info s)) 1) as [E|E]; cbn [negb].
  2: { right. eexists. split; [reflexivity|]. split; [|reflexivity]. intros (l & K & _). apply E. rewrite <- D.
       assert (K' : match ti_type (st_info s) with
            | TI8 => mkt (ti_dims (st_info s)) T_I8 (st_bytes s)
            | TI32 => mkt (ti_dims (st_info s)) T_I32 (words32 (st_bytes s))
            | _ => mkt (ti_dims (st_info s)) T_other []
            end = mkt 1 T_I32 l) by congruence. rewrite K'. reflexivity. }
  destruct (ti_type (st_info s)); cbn [t_type t_data];
    try (right; eexists; split; [reflexivity|split; [|reflexivity]]; intros (l & K & _); congruence).
  destruct (length (words32 (st_bytes s)) mod 3 =? 0)%nat eqn:M.
  - left. split; [reflexivity|]. split; [|eexists; reflexivity]. eexists. split; [rewrite E; reflexivity|apply Nat.eqb_eq, M].
  - right. eexists. split; [reflexivity|split; [|reflexivity]]. intros (l & K & Hl). apply Nat.eqb_neq in M. apply M. congruence.
Qed.

Lemma typed_of g find k alts i : get_token_id g find k alts = Ok i -> typed_u32 g k.
Proof.
  unfold get_token_id, gguf_u32, typed_u32. destruct (g k) as [[n|b|]|]; try discriminate; intros _; exact Logic.I.
Qed.

Lemma get_token_id_not_fail g find k alts : get_token_id g find k alts <> Fail.
Proof.
  unfold get_token_id, gguf_u32. destruct (g k) as [[n|b|]|]; try discriminate; cbn [obind]; destruct (_ =? _); discriminate.
Qed.

Lemma specials_typed g find : roberta_specials g find <> Abort -> roberta_specials g find <> UB -> forall k, In k roberta_keys -> typed_u32 g k.
Proof.
  unfold roberta_specials. intros H1 H2.
  repeat match type of H1 with
  | obind (get_token_id g find ?k ?alts) _ <> _ =>
      let E := fresh "E" in
      destruct (get_token_id g find k alts) eqn:E; cbn [obind] in H1, H2;
        [apply typed_of in E|exfalso; revert E; apply get_token_id_not_fail|congruence|congruence]
  end.
  intros k Hk. unfold roberta_keys in Hk. cbn [In] in Hk. intuition subst; assumption.
Qed.

Lemma load_merges_low : forall ms rank b, Forall (fun x : message => (fst x < 2)%Z) (map message_of (load_merges_says rank ms b)).
Proof.
  induction ms as [|[x y] ms IH]; intros rank b; [constructor|]. cbn [load_merges_says].
  destruct (bpe_id_to_token b x); [|repeat constructor]. destruct (bpe_id_to_token b y); [|repeat constructor].
  destruct (bpe_token_to_id b _); [apply IH|repeat constructor].
Qed.

Lemma r_writes order g lens data m b tr o : bytes_ok lens -> N.of_nat (length lens) < 2 ^ 32 ->
  r_vocab_logged order g lens data m = Ok (b, tr) -> log_of 2 (map message_of tr) o ->
  vocab_writes g 1 (Some (mkt 1 T_I8 lens)) (Some (mkt 1 T_I8 data)) (option_map as_vocab m) (match b with Some _ => true | None => false end) o.
Proof.
  intros B LB H K. unfold r_vocab_logged in H.
  pose proof (read_tokens_inv lens data 0 voc0 [] [] [] B voc_ok0 lay_nil (ex_intro _ data eq_refl) eq_refl) as R.
  destruct (read_tokens lens data 0 voc0) as [[p v]| | |] eqn:E; try discriminate.
  - rewrite (read_tokens_quiet lens data 0 voc0 _ E), app_nil_r in H. destruct R as (ts & d & VO & LY & (rest & Ed) & P). cbn [app] in LY.
    assert (Bt : N.of_nat (length ts) < 2 ^ 32).
    { rewrite <- (layout_len lens d ts LY). exact LB. }
    destruct (N.eqb_spec p (N.of_nat (length data))) as [Q|Q]; cbn [negb] in H.
    + assert (rest = []) as ->.
      { rewrite Ed, app_length in Q. destruct rest; [reflexivity|]. cbn [length] in Q. lia. }
      rewrite app_nil_r in Ed. subst d.
      assert (SP : roberta_specials g (r_find v) <> Abort /\ roberta_specials g (r_find v) <> UB).
      { unfold roberta_vocab_init in H. destruct (roberta_specials g (r_find v)); try discriminate; split; discriminate. }
      assert (TY := specials_typed g (r_find v) (proj1 SP) (proj2 SP)).
      pose proof (roberta_specials_spec g v ts VO Bt TY) as C. cbv zeta in C.
      destruct (reports_of g v ts r_places VO Bt r_places_tidy) as (reports & FR & LR).
      { unfold r_places. repeat (apply Forall_cons; [apply TY; simpl; auto 10|]). constructor. }
      assert (HEAD : forall rest ro, log_of 2 (map message_of rest) ro ->
        log_of 2 (map message_of ([Plain Info (u "loading vocab")] ++ rest)) ro).
      { intros rs ro HR. rewrite map_app. apply low_app; [repeat constructor|exact HR]. }
      remember (r_bpe_says order g m v) as tail eqn:TL.
      assert (INIT : forall why rs ro, log_of 2 (map message_of tail) why -> log_of 2 (map message_of rs) ro ->
        log_of 2 (map message_of (r_init_says order g m v ++ rs)) (concat reports ++ why ++ ro)).
      { intros why rs ro Hw HR. unfold r_init_says. rewrite <- TL. change r_wanted_ids with r_places.
        rewrite <- !app_assoc. rewrite map_app. apply log_app; [exact LR|].
        rewrite map_app. apply low_app; [apply low_flat_map; intros a; apply id_to_token_low|].
        rewrite map_app. apply low_app.
        { rewrite map_map. apply Forall_forall. intros x Hx. apply in_map_iff in Hx as (y & <- & _). cbn. lia. }
        rewrite map_app. apply log_app; assumption. }
      assert (NC : roberta_specials g (r_find v) = Fail -> ~ roberta_complete g ts).
      { intros X A. rewrite X in C. destruct C as (k & Hk & Nk). destruct (A k Hk) as (n & Hn). exact (Nk n Hn). }
      assert (RC : forall sp, roberta_specials g (r_find v) = Ok sp -> roberta_complete g ts).
      { intros sp X k Hk. rewrite X in C. exists (roberta_special sp k). apply C, Hk. }
      assert (FAIL : forall why, roberta_vocab_init order g (option_map as_vocab m) v = Fail ->
                log_of 2 (map message_of tail) why -> reason g 1 ts (option_map as_vocab m) why ->
                vocab_writes g 1 (Some (mkt 1 T_I8 lens)) (Some (mkt 1 T_I8 data)) (option_map as_vocab m) (match b with Some _ => true | None => false end) o).
      { intros why X Hw Hy. rewrite X in H. assert (E1 : b = None) by congruence. subst b.
        assert (o = concat reports ++ why ++ line (u "fail to build vocab")) as ->.
        { eapply log_fun; [exact K|]. assert (T : tr = [Plain Info (u "loading vocab")] ++ r_init_says order g m v ++ [Plain Error (u "fail to build vocab")]) by congruence.
          rewrite T. apply HEAD. apply INIT; [exact Hw|]. apply one_line. split; vm_compute; intuition discriminate. }
        eapply refused; eauto. apply VO. }
      unfold roberta_vocab_init in FAIL, H. unfold r_bpe_says in TL.
      destruct (roberta_specials g (r_find v)) as [sp| | |]; try (destruct SP; congruence).
      * specialize (RC sp eq_refl). cbn [obind] in FAIL, H.
        destruct (r_id_to_token v (r_unk sp)) as [unk| | |] eqn:RU; try discriminate H.
        2: { unfold r_id_to_token, decode_token in RU. destruct (from_utf8 _); discriminate. }
        cbn [obind] in FAIL, H. destruct (dec8 unk) as [unk'|]; [|discriminate]. destruct (bpe_words v) as [words|]; [|discriminate].
        destruct (merges_cases m) as [(M1 & M2 & ms & M3)|(e & M1 & M2 & M3)].
        -- rewrite M1, M3 in TL. rewrite M3 in FAIL, H. cbn [obind] in FAIL, H. unfold load_vocab in FAIL, H. cbv zeta in FAIL, H.
           destruct (load_merges (N.of_nat (length (b_merge (load_words (order words) (bpe_new unk' DZero true))))) ms (load_words (order words) (bpe_new unk' DZero true))) as [ok b'] eqn:LM.
           destruct ok.
           ++ assert (E1 : b = Some (mkrv v sp b')) by congruence. subst b.
              assert (o = concat reports ++ [] ++ []) as ->.
              { eapply log_fun; [exact K|]. assert (T : tr = [Plain Info (u "loading vocab")] ++ r_init_says order g m v ++ [Plain Info (u "finish loading vocab")]) by congruence.
                rewrite T. apply HEAD. apply INIT; [|apply low_messages; repeat constructor].
                rewrite TL. cbv zeta. rewrite ?LM. cbn [fst]. rewrite app_nil_r, map_app. apply low_messages, Forall_app.
                split; [apply id_to_token_low|apply load_merges_low]. }
              rewrite !app_nil_r. eapply accepted; eauto; [apply VO|]. cbn [N.eqb]. auto.
           ++ apply (FAIL (line (u "failed to load bpe vocab"))); [reflexivity| |apply bad_merge; auto; lia].
              rewrite TL. cbv zeta. rewrite ?LM. cbn [fst]. rewrite map_app. apply low_app; [apply id_to_token_low|].
              rewrite map_app. apply low_app; [apply load_merges_low|]. apply one_line. split; vm_compute; intuition discriminate.
        -- apply (FAIL []); [rewrite M3; reflexivity| |apply no_table; auto; lia].
           rewrite TL, M1, map_app. apply low_app; [apply id_to_token_low|]. apply low_messages. repeat constructor.
      * apply (FAIL []); [reflexivity|rewrite TL; constructor|apply no_r_id; [lia|apply NC; reflexivity]].
    + assert (E1 : b = None) by congruence. subst b.
      assert (o = line (u "something wrong")) as ->.
      { eapply log_fun; [exact K|]. assert (T : tr = [Plain Info (u "loading vocab")] ++ [Plain Error (u "something wrong")]) by congruence.
        rewrite T, map_app. apply low_app; [repeat constructor|]. apply one_line. split; vm_compute; intuition discriminate. }
      subst data. eapply too_long; eauto; [|apply VO]. intros ->. apply Q. rewrite app_nil_r, P. reflexivity.
  - assert (E1 : b = None) by congruence. subst b.
    destruct (read_tokens_fail lens data 0 voc0 [] B voc_ok0 ltac:(lia) E) as (l1 & l2 & d1 & d2 & ts & t & E1 & E2 & LY & ND & HI & HL).
    cbn [N.to_nat skipn app] in E2, ND, HI. subst lens data.
    eapply repeated; eauto.
    destruct (repeat_read l1 d1 ts LY t l2 d2 [] voc0 0 [] voc_ok0 ND HI HL eq_refl) as (_ & R2). cbn [app] in R2.
    assert (T : map message_of tr = [(1%Z, u "loading vocab");
      (2%Z, u "  token " ++ t ++ u " already exists"); (1%Z, u "failed to add token: " ++ t)]).
    { rewrite R2 in H. injection H as <-. reflexivity. }
    rewrite T in K. apply log_filter in K. exact K.
Qed.

(** ** A file *)

Section Load.
Context (L : Ggml_model.lib) (HL : lib_ok L) (junk : nat -> N) {V : Type} (value : gty -> list N -> nat -> V).
Context (order : list (ustring * N) -> list (ustring * N)).
Context (path : list N) (text : skey -> list N) (double : N -> list N) (n_kv : N).

Definition opening (f : file) (size : N) : list log_call :=
  [Formatted Info (u "loading model: " ++ path)] ++ metadata_says text n_kv f ++ [size_says size].

Lemma load_inv file reopen r tr : load_logged L junk value order path text double n_kv file reopen = Ok (r, tr) ->
  (file = None /\ r = Null false /\
     tr = [Formatted Info (u "loading model: " ++ path); Formatted Error (u "fail to load gguf file: " ++ path)]) \/
  exists f size, file = Some f /\ general_ok f /\ short_names f /\
    ((reopen = false /\ r = Null false /\ tr = opening f size ++ [Plain Error (u "fail to open gguf file")]) \/
     (reopen = true /\ ~ readable f /\ r = Null false /\ tr = opening f size ++ [Plain Error (u "failed to seek gguf file")]) \/
     (reopen = true /\ readable f /\ exists made s, copies f made /\ read_settings f = Ok s /\
       ((se_act s <> 0 /\ r = Null false /\
           tr = (opening f size ++ [hparams_says double f s]) ++ [Formatted Error (u "unknown hidden_act: " ++ signed (as_i32 (se_act s)))]) \/
        (se_act s = 0 /\ ~ supported_arch (se_arch s) /\ r = Null false /\
           tr = (opening f size ++ [hparams_says double f s]) ++ [Formatted Error (u "unknown bert_type: " ++ signed (as_i32 (se_arch s)))]) \/
        (se_act s = 0 /\ supported_arch (se_arch s) /\ exists tr', new_context_logged value order f s (kept junk f made) = Ok (r, tr') /\
           tr = (opening f size ++ [hparams_says double f s]) ++ tr')))).
Proof.
  intros H. destruct file as [f|].
  2: { left. cbn [load_logged] in H. injection H as <- <-. split; [reflexivity|]. split; reflexivity. }
  right. cbn [load_logged] in H.
  destruct (read_metadata_cases f) as [E|E]; rewrite E in H; [|discriminate]. apply read_metadata_iff in E. cbn [obind] in H.
  destruct (short_dec f) as [Hs|Hs].
  2: { rewrite ctx_size_long in H; [discriminate|]. unfold short_names in Hs. rewrite <- Exists_Forall_neg in Hs.
       - apply Exists_exists in Hs as (t & Hin & Ht). exists t. split; [exact Hin|lia].
       - intros t. lia. }
  destruct (found_all f) as (made & Hm). destruct (pool_size L HL f made Hs Hm) as (EP & _). rewrite EP in H. cbn [obind] in H.
  exists f, (total (counted L) made). split; [reflexivity|]. split; [exact E|]. split; [exact Hs|].
  change ([Formatted Info (u "loading model: " ++ path)] ++ metadata_says text n_kv f ++ [size_says (total (counted L) made)])
    with (opening f (total (counted L) made)) in H.
  destruct reopen; cbn [negb] in H.
  2: { left. split; [reflexivity|]. split; congruence. }
  right. destruct (read_all L HL junk f made Hs Hm) as (RA1 & RA2).
  assert (RD : readable f \/ ~ readable f).
  { assert (RI := readable_iff junk f made Hm). destruct (forallb _ (removelast (combine (f_tensors f) made))).
    - left. apply RI. reflexivity.
    - right. intros R. apply RI in R. discriminate. }
  destruct RD as [R|R].
  2: { rewrite (RA2 R) in H. left. split; [reflexivity|]. split; [exact R|]. split; congruence. }
  right. split; [reflexivity|]. split; [exact R|]. rewrite (RA1 R) in H.
  destruct (read_settings f) as [s| | |] eqn:Es; try discriminate. cbn [obind] in H. exists made, s. split; [exact Hm|]. split; [reflexivity|].
  destruct E as (_ & _ & _ & t & Et & Ht). unfold need_u32, ftype in H. rewrite Et in H. cbn [obind] in H.
  change (N.of_nat (length ftype_names)) with 19 in H. replace (19 <=? t) with false in H by lia. cbn [obind] in H.
  destruct (N.eqb_spec (se_act s) 0) as [A|A]; cbn [negb] in H.
  2: { left. split; [exact A|]. split; congruence. }
  right. destruct ((se_arch s =? 0) || (se_arch s =? 1)) eqn:AR; cbn [negb] in H.
  2: { left. split; [exact A|]. split; [unfold supported_arch; lia|]. split; congruence. }
  right. split; [exact A|]. split; [unfold supported_arch; lia|].
  destruct (new_context_logged value order f s (kept junk f made)) as [[r' tr']| | |]; try discriminate. cbn [obind fst snd] in H.
  exists tr'. assert (E1 : r = r') by congruence. subst r'. split; [reflexivity|congruence].
Qed.

(** The file and fresh memory hold bytes, and there are fewer than 2^32 tokens. *)
Definition sane (f : file) : Prop :=
  bytes_ok (f_bytes f) /\ (forall i, junk i < 256) /\
  forall t, vocab_at junk f (u "berts.vocab.size") = Some t -> N.of_nat (length (t_data t)) < 2 ^ 32.

Lemma memory_bytes f t : sane f -> bytes_ok (memory_of junk f t).
Proof.
  intros (B & J & _). unfold memory_of, bytes_ok, region. apply Forall_app. split.
  - apply Forall_forall. intros x Hx. unfold bytes_ok in B. rewrite Forall_forall in B. apply B.
    assert (X : forall n (l : list N) x, In x (firstn n l) -> In x l).
    { intros n l y H. rewrite <- (firstn_skipn n l). apply in_or_app. left. exact H. }
    assert (Y : forall n (l : list N) x, In x (skipn n l) -> In x l).
    { intros n l y H. rewrite <- (firstn_skipn n l). apply in_or_app. right. exact H. }
    eauto.
  - apply Forall_forall. intros x Hx. apply in_map_iff in Hx as (i & <- & _). apply J.
Qed.

Lemma init_writes arch f made v tr o : sane f -> short_names f -> copies f made -> supported_arch arch ->
  init_vocab_logged order arch f (kept junk f made) = Ok (v, tr) -> log_of 2 (map message_of tr) o ->
  vocab_writes (f_tok f) arch (vocab_at junk f (u "berts.vocab.size")) (vocab_at junk f (u "berts.vocab.data"))
    (vocab_at junk f (u "berts.merge.data")) (match v with Some _ => true | None => false end) o.
Proof.
  intros SA Hs Hm Ha H K. rewrite <- !(vocab_kept junk f made) by assumption.
  assert (SZ : forall lens, vocab_tensor (kept junk f made) (u "berts.vocab.size") = Some (mkt 1 T_I8 lens) ->
               bytes_ok lens /\ N.of_nat (length lens) < 2 ^ 32).
  { intros lens E. rewrite (vocab_kept junk f made) in E by assumption. split; [|apply (proj2 (proj2 SA) _ E)].
    unfold vocab_at in E. destruct (named f (u "berts.vocab.size")) as [t|]; [|discriminate].
    destruct (ti_type t); try discriminate. assert (lens = memory_of junk f t) as -> by congruence. apply memory_bytes, SA. }
  unfold vocab_tensor in *. unfold init_vocab_logged in H.
  change key_vocab_size with (u "berts.vocab.size") in H. change key_vocab_data with (u "berts.vocab.data") in H.
  change key_merge_data with (u "berts.merge.data") in H.
  destruct (tensors_cases (get_tensor st_name (kept junk f made) (u "berts.vocab.size")) (get_tensor st_name (kept junk f made) (u "berts.vocab.data")))
    as [(E & lens & data & F)|(m & E & R)]; rewrite E in H.
  - destruct (fit_vocab _ _ _ _ F) as (Es & Ed). destruct (SZ _ Es) as (B1 & B2). rewrite Es, Ed. destruct F as [s d H1 H2 H3 H4].
    destruct Ha as [->| ->]; cbn [N.eqb] in H.
    + destruct (vocab_logged (f_tok f) (st_bytes s) (st_bytes d)) as [[b t]| | |] eqn:Q; try discriminate. cbn [obind fst snd] in H.
      assert (X1 : v = option_map LBert b) by congruence. assert (X2 : t = tr) by congruence. subst t.
      pose proof (bert_writes (f_tok f) _ _ b tr o (option_map as_vocab (get_tensor st_name (kept junk f made) (u "berts.merge.data"))) B1 B2 Q K) as W.
      subst v. destruct b; exact W.
    + destruct (r_vocab_logged order (f_tok f) (st_bytes s) (st_bytes d) _) as [[b t]| | |] eqn:Q; try discriminate. cbn [obind fst snd] in H.
      assert (X1 : v = option_map LRoberta b) by congruence. assert (X2 : t = tr) by congruence. subst t.
      pose proof (r_writes order (f_tok f) _ _ _ b tr o B1 B2 Q K) as W. subst v. destruct b; exact W.
  - assert (X : v = None /\ tr = [Plain Info (u "loading vocab"); Formatted Error m]).
    { destruct (get_tensor st_name (kept junk f made) (u "berts.vocab.size")), (get_tensor st_name (kept junk f made) (u "berts.vocab.data")); split; congruence. }
    destruct X as (-> & ->). assert (o = []) as ->.
    { eapply log_fun; [exact K|]. apply low_messages. repeat constructor. }
    apply not_tensors. intros lens data (X1 & X2). rewrite X1, X2 in R. destruct (tensors_cases (get_tensor st_name (kept junk f made) (u "berts.vocab.size")) (get_tensor st_name (kept junk f made) (u "berts.vocab.data"))) as [(E' & _)|(m' & E' & _)]; [congruence|].
    clear R. destruct (get_tensor st_name (kept junk f made) (u "berts.vocab.size")) as [s|]; [|discriminate].
    destruct (get_tensor st_name (kept junk f made) (u "berts.vocab.data")) as [d|]; [|discriminate].
    cbn [option_map] in X1, X2.
    assert (Y : forall s l, Some (as_vocab s) = Some (mkt 1 T_I8 l) -> ti_dims (st_info s) = 1 /\ ti_type (st_info s) = TI8).
    { intros x l Q. unfold as_vocab in Q. destruct (ti_type (st_info x)); try discriminate. split; [congruence|reflexivity]. }
    apply Y in X1 as (Y1 & Y2). apply Y in X2 as (Y3 & Y4). unfold tensors_says in E. rewrite Y1, Y2, Y3, Y4 in E. discriminate.
Qed.

(** Weights *)
Lemma keys_names layers : keys layers = required_names layers.
Proof. reflexivity. Qed.
Lemma head_keys_names : head_keys = head_names.
Proof. reflexivity. Qed.

Lemma present_has f made k : short_names f -> copies f made -> (present (kept junk f made) k = true <-> has f k).
Proof.
  intros Hs Hm. unfold present, kept. rewrite (lookup_stored junk f made k Hs Hm), has_named. unfold in_memory.
  destruct (named f k); cbn [option_map]; split; congruence.
Qed.

Lemma required_cases f made ks : short_names f -> copies f made ->
  (required_says (kept junk f made) ks = ([], true) /\ Forall (has f) ks) \/
  (exists k, first_missing f ks k /\ required_says (kept junk f made) ks = ([Formatted Error (u "failed to read tensor: " ++ k)], false)).
Proof.
  intros Hs Hm. induction ks as [|k ks IH]; [left; split; [reflexivity|constructor]|]. cbn [required_says].
  destruct (present (kept junk f made) k) eqn:E.
  - assert (Hk : has f k) by (apply (present_has f made k Hs Hm), E). destruct IH as [(-> & F)|(k' & (b & a & E1 & F & N) & E2)].
    + left. split; [reflexivity|constructor; assumption].
    + right. exists k'. split; [|exact E2]. exists (k :: b), a. rewrite E1. repeat split; [constructor; assumption|exact N].
  - right. exists k. split.
    + exists [], ks. split; [reflexivity|]. split; [constructor|]. intros Hk. apply (present_has f made k Hs Hm) in Hk. congruence.
    + unfold tensor_says. rewrite E. reflexivity.
Qed.

Lemma weights_iff f made layers : short_names f -> copies f made ->
  (weights_init value (kept junk f made) layers <> None <-> Forall (has f) (required_names layers)).
Proof.
  intros Hs Hm. rewrite Forall_forall. split.
  - intros H x Hx. destruct (weights_init value (kept junk f made) layers) as [w|] eqn:E; [|congruence].
    apply (weight_has junk value f made x Hs Hm). eapply weights_init_required; eassumption.
  - intros H. destruct (weights_init_all value (kept junk f made) layers) as (w & E).
    + intros x Hx. apply (weight_has junk value f made x Hs Hm), H, Hx.
    + congruence.
Qed.

Lemma listed_low label which : forall infos n, Forall (fun x : message => (fst x < 2)%Z) (map message_of (listed label which n infos)).
Proof.
  induction infos as [|t infos IH]; intros n; [constructor|]. cbn [listed]. rewrite map_app. apply Forall_app. split; [|apply IH].
  destruct (which _); repeat constructor.
Qed.

Lemma weights_low f made layers : short_names f -> copies f made ->
  Forall (fun x : message => (fst x < 2)%Z) (map message_of (weights_says f (kept junk f made) layers)).
Proof.
  intros Hs Hm. unfold weights_says. destruct (required_cases f made (keys layers) Hs Hm) as [(-> & _)|(k & _ & ->)].
  - cbn [app]. rewrite !map_app. apply Forall_app; split; [|apply Forall_app; split; apply listed_low].
    apply low_flat_map. intros k. unfold tensor_says. destruct (present _ _); repeat constructor.
  - repeat constructor.
Qed.

Lemma opening_low f size : Forall (fun x : message => (fst x < 2)%Z) (map message_of (opening f size)).
Proof. repeat constructor. Qed.

Lemma load_lines file reopen r o :
  match file with Some f => sane f | None => True end ->
  logged log_start (load_logged L junk value order path text double n_kv file reopen) = Ok (r, o) ->
  load_writes junk file reopen r o.
Proof.
  intros SA H.
  destruct (load_logged L junk value order path text double n_kv file reopen) as [[r' tr]| | |] eqn:E; try discriminate.
  assert (S := says_load L junk value order path text double n_kv file reopen r' tr E).
  assert (r = r') as -> by (eapply (proj1 (logged_says log_start r' tr S)); eauto).
  change log_start with (mkls 2 true) in H. apply (logged_log 2 r' tr o S) in H.
  apply load_inv in E as [(-> & -> & ->)|(f & size & -> & Hg & Hs & C)].
  { assert (o = []) as ->; [|constructor]. eapply log_fun; [exact H|]. apply low_messages. repeat constructor. }
  assert (ON : forall (front : list log_call) m, Forall (fun x : message => (fst x < 2)%Z) (map message_of front) -> harmless m ->
           log_of 2 (map message_of (front ++ [Plain Error m])) (line m)).
  { intros front m F Hm. rewrite map_app. apply low_app; [exact F|]. apply one_line, Hm. }
  assert (OL := opening_low f size).
  assert (OH : forall s, Forall (fun x : message => (fst x < 2)%Z) (map message_of (opening f size ++ [hparams_says double f s]))).
  { intros s. rewrite map_app. apply Forall_app. split; [exact OL|repeat constructor]. }
  destruct C as [(-> & -> & ->)|[(-> & NR & -> & ->)|(-> & R & made & s & Hm & Es & C)]].
  - assert (o = line (u "fail to open gguf file")) as ->; [|constructor].
    eapply log_fun; [exact H|]. apply ON; [exact OL|split; vm_compute; intuition discriminate].
  - assert (o = line (u "failed to seek gguf file")) as ->; [|constructor; exact NR].
    eapply log_fun; [exact H|]. apply ON; [exact OL|split; vm_compute; intuition discriminate].
  - destruct (read_settings_ok f s Es) as (Hset & arch & vocab & h & layers & heads & max & inter & segs & act & eps &
      E1 & E2 & E3 & E4 & E5 & E6 & E7 & E8 & E9 & Ee & E10).
    assert (X1 : se_arch s = arch) by (rewrite E10; reflexivity).
    assert (X2 : se_act s = act) by (rewrite E10; reflexivity).
    assert (X3 : Encoder_model.n_layers (se_hp s) = N.to_nat layers) by (rewrite E10; reflexivity).
    clear E10.
    destruct C as [(A & -> & ->)|[(A & NA & -> & ->)|(A & Ha & tr' & C & ->)]].
    + assert (o = []) as ->; [|eapply other_act; eauto; congruence]. eapply log_fun; [exact H|].
      apply low_messages. rewrite map_app. apply Forall_app. split; [apply OH|repeat constructor].
    + assert (o = []) as ->; [|eapply other_type; eauto; congruence]. eapply log_fun; [exact H|].
      apply low_messages. rewrite map_app. apply Forall_app. split; [apply OH|repeat constructor].
    + assert (HA : f_set f S_hidden_act = Some (SU32 0)) by congruence.
      assert (HT : f_set f S_bert_type = Some (SU32 (se_arch s))) by congruence.
      assert (H' : log_of 2 (map message_of tr') o).
      { rewrite map_app in H. clear -H OH. specialize (OH s). revert H. induction OH as [|x ms X F IH]; intros H; [exact H|].
        apply IH. cbn [app] in H. destruct x as [r m]. cbn [fst] in X. apply log_cons in H as [(_ & H)|(H & _)]; [exact H|lia]. }
      clear H. unfold new_context_logged in C.
      destruct (init_vocab_logged order (se_arch s) f (kept junk f made)) as [[v tv]| | |] eqn:EV; try discriminate. cbn [obind fst snd] in C.
      assert (SV := says_init_vocab order _ _ _ _ _ EV).
      assert (SPLIT : forall rest ro, log_of 2 (map message_of (tv ++ rest)) o -> log_of 2 (map message_of rest) ro ->
               exists ov, log_of 2 (map message_of tv) ov /\ o = ov ++ ro).
      { intros rest ro Q1 Q2. rewrite map_app in Q1.
        assert (exists ov, log_of 2 (map message_of tv) ov) as (ov & Q3).
        { apply log_exists. assert (Q4 := proj1 (log_exists 2 (map message_of tv ++ map message_of rest)) (ex_intro _ o Q1)). apply Forall_app in Q4. apply Q4. }
        exists ov. split; [exact Q3|]. eapply log_fun; [exact Q1|]. apply log_app; assumption. }
      destruct v as [v|].
      * destruct (weights_init value (kept junk f made) (Encoder_model.n_layers (se_hp s))) as [w|] eqn:EW.
        -- assert (T1 : r' = Loaded (mklo v s w)) by congruence.
           assert (T2 : tr' = tv ++ ([Plain Info (u "initializing weights")] ++ weights_says f (kept junk f made) (Encoder_model.n_layers (se_hp s))) ++ [Plain Info (u "finish initializing weights")]).
           { rewrite (app_assoc tv). congruence. }
           subst r' tr'. destruct (SPLIT _ [] H') as (ov & Q1 & Q2).
           { apply low_messages. rewrite !map_app. apply Forall_app; split; [apply Forall_app; split; [repeat constructor|apply weights_low; assumption]|repeat constructor]. }
           rewrite app_nil_r in Q2. subst ov.
           eapply good; eauto; [apply (init_writes _ f made (Some v) tv o SA Hs Hm Ha EV Q1)|].
           rewrite <- X3. apply (weights_iff f made _ Hs Hm). congruence.
        -- assert (T1 : r' = Null true) by congruence.
           assert (T2 : tr' = tv ++ ([Plain Info (u "initializing weights")] ++ weights_says f (kept junk f made) (Encoder_model.n_layers (se_hp s))) ++ [Plain Error (u "fail to load weights")]).
           { rewrite (app_assoc tv). congruence. }
           subst r' tr'. destruct (SPLIT _ (line (u "fail to load weights")) H') as (ov & Q1 & Q2).
           { apply ON; [|split; vm_compute; intuition discriminate]. rewrite !map_app. apply Forall_app; split; [repeat constructor|apply weights_low; assumption]. }
           subst o. eapply bad_weights; eauto; [apply (init_writes _ f made (Some v) tv ov SA Hs Hm Ha EV Q1)|].
           rewrite <- X3. intros F. apply (weights_iff f made _ Hs Hm) in F. congruence.
      * assert (T1 : r' = Null true) by congruence.
        assert (T2 : tr' = tv ++ [Plain Error (u "fail to load vocab")]) by congruence. subst r' tr'.
        destruct (SPLIT _ (line (u "fail to load vocab")) H') as (ov & Q1 & Q2).
        { apply (ON []); [constructor|split; vm_compute; intuition discriminate]. }
        subst o. eapply bad_vocab; eauto. apply (init_writes _ f made None tv ov SA Hs Hm Ha EV Q1).
Qed.

End Load.

(** ** What can be undefined at the default level *)

Definition loud_ok (x : message) : Prop := (2 <= fst x)%Z -> printable_text (snd x).

Lemma low_loud ms : Forall (fun x : message => (fst x < 2)%Z) ms -> Forall loud_ok ms.
Proof. intros H. eapply Forall_impl; [|exact H]. cbv beta. intros x K1 K2. exfalso. lia. Qed.

Lemma harmless_loud r m : harmless m -> loud_ok (r, m).
Proof. intros H _. destruct (harmless_cut m H) as (C & E). exists m, m. auto. Qed.

Lemma alternates_loud v : forall alts name, harmless name -> Forall harmless alts ->
  Forall loud_ok (map message_of (alternates_says v name alts)).
Proof.
  induction alts as [|a r IH]; intros name Hn Ha; cbn [alternates_says map].
  { apply low_loud. repeat constructor. }
  assert (Hr : harmless a /\ Forall harmless r) by (inversion Ha; auto). destruct Hr as (Hr & Har).
  apply Forall_cons.
  { apply harmless_loud. repeat apply harmless_app; try assumption; split; vm_compute; intuition discriminate. }
  rewrite map_app. apply Forall_app. split.
  - apply low_loud. unfold token_to_id_says. destruct (_ =? _); repeat constructor.
  - destruct (_ =? _); [apply IH; assumption|constructor].
Qed.

Lemma ids_loud g v ws : Forall tidy ws ->
  Forall loud_ok (map message_of (flat_map (fun w => get_token_id_says g v (fst (fst w)) (snd (fst w)) (snd w)) ws)).
Proof.
  induction 1 as [|w ws (T1 & T2) F IH]; [constructor|]. cbn [flat_map]. rewrite map_app. apply Forall_app. split; [|exact IH].
  unfold get_token_id_says. destruct (gguf_u32 g (fst (fst w)) INVALID) as [i| | |]; try constructor.
  destruct (i =? INVALID); [|constructor]. apply alternates_loud; assumption.
Qed.

Lemma init_loud g v : Forall loud_ok (map message_of (init_says g v)).
Proof.
  unfold init_says. rewrite !map_app. apply Forall_app; split; [apply (ids_loud g v places places_tidy)|]. apply Forall_app; split.
  - apply low_loud. apply low_flat_map. intros a. apply id_line_low.
  - destruct (existsb _ wanted_ids); [constructor|]. rewrite map_app. apply Forall_app; split.
    + apply low_loud. destruct (gguf_bool g K_lower true), (gguf_bool g K_basic true), (gguf_bool g K_cjk true); try constructor.
      destruct (gguf_bool g K_accent a); try constructor; unfold info_says; cbn [map message_of]; repeat constructor.
    + destruct (length (i2t v) =? 0)%nat; [|constructor]. apply Forall_cons; [|constructor].
      apply harmless_loud. split; vm_compute; intuition discriminate.
Qed.

Lemma r_init_loud order g m v : Forall loud_ok (map message_of (r_init_says order g m v)).
Proof.
  unfold r_init_says. rewrite !map_app. apply Forall_app; split; [apply (ids_loud g v r_places r_places_tidy)|]. apply Forall_app; split.
  - apply low_loud. apply low_flat_map. intros a. apply id_to_token_low.
  - apply Forall_app; split.
    + apply low_loud. rewrite map_map. apply Forall_forall. intros x Hx. apply in_map_iff in Hx as (y & <- & _). cbn. lia.
    + unfold r_bpe_says. destruct (roberta_specials g (r_find v)) as [sp| | |]; try constructor. rewrite map_app. apply Forall_app; split; [apply low_loud, id_to_token_low|].
      destruct (r_id_to_token v (r_unk sp)) as [unk| | |]; try constructor.
      assert (SM : Forall loud_ok (map message_of (merges_says m))).
      { destruct (merges_cases m) as [(-> & _)|(e & -> & _)]; [constructor|apply low_loud; repeat constructor]. }
      destruct (dec8 unk); [|exact SM]. destruct (bpe_words v); [|exact SM].
      destruct (merges_says m) as [|c cs]; [|exact SM]. destruct (read_merges _); try constructor.
      cbv zeta. rewrite map_app. apply Forall_app; split; [apply low_loud, load_merges_low|]. destruct (fst _); [constructor|].
      apply Forall_cons; [|constructor]. apply harmless_loud. split; vm_compute; intuition discriminate.
Qed.

(** A token that is there already. *)
Definition repeats (lens data t : list N) : Prop :=
  exists l1 l2 d1 d2 ts, lens = l1 ++ N.of_nat (length t) mod 256 :: l2 /\ data = d1 ++ t ++ d2 /\ layout l1 d1 ts /\ NoDup ts /\ In t ts.

Lemma tokens_loud lens data : bytes_ok lens -> (forall q, read_tokens lens data 0 voc0 <> Ok q) \/ (exists q, read_tokens lens data 0 voc0 = Ok q) ->
  read_tokens lens data 0 voc0 <> UB ->
  Forall loud_ok (map message_of (read_tokens_says lens data 0 voc0)) \/ exists t, repeats lens data t /\ ~ printable_text t.
Proof.
  intros B D NU. destruct D as [D|(q & D)].
  2: { left. rewrite (read_tokens_quiet _ _ _ _ _ D). constructor. }
  assert (E : read_tokens lens data 0 voc0 = Fail).
  { pose proof (read_tokens_inv lens data 0 voc0 [] [] [] B voc_ok0 lay_nil (ex_intro _ data eq_refl) eq_refl) as R.
    destruct (read_tokens lens data 0 voc0) as [q| | |]; [|reflexivity|congruence|contradiction]. elim (D q). reflexivity. }
  destruct (read_tokens_fail lens data 0 voc0 [] B voc_ok0 ltac:(lia) E) as (l1 & l2 & d1 & d2 & ts & t & E1 & E2 & LY & ND & HI & HL).
  cbn [N.to_nat skipn app] in E2, ND, HI. subst lens data.
  destruct (repeat_read l1 d1 ts LY t l2 d2 [] voc0 0 [] voc_ok0 ND HI HL eq_refl) as (_ & R2). cbn [app] in R2. rewrite R2.
  destruct (P_Says.all_printable [t]) as [J|(t' & [<-|[]] & J)].
  - left. apply Forall_cons; [|apply low_loud; repeat constructor]. intros _. cbn [snd message_of].
    rewrite (printable_app (u "  token ")) by (split; vm_compute; intuition discriminate).
    change (u " already exists") with (32 :: u "already exists").
    rewrite printable_before by (split; vm_compute; intuition discriminate). inversion J; assumption.
  - right. exists t. split; [|exact J]. exists l1, l2, d1, d2, ts. auto.
Qed.

Lemma vocab_loud g lens data b tr : bytes_ok lens -> vocab_logged g lens data = Ok (b, tr) ->
  Forall loud_ok (map message_of tr) \/ exists t, repeats lens data t /\ ~ printable_text t.
Proof.
  intros B H. unfold vocab_logged in H.
  assert (D : (forall q, read_tokens lens data 0 voc0 <> Ok q) \/ (exists q, read_tokens lens data 0 voc0 = Ok q)).
  { destruct (read_tokens lens data 0 voc0); [right; eauto|left; discriminate|left; discriminate|left; discriminate]. }
  assert (NU : read_tokens lens data 0 voc0 <> UB).
  { intros E. rewrite E in H. discriminate. }
  destruct (tokens_loud lens data B D NU) as [T|T]; [left|right; exact T].
  assert (HD : Forall loud_ok (map message_of ([Plain Info (u "loading vocab"); Formatted Debug (u "  vocab count: " ++ decimal (N.of_nat (length lens)))] ++ read_tokens_says lens data 0 voc0))).
  { rewrite map_app. apply Forall_app; split; [apply low_loud; repeat constructor|exact T]. }
  assert (ON : forall s m, harmless m -> Forall loud_ok (map message_of [Plain s m])).
  { intros s m Hm. apply Forall_cons; [apply harmless_loud, Hm|constructor]. }
  remember ([Plain Info (u "loading vocab"); Formatted Debug (u "  vocab count: " ++ decimal (N.of_nat (length lens)))] ++ read_tokens_says lens data 0 voc0) as head eqn:Eh.
  destruct (read_tokens lens data 0 voc0) as [[p v]| | |]; try discriminate.
  - destruct (negb _).
    + assert (tr = head ++ [Plain Error (u "something wrong")]) as -> by congruence. rewrite map_app. apply Forall_app; split; [exact HD|].
      apply ON. split; vm_compute; intuition discriminate.
    + destruct (bert_vocab_init g v) as [bv| | |]; try discriminate.
      * assert (tr = head ++ init_says g v ++ [Plain Info (u "finish loading vocab")]) as -> by congruence. rewrite !map_app. apply Forall_app; split; [exact HD|].
        apply Forall_app; split; [apply init_loud|]. apply ON. split; vm_compute; intuition discriminate.
      * assert (tr = head ++ init_says g v ++ [Plain Error (u "fail to build vocab")]) as -> by congruence. rewrite !map_app. apply Forall_app; split; [exact HD|].
        apply Forall_app; split; [apply init_loud|]. apply ON. split; vm_compute; intuition discriminate.
  - assert (tr = head) as -> by congruence. exact HD.
Qed.

Lemma r_vocab_loud order g lens data m b tr : bytes_ok lens -> r_vocab_logged order g lens data m = Ok (b, tr) ->
  Forall loud_ok (map message_of tr) \/ exists t, repeats lens data t /\ ~ printable_text t.
Proof.
  intros B H. unfold r_vocab_logged in H.
  assert (D : (forall q, read_tokens lens data 0 voc0 <> Ok q) \/ (exists q, read_tokens lens data 0 voc0 = Ok q)).
  { destruct (read_tokens lens data 0 voc0); [right; eauto|left; discriminate|left; discriminate|left; discriminate]. }
  assert (NU : read_tokens lens data 0 voc0 <> UB).
  { intros E. rewrite E in H. discriminate. }
  destruct (tokens_loud lens data B D NU) as [T|T]; [left|right; exact T].
  assert (HD : Forall loud_ok (map message_of ([Plain Info (u "loading vocab")] ++ read_tokens_says lens data 0 voc0))).
  { rewrite map_app. apply Forall_app; split; [apply low_loud; repeat constructor|exact T]. }
  assert (ON : forall s m, harmless m -> Forall loud_ok (map message_of [Plain s m])).
  { intros s x Hm. apply Forall_cons; [apply harmless_loud, Hm|constructor]. }
  remember ([Plain Info (u "loading vocab")] ++ read_tokens_says lens data 0 voc0) as head eqn:Eh.
  destruct (read_tokens lens data 0 voc0) as [[p v]| | |]; try discriminate.
  - destruct (negb _).
    + assert (tr = head ++ [Plain Error (u "something wrong")]) as -> by congruence. rewrite map_app. apply Forall_app; split; [exact HD|].
      apply ON. split; vm_compute; intuition discriminate.
    + destruct (roberta_vocab_init order g _ v) as [bv| | |]; try discriminate.
      * assert (tr = head ++ r_init_says order g m v ++ [Plain Info (u "finish loading vocab")]) as -> by congruence. rewrite !map_app. apply Forall_app; split; [exact HD|].
        apply Forall_app; split; [apply r_init_loud|]. apply ON. split; vm_compute; intuition discriminate.
      * assert (tr = head ++ r_init_says order g m v ++ [Plain Error (u "fail to build vocab")]) as -> by congruence. rewrite !map_app. apply Forall_app; split; [exact HD|].
        apply Forall_app; split; [apply r_init_loud|]. apply ON. split; vm_compute; intuition discriminate.
  - assert (tr = head) as -> by congruence. exact HD.
Qed.

(** ** Splitting a log *)

Lemma log_split l a b o : log_of l (a ++ b) o -> exists oa ob, log_of l a oa /\ log_of l b ob /\ o = oa ++ ob.
Proof.
  intros H. assert (E := proj1 (log_exists l (a ++ b)) (ex_intro _ o H)). apply Forall_app in E as (E1 & E2).
  apply log_exists in E1 as (oa & E1). apply log_exists in E2 as (ob & E2). exists oa, ob. split; [exact E1|]. split; [exact E2|].
  eapply log_fun; [exact H|]. apply log_app; assumption.
Qed.

Lemma log_one l r m o : (l <= r)%Z -> harmless m -> log_of l [(r, m)] o -> o = line m.
Proof.
  intros Hl Hm H. eapply log_fun; [exact H|]. destruct (harmless_cut m Hm) as (C & E). unfold line.
  change (m ++ [10]) with (m ++ [10] ++ []). eapply log_line; [exact Hl|exact C|exact E|constructor].
Qed.

Lemma names_harmless layers : Forall harmless (required_names layers).
Proof.
  unfold required_names. apply Forall_app; split; [|apply Forall_app; split].
  - unfold embedding_names. repeat (apply Forall_cons; [split; vm_compute; intuition discriminate|]). constructor.
  - apply Forall_flat_map. intros n. unfold layer_names. apply Forall_forall. intros x Hx. apply in_map_iff in Hx as (s & <- & Hs).
    apply harmless_app; [split; vm_compute; intuition discriminate|]. apply harmless_app; [apply decimal_harmless|].
    apply harmless_app; [split; vm_compute; intuition discriminate|].
    revert s Hs. apply Forall_forall. unfold layer_parts. repeat (apply Forall_cons; [split; vm_compute; intuition discriminate|]). constructor.
  - unfold pooler_names. repeat (apply Forall_cons; [split; vm_compute; intuition discriminate|]). constructor.
Qed.

Lemma head_harmless : Forall harmless head_names.
Proof. unfold head_names. repeat (apply Forall_cons; [split; vm_compute; intuition discriminate|]). constructor. Qed.

(** The lines about the weights at INFO. *)
Section Weights.
Context (junk : nat -> N).

Lemma absent_lines f made ks o : short_names f -> copies f made -> Forall harmless ks ->
  log_of 1 (map message_of (flat_map (tensor_says (kept junk f made)) ks)) o -> absent f ks o.
Proof.
  intros Hs Hm. revert o. induction ks as [|k ks IH]; intros o Hh H.
  - inversion H. constructor.
  - cbn [flat_map] in H. rewrite map_app in H. assert (Hk : harmless k /\ Forall harmless ks) by (inversion Hh; auto). destruct Hk as (Hk & Hks).
    unfold tensor_says in H at 1. destruct (present (kept junk f made) k) eqn:E.
    + apply absent_here; [apply (present_has junk f made k Hs Hm), E|apply IH; assumption].
    + apply log_split in H as (oa & ob & H1 & H2 & ->). apply log_one in H1; [|cbn; lia|].
      2: { apply harmless_app; [split; vm_compute; intuition discriminate|exact Hk]. }
      subst oa. apply absent_not; [|apply IH; assumption]. intros K. apply (present_has junk f made k Hs Hm) in K. congruence.
Qed.

Lemma mem_in x l : mem x l = true <-> In x l.
Proof.
  unfold mem. rewrite existsb_exists. split.
  - intros (y & H & E). apply list_N_eqb_eq in E. subst. exact H.
  - intros H. exists x. split; [exact H|]. apply list_N_eqb_eq. reflexivity.
Qed.

Lemma unused_lines which used : forall infos n, (forall t, In t infos -> (which (ti_name t) = true <-> ~ In (ti_name t) used)) ->
  unused used n infos (map message_of (listed (u "unused") which n infos)).
Proof.
  induction infos as [|t infos IH]; intros n H; [constructor|]. cbn [listed]. rewrite map_app.
  assert (Ht := H t (or_introl eq_refl)). destruct (which (ti_name t)) eqn:E.
  - apply unused_not; [apply Ht; reflexivity|]. apply IH. intros x Hx. apply H. right. exact Hx.
  - apply unused_used.
    + destruct (in_dec (list_eq_dec N.eq_dec) (ti_name t) used) as [K|K]; [exact K|]. apply Ht in K. discriminate.
    + apply IH. intros x Hx. apply H. right. exact Hx.
Qed.

Lemma skipped_none f made ks : short_names f -> copies f made -> forall infos n,
  (forall t, In t infos -> In t (f_tensors f)) ->
  listed (u "skipped") (fun x => mem x (filter (fun k => negb (present (kept junk f made) k)) ks)) n infos = [].
Proof.
  intros Hs Hm. induction infos as [|t infos IH]; intros n H; [reflexivity|]. cbn [listed].
  destruct (mem (ti_name t) (filter (fun k => negb (present (kept junk f made) k)) ks)) eqn:E.
  - exfalso. apply mem_in in E. apply filter_In in E as (_ & E).
    assert (P : present (kept junk f made) (ti_name t) = true).
    { apply (present_has junk f made _ Hs Hm). exists t. split; [apply H; left; reflexivity|reflexivity]. }
    rewrite P in E. discriminate.
  - cbn [app]. apply IH. intros x Hx. apply H. right. exact Hx.
Qed.

Lemma weights_lines f made layers o : short_names f -> copies f made ->
  log_of 1 (map message_of (weights_says f (kept junk f made) layers)) o ->
  (Forall (has f) (required_names layers) /\
     exists heads ms o', absent f head_names heads /\ unused (used_names layers) 0 (f_tensors f) ms /\ log_of 1 ms o' /\ o = heads ++ o') \/
  (exists k, first_missing f (required_names layers) k /\ o = line (u "failed to read tensor: " ++ k)).
Proof.
  intros Hs Hm H. unfold weights_says in H.
  destruct (required_cases junk f made (keys layers) Hs Hm) as [(E & F)|(k & F & E)]; rewrite E in H.
  - left. split; [exact F|]. cbn [app] in H. rewrite (skipped_none f made _ Hs Hm (f_tensors f) 0 (fun t K => K)), app_nil_r in H.
    rewrite map_app in H. apply log_split in H as (oa & ob & H1 & H2 & ->). eexists oa, _, ob.
    split; [eapply absent_lines; eauto; apply head_harmless|]. split; [|split; [exact H2|reflexivity]].
    apply unused_lines. intros t Ht.
    assert (HT : has f (ti_name t)) by (exists t; auto).
    rewrite Bool.andb_true_iff, !Bool.negb_true_iff, <- !Bool.not_true_iff_false, !mem_in. unfold used_names.
    rewrite !in_app_iff, filter_In.
    assert (X : In (ti_name t) head_keys /\ present (kept junk f made) (ti_name t) = true <-> In (ti_name t) head_names).
    { split; [intros (K & _); exact K|]. intros K. split; [exact K|]. apply (present_has junk f made _ Hs Hm), HT. }
    rewrite X. change (keys layers) with (required_names layers).
    change key_vocab_size with (u "berts.vocab.size"). change key_vocab_data with (u "berts.vocab.data"). tauto.
  - right. exists k. split; [exact F|]. cbn [map message_of] in H. apply log_one in H; [exact H|cbn; lia|].
    apply harmless_app; [split; vm_compute; intuition discriminate|].
    destruct F as (b & a & Eq & _ & _). pose proof (names_harmless layers) as NH. change (keys layers) with (required_names layers) in Eq.
    rewrite Eq in NH. apply Forall_app in NH as (_ & NH). inversion NH; assumption.
Qed.
End Weights.

(** ** The whole trace, and its end *)

Section Tail.
Context {V : Type} (value : gty -> list N -> nat -> V) (order : list (ustring * N) -> list (ustring * N)).

Lemma context_inv f s ts r tr : new_context_logged value order f s ts = Ok (r, tr) ->
  exists v tv, init_vocab_logged order (se_arch s) f ts = Ok (v, tv) /\
  let layers := Encoder_model.n_layers (se_hp s) in
  match v with
  | None => r = Null true /\ tr = tv ++ [Plain Error (u "fail to load vocab")]
  | Some v =>
      match weights_init value ts layers with
      | Some w => r = Loaded (mklo v s w) /\
          tr = tv ++ [Plain Info (u "initializing weights")] ++ weights_says f ts layers ++ [Plain Info (u "finish initializing weights")]
      | None => r = Null true /\
          tr = tv ++ [Plain Info (u "initializing weights")] ++ weights_says f ts layers ++ [Plain Error (u "fail to load weights")]
      end
  end.
Proof.
  intros C. unfold new_context_logged in C.
  destruct (init_vocab_logged order (se_arch s) f ts) as [[v tv]| | |]; try discriminate. cbn [obind fst snd] in C.
  exists v, tv. split; [reflexivity|]. cbv zeta. destruct v as [v|].
  - destruct (weights_init value ts _) as [w|]; (split; [congruence|]).
    all: rewrite <- !app_assoc in C; congruence.
  - split; congruence.
Qed.
End Tail.

Lemma log_ends l ms o : log_of l ms o -> o = [] \/ exists b, o = b ++ [10].
Proof.
  induction 1 as [|r m ms o Hl H IH|r m ms t p o Hl Hc He H IH]; [left; reflexivity|exact IH|right].
  destruct IH as [->|(b & ->)].
  - exists p. reflexivity.
  - exists (p ++ [10] ++ b). rewrite <- !app_assoc. reflexivity.
Qed.

Lemma last_last_line l ms r m o : (l <= r)%Z -> harmless m -> log_of l (ms ++ [(r, m)]) o -> last_line o m.
Proof.
  intros Hl Hm H. apply log_split in H as (oa & ob & H1 & H2 & ->). apply log_one in H2; [|exact Hl|exact Hm]. subst ob.
  destruct (log_ends _ _ _ H1) as [->|(b & ->)]; [left; reflexivity|]. right. exists b. rewrite <- app_assoc. reflexivity.
Qed.

Lemma last_nl (a b m m' : list N) : ~ In 10 m -> ~ In 10 m' -> a ++ 10 :: m = b ++ 10 :: m' -> m = m'.
Proof.
  intros Hm Hm' E. assert (G : forall x y : list N, ~ In 10 x -> ~ In 10 y -> forall p q, x ++ 10 :: p = y ++ 10 :: q -> x = y).
  { clear. induction x as [|c x IH]; intros [|d y] Hx Hy p q E; [reflexivity| | |].
    - exfalso. apply Hy. cbn in E. injection E as E _. left. congruence.
    - exfalso. apply Hx. cbn in E. injection E as E _. left. congruence.
    - cbn in E. injection E as -> E. f_equal. eapply IH; [| |exact E]; intros K; [apply Hx|apply Hy]; right; exact K. }
  apply (f_equal (@rev N)) in E. rewrite !rev_app_distr in E. cbn [rev] in E. rewrite <- !app_assoc in E. cbn [app] in E.
  apply G in E; [|rewrite <- in_rev; assumption|rewrite <- in_rev; assumption].
  apply (f_equal (@rev N)) in E. rewrite !rev_involutive in E. exact E.
Qed.

Lemma last_line_fun o m m' : ~ In 10 m -> ~ In 10 m' -> last_line o m -> last_line o m' -> m = m'.
Proof.
  intros Hm Hm' H H'. assert (G : forall x, last_line o x -> exists b, 10 :: o = (b ++ 10 :: x) ++ [10]).
  { intros x [->|(b & ->)]; [exists []; reflexivity|]. exists (10 :: b). unfold line. cbn [app]. rewrite <- !app_assoc. reflexivity. }
  apply G in H as (b & E). apply G in H' as (b' & E'). rewrite E in E'. apply app_inj_tail in E' as (E' & _).
  eapply last_nl; eauto.
Qed.

Lemma signed_no_nl z : ~ In 10 (signed z).
Proof.
  assert (D : forall n, ~ In 10 (decimal n)).
  { intros n. unfold decimal. generalize (S (N.to_nat (N.size n))). intros fuel. revert n. induction fuel as [|fuel IH]; intros n; [intros []|].
    cbn [digits]. destruct (n <? 10) eqn:E.
    - intros [K|[]]. lia.
    - intros K. apply in_app_iff in K as [K|[K|[]]]; [exact (IH _ K)|].
      pose proof (N.mod_lt n 10 ltac:(discriminate)). lia. }
  unfold signed. destruct (z <? 0)%Z; [intros [K|K]; [discriminate|exact (D _ K)]|apply D].
Qed.

Lemma signed_ok z : harmless (signed z).
Proof.
  unfold signed. destruct (z <? 0)%Z; [|apply decimal_harmless]. apply (harmless_app (u "-")); [split; vm_compute; intuition discriminate|apply decimal_harmless].
Qed.

Lemma init_vocab_loud junk order arch f made v tr : sane junk f -> short_names f -> copies f made -> supported_arch arch ->
  init_vocab_logged order arch f (kept junk f made) = Ok (v, tr) ->
  Forall loud_ok (map message_of tr) \/ exists lens data t,
    vocab_at junk f (u "berts.vocab.size") = Some (mkt 1 T_I8 lens) /\
    vocab_at junk f (u "berts.vocab.data") = Some (mkt 1 T_I8 data) /\
    repeats lens data t /\ ~ printable_text t.
Proof.
  intros SA Hs Hm Ha H.
  assert (SZ : forall lens, vocab_tensor (kept junk f made) (u "berts.vocab.size") = Some (mkt 1 T_I8 lens) -> bytes_ok lens).
  { intros lens E. rewrite (vocab_kept junk f made) in E by assumption.
    unfold vocab_at in E. destruct (named f (u "berts.vocab.size")) as [t|]; [|discriminate].
    destruct (ti_type t); try discriminate. assert (lens = memory_of junk f t) as -> by congruence. apply memory_bytes, SA. }
  rewrite <- !(vocab_kept junk f made) by assumption.
  unfold vocab_tensor in *. unfold init_vocab_logged in H.
  change key_vocab_size with (u "berts.vocab.size") in H. change key_vocab_data with (u "berts.vocab.data") in H.
  destruct (tensors_cases (get_tensor st_name (kept junk f made) (u "berts.vocab.size")) (get_tensor st_name (kept junk f made) (u "berts.vocab.data")))
    as [(E & lens & data & F)|(m & E & R)]; rewrite E in H.
  - destruct (fit_vocab _ _ _ _ F) as (Es & Ed). assert (B1 := SZ _ Es). rewrite Es, Ed. destruct F as [s d H1 H2 H3 H4].
    assert (Q : Forall loud_ok (map message_of tr) \/ exists t, repeats (st_bytes s) (st_bytes d) t /\ ~ printable_text t).
    { destruct Ha as [->| ->]; cbn [N.eqb] in H.
      - destruct (vocab_logged (f_tok f) (st_bytes s) (st_bytes d)) as [[b t]| | |] eqn:Q; try discriminate. cbn [obind fst snd] in H.
        assert (X2 : t = tr) by congruence. subst t. eapply vocab_loud; eauto.
      - destruct (r_vocab_logged order (f_tok f) (st_bytes s) (st_bytes d) _) as [[b t]| | |] eqn:Q; try discriminate. cbn [obind fst snd] in H.
        assert (X2 : t = tr) by congruence. subst t. eapply r_vocab_loud; eauto. }
    destruct Q as [Q|(t & Q)]; [left; exact Q|]. right. exists (st_bytes s), (st_bytes d), t. auto.
  - left. assert (X : tr = [Plain Info (u "loading vocab"); Formatted Error m]).
    { destruct (get_tensor st_name (kept junk f made) (u "berts.vocab.size")), (get_tensor st_name (kept junk f made) (u "berts.vocab.data")); congruence. }
    subst tr. apply low_loud. repeat constructor.
Qed.

(** ** Merges *)

Lemma merges_outside layers : ~ In (u "berts.merge.data") (used_names layers).
Proof.
  assert (G : forall x, In x (used_names layers) -> firstn 10 x = u "berts.bert" \/ firstn 11 x = u "berts.vocab").
  { apply Forall_forall. unfold used_names, required_names. repeat (apply Forall_app; split).
    - unfold embedding_names. repeat (apply Forall_cons; [left; reflexivity|]). constructor.
    - apply Forall_flat_map. intros n. unfold layer_names. apply Forall_forall. intros x Hx. apply in_map_iff in Hx as (s & <- & Hs).
      left. reflexivity.
    - unfold pooler_names. repeat (apply Forall_cons; [left; reflexivity|]). constructor.
    - unfold head_names. repeat (apply Forall_cons; [left; reflexivity|]). constructor.
    - repeat (apply Forall_cons; [right; reflexivity|]). constructor. }
  intros K. apply G in K as [K|K]; discriminate K.
Qed.

Lemma merges_needed L (HL : lib_ok L) junk {V} (value : gty -> list N -> nat -> V) order f reopen m : f_set f S_bert_type = Some (SU32 1) ->
  load_from_file L junk value order (Some f) reopen = Ok (Loaded m) -> has f (u "berts.merge.data").
Proof.
  intros HT F. destruct (loaded_inv L HL junk value order f reopen m F) as (_ & made & arch & layers & _ & HLd & _).
  assert (A := l_arch _ _ _ _ _ HLd). rewrite HT in A. injection A as <-. destruct (l_vocab _ _ _ _ _ HLd) as (v & E).
  unfold vocabulary in E. cbn [N.eqb] in E. rewrite has_named. intros Q.
  assert (X : vocab_at junk f (u "berts.merge.data") = None) by (unfold vocab_at; rewrite Q; reflexivity). rewrite X in E.
  unfold roberta_init_vocab in E. destruct (read_vocab _ _) as [w| | |]; try discriminate E. cbn [obind] in E.
  unfold roberta_vocab_init in E. destruct (roberta_specials _ _) as [sp| | |]; try discriminate E. cbn [obind] in E.
  destruct (r_id_to_token w (r_unk sp)) as [unk| | |]; try discriminate E. cbn [obind] in E.
  destruct (dec8 unk), (bpe_words w); discriminate E.
Qed.
