(** Theorems about what loading a vocabulary and looking up tokens write to the log. *)
From Verif Require Import Base Utf_model Bert_model Vocab_model Log_model Says_model.
From Verif Require Import Log_spec Utf_spec Vocab_spec Says_spec P_Log Says_proofs Says_eval_proofs Vocab_proofs P_Vocab.
From Verif Require P_Says.
Local Open Scope N_scope.

(** ** Reading the tokens *)

Lemma escaped_left a c b p : c <> 37 -> escaped (a ++ c :: b) p -> exists p', escaped a p'.
Proof.
  intros Hc H. remember (a ++ c :: b) as m eqn:E. revert a E.
  induction H as [|m o H IH|x m o Hx H IH]; intros a E.
  - destruct a; discriminate.
  - destruct a as [|x [|y a]].
    + injection E as E _. congruence.
    + injection E as _ E _. congruence.
    + injection E as <- <- E. destruct (IH a E) as (p' & K). exists (37 :: p'). constructor. exact K.
  - destruct a as [|y a]; [exists []; constructor|]. injection E as <- E.
    destruct (IH a E) as (p' & K). exists (x :: p'). constructor; assumption.
Qed.

Lemma c_str_app a b : c_str (a ++ b) = if existsb (N.eqb 0) a then c_str a else a ++ c_str b.
Proof.
  induction a as [|x a IH]; [reflexivity|]. cbn [app c_str existsb]. rewrite (N.eqb_sym 0 x).
  destruct (x =? 0); [reflexivity|]. cbn [orb]. rewrite IH. destruct (existsb _ a); reflexivity.
Qed.

Lemma c_str_no_nul a : existsb (N.eqb 0) a = false -> c_str a = a.
Proof.
  induction a as [|x a IH]; [reflexivity|]. cbn [c_str existsb]. rewrite (N.eqb_sym 0 x).
  destruct (x =? 0); [discriminate|]. cbn [orb]. intros H. rewrite IH by exact H. reflexivity.
Qed.

Lemma escaped_join a b p q : escaped a p -> escaped b q -> escaped (a ++ b) (p ++ q).
Proof. intros H K. induction H; [exact K| |]; cbn [app]; constructor; assumption. Qed.

(** A harmless text behind, not beginning with a percent sign, makes no difference. *)
Lemma printable_before a c b : harmless (c :: b) -> (printable_text (a ++ c :: b) <-> printable_text a).
Proof.
  intros (H1 & H2).
  assert (C : c <> 37) by (intros E; apply H1; left; congruence).
  assert (CB : c_str (c :: b) = c :: b) by (apply c_str_clean; exact H2).
  assert (X : forall m, printable_text m <-> exists p, escaped (c_str m) p).
  { intros m. split.
    - intros (t & p & K & E). apply cut_fun in K. subst t. exists p. exact E.
    - intros (p & E). exists (c_str m), p. split; [apply cut_c_str|exact E]. }
  rewrite !X, c_str_app. destruct (existsb (N.eqb 0) a) eqn:N0; [reflexivity|]. rewrite CB, (c_str_no_nul a N0). split.
  - intros (p & K). eapply escaped_left; eauto.
  - intros (p & K). exists (p ++ c :: b). apply escaped_join; [exact K|]. apply (harmless_cut (c :: b)). split; assumption.
Qed.

(** The first [l1] tokens are read, then comes one that is there already. *)
Lemma repeat_read : forall l1 d1 ts, layout l1 d1 ts -> forall t l2 d2 ts0 v p pre,
  voc_ok v ts0 -> NoDup (ts0 ++ ts) -> In t (ts0 ++ ts) -> (1 <= length t <= 256)%nat -> p = N.of_nat (length pre) ->
  read_tokens (l1 ++ N.of_nat (length t) mod 256 :: l2) (pre ++ d1 ++ t ++ d2) p v = Fail /\
  read_tokens_says (l1 ++ N.of_nat (length t) mod 256 :: l2) (pre ++ d1 ++ t ++ d2) p v =
    [Formatted Warn (u "  token " ++ t ++ u " already exists"); Formatted Error (u "failed to add token: " ++ t)].
Proof.
  assert (CUT : forall (pre t rest : list N) p, p = N.of_nat (length pre) -> (1 <= length t <= 256)%nat ->
    (N.of_nat (length (pre ++ t ++ rest)) <? p + tok_len (N.of_nat (length t) mod 256)) = false /\
    firstn (N.to_nat (tok_len (N.of_nat (length t) mod 256))) (skipn (N.to_nat p) (pre ++ t ++ rest)) = t).
  { intros pre t rest p -> H. rewrite tok_len_layout by exact H. split.
    - apply N.ltb_ge. rewrite !app_length. lia.
    - rewrite !Nat2N.id, skipn_app, skipn_all, Nat.sub_diag. cbn [app skipn].
      rewrite firstn_app, firstn_all, Nat.sub_diag. cbn [firstn]. rewrite app_nil_r. reflexivity. }
  induction 1 as [|x ls d xs Hx L IH]; intros t l2 d2 ts0 v p pre V ND Ht Lt E.
  - cbn [app read_tokens read_tokens_says]. destruct (CUT pre t d2 p E Lt) as (C1 & C2). rewrite C1, C2.
    rewrite app_nil_r in Ht. rewrite (proj2 (add_token_none v ts0 t V) Ht). split; reflexivity.
  - cbn [app read_tokens read_tokens_says]. rewrite <- !app_assoc.
    destruct (CUT pre x (d ++ t ++ d2) p E Hx) as (C1 & C2). rewrite C1, C2.
    destruct (add_token v x) as [v'|] eqn:A.
    2: { apply (add_token_none v ts0 x V) in A. apply NoDup_remove_2 in ND. elim ND. apply in_or_app. auto. }
    destruct (add_token_ok v ts0 x v' V A) as (V' & _).
    rewrite tok_len_layout by exact Hx. rewrite app_assoc.
    apply (IH t l2 d2 (ts0 ++ [x]) v' (p + N.of_nat (length x)) (pre ++ x)); try assumption.
    + rewrite <- app_assoc. exact ND.
    + rewrite <- app_assoc. exact Ht.
    + rewrite app_length. lia.
Qed.

(** C179: a vocabulary that repeats a token is refused; the log is this. *)
Theorem C179_repeated_token_log : forall g l1 l2 d1 d2 ts t l,
  layout l1 d1 ts -> NoDup ts -> In t ts -> (1 <= length t <= 256)%nat ->
  let lens := l1 ++ N.of_nat (length t) mod 256 :: l2 in
  let r := logged (mkls l true) (vocab_logged g lens (d1 ++ t ++ d2)) in
  let msgs := [(1%Z, u "loading vocab"); (0%Z, u "  vocab count: " ++ decimal (N.of_nat (length lens)));
               (2%Z, u "  token " ++ t ++ u " already exists"); (1%Z, u "failed to add token: " ++ t)] in
  (forall o, r = Ok (None, o) <-> log_of l msgs o) /\
  (r = UB <-> (l <= 2)%Z /\ ~ printable_text t).
Proof.
  intros g l1 l2 d1 d2 ts t l LY ND Ht Lt lens r msgs.
  destruct (repeat_read l1 d1 ts LY t l2 d2 [] voc0 0 [] voc_ok0 ND Ht Lt eq_refl) as (R1 & R2). cbn [app] in R1, R2.
  assert (E : vocab_logged g lens (d1 ++ t ++ d2) = Ok (None, [Plain Info (u "loading vocab");
      Formatted Debug (u "  vocab count: " ++ decimal (N.of_nat (length lens)));
      Formatted Warn (u "  token " ++ t ++ u " already exists"); Formatted Error (u "failed to add token: " ++ t)])).
  { unfold vocab_logged. subst lens. rewrite R1, R2. reflexivity. }
  subst r. rewrite E.
  set (tr := [Plain Info _; _; _; _]).
  assert (S : Forall says tr) by (repeat constructor).
  assert (I : forall o, logged (mkls l true) (Ok (@None bvocab, tr)) = Ok (None, o) <-> log_of l msgs o) by (intros o; apply logged_log, S).
  split; [exact I|].
  assert (P : (exists o, log_of l msgs o) <-> ((l <= 2)%Z -> printable_text t)).
  { rewrite log_exists. unfold msgs. rewrite !Forall_cons_iff. cbn [fst snd].
    rewrite (printable_app (u "  token ")) by (split; vm_compute; intuition discriminate).
    change (u " already exists") with (32 :: u "already exists").
    rewrite printable_before by (split; vm_compute; intuition discriminate).
    rewrite (printable_app (u "failed to add token: ")) by (split; vm_compute; intuition discriminate). split; [intros (_ & _ & K & _); exact K|].
    intros K. split; [|split; [|split; [exact K|split; [|constructor]]]].
    - intros _. apply printable_free. vm_compute. intuition discriminate.
    - intros _. apply printable_free. apply app_free; [vm_compute; intuition discriminate|apply decimal_free].
    - intros H. apply K. lia. }
  destruct (proj2 (logged_says (mkls l true) (@None bvocab) tr S)) as [(o & K)|K].
  - split; [congruence|]. intros (H & N). exfalso. apply N, P; [exists o; apply I, K|exact H].
  - split; [|intros _; exact K]. intros _. destruct (Z.leb_spec l 2) as [H|H].
    + split; [exact H|]. intros Q. destruct (proj2 P (fun _ => Q)) as (o & J). apply I in J. congruence.
    + exfalso. destruct (proj2 P ltac:(lia)) as (o & J). apply I in J. congruence.
Qed.
Print Assumptions C179_repeated_token_log.

(** "A file that is refused is refused" is false at the default level: a repeated token
    with a percent sign is undefined. *)
Theorem C179_refusal_defined_refuted : exists g lens data,
  read_vocab (Some (mkt 1 T_I8 lens)) (Some (mkt 1 T_I8 data)) = Fail /\
  logged log_start (vocab_logged g lens data) = UB /\
  logged (mkls 3 true) (vocab_logged g lens data) = Ok (None, []).
Proof.
  exists (fun _ => None), [2; 1; 2], (u "%da%d"). repeat split; vm_compute; reflexivity.
Qed.
Print Assumptions C179_refusal_defined_refuted.

Example C179_example :
  layout [1; 2] (u "abb") [u "a"; u "bb"] /\ NoDup [u "a"; u "bb"] /\ In (u "bb") [u "a"; u "bb"] /\
  logged log_start (vocab_logged (fun _ => None) [1; 2; 2; 1] (u "abbbbc")) = Ok (None, u "  token bb already exists" ++ [10]).
Proof.
  split; [|split; [|split; [right; left; reflexivity|vm_compute; reflexivity]]].
  - apply (lay_cons (u "a") [2] (u "bb") [u "bb"]); [cbn; lia|].
    apply (lay_cons (u "bb") [] [] []); [cbn; lia|constructor].
  - repeat constructor; vm_compute; intuition discriminate.
Qed.

(** ** Special ids *)

(** Where ids are looked for: the key, its name in the file, the spellings. *)
Definition places : list (key * list N * list (list N)) :=
  [(K_cls, u "berts.cls_id", [u "[CLS]"; u "<s>"]); (K_mask, u "berts.mask_id", [u "[MASK]"; u "<mask>"]);
   (K_pad, u "berts.pad_id", [u "[PAD]"; u "<pad>"]); (K_sep, u "berts.sep_id", [u "[SEP]"; u "</s>"]);
   (K_unk, u "berts.unk_id", [u "[UNK]"; u "<unk>"])].

(** The lines about one of them: every spelling tried is announced. *)
Inductive announced (ts : list (list N)) : list N -> list (list N) -> list N -> Prop :=
| none_left name : announced ts name [] []
| spelled name a r : In a ts -> announced ts name (a :: r) (name ++ u " is not defined; use " ++ a ++ u " instead" ++ [10])
| misspelled name a r o : ~ In a ts -> announced ts a r o ->
    announced ts name (a :: r) (name ++ u " is not defined; use " ++ a ++ u " instead" ++ [10] ++ o).

Definition id_report (g : gguf) (ts : list (list N)) (w : key * list N * list (list N)) (o : list N) : Prop :=
  ((exists n, stored g (fst (fst w)) = Some n /\ n <> INVALID) /\ o = []) \/
  ((stored g (fst (fst w)) = None \/ stored g (fst (fst w)) = Some INVALID) /\ announced ts (snd (fst w)) (snd w) o).

Lemma announced_total ts : forall alts name, exists o, announced ts name alts o.
Proof.
  induction alts as [|a r IH]; intros name; [exists []; constructor|].
  destruct (in_dec (list_eq_dec N.eq_dec) a ts) as [H|H]; [eexists; constructor; exact H|].
  destruct (IH a) as (o & K). eexists. eapply misspelled; eauto.
Qed.

Lemma id_report_total g ts w : typed_u32 g (fst (fst w)) -> exists o, id_report g ts w o.
Proof.
  intros T. unfold id_report, stored. unfold typed_u32 in T. destruct (g (fst (fst w))) as [[n|b|]|]; try contradiction.
  - destruct (N.eq_dec n INVALID) as [E|E]; [|exists []; left; split; [exists n; auto|reflexivity]].
    destruct (announced_total ts (snd w) (snd (fst w))) as (o & K). exists o. right. split; [right; congruence|exact K].
  - destruct (announced_total ts (snd w) (snd (fst w))) as (o & K). exists o. right. auto.
Qed.

Theorem C180_reports_exist : forall g ts, (forall k, In k bert_keys -> typed_u32 g k) ->
  exists reports, Forall2 (id_report g ts) places reports.
Proof.
  intros g ts T. unfold places.
  destruct (id_report_total g ts (K_cls, u "berts.cls_id", [u "[CLS]"; u "<s>"])) as (o1 & H1); [apply T; simpl; auto 8|].
  destruct (id_report_total g ts (K_mask, u "berts.mask_id", [u "[MASK]"; u "<mask>"])) as (o2 & H2); [apply T; simpl; auto 8|].
  destruct (id_report_total g ts (K_pad, u "berts.pad_id", [u "[PAD]"; u "<pad>"])) as (o3 & H3); [apply T; simpl; auto 8|].
  destruct (id_report_total g ts (K_sep, u "berts.sep_id", [u "[SEP]"; u "</s>"])) as (o4 & H4); [apply T; simpl; auto 8|].
  destruct (id_report_total g ts (K_unk, u "berts.unk_id", [u "[UNK]"; u "<unk>"])) as (o5 & H5); [apply T; simpl; auto 8|].
  exists [o1; o2; o3; o4; o5]. repeat (apply Forall2_cons; [assumption|]). constructor.
Qed.
Print Assumptions C180_reports_exist.

(** Texts printed as they are, one per line. *)
Definition tidy (w : key * list N * list (list N)) : Prop := harmless (snd (fst w)) /\ Forall harmless (snd w).

Lemma places_tidy : Forall tidy places.
Proof.
  unfold places. repeat (apply Forall_cons; [split; [split; vm_compute; intuition discriminate|
    repeat (apply Forall_cons; [split; vm_compute; intuition discriminate|]); constructor]|]). constructor.
Qed.

Lemma alternates_default v ts : voc_ok v ts -> N.of_nat (length ts) < 4294967296 ->
  forall alts name o, harmless name -> Forall harmless alts -> announced ts name alts o ->
  log_of 2 (map message_of (alternates_says v name alts)) o.
Proof.
  intros V B. destruct (voc_find v ts V B) as (F1 & F2).
  induction alts as [|a r IH]; intros name o Hn Ha A; cbn [alternates_says map].
  { inversion A; subst. apply log_skip; [cbn; lia|constructor]. }
  assert (Hr : harmless a /\ Forall harmless r) by (inversion Ha; auto). destruct Hr as (Hr & Har).
  destruct (harmless_cut (name ++ u " is not defined; use " ++ a ++ u " instead")) as (C & E).
  { repeat apply harmless_app; try assumption; split; vm_compute; intuition discriminate. }
  inversion A as [|nm x y HI|nm x y o0 HI A0]; subst.
  - assert (T : token_to_id v a <> INVALID).
    { apply In_nth_error in HI as (i & En). destruct (F1 (N.of_nat i) a) as (-> & K); [|exact K]. unfold entry. rewrite Nat2N.id. exact En. }
    unfold token_to_id_says. rewrite (proj2 (N.eqb_neq _ _) T). cbn [app map].
    replace (name ++ u " is not defined; use " ++ a ++ u " instead" ++ [10]) with ((name ++ u " is not defined; use " ++ a ++ u " instead") ++ [10] ++ [])
      by (repeat rewrite <- app_assoc; reflexivity).
    eapply log_line; [cbn; lia|exact C|exact E|constructor].
  - unfold token_to_id_says. rewrite (F2 a HI), N.eqb_refl. cbn [app map].
    replace (name ++ u " is not defined; use " ++ a ++ u " instead" ++ 10 :: o0) with ((name ++ u " is not defined; use " ++ a ++ u " instead") ++ [10] ++ o0)
      by (repeat rewrite <- app_assoc; reflexivity).
    eapply log_line; [cbn; lia|exact C|exact E|]. apply log_skip; [cbn; lia|]. apply IH; assumption.
Qed.

Lemma id_default g v ts w o : voc_ok v ts -> N.of_nat (length ts) < 4294967296 -> tidy w -> typed_u32 g (fst (fst w)) ->
  id_report g ts w o ->
  log_of 2 (map message_of (get_token_id_says g v (fst (fst w)) (snd (fst w)) (snd w))) o.
Proof.
  intros V B (T1 & T2) TY [((n & S & K) & ->)|(S & A)]; unfold get_token_id_says, gguf_u32;
    unfold stored in S; unfold typed_u32 in TY; destruct (g (fst (fst w))) as [[m|b|]|]; try discriminate S; try contradiction.
  - assert (m = n) as -> by congruence. rewrite (proj2 (N.eqb_neq _ _) K). constructor.
  - destruct S as [S|S]; [discriminate|]. assert (m = INVALID) as -> by congruence. rewrite N.eqb_refl.
    eapply alternates_default; eauto.
  - rewrite N.eqb_refl. eapply alternates_default; eauto.
Qed.

Lemma low_messages ms : Forall (fun x : message => (fst x < 2)%Z) ms -> log_of 2 ms [].
Proof. induction 1 as [|[r m] ms H F IH]; [constructor|]. apply log_skip; assumption. Qed.

Lemma id_line_low v label id : Forall (fun x : message => (fst x < 2)%Z) (map message_of (id_line_says v label id)).
Proof.
  unfold id_line_says, id_to_token_says. destruct id; try constructor.
  destruct (_ <=? _); repeat constructor; cbn; lia.
Qed.

Lemma says_alternates v : forall alts name, Forall says (alternates_says v name alts).
Proof.
  induction alts as [|a r IH]; intros name; cbn [alternates_says]; [repeat constructor|].
  apply Forall_cons; [exact I|]. apply Forall_app; split.
  - unfold token_to_id_says. destruct (_ =? _); repeat constructor.
  - destruct (_ =? _); [apply IH|constructor].
Qed.

Lemma says_id_line v label id : Forall says (id_line_says v label id).
Proof.
  unfold id_line_says, id_to_token_says. destruct id; try constructor. destruct (_ <=? _); repeat constructor.
Qed.

Lemma says_init g v : Forall says (init_says g v).
Proof.
  unfold init_says. apply Forall_app; split; [|apply Forall_app; split].
  - apply Forall_flat_map. intros w. unfold get_token_id_says. destruct (gguf_u32 _ _ _); try constructor.
    destruct (_ =? _); [apply says_alternates|constructor].
  - apply Forall_flat_map. intros w. apply says_id_line.
  - destruct (existsb _ _); [constructor|]. apply Forall_app; split.
    + destruct (gguf_bool g K_lower true); try (apply Forall_nil). destruct (gguf_bool g K_basic true); try (apply Forall_nil).
      destruct (gguf_bool g K_cjk true); try (apply Forall_nil). destruct (gguf_bool g K_accent _); try (apply Forall_nil).
      unfold info_says. repeat constructor.
    + destruct (_ =? _)%nat; repeat constructor.
Qed.

(** C180: a vocabulary without repeated tokens never makes logging undefined at the
    default level, whatever its tokens are: all that is written are the spellings tried
    for missing special ids, and a last line if that fails. *)
Theorem C180_default_report : forall g lens data ts reports,
  layout lens data ts -> NoDup ts -> ts <> [] -> N.of_nat (length ts) < 2 ^ 32 -> Forall valid_utf8 ts ->
  (forall k, In k bert_keys -> typed_u32 g k) -> (forall k, In k bert_flags -> typed_bool g k) ->
  Forall2 (id_report g ts) places reports ->
  let r := logged log_start (vocab_logged g lens data) in
  match bert_init_vocab g (Some (mkt 1 T_I8 lens)) (Some (mkt 1 T_I8 data)) with
  | Ok b => r = Ok (Some b, concat reports)
  | Fail => r = Ok (None, concat reports ++ u "fail to build vocab" ++ [10])
  | _ => False
  end.
Proof.
  intros g lens data ts reports LY ND NE B U8 T1 T2 RP.
  pose proof (C19_bert_outcomes g lens data ts LY ND B) as C. cbv zeta in C |- *.
  destruct (read_vocab_layout lens data ts LY ND) as (v & R & V).
  assert (R' : exists p, read_tokens lens data 0 voc0 = Ok (p, v) /\ (p =? N.of_nat (length data)) = true).
  { unfold i8, read_vocab in R. cbn [t_dims t_type t_data] in R. change (negb (1 =? 1) || negb (1 =? 1))%bool with false in R. cbv iota in R.
    destruct (read_tokens lens data 0 voc0) as [[p v']| | |]; try discriminate. exists p.
    destruct (p =? N.of_nat (length data)); [|discriminate]. split; [congruence|reflexivity]. }
  destruct R' as (p & R1 & R2).
  assert (RS : read_tokens_says lens data 0 voc0 = []).
  { revert R1. generalize voc0 0. clear. intros v0 p0. revert v0 p0. induction lens as [|b lens IH]; intros v0 p0; [reflexivity|].
    cbn [read_tokens read_tokens_says]. destruct (_ <? _); [discriminate|]. destruct (add_token _ _); [apply IH|discriminate]. }
  unfold bert_init_vocab in C |- *. unfold i8 in R. rewrite R in C |- *. cbn [obind] in C |- *.
  assert (IDS : log_of 2 (map message_of (flat_map (fun w => get_token_id_says g v (fst (fst w)) (snd (fst w)) (snd w)) wanted_ids)) (concat reports)).
  { change wanted_ids with places. pose proof places_tidy as PT.
    assert (TY : Forall (fun w => typed_u32 g (fst (fst w))) places) by (repeat (apply Forall_cons; [apply T1; simpl; auto 6|]); constructor).
    revert PT TY. induction RP as [|w o ws os H F IH]; intros PT TY; [constructor|]. cbn [flat_map concat]. rewrite map_app.
    inversion PT; inversion TY; subst. apply log_app; [eapply id_default; eauto|apply IH; assumption]. }
  assert (INIT : forall b, (existsb (fun w => match get_token_id g (token_to_id v) (fst (fst w)) (snd w) with Ok i => i =? INVALID | _ => false end) wanted_ids) = b ->
    log_of 2 (map message_of (init_says g v)) (concat reports)).
  { intros b Eb. unfold init_says. rewrite !map_app. rewrite <- (app_nil_r (concat reports)). apply log_app; [exact IDS|].
    apply (log_app 2 _ _ [] []).
    - apply low_messages. cbn [combine wanted_ids flat_map]. rewrite !map_app. repeat (apply Forall_app; split); try apply id_line_low; constructor.
    - destruct (existsb _ _); [constructor|]. rewrite map_app. apply (log_app 2 _ _ [] []).
      + apply low_messages. destruct (gguf_bool g K_lower true); try (apply Forall_nil). destruct (gguf_bool g K_basic true); try (apply Forall_nil).
        destruct (gguf_bool g K_cjk true); try (apply Forall_nil). destruct (gguf_bool g K_accent _); try (apply Forall_nil).
        unfold info_says. cbn [map message_of]. repeat constructor; cbn; lia.
      + destruct V as (-> & _). destruct ts; [congruence|]. constructor. }
  specialize (INIT _ eq_refl).
  assert (HEAD : log_of 2 (map message_of ([Plain Info (u "loading vocab");
                 Formatted Debug (u "  vocab count: " ++ decimal (N.of_nat (length lens)))] ++ read_tokens_says lens data 0 voc0)) []).
  { rewrite RS. apply low_messages. repeat constructor; cbn; lia. }
  unfold vocab_logged. rewrite R1, R2. cbn [negb].
  set (head := [Plain Info (u "loading vocab"); _] ++ read_tokens_says lens data 0 voc0) in *.
  assert (HS : Forall says head) by (subst head; rewrite RS; repeat constructor). clearbody head.
  destruct (bert_vocab_init g v) as [bv| | |].
  - change log_start with (mkls 2 true). apply logged_log.
    + apply Forall_app; split; [exact HS|]. apply Forall_app; split; [apply says_init|repeat constructor].
    + rewrite map_app. rewrite map_app. apply (log_app 2 _ _ [] (concat reports)); [exact HEAD|].
      rewrite <- (app_nil_r (concat reports)). apply log_app; [exact INIT|]. apply low_messages. repeat constructor; cbn; lia.
  - change log_start with (mkls 2 true). apply logged_log.
    + apply Forall_app; split; [exact HS|]. apply Forall_app; split; [apply says_init|repeat constructor].
    + rewrite map_app. rewrite map_app. apply (log_app 2 _ _ []); [exact HEAD|].
      apply log_app; [exact INIT|].
      destruct (harmless_cut (u "fail to build vocab")) as (Cc & Ce); [split; vm_compute; intuition discriminate|].
      apply (log_line 2 3 _ [] _ _ [] ltac:(lia) Cc Ce). constructor.
  - destruct C as (_ & _ & t & Ht & NV). rewrite Forall_forall in U8. exact (NV (U8 t Ht)).
  - destruct C as [(k & Hk & NT)|(_ & k & Hk & NT)]; apply NT; auto.
Qed.
Print Assumptions C180_default_report.

(** With all ids stored nothing at all is written. *)
Theorem C180_silent : forall g lens data ts b,
  layout lens data ts -> NoDup ts -> ts <> [] -> N.of_nat (length ts) < 2 ^ 32 -> Forall valid_utf8 ts ->
  (forall k, In k bert_keys -> exists n, g k = Some (KU32 n) /\ n <> INVALID) ->
  (forall k, In k bert_flags -> typed_bool g k) ->
  bert_init_vocab g (Some (mkt 1 T_I8 lens)) (Some (mkt 1 T_I8 data)) = Ok b ->
  logged log_start (vocab_logged g lens data) = Ok (Some b, []).
Proof.
  intros g lens data ts b LY ND NE B U8 ST T2 H.
  assert (RP : Forall2 (id_report g ts) places [[]; []; []; []; []]).
  { unfold places.
    assert (X : forall k name alts, In k bert_keys -> id_report g ts (k, name, alts) []).
    { intros k name alts Hk. left. split; [|reflexivity]. destruct (ST k Hk) as (n & E & K). exists n. cbn [fst]. unfold stored. rewrite E. auto. }
    repeat (apply Forall2_cons; [apply X; simpl; auto 8|]). constructor. }
  pose proof (C180_default_report g lens data ts [[]; []; []; []; []] LY ND NE B U8) as C. cbv zeta in C.
  rewrite H in C. apply C; [|exact T2|exact RP].
  intros k Hk. destruct (ST k Hk) as (n & E & _). unfold typed_u32. rewrite E. exact Logic.I.
Qed.
Print Assumptions C180_silent.

(** No ids stored: two are found at once, the others at the second try or never. *)
Example C180_example :
  logged log_start (vocab_logged (fun _ => None) [5; 5; 5; 4; 5] (u "[CLS][SEP][PAD]</s>[UNK]")) =
    Ok (None, u "berts.cls_id is not defined; use [CLS] instead" ++ [10] ++
              u "berts.mask_id is not defined; use [MASK] instead" ++ [10] ++
              u "[MASK] is not defined; use <mask> instead" ++ [10] ++
              u "berts.pad_id is not defined; use [PAD] instead" ++ [10] ++
              u "berts.sep_id is not defined; use [SEP] instead" ++ [10] ++
              u "berts.unk_id is not defined; use [UNK] instead" ++ [10] ++
              u "fail to build vocab" ++ [10]) /\
  (exists b, logged log_start (vocab_logged (fun _ => None) [5; 6; 5; 4; 5] (u "[CLS]<mask>[PAD]</s>[UNK]")) =
    Ok (Some b, u "berts.cls_id is not defined; use [CLS] instead" ++ [10] ++
              u "berts.mask_id is not defined; use [MASK] instead" ++ [10] ++
              u "[MASK] is not defined; use <mask> instead" ++ [10] ++
              u "berts.pad_id is not defined; use [PAD] instead" ++ [10] ++
              u "berts.sep_id is not defined; use [SEP] instead" ++ [10] ++
              u "[SEP] is not defined; use </s> instead" ++ [10] ++
              u "berts.unk_id is not defined; use [UNK] instead" ++ [10])).
Proof.
  split; [vm_compute; reflexivity|].
  exists (mkbv [u "[CLS]"; u "<mask>"; u "[PAD]"; u "</s>"; u "[UNK]"] 0 1 2 3 4 (make_info true true true true)). vm_compute. reflexivity.
Qed.

(** ** Looking tokens up *)

(** C181: berts_token_to_id of a text that is no token: at the default level nothing is
    written; at DEBUG and INFO the text is, and it must be a format. *)
Theorem C181_lookup_log : forall v ts t l, voc_ok v ts -> N.of_nat (length ts) < 2 ^ 32 ->
  let r := logged (mkls l true) (token_to_id_logged v t) in
  (In t ts -> r = Ok (token_to_id v t, []) /\ entry ts (token_to_id v t) t) /\
  (~ In t ts -> (1 < l)%Z -> r = Ok (INVALID, [])) /\
  (~ In t ts -> (l <= 1)%Z ->
     (forall o, r = Ok (INVALID, o) <-> log_of l [(1%Z, u "token " ++ t ++ u " is not found")] o) /\
     (r = UB <-> ~ printable_text t)).
Proof.
  intros v ts t l V B r. destruct (voc_find v ts V B) as (F1 & F2). split; [|split].
  - intros H. apply In_nth_error in H as (i & E).
    assert (EN : entry ts (N.of_nat i) t) by (unfold entry; rewrite Nat2N.id; exact E).
    destruct (F1 _ _ EN) as (K & NI). subst r. unfold token_to_id_logged, token_to_id_says. rewrite K.
    rewrite (proj2 (N.eqb_neq _ _) NI). split; [reflexivity|exact EN].
  - intros H L. subst r. unfold token_to_id_logged, token_to_id_says. rewrite (F2 t H), N.eqb_refl.
    apply (logged_log l INVALID [_] []); [repeat constructor|]. apply log_skip; [cbn; lia|constructor].
  - intros H L. subst r. unfold token_to_id_logged, token_to_id_says. rewrite (F2 t H), N.eqb_refl.
    set (tr := [Formatted Error _]). assert (S : Forall says tr) by repeat constructor.
    assert (I : forall o, logged (mkls l true) (Ok (INVALID, tr)) = Ok (INVALID, o) <-> log_of l [(1%Z, u "token " ++ t ++ u " is not found")] o)
      by (intros o; apply logged_log, S).
    split; [exact I|].
    assert (P : (exists o, log_of l [(1%Z, u "token " ++ t ++ u " is not found")] o) <-> printable_text t).
    { rewrite log_exists, Forall_cons_iff. cbn [fst snd].
      rewrite (printable_app (u "token ")) by (split; vm_compute; intuition discriminate).
      change (u " is not found") with (32 :: u "is not found").
      rewrite printable_before by (split; vm_compute; intuition discriminate). split; [intros (K & _); apply K; lia|].
      intros K. split; [intros _; exact K|constructor]. }
    destruct (proj2 (logged_says (mkls l true) INVALID tr S)) as [(o & K)|K]; rewrite K.
    + split; [discriminate|]. intros N. exfalso. apply N, P. exists o. apply I, K.
    + split; [|reflexivity]. intros _ Q. apply P in Q as (o & J). apply I in J. congruence.
Qed.
Print Assumptions C181_lookup_log.

(** An id that is none: reported at DEBUG and INFO, always printable. *)
Theorem C181_id_log : forall ts id l,
  logged (mkls l true) (id_to_token_logged ts id) =
    Ok (nth (N.to_nat id) ts [],
        if (N.of_nat (length ts) <=? id) && (l <=? 1)%Z
        then u "token id " ++ decimal id ++ u " is not found (max=" ++ decimal (N.of_nat (length ts)) ++ u ")" ++ [10] else []).
Proof.
  intros ts id l. unfold id_to_token_logged, id_to_token_says. destruct (_ <=? id); cbn [andb].
  - rewrite quiet_logged.
    + unfold lines_at. cbn [map message_of guard rank Z.min Z.compare Pos.compare Pos.compare_cont filter fst].
      destruct (l <=? 1)%Z; [|reflexivity]. cbn [flat_map snd]. rewrite app_nil_r. repeat rewrite <- app_assoc. reflexivity.
    + repeat constructor; unfold text_of; cbn [message_of snd]; intros K;
        repeat (apply in_app_or in K as [K|K]); try (revert K; apply digits_not; lia); revert K; vm_compute; intuition discriminate.
  - reflexivity.
Qed.
Print Assumptions C181_id_log.

(** "Looking up never fails" is false with logging turned up. *)
Theorem C181_lookup_defined_refuted : exists v t,
  token_to_id v t = INVALID /\ logged (mkls 1 true) (token_to_id_logged v t) = UB /\
  logged log_start (token_to_id_logged v t) = Ok (INVALID, []).
Proof. exists voc0, (u "50%"). repeat split; vm_compute; reflexivity. Qed.
Print Assumptions C181_lookup_defined_refuted.

Example C181_example :
  logged (mkls 0 true) (token_to_id_logged voc0 (u "x%%y")) = Ok (INVALID, u "token x%y is not found" ++ [10]) /\
  logged (mkls 1 true) (id_to_token_logged [u "a"] 7) = Ok ([], u "token id 7 is not found (max=1)" ++ [10]).
Proof. split; vm_compute; reflexivity. Qed.

(** ** The whole log of a successful load *)

(** What is said about a special id: the spellings tried, and those that are no tokens. *)
Inductive announces (ts : list (list N)) : list N -> list (list N) -> list message -> Prop :=
| say_none name : announces ts name [] [(1%Z, name ++ u " does not exist in vocab")]
| say_found name a r : In a ts -> announces ts name (a :: r) [(2%Z, name ++ u " is not defined; use " ++ a ++ u " instead")]
| say_other name a r ms : ~ In a ts -> announces ts a r ms ->
    announces ts name (a :: r) ((2%Z, name ++ u " is not defined; use " ++ a ++ u " instead") ::
                                (1%Z, u "token " ++ a ++ u " is not found") :: ms).

Definition id_story (g : gguf) (ts : list (list N)) (w : key * list N * list (list N)) (ms : list message) : Prop :=
  ((exists n, stored g (fst (fst w)) = Some n /\ n <> INVALID) /\ ms = []) \/
  ((stored g (fst (fst w)) = None \/ stored g (fst (fst w)) = Some INVALID) /\ announces ts (snd (fst w)) (snd w) ms).

(** The line about a special id, and one before if it is none. *)
Definition special_lines (ts : list (list N)) (label : list N) (id : N) : list message :=
  id_lines (length ts) [id] ++
  [(1%Z, u "  " ++ label ++ decimal id ++ u " (" ++ nth (N.to_nat id) ts [] ++ u ")")].

Definition padded (b : bool) : list N := if b then u "true " else u "false".

Definition settings_text (f : tok_info) : list N :=
  u "  tokenizer_info {" ++ [10] ++
  u "    bool normalize = " ++ padded (t_normalize f) ++ u ";                 // ignored, always normalized with NFC" ++ [10] ++
  u "    bool remove_replacement_char = " ++ padded (t_rm_repl f) ++ u ";   // remove U+FFFD" ++ [10] ++
  u "    bool remove_null_char = " ++ padded (t_rm_null f) ++ u ";          // remove U+0000" ++ [10] ++
  u "    bool remove_control_char = " ++ padded (t_rm_ctrl f) ++ u ";       // remove control chars (category C*)" ++ [10] ++
  u "    bool normalize_whitespaces = " ++ padded (t_norm_ws f) ++ u ";     // convert all whitespaces to a normal space (U+0020)" ++ [10] ++
  u "    bool add_space_around_cjk_char = " ++ padded (t_cjk f) ++ u "; // add space around all CJK characters" ++ [10] ++
  u "    bool do_lower_case = " ++ padded (t_lower f) ++ u ";             // force input to be lowercase letters" ++ [10] ++
  u "    bool strip_accents = " ++ padded (t_accents f) ++ u ";             // remove all accent chars" ++ [10] ++
  u "    bool split_on_punc = " ++ padded (t_punct f) ++ u ";             // split words at a punctuation" ++ [10] ++
  u "  }".

Definition load_story (ts : list (list N)) (ann : list (list message)) (b : bvocab) (basic : bool) : list message :=
  [(1%Z, u "loading vocab"); (0%Z, u "  vocab count: " ++ decimal (N.of_nat (length ts)))] ++ concat ann ++
  special_lines ts (u "cls_id:  ") (v_cls b) ++ special_lines ts (u "mask_id: ") (v_mask b) ++
  special_lines ts (u "pad_id:  ") (v_pad b) ++ special_lines ts (u "sep_id:  ") (v_sep b) ++
  special_lines ts (u "unk_id:  ") (v_unk b) ++
  [(1%Z, u "  do_basic_tokenize = " ++ if basic then u "true" else u "false"); (1%Z, settings_text (v_cond b));
   (1%Z, u "finish loading vocab")].

Lemma alternates_story v ts : voc_ok v ts -> N.of_nat (length ts) < 4294967296 ->
  forall alts name ms, announces ts name alts ms -> map message_of (alternates_says v name alts) = ms.
Proof.
  intros V B. destruct (voc_find v ts V B) as (F1 & F2).
  induction alts as [|a r IH]; intros name ms A; cbn [alternates_says map].
  { inversion A; subst. reflexivity. }
  inversion A as [|nm x y HI|nm x y o0 HI A0]; subst.
  - assert (T : token_to_id v a <> INVALID).
    { apply In_nth_error in HI as (i & En). destruct (F1 (N.of_nat i) a) as (-> & K); [|exact K]. unfold entry. rewrite Nat2N.id. exact En. }
    unfold token_to_id_says. rewrite (proj2 (N.eqb_neq _ _) T). reflexivity.
  - unfold token_to_id_says. rewrite (F2 a HI), N.eqb_refl. cbn [app map]. rewrite (IH _ _ A0). reflexivity.
Qed.

Lemma id_story_says g v ts w ms : voc_ok v ts -> N.of_nat (length ts) < 4294967296 -> typed_u32 g (fst (fst w)) ->
  id_story g ts w ms -> map message_of (get_token_id_says g v (fst (fst w)) (snd (fst w)) (snd w)) = ms.
Proof.
  intros V B TY [((n & S & K) & ->)|(S & A)]; unfold get_token_id_says, gguf_u32;
    unfold stored in S; unfold typed_u32 in TY; destruct (g (fst (fst w))) as [[m|b|]|]; try discriminate S; try contradiction.
  - assert (m = n) as -> by congruence. rewrite (proj2 (N.eqb_neq _ _) K). reflexivity.
  - destruct S as [S|S]; [discriminate|]. assert (m = INVALID) as -> by congruence. rewrite N.eqb_refl.
    eapply alternates_story; eauto.
  - rewrite N.eqb_refl. eapply alternates_story; eauto.
Qed.

Lemma id_line_story v ts label id : i2t v = ts -> map message_of (id_line_says v label (Ok id)) = special_lines ts label id.
Proof.
  intros <-. unfold id_line_says, special_lines, id_to_token_says, id_lines. cbn [flat_map]. rewrite app_nil_r, map_app.
  unfold id_to_token. destruct (N.leb_spec (N.of_nat (length (i2t v))) id) as [H|H]; [|reflexivity].
  rewrite nth_overflow by lia. reflexivity.
Qed.

Theorem C185_stories_exist : forall g ts, (forall k, In k bert_keys -> typed_u32 g k) ->
  exists ann, Forall2 (id_story g ts) places ann.
Proof.
  intros g ts T.
  assert (A : forall alts name, exists ms, announces ts name alts ms).
  { induction alts as [|a r IH]; intros name; [eexists; constructor|].
    destruct (in_dec (list_eq_dec N.eq_dec) a ts) as [H|H]; [eexists; constructor; exact H|].
    destruct (IH a) as (o & K). eexists. eapply say_other; eauto. }
  assert (X : forall w, In (fst (fst w)) bert_keys -> exists ms, id_story g ts w ms).
  { intros w Hw. specialize (T _ Hw). unfold id_story, stored. unfold typed_u32 in T. destruct (g (fst (fst w))) as [[n|b|]|]; try contradiction.
    - destruct (N.eq_dec n INVALID) as [E|E]; [|exists []; left; split; [exists n; auto|reflexivity]].
      destruct (A (snd w) (snd (fst w))) as (o & K). exists o. right. split; [right; congruence|exact K].
    - destruct (A (snd w) (snd (fst w))) as (o & K). exists o. right. auto. }
  assert (Y : forall ws, Forall (fun w : key * list N * list (list N) => In (fst (fst w)) bert_keys) ws -> exists ann, Forall2 (id_story g ts) ws ann).
  { induction 1 as [|w ws H F (ann & IH)]; [exists []; constructor|]. destruct (X w H) as (ms & K). exists (ms :: ann). constructor; assumption. }
  apply Y. unfold places. repeat (apply Forall_cons; [simpl; auto 8|]). constructor.
Qed.
Print Assumptions C185_stories_exist.

(** C185: for every level the log of a load that succeeds; undefined exactly if a special
    id names a token that is no format, at DEBUG and INFO. *)
Theorem C185_load_log : forall g lens data ts b basic ann l,
  layout lens data ts -> NoDup ts -> N.of_nat (length ts) < 2 ^ 32 ->
  bert_init_vocab g (Some (mkt 1 T_I8 lens)) (Some (mkt 1 T_I8 data)) = Ok b ->
  (g K_basic = Some (KBool basic) \/ g K_basic = None /\ basic = true) ->
  Forall2 (id_story g ts) places ann ->
  let r := logged (mkls l true) (vocab_logged g lens data) in
  (forall o, r = Ok (Some b, o) <-> log_of l (load_story ts ann b basic) o) /\
  (r = UB <-> (l <= 1)%Z /\ exists id, In id [v_cls b; v_mask b; v_pad b; v_sep b; v_unk b] /\
                                       ~ printable_text (nth (N.to_nat id) ts [])).
Proof.
  intros g lens data ts b basic ann l LY ND B H HB FA.
  pose proof (C19_bert_outcomes g lens data ts LY ND B) as C. cbv zeta in C. rewrite H in C.
  destruct C as ((TU & _) & TB & _ & _ & VT & _).
  destruct (read_vocab_layout lens data ts LY ND) as (v & R & V).
  assert (R' : exists p, read_tokens lens data 0 voc0 = Ok (p, v) /\ (p =? N.of_nat (length data)) = true).
  { unfold i8, read_vocab in R. cbn [t_dims t_type t_data] in R. change (negb (1 =? 1) || negb (1 =? 1))%bool with false in R. cbv iota in R.
    destruct (read_tokens lens data 0 voc0) as [[p v']| | |]; try discriminate. exists p.
    destruct (p =? N.of_nat (length data)); [|discriminate]. split; [congruence|reflexivity]. }
  destruct R' as (p & R1 & R2).
  assert (RS : read_tokens_says lens data 0 voc0 = []).
  { revert R1. generalize voc0 0. clear. intros v0 p0. revert v0 p0. induction lens as [|b lens IH]; intros v0 p0; [reflexivity|].
    cbn [read_tokens read_tokens_says]. destruct (_ <? _); [discriminate|]. destruct (add_token _ _); [apply IH|discriminate]. }
  unfold bert_init_vocab in H. unfold i8 in R. rewrite R in H. cbn [obind] in H.
  assert (LL : length lens = length ts) by (clear -LY; induction LY; cbn; auto).
  pose proof (proj1 V) as I2.
  assert (IM : map message_of (init_says g v) = concat ann ++
    special_lines ts (u "cls_id:  ") (v_cls b) ++ special_lines ts (u "mask_id: ") (v_mask b) ++
    special_lines ts (u "pad_id:  ") (v_pad b) ++ special_lines ts (u "sep_id:  ") (v_sep b) ++
    special_lines ts (u "unk_id:  ") (v_unk b) ++
    [(1%Z, u "  do_basic_tokenize = " ++ if basic then u "true" else u "false"); (1%Z, settings_text (v_cond b))]).
  { unfold init_says. rewrite !map_app. f_equal.
    - change wanted_ids with places.
      assert (TY : Forall (fun w => typed_u32 g (fst (fst w))) places) by (repeat (apply Forall_cons; [apply TU; simpl; auto 6|]); constructor).
      clear -FA TY V B. revert TY. induction FA as [|w o ws os K F IH]; intros TY; [reflexivity|]. cbn [flat_map concat]. rewrite map_app.
      inversion TY; subst. f_equal; [eapply id_story_says; eauto|apply IH; assumption].
    - unfold bert_vocab_init in H.
      cbn [wanted_ids combine flat_map existsb fst snd].
      destruct (get_token_id g (token_to_id v) K_cls [s_CLS; s_s]) as [i1| | |]; try discriminate H. cbn [obind] in H.
      destruct (get_token_id g (token_to_id v) K_mask [s_MASK; s_mask]) as [i2| | |]; try discriminate H. cbn [obind] in H.
      destruct (get_token_id g (token_to_id v) K_pad [s_PAD; s_pad]) as [i3| | |]; try discriminate H. cbn [obind] in H.
      destruct (get_token_id g (token_to_id v) K_sep [s_SEP; s_es]) as [i4| | |]; try discriminate H. cbn [obind] in H.
      destruct (get_token_id g (token_to_id v) K_unk [s_UNK; s_unk]) as [i5| | |]; try discriminate H. cbn [obind] in H.
      destruct (i1 =? INVALID); [discriminate|]. destruct (i2 =? INVALID); [discriminate|]. destruct (i3 =? INVALID); [discriminate|].
      destruct (i4 =? INVALID); [discriminate|]. destruct (i5 =? INVALID); [discriminate|]. cbn [orb] in H |- *.
      rewrite !map_app, !(id_line_story v ts _ _ I2). rewrite <- !app_assoc. cbn [map app].
      destruct (gguf_bool g K_lower true) as [lower| | |]; try discriminate H. cbn [obind] in H.
      destruct (gguf_bool g K_basic true) as [bas| | |] eqn:EB; try discriminate H. cbn [obind] in H.
      destruct (gguf_bool g K_cjk true) as [cjk| | |]; try discriminate H. cbn [obind] in H.
      destruct (gguf_bool g K_accent lower) as [accents| | |]; try discriminate H. cbn [obind] in H.
      destruct (all_some _); [|discriminate]. destruct (length (i2t v) =? 0)%nat; [discriminate|].
      assert (bas = basic) as ->.
      { unfold gguf_bool in EB. destruct HB as [HB|(HB & ->)]; rewrite HB in EB; congruence. }
      injection H as <-. cbn [v_cls v_mask v_pad v_sep v_unk v_cond]. reflexivity. }
  assert (BV : bert_vocab_init g v = Ok b) by exact H.
  unfold vocab_logged. rewrite R1, R2. cbn [negb]. rewrite BV, RS.
  match goal with |- context [Ok (Some b, ?t)] => set (tr := t) end.
  assert (M : map message_of tr = load_story ts ann b basic).
  { subst tr. rewrite !map_app, IM. unfold load_story. rewrite LL. rewrite <- !app_assoc. reflexivity. }
  assert (S : Forall says tr).
  { subst tr. apply Forall_app; split; [repeat constructor|]. apply Forall_app; split; [apply says_init|repeat constructor]. }
  assert (I : forall o, logged (mkls l true) (Ok (Some b, tr)) = Ok (Some b, o) <-> log_of l (load_story ts ann b basic) o)
    by (intros o; rewrite <- M; apply logged_log, S).
  cbv zeta. split; [exact I|]. clearbody tr. clear IM H BV R1 R2 RS R.
  assert (PR : (exists o, log_of l (load_story ts ann b basic) o) <->
    ((l <= 1)%Z -> forall id, In id [v_cls b; v_mask b; v_pad b; v_sep b; v_unk b] -> printable_text (nth (N.to_nat id) ts []))).
  { rewrite log_exists.
    assert (HA : forall m : list N, harmless m -> printable_text m).
    { intros m K. destruct (harmless_cut m K) as (K1 & K2). exists m, m. auto. }
    assert (SL : forall label id, harmless label ->
      (Forall (fun x : message => (l <= fst x)%Z -> printable_text (snd x)) (special_lines ts label id) <->
       ((l <= 1)%Z -> printable_text (nth (N.to_nat id) ts [])))).
    { intros label id K. unfold special_lines. rewrite Forall_app.
      assert (X : printable_text (u "  " ++ label ++ decimal id ++ u " (" ++ nth (N.to_nat id) ts [] ++ u ")") <-> printable_text (nth (N.to_nat id) ts [])).
      { rewrite (app_assoc label), (app_assoc _ (u " (")), (app_assoc (u "  ")).
        rewrite printable_app; [apply (printable_before _ 41 []); split; vm_compute; intuition discriminate|].
        repeat apply harmless_app; try assumption; try apply decimal_harmless; split; vm_compute; intuition discriminate. }
      rewrite Forall_cons_iff. cbn [fst snd]. rewrite X. split; [intros (_ & K1 & _); exact K1|]. intros K1. split; [|split; [exact K1|constructor]].
      unfold id_lines. cbn [flat_map]. destruct (_ <=? _); [|constructor]. repeat constructor. intros _. cbn [snd]. apply HA.
      repeat apply harmless_app; try apply decimal_harmless; split; vm_compute; intuition discriminate. }
    assert (AN : Forall (fun x : message => (l <= fst x)%Z -> printable_text (snd x)) (concat ann)).
    { pose proof places_tidy as PT. clear -FA PT HA.
      assert (AS : forall alts name ms, harmless name -> Forall harmless alts -> announces ts name alts ms ->
                Forall (fun x : message => (l <= fst x)%Z -> printable_text (snd x)) ms).
      { induction alts as [|a r IH]; intros name ms Hn Ha A; inversion A as [|nm x y HI|nm x y o0 HI A0]; subst.
        - repeat constructor. intros _. apply HA. cbn [snd]. apply harmless_app; [exact Hn|split; vm_compute; intuition discriminate].
        - assert (harmless a) by (inversion Ha; assumption). repeat constructor. intros _. apply HA. cbn [snd].
          repeat apply harmless_app; try assumption; split; vm_compute; intuition discriminate.
        - assert (harmless a /\ Forall harmless r) as (K1 & K2) by (inversion Ha; auto).
          apply Forall_cons; [|apply Forall_cons; [|eapply IH; eauto]]; intros _; apply HA; cbn [snd];
            repeat apply harmless_app; try assumption; split; vm_compute; intuition discriminate. }
      revert PT. induction FA as [|w o ws os K F IH]; intros PT; [constructor|]. cbn [concat]. apply Forall_app.
      inversion PT as [|? ? (T1 & T2) PT']; subst. split; [|apply IH; assumption].
      destruct K as [(_ & ->)|(_ & K)]; [constructor|]. eapply AS; eauto. }
    unfold load_story. rewrite !Forall_app, !SL by (split; vm_compute; intuition discriminate). split.
    - intros (_ & _ & K1 & K2 & K3 & K4 & K5 & _) Hl id Hid. destruct Hid as [<-|[<-|[<-|[<-|[<-|[]]]]]]; auto.
    - intros K. split; [|split; [exact AN|]].
      + repeat constructor; intros _; cbn [snd]; apply HA; repeat apply harmless_app; try apply decimal_harmless; split; vm_compute; intuition discriminate.
      + do 5 (split; [intros Hl; apply K; [exact Hl|simpl; auto 8]|]).
        repeat constructor; intros _; cbn [snd]; apply HA.
        * apply harmless_app; [|destruct basic]; split; vm_compute; intuition discriminate.
        * unfold settings_text. repeat apply harmless_app; try (unfold padded; destruct (_ (v_cond b))); split; vm_compute; intuition discriminate.
        * split; vm_compute; intuition discriminate. }
  destruct (proj2 (logged_says (mkls l true) (Some b) tr S)) as [(o & K)|K]; rewrite K.
  - split; [discriminate|]. intros (Hl & id & Hid & NP). exfalso. apply NP. revert id Hid NP. intros id Hid _.
    revert id Hid. apply PR; [exists o; apply I, K|exact Hl].
  - split; [|reflexivity]. intros _.
    assert (NE : ~ exists o, log_of l (load_story ts ann b basic) o) by (intros (o & J); apply I in J; congruence).
    rewrite PR in NE.
    destruct (Z.leb_spec l 1) as [Hl|Hl]; [|exfalso; apply NE; intros Hl'; lia]. split; [exact Hl|].
    destruct (P_Says.all_printable (map (fun id => nth (N.to_nat id) ts []) [v_cls b; v_mask b; v_pad b; v_sep b; v_unk b])) as [J|(t & J1 & J2)].
    + exfalso. apply NE. intros _ id Hid. rewrite Forall_forall in J. apply J, (in_map (fun id => nth (N.to_nat id) ts [])), Hid.
    + apply in_map_iff in J1 as (id & <- & J1). exists id. auto.
Qed.
Print Assumptions C185_load_log.

Example C185_example :
  let ts := [u "[CLS]"; u "<mask>"; u "[PAD]"; u "%s"; u "[UNK]"] in
  let g := fun k => match k with K_sep => Some (KU32 3) | _ => None end in
  (exists b, logged log_start (vocab_logged g [5; 6; 5; 2; 5] (concat ts)) =
    Ok (Some b, u "berts.cls_id is not defined; use [CLS] instead" ++ [10] ++
              u "berts.mask_id is not defined; use [MASK] instead" ++ [10] ++
              u "[MASK] is not defined; use <mask> instead" ++ [10] ++
              u "berts.pad_id is not defined; use [PAD] instead" ++ [10] ++
              u "berts.unk_id is not defined; use [UNK] instead" ++ [10])) /\
  logged (mkls 1 true) (vocab_logged g [5; 6; 5; 2; 5] (concat ts)) = UB.
Proof.
  split; [|vm_compute; reflexivity].
  exists (mkbv [u "[CLS]"; u "<mask>"; u "[PAD]"; u "%s"; u "[UNK]"] 0 1 2 3 4 (make_info true true true true)). vm_compute. reflexivity.
Qed.
