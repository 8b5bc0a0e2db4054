(** Theorems about what tokenizing with a RoBERTa model writes to the log at level DEBUG. *)
From Verif Require Import Base Assoc Utf_model Ustr_model Bert_model Vocab_model Bpe_model Roberta_model Log_model.
From Verif Require Import Says_model Says_roberta_model Says_rdebug_model Log_spec Vocab_spec Says_spec P_Log Says_proofs Says_eval_proofs Vocab_proofs.
From Verif Require Import P_Says_vocab P_Tool_text P_Says_debug.
From Verif Require P_Roberta P_Says_roberta Roberta_proofs Bpe_load_proofs Says_load_spec.
Local Open Scope N_scope.

(** ** The messages of level DEBUG *)

Definition debug_only (tr : list log_call) : Prop := filter no_debug tr = [].

Lemma debug_app a b : debug_only a -> debug_only b -> debug_only (a ++ b).
Proof. unfold debug_only. intros A B. rewrite filter_app, A, B. reflexivity. Qed.

Lemma process_debug b top syms : debug_only (process_says b top syms).
Proof.
  unfold process_says. destruct (nth_error syms (e_index top)) as [s|]; [|reflexivity]. destruct (s_len s =? 0); [reflexivity|].
  destruct (s_next s) as [np|]; [|reflexivity]. destruct (nth_error syms np) as [r|]; [|reflexivity].
  destruct (bpe_merge b (s_id s, s_id r)) as [[x nid]|]; [|reflexivity]. destruct (negb _); reflexivity.
Qed.

Lemma loop_debug b pick : forall fuel coins q skip syms, debug_only (merge_loop_says b pick fuel coins q skip syms).
Proof.
  induction fuel as [|fuel IH]; intros coins q skip syms; [reflexivity|]. cbn [merge_loop_says].
  destruct (pick q) as [[top q1]|]; [|reflexivity]. cbv zeta. destruct (_ && _); [apply IH|].
  apply debug_app; [apply process_debug|]. destruct (process b top (skip ++ q1) syms) as [[q2 syms']| | |]; try reflexivity. apply IH.
Qed.

Lemma cached_debug b pick fuel coins cache text : debug_only (tokenize_cached_says b pick fuel coins cache text).
Proof.
  unfold tokenize_cached_says. apply debug_app; [reflexivity|]. destruct text as [|c text]; [reflexivity|].
  destruct (match b_dropout b with DZero => lookup list_N_eqb (c :: text) cache | _ => None end); [reflexivity|]. cbv zeta. apply debug_app; [reflexivity|].
  apply debug_app; [apply loop_debug|]. destruct (merge_word _ _ _ _ _) as [[r| | |]|]; reflexivity.
Qed.

Section Tokenize.
Context (engine : list N -> list (option (nat * nat))) (ws : N -> bool) (pick : picker).

(** [full] and [part] end alike and say the same from INFO on. *)
Definition agrees {A} (full part : outcome (A * list log_call)) : Prop :=
  match full with
  | Ok (a, tr) => exists tr', part = Ok (a, tr') /\ filter no_debug tr' = filter no_debug tr
  | Fail => part = Fail
  | UB => part = UB
  | Abort => part = Abort
  end.

Lemma pieces_agree b : forall ss cache, agrees (pieces_full pick b cache ss) (pieces_logged pick b cache ss).
Proof.
  induction ss as [|s ss IH]; intros cache; cbn [pieces_full pieces_logged]; [exists []; split; reflexivity|].
  destruct (encode_bytes (encode s)) as [t| | |]; try reflexivity. cbn [obind]. cbv zeta.
  set (says := tokenize_cached_says b pick (S (4 * length t)) (fun _ => true) cache t).
  assert (D : filter no_debug says = []) by apply cached_debug.
  destruct (tokenize_cached b pick (S (4 * length t)) (fun _ => true) cache t) as [[[ts cache']| | |]|]; try reflexivity.
  - specialize (IH cache'). destruct (pieces_full pick b cache' ss) as [[r tr]| | |]; cbn [agrees obind] in *; [|rewrite IH; reflexivity..].
    destruct IH as (tr' & -> & F). cbn [obind fst snd]. eexists. split; [reflexivity|]. rewrite filter_app, D, F. reflexivity.
  - eexists. split; [reflexivity|]. rewrite filter_app, D. reflexivity.
Qed.

(** Successful pieces say nothing from INFO on. *)
Lemma pieces_quiet b : forall ss cache x tr, pieces_logged pick b cache ss = Ok (Some x, tr) -> tr = [].
Proof.
  induction ss as [|s ss IH]; intros cache x tr; cbn [pieces_logged]; [intros E; injection E as _ <-; reflexivity|].
  destruct (encode_bytes (encode s)) as [t| | |]; try discriminate. cbn [obind].
  destruct (tokenize_cached b pick (S (4 * length t)) (fun _ => true) cache t) as [[[ts cache']| | |]|]; try discriminate.
  destruct (pieces_logged pick b cache' ss) as [[[r|] tr0]| | |] eqn:E; try discriminate. cbn [obind fst snd option_map].
  intros X. injection X as _ <-. exact (IH _ _ _ E).
Qed.

Lemma parts_agree v mask : forall parts cache, agrees (parts_full engine ws pick v mask cache parts) (parts_logged engine ws pick v mask cache parts).
Proof.
  induction parts as [|[special part] parts IH]; intros cache; cbn [parts_full parts_logged]; [exists []; split; reflexivity|]. cbv zeta.
  destruct (from_utf8 part) as [us|]; [|reflexivity].
  destruct (if match parts with (true, p) :: _ => list_N_eqb p mask | _ => false end then rstrip ws us else Some us) as [us'|]; [|reflexivity]. destruct special.
  - destruct (token_to_id (rv_voc v) part =? INVALID); [eexists; split; reflexivity|].
    specialize (IH cache). destruct (parts_full engine ws pick v mask cache parts) as [[[ids ok] tr]| | |]; cbn [agrees obind] in *; [|rewrite IH; reflexivity..].
    destruct IH as (tr' & -> & F). cbn [obind]. eexists. split; [reflexivity|]. cbn [filter no_debug]. exact F.
  - pose proof (pieces_agree (rv_bpe v) (fst (regex_split us' (engine us'))) cache) as Q.
    destruct (pieces_full pick (rv_bpe v) cache (fst (regex_split us' (engine us')))) as [[r tr]| | |]; cbn [agrees obind] in *; [|rewrite Q; reflexivity..].
    destruct Q as (tr' & EP & F). rewrite EP. cbn [obind fst snd]. destruct r as [[ts cache']|]; [|eexists; split; [reflexivity|exact F]].
    apply pieces_quiet in EP. subst tr'. cbn [filter] in F. destruct (ids_logged (rv_voc v) ts) as [[ids ok] tr1]. destruct ok.
    + specialize (IH cache'). destruct (parts_full engine ws pick v mask cache' parts) as [[[ids2 ok2] tr2]| | |]; cbn [agrees obind] in *; [|rewrite IH; reflexivity..].
      destruct IH as (tr' & -> & F2). cbn [obind]. eexists. split; [reflexivity|]. rewrite filter_app, <- F, F2. reflexivity.
    + eexists. split; [reflexivity|]. rewrite filter_app, <- F. reflexivity.
Qed.

Context (sporder : list (list N) -> list (list N)).

Lemma subtexts_debug parts : filter no_debug (subtexts_says parts) = [].
Proof. unfold subtexts_says. cbn [filter no_debug]. induction parts as [|p parts IH]; [reflexivity|]. cbn [map filter no_debug]. exact IH. Qed.

Lemma says_split a b : Forall says a -> Forall says b -> Forall says (a ++ b).
Proof. intros A B. apply Forall_app. split; assumption. Qed.
Lemma id_says ts i : Forall says (id_to_token_says ts i).
Proof. unfold id_to_token_says. destruct (_ <=? _); constructor; [exact Logic.I|constructor]. Qed.
Lemma to_id_says v t : Forall says (token_to_id_says v t).
Proof. unfold token_to_id_says. destruct (_ =? _); constructor; [exact Logic.I|constructor]. Qed.
Lemma debug_says tr : debug_only tr -> Forall says tr.
Proof. intros D. apply says_filter. rewrite D. constructor. Qed.

Lemma ids_says v : forall ts ids ok tr, ids_logged v ts = (ids, ok, tr) -> Forall says tr.
Proof.
  induction ts as [|t ts IH]; intros ids ok tr; cbn [ids_logged]; [intros E; injection E as _ _ <-; constructor|]. cbv zeta.
  destruct (token_to_id v (enc8s t) =? INVALID).
  - intros X. apply (f_equal snd) in X. cbn [snd] in X. rewrite <- X. apply says_split; [apply to_id_says|]. constructor; [exact Logic.I|constructor].
  - destruct (ids_logged v ts) as [[ids0 ok0] tr0] eqn:E. intros X. injection X as _ _ <-. exact (IH _ _ _ eq_refl).
Qed.
Lemma pieces_says b : forall ss cache x tr, pieces_full pick b cache ss = Ok (x, tr) -> Forall says tr.
Proof.
  induction ss as [|s ss IH]; intros cache x tr; cbn [pieces_full]; [intros E; injection E as _ <-; constructor|].
  destruct (encode_bytes (encode s)) as [t| | |]; try discriminate. cbn [obind]. cbv zeta.
  set (sys := tokenize_cached_says b pick (S (4 * length t)) (fun _ => true) cache t).
  assert (D : Forall says sys) by (apply debug_says, cached_debug). clearbody sys.
  destruct (tokenize_cached b pick (S (4 * length t)) (fun _ => true) cache t) as [[[ts cache']| | |]|]; try discriminate.
  - destruct (pieces_full pick b cache' ss) as [[r tr0]| | |] eqn:E; try discriminate. cbn [obind fst snd].
    intros X. injection X as _ <-. apply says_split; [exact D|exact (IH _ _ _ E)].
  - intros X. apply (f_equal (fun o => match o with Ok p => snd p | _ => [] end)) in X. cbn [snd] in X. rewrite <- X.
    apply says_split; [exact D|]. constructor; [exact Logic.I|constructor].
Qed.
Lemma parts_says v mask : forall parts cache x tr, parts_full engine ws pick v mask cache parts = Ok (x, tr) -> Forall says tr.
Proof.
  induction parts as [|[special part] parts IH]; intros cache x tr; cbn [parts_full].
  { intros E. injection E as _ <-. constructor; [exact Logic.I|constructor]. }
  cbv zeta. destruct (from_utf8 part) as [us|]; [|discriminate].
  destruct (if match parts with (true, p) :: _ => list_N_eqb p mask | _ => false end then rstrip ws us else Some us) as [us'|]; [|discriminate]. destruct special.
  - destruct (token_to_id (rv_voc v) part =? INVALID).
    + intros X. apply (f_equal (fun o => match o with Ok p => snd p | _ => [] end)) in X. cbn [snd] in X. rewrite <- X.
      apply says_split; [apply to_id_says|]. constructor; [exact Logic.I|constructor].
    + destruct (parts_full engine ws pick v mask cache parts) as [[[ids ok] tr0]| | |] eqn:E; try discriminate. cbn [obind].
      intros X. injection X as _ <-. constructor; [exact Logic.I|exact (IH _ _ _ E)].
  - destruct (pieces_full pick (rv_bpe v) cache (fst (regex_split us' (engine us')))) as [[r tr0]| | |] eqn:EP; try discriminate.
    apply pieces_says in EP. cbn [obind fst snd]. destruct r as [[ts cache']|]; [|intros X; injection X as _ <-; exact EP].
    destruct (ids_logged (rv_voc v) ts) as [[ids ok] tr1] eqn:EI. destruct ok.
    + destruct (parts_full engine ws pick v mask cache' parts) as [[[ids2 ok2] tr2]| | |] eqn:E; try discriminate. cbn [obind].
      intros X. injection X as _ <-. apply says_split; [exact EP|exact (IH _ _ _ E)].
    + intros X. injection X as _ <-. apply says_split; [exact EP|exact (ids_says _ _ _ _ _ EI)].
Qed.

Lemma regroup {A} (a b c d e f : list A) : (a ++ b ++ c ++ d ++ e) ++ f = (a ++ b) ++ c ++ (d ++ e ++ f).
Proof. rewrite <- !app_assoc. reflexivity. Qed.

(** What the whole call says. *)
Lemma full_shape v max text x tr : r_cls (rv_sp v) <> INVALID -> r_sep (rv_sp v) <> INVALID ->
  r_berts_tokenize_full engine ws pick sporder v max text = Some (Ok (x, tr)) ->
  Forall says tr /\ exists keep parts pre post, split_specials (length text) keep [] text = Some parts /\ tr = pre ++ subtexts_says parts ++ post.
Proof.
  intros HC HS. unfold r_berts_tokenize_full. cbv zeta. rewrite (proj2 (N.eqb_neq _ _) HC), (proj2 (N.eqb_neq _ _) HS).
  unfold r_tokenize_full. destruct (special_tokens v) as [keep| | |]; try discriminate.
  destruct (split_specials (length text) (sporder keep) [] text) as [parts|] eqn:EP; [|discriminate]. cbn [option_map].
  destruct (r_id_to_token (rv_voc v) (r_mask (rv_sp v))) as [mask| | |]; try discriminate. cbn [obind]. cbv zeta.
  destruct (parts_full engine ws pick v mask [] parts) as [[[ids ok] tr0]| | |] eqn:E; try discriminate. cbn [obind].
  intros X. assert (X' := f_equal (fun o => match o with Some (Ok p) => snd p | _ => [] end) X). cbv beta match in X'. cbn [snd] in X'. rewrite <- X'. clear X X'. split.
  - apply says_split; [|destruct (max <? _); constructor; [exact Logic.I|constructor]].
    apply says_split; [cbn [flat_map]; repeat (apply says_split; [apply id_says|]); constructor|].
    apply says_split; [constructor; [exact Logic.I|constructor]|].
    apply says_split; [apply debug_says; exact (subtexts_debug parts)|]. apply says_split; [apply id_says|exact (parts_says _ _ _ _ _ _ E)].
  - exists (sporder keep), parts. do 2 eexists. split; [exact EP|]. apply regroup.
Qed.

(** C213: the messages of level DEBUG add to the log of tokenizing and change nothing else. *)
Theorem C213_tokenize : forall v max text,
  match r_berts_tokenize_full engine ws pick sporder v max text, r_berts_tokenize_logged engine ws pick sporder v max text with
  | Some full, Some part => with_debug full part
  | None, None => True
  | _, _ => False
  end.
Proof.
  intros v max text.
  destruct (N.eq_dec (r_cls (rv_sp v)) INVALID) as [HC|HC].
  { unfold r_berts_tokenize_full, r_berts_tokenize_logged. cbv zeta. rewrite HC, N.eqb_refl. cbn [with_debug].
    split; [constructor; [exact Logic.I|constructor]|]. eexists; split; reflexivity. }
  destruct (N.eq_dec (r_sep (rv_sp v)) INVALID) as [HS|HS].
  { unfold r_berts_tokenize_full, r_berts_tokenize_logged. cbv zeta. rewrite HS, N.eqb_refl, (proj2 (N.eqb_neq _ _) HC). cbn [with_debug].
    split; [constructor; [exact Logic.I|constructor]|]. eexists; split; reflexivity. }
  assert (A : match r_berts_tokenize_full engine ws pick sporder v max text, r_berts_tokenize_logged engine ws pick sporder v max text with
    | Some full, Some part => agrees full part | None, None => True | _, _ => False end).
  { unfold r_berts_tokenize_full, r_berts_tokenize_logged. cbv zeta. rewrite (proj2 (N.eqb_neq _ _) HC), (proj2 (N.eqb_neq _ _) HS).
    unfold r_tokenize_full, r_tokenize_logged. destruct (special_tokens v) as [keep| | |]; try reflexivity.
    destruct (split_specials (length text) (sporder keep) [] text) as [parts|]; [|exact Logic.I]. cbn [option_map].
    destruct (r_id_to_token (rv_voc v) (r_mask (rv_sp v))) as [mask| | |]; try reflexivity. cbn [obind]. cbv zeta.
    pose proof (parts_agree v mask parts []) as Q.
    destruct (parts_full engine ws pick v mask [] parts) as [[[ids ok] tr]| | |]; cbn [agrees obind] in *; [|rewrite Q; reflexivity..].
    destruct Q as (tr' & -> & F). cbn [obind]. eexists. split; [reflexivity|].
    rewrite !(filter_app no_debug), subtexts_debug, F. reflexivity. }
  pose proof (full_shape v max text) as SH.
  destruct (r_berts_tokenize_full engine ws pick sporder v max text) as [full|]; [|exact A].
  destruct (r_berts_tokenize_logged engine ws pick sporder v max text) as [part|]; [|exact A].
  destruct full as [[x tr]| | |]; try exact A. cbn [with_debug]. split; [exact (proj1 (SH x tr HC HS eq_refl))|exact A].
Qed.

(** From INFO on the log is the one of Says_roberta_model. *)
Theorem C213_log : forall l b v max text, (1 <= l)%Z ->
  option_map (logged (mkls l b)) (r_berts_tokenize_full engine ws pick sporder v max text) =
  option_map (logged (mkls l b)) (r_berts_tokenize_logged engine ws pick sporder v max text).
Proof.
  intros l b v max text Hl. pose proof (C213_tokenize v max text) as H.
  destruct (r_berts_tokenize_full engine ws pick sporder v max text) as [full|], (r_berts_tokenize_logged engine ws pick sporder v max text) as [part|];
    try contradiction; [|reflexivity].
  cbn [option_map]. f_equal. apply debug_same; assumption.
Qed.

(** ** C214: at level DEBUG the prompt is a format *)

Lemma flush_concat tmp : concat (map snd (flush tmp)) = tmp.
Proof. destruct tmp; [reflexivity|]. cbn. rewrite app_nil_r. reflexivity. Qed.

Lemma split_concat keep : forall fuel tmp rest ps, split_specials fuel keep tmp rest = Some ps -> concat (map snd ps) = tmp ++ rest.
Proof.
  induction fuel as [|fuel IH]; intros tmp rest ps; destruct rest as [|c rest]; cbn [split_specials]; try discriminate;
    try (intros E; injection E as <-; rewrite flush_concat, app_nil_r; reflexivity).
  destruct (find (fun k => begins k (c :: rest)) keep) as [k|] eqn:EF.
  - destruct (split_specials fuel keep [] (skipn (length k) (c :: rest))) as [ps0|] eqn:E; [|discriminate].
    cbn [option_map]. intros X. injection X as <-. apply IH in E. rewrite map_app, concat_app, flush_concat. cbn [map concat snd]. rewrite E.
    apply find_some in EF as (_ & B). apply Roberta_proofs.begins_iff in B. destruct B as (r & ->).
    rewrite skipn_app, skipn_all, Nat.sub_diag. reflexivity.
  - intros E. apply IH in E. rewrite E, <- app_assoc. reflexivity.
Qed.

Lemma escaped_det m p q : escaped m p -> escaped m q -> p = q.
Proof. intros A B. apply escaped_fun in A, B. congruence. Qed.
Lemma cut_all m t : ~ In 0 m -> cut_at_nul m t -> t = m.
Proof. intros H (_ & [E|(r & E)]); [congruence|]. exfalso. apply H. rewrite E. apply in_or_app. right. left. reflexivity. Qed.

(** The line about one part, with [p] for the text in quotes. *)
Definition shown_line (s : bool * list N) : list N := Says_load_spec.line (u "    """ ++ snd s ++ u """ " ++ (if fst s then u "*" else [])).

Lemma subtexts_shown : forall parts o, ~ In 0 (concat (map snd parts)) ->
  log_of 0 (map message_of (map (fun p : bool * list N => Formatted Debug (u "    """ ++ snd p ++ u """ " ++ (if fst p then u "*" else []))) parts)) o ->
  exists shown, o = concat (map shown_line shown) /\ map fst shown = map fst parts /\ escaped (concat (map snd parts)) (concat (map snd shown)).
Proof.
  induction parts as [|[st p] parts IH]; intros o H0 L.
  - exists []. cbn [map] in L. inversion L. repeat split; constructor.
  - cbn [map concat snd fst] in H0, L. cbn [message_of] in L. apply log_cons in L as [(K & _)|(_ & t & q & o' & C & E & L & ->)]; [cbn in K; lia|].
    assert (H1 : ~ In 0 p) by (intros K; apply H0, in_or_app; left; exact K).
    assert (H2 : ~ In 0 (concat (map snd parts))) by (intros K; apply H0, in_or_app; right; exact K).
    destruct (IH o' H2 L) as (shown & -> & F & E').
    assert (t = u "    """ ++ p ++ u """ " ++ (if st then u "*" else [])) as ->.
    { apply cut_all; [|exact C]. intros K. apply in_app_or in K as [K|K]; [revert K; vm_compute; intuition discriminate|].
      apply in_app_or in K as [K|K]; [exact (H1 K)|]. revert K. destruct st; vm_compute; intuition discriminate. }
    apply escaped_app_inv in E as (q1 & -> & E); [|vm_compute; intuition discriminate].
    change (u """ " ++ (if st then u "*" else [])) with (34 :: (u " " ++ (if st then u "*" else []))) in E.
    destruct (escaped_both p 34 _ q1 ltac:(discriminate) E) as ((a & Ea) & (b & Eb)).
    assert (q1 = a ++ b) by (eapply escaped_det; [exact E|apply escaped_join; assumption]). subst q1.
    assert (b = 34 :: (u " " ++ (if st then u "*" else []))) as ->.
    { eapply escaped_det; [exact Eb|]. rewrite <- (app_nil_r (34 :: (u " " ++ (if st then u "*" else [])))).
      apply escaped_app; [destruct st; vm_compute; intuition discriminate|constructor]. }
    exists ((st, a) :: shown). split; [|split].
    + cbn [map concat]. unfold shown_line at 2, Says_load_spec.line. cbn [fst snd]. rewrite <- !app_assoc. reflexivity.
    + cbn [map fst]. rewrite F. reflexivity.
    + cbn [map concat snd]. apply escaped_join; assumption.
Qed.

Lemma log_split l a b o : log_of l (a ++ b) o -> exists oa ob, o = oa ++ ob /\ log_of l a oa /\ log_of l b ob.
Proof.
  intros H. assert (Q := proj1 (log_exists l _) (ex_intro _ o H)). apply Forall_app in Q as (A & B).
  apply (proj2 (log_exists l a)) in A as (oa & A). apply (proj2 (log_exists l b)) in B as (ob & B).
  exists oa, ob. split; [exact (log_fun _ _ _ _ H (log_app _ _ _ _ _ A B))|split; assumption].
Qed.

(** What a call at level DEBUG that is defined writes about the parts of the prompt makes up what
    printing the prompt as a format gives. *)
Theorem C214_subtexts : forall v max text r x o,
  r_cls (rv_sp v) <> INVALID -> r_sep (rv_sp v) <> INVALID -> ~ In 0 text ->
  r_berts_tokenize_full engine ws pick sporder v max text = Some r -> logged (mkls 0 true) r = Ok (x, o) ->
  exists pre shown post,
    o = pre ++ Says_load_spec.line (u "  subtexts:") ++ concat (map shown_line shown) ++ post /\
    escaped text (concat (map snd shown)).
Proof.
  intros v max text r x o HC HS H0 E L. destruct r as [[a tr]| | |]; try discriminate.
  destruct (full_shape v max text a tr HC HS E) as (S & keep & parts & A & B & SP & ->).
  apply split_concat in SP. cbn [app] in SP. assert (x = a) as -> by exact (proj1 (logged_says (mkls 0 true) a _ S) x o L).
  apply (logged_log 0 a _ o S) in L. rewrite !map_app in L. apply log_split in L as (oa & o1 & -> & _ & L).
  apply log_split in L as (om & ob & -> & L & _). unfold subtexts_says in L. rewrite map_cons in L.
  apply (log_split 0 [message_of (Plain Debug (u "  subtexts:"))]) in L as (h & os & -> & LH & L).
  apply subtexts_shown in L as (shown & -> & _ & ES); [|rewrite SP; exact H0].
  exists oa, shown, ob. split; [|rewrite <- SP; exact ES]. rewrite <- app_assoc. f_equal. f_equal.
  eapply log_fun; [exact LH|]. unfold Says_load_spec.line. cbn [message_of]. apply (log_line 0 0%Z _ [] (u "  subtexts:") (u "  subtexts:") []); [lia| | |constructor].
  - split; [vm_compute; intuition discriminate|left; reflexivity].
  - rewrite <- (app_nil_r (u "  subtexts:")). apply escaped_app; [vm_compute; intuition discriminate|constructor].
Qed.

(** Whatever the vocabulary and the end of the call, tokenizing a prompt in which fprintf finds
    a conversion is undefined at level DEBUG. *)
Theorem C214_prompt_is_format : forall v max text x tr,
  r_cls (rv_sp v) <> INVALID -> r_sep (rv_sp v) <> INVALID -> ~ In 0 text -> ~ printable_text text ->
  r_berts_tokenize_full engine ws pick sporder v max text = Some (Ok (x, tr)) ->
  logged (mkls 0 true) (Ok (x, tr)) = UB.
Proof.
  intros v max text x tr HC HS H0 HP E. destruct (full_shape v max text x tr HC HS E) as (S & _).
  destruct (proj2 (logged_says (mkls 0 true) x tr S)) as [(o & L)|L]; [|exact L]. exfalso. apply HP.
  destruct (C214_subtexts v max text _ x o HC HS H0 E L) as (pre & shown & post & _ & ES).
  exists text, (concat (map snd shown)). split; [split; [exact H0|left; reflexivity]|exact ES].
Qed.
End Tokenize.
Print Assumptions C213_tokenize.
Print Assumptions C213_log.
Print Assumptions C214_subtexts.
Print Assumptions C214_prompt_is_format.

(** ** Examples *)

Definition yd_log (l : Z) (rv : rvocab) (max : N) (text : list N) : option (outcome (option (list N) * list N)) :=
  option_map (logged (mkls l true))
    (r_berts_tokenize_full P_Roberta.one_match P_Roberta.is_space Bpe_load_proofs.pick_max (fun l => l) rv max text).

(** What is written at each level, with the merges. *)
Example C213_example :
  yd_log 1 P_Roberta.r_demo 512 (u "ab a<mask>") = Some (Ok (Some [0; 7; 8; 9; 2], Says_load_spec.line (u "tokenization start"))) /\
  yd_log 0 P_Roberta.r_demo 512 (u "ab a<mask>") = Some (Ok (Some [0; 7; 8; 9; 2],
    concat (map Says_load_spec.line
      [u "tokenization start"; u "  subtexts:"; u "    ""ab a"" "; u "    ""<mask>"" *"; u "start BPE tokenization";
       u "  text = ""ab" ++ [0xc4; 0xa0] ++ u "a"""; u "  id = (4 5 6 4)"; u "  * merge (4, 5) -> 7"; u "  * merge (6, 4) -> 8";
       u "finish BPE tokenization"; u "special token: <mask> (9)"; u "finish tokenization"]))).
Proof. vm_compute. split; reflexivity. Qed.

(** Two percent signs are one in the log. *)
Example C214_subtexts_example :
  r_cls (rv_sp P_Roberta.r_demo) <> INVALID /\ r_sep (rv_sp P_Roberta.r_demo) <> INVALID /\ ~ In 0 (u "a%%<mask>") /\
  yd_log 0 P_Roberta.r_demo 512 (u "a%%<mask>") = Some (Ok (Some [0; 4; 3; 9; 2],
    Says_load_spec.line (u "tokenization start") ++ Says_load_spec.line (u "  subtexts:") ++
    concat (map shown_line [(false, u "a%"); (true, u "<mask>")]) ++
    concat (map Says_load_spec.line
      [u "start BPE tokenization"; u "  text = ""a%"""; u "  id = (4 3)"; u "finish BPE tokenization"; u "special token: <mask> (9)"; u "finish tokenization"]))).
Proof. vm_compute. repeat split; try reflexivity; intuition discriminate. Qed.

Lemma bare_percent : ~ printable_text (u "a%").
Proof.
  intros (t & p & C & E). apply cut_all in C; [|vm_compute; intuition discriminate]. subst t.
  change (u "a%") with ([97] ++ [37]) in E. apply escaped_app_inv in E as (q & _ & E); [|vm_compute; intuition discriminate].
  inversion E. congruence.
Qed.

(** A prompt that is tokenized at the default level. *)
Example C214_example :
  r_cls (rv_sp P_Roberta.r_demo) <> INVALID /\ r_sep (rv_sp P_Roberta.r_demo) <> INVALID /\ ~ In 0 (u "a%") /\ ~ printable_text (u "a%") /\
  yd_log 1 P_Roberta.r_demo 512 (u "a%") = Some (Ok (Some [0; 4; 3; 2], Says_load_spec.line (u "tokenization start"))) /\
  yd_log 0 P_Roberta.r_demo 512 (u "a%") = Some UB.
Proof.
  split; [vm_compute; discriminate|]. split; [vm_compute; discriminate|]. split; [vm_compute; intuition discriminate|].
  split; [exact bare_percent|]. split; vm_compute; reflexivity.
Qed.
