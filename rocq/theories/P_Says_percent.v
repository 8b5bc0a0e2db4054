(** At level DEBUG a RoBERTa prompt without percent sign that is tokenized leaves the log defined. *)
From Verif Require Import Base Assoc Utf_model Ustr_model Utf_proofs Bert_model Vocab_model Bpe_model Roberta_model Roberta_spec Log_model.
From Verif Require Import Says_model Says_roberta_model Says_rdebug_model Log_spec Says_spec P_Log Says_proofs P_Tool_text P_Says_debug P_Says_rdebug P_Says_merges.
From Verif Require P_Roberta P_Says_roberta Roberta_proofs Bpe_load_proofs Says_load_spec.
Local Open Scope N_scope.

Definition free (l : list N) : Prop := ~ In 37 l.
Definition clean (c : log_call) : Prop := match c with Plain _ m | Formatted _ m => free m | _ => True end.

Lemma free_incl a b : incl a b -> free b -> free a.
Proof. intros I F K. exact (F (I _ K)). Qed.

Lemma dec16_free : forall n us cs, (length us <= n)%nat -> dec16 us = Some cs -> free us -> free cs.
Proof.
  induction n as [|n IH]; intros us cs Hn E F; (destruct us as [|c us]; [injection E as <-; intros []|]); cbn [length] in Hn; [lia|].
  cbn [dec16] in E. destruct (is_low c); [discriminate|]. destruct (is_high c).
  - destruct us as [|l us]; [discriminate|]. destruct (is_low l); [|discriminate]. destruct (dec16 us) as [cs0|] eqn:D; [|discriminate].
    injection E as <-. intros [K|K]; [unfold pair_value in K; lia|]. cbn [length] in Hn.
    refine (IH us cs0 _ D _ K); [lia|]. intros K'. apply F. right. right. exact K'.
  - destruct (dec16 us) as [cs0|] eqn:D; [|discriminate]. injection E as <-. intros [K|K]; [apply F; left; exact K|].
    refine (IH us cs0 _ D _ K); [lia|]. intros K'. apply F. right. exact K'.
Qed.
Lemma enc8s_free cs : free cs -> free (enc8s cs).
Proof.
  intros F K. unfold enc8s in K. apply in_flat_map in K as (c & Hc & K). revert K. apply enc8_free. intros ->. exact (F Hc).
Qed.
Lemma encode_free us : free us -> free (encode us).
Proof.
  intros F. unfold encode. destruct (dec16 us) as [cs|] eqn:E; [|intros []]. apply enc8s_free. exact (dec16_free _ us cs (le_n _) E F).
Qed.
Lemma enc16s_free cs : free cs -> free (enc16s cs).
Proof.
  intros F K. unfold enc16s in K. apply in_flat_map in K as (c & Hc & K). unfold enc16 in K. destruct (c <? 0x10000).
  - destruct K as [->|[]]. exact (F Hc).
  - destruct K as [K|[K|[]]]; revert K; generalize ((c - 0x10000) / 1024) ((c - 0x10000) mod 1024); intros; lia.
Qed.

(** The text of a part, with or without blanks at its end. *)
Lemma part_free ws (b : bool) part us us' : from_utf8 part = Some us -> (if b then rstrip ws us else Some us) = Some us' -> free part -> free us'.
Proof.
  unfold from_utf8. destruct (dec8 part) as [cs|] eqn:D; [|discriminate]. cbn [option_map]. intros E. injection E as <-.
  apply dec8_some in D as (<- & SC). intros E F.
  assert (FC : free cs).
  { intros K. apply F. unfold enc8s. apply in_flat_map. exists 37. split; [exact K|left; reflexivity]. }
  destruct b; [|injection E as <-; apply enc16s_free; exact FC].
  unfold rstrip in E. rewrite (codepoints_enc16s false cs SC) in E. unfold from_utf32 in E.
  destruct (forallb scalar _); [|discriminate]. injection E as <-. apply enc16s_free. apply (free_incl _ cs); [|exact FC].
  intros x Hx. apply in_rev in Hx. apply in_rev. revert Hx. generalize (rev cs). clear. intros l. induction l as [|c l IH]; [intros []|].
  cbn [drop_ws]. destruct (ws c); [intros K; right; exact (IH K)|auto].
Qed.

Lemma firstn_incl {A} n : forall l : list A, incl (firstn n l) l.
Proof. induction n as [|n IH]; intros [|x l] y; cbn [firstn]; try contradiction. intros [->|K]; [left; reflexivity|right; exact (IH l y K)]. Qed.
Lemma skipn_incl {A} n : forall l : list A, incl (skipn n l) l.
Proof. induction n as [|n IH]; intros [|x l] y; cbn [skipn]; auto. intros K. right. exact (IH l y K). Qed.

Lemma split_free us : free us -> forall ms cur, Forall free (fst (split_loop us cur ms)).
Proof.
  intros F. induction ms as [|[[st en]|] ms IH]; intros cur; cbn [split_loop].
  - destruct (Nat.ltb cur (length us)); constructor; [|constructor]. exact (free_incl _ _ (skipn_incl _ _) F).
  - cbv zeta. specialize (IH en). destruct (split_loop us en ms) as [ps n]. cbn [fst] in *.
    assert (G : forall a b, free (firstn a (skipn b us))).
    { intros a b. apply (free_incl _ us); [|exact F]. intros x Hx. exact (skipn_incl _ _ _ (firstn_incl _ _ _ Hx)). }
    destruct (Nat.ltb cur st); [apply Forall_app; split; [repeat constructor; apply G|]|]; constructor; try apply G; exact IH.
  - constructor.
Qed.

Lemma bytes_free bs t : encode_bytes bs = Ok t -> free bs -> free t.
Proof.
  intros E F. assert (D : forall b, {b < 0x80} + {~ b < 0x80}) by (intros b; destruct (b <? 0x80) eqn:L; [left|right]; lia).
  destruct (Forall_dec (fun b => b < 0x80) D bs) as [A|A]; [|rewrite (Roberta_proofs.encode_bytes_ub bs A) in E; discriminate].
  rewrite (Roberta_proofs.encode_bytes_ascii bs A) in E. injection E as <-. intros K. apply in_map_iff in K as (c & K & Hc).
  unfold byte_symbol in K. destruct (printable_b c); [subst c; exact (F Hc)|lia].
Qed.

Lemma joined_free : forall l, free (joined l).
Proof.
  induction l as [|i [|j l] IH]; [intros []|apply decimal_free|]. change (joined (i :: j :: l)) with (decimal i ++ u " " ++ joined (j :: l)).
  apply app_free; [apply decimal_free|]. apply app_free; [vm_compute; intuition discriminate|exact IH].
Qed.

Ltac texts := repeat first [apply app_free | apply decimal_free | assumption | (vm_compute; intuition discriminate)].

Lemma process_clean b top syms : Forall clean (process_says b top syms).
Proof.
  unfold process_says. destruct (nth_error syms (e_index top)) as [s|]; [|constructor]. destruct (s_len s =? 0); [constructor|].
  destruct (s_next s) as [np|]; [|constructor]. destruct (nth_error syms np) as [r|]; [|constructor].
  destruct (bpe_merge b (s_id s, s_id r)) as [[x nid]|]; [|constructor]. destruct (negb _); constructor; [|constructor].
  change (free (u "  * merge (" ++ decimal (s_id s) ++ u ", " ++ decimal (s_id r) ++ u ") -> " ++ decimal (e_new top))). unfold free. texts.
Qed.
Lemma loop_clean b pick : forall fuel coins q skip syms, Forall clean (merge_loop_says b pick fuel coins q skip syms).
Proof.
  induction fuel as [|fuel IH]; intros coins q skip syms; [constructor|]. cbn [merge_loop_says].
  destruct (pick q) as [[top q1]|]; [|constructor]. cbv zeta. destruct (_ && _); [apply IH|].
  apply Forall_app. split; [apply process_clean|]. destruct (process b top (skip ++ q1) syms) as [[q2 syms']| | |]; try constructor. apply IH.
Qed.
Lemma word_clean b pick fuel coins cache text : free text -> Forall clean (tokenize_cached_says b pick fuel coins cache text).
Proof.
  intros F. apply enc8s_free in F. unfold tokenize_cached_says. apply Forall_app. split.
  { constructor; [vm_compute; intuition discriminate|]. constructor; [|constructor].
    change (free (u "  text = """ ++ enc8s text ++ u """")). unfold free in *. texts. }
  destruct text as [|c text]; [constructor|].
  destruct (match b_dropout b with DZero => lookup list_N_eqb (c :: text) cache | _ => None end); [constructor|]. cbv zeta.
  apply Forall_app. split.
  { constructor; [|constructor]. match goal with |- clean (Formatted Debug (_ ++ joined ?l ++ _)) => pose proof (joined_free l) as J;
      change (free (u "  id = (" ++ joined l ++ u ")")) end. unfold free in *. texts. }
  apply Forall_app. split; [apply loop_clean|].
  destruct (merge_word _ _ _ _ _) as [[r| | |]|]; try constructor; [vm_compute; intuition discriminate|constructor].
Qed.

Section Tokenize.
Context (engine : list N -> list (option (nat * nat))) (ws : N -> bool) (pick : picker).

Lemma pieces_clean b : forall ss cache x tr, Forall free ss -> pieces_full pick b cache ss = Ok (Some x, tr) -> Forall clean tr.
Proof.
  induction ss as [|s ss IH]; intros cache x tr F; cbn [pieces_full]; [intros E; injection E as _ <-; constructor|].
  apply Forall_cons_iff in F as (Fs & F).
  destruct (encode_bytes (encode s)) as [t| | |] eqn:ET; try discriminate. cbn [obind]. cbv zeta.
  set (sys := tokenize_cached_says b pick (S (4 * length t)) (fun _ => true) cache t).
  assert (D : Forall clean sys) by (apply word_clean; exact (bytes_free _ _ ET (encode_free _ Fs))). clearbody sys.
  destruct (tokenize_cached b pick (S (4 * length t)) (fun _ => true) cache t) as [[[ts cache']| | |]|]; try discriminate.
  destruct (pieces_full pick b cache' ss) as [[[r|] tr0]| | |] eqn:E; try discriminate. cbn [obind fst snd option_map].
  intros X. injection X as _ <-. apply Forall_app. split; [exact D|exact (IH _ _ _ F E)].
Qed.

Lemma parts_clean v mask : forall parts cache ids tr, Forall (fun p : bool * list N => free (snd p)) parts ->
  parts_full engine ws pick v mask cache parts = Ok (ids, true, tr) -> Forall clean tr.
Proof.
  induction parts as [|[special part] parts IH]; intros cache ids tr F; cbn [parts_full].
  { intros E. apply (f_equal (fun o => match o with Ok p => snd p | _ => [] end)) in E. cbn [snd] in E. rewrite <- E.
    constructor; [vm_compute; intuition discriminate|constructor]. }
  apply Forall_cons_iff in F as (Fp & F). cbn [snd] in Fp.
  cbv zeta. destruct (from_utf8 part) as [us|] eqn:EU; [|discriminate].
  destruct (if match parts with (true, p) :: _ => list_N_eqb p mask | _ => false end then rstrip ws us else Some us) as [us'|] eqn:ER; [|discriminate].
  pose proof (part_free _ _ _ _ _ EU ER Fp) as FU. destruct special.
  - destruct (token_to_id (rv_voc v) part =? INVALID); [discriminate|].
    destruct (parts_full engine ws pick v mask cache parts) as [[[ids0 ok] tr0]| | |] eqn:E; try discriminate. cbn [obind].
    intros X. injection X as _ -> <-. constructor; [|exact (IH _ _ _ F E)].
    pose proof (encode_free _ FU) as FE. change (free (u "special token: " ++ encode us' ++ u " (" ++ decimal (token_to_id (rv_voc v) part) ++ u ")")).
    unfold free in *. texts.
  - destruct (pieces_full pick (rv_bpe v) cache (fst (regex_split us' (engine us')))) as [[[[ts cache']|] tr0]| | |] eqn:EP; try discriminate.
    apply pieces_clean in EP. 2:{ unfold regex_split. pose proof (split_free us' FU (engine us') 0) as Q. destruct (split_loop us' 0 (engine us')). exact Q. }
    cbn [obind fst snd].
    destruct (ids_logged (rv_voc v) ts) as [[ids1 ok] tr1] eqn:EI. destruct ok; [|discriminate].
    destruct (parts_full engine ws pick v mask cache' parts) as [[[ids2 ok2] tr2]| | |] eqn:E; try discriminate. cbn [obind].
    intros X. injection X as _ -> <-. apply Forall_app. split; [exact EP|exact (IH _ _ _ F E)].
Qed.

Context (sporder : list (list N) -> list (list N)).

Lemma id_clean ts i : Forall clean (id_to_token_says ts i).
Proof.
  unfold id_to_token_says. destruct (_ <=? _); constructor; [|constructor].
  change (free (u "token id " ++ decimal i ++ u " is not found (max=" ++ decimal (N.of_nat (length ts)) ++ u ")")). unfold free. texts.
Qed.

(** C216: a prompt without percent sign that is tokenized leaves the log defined at level DEBUG,
    whatever the tokens of the model are. *)
Theorem C216_no_percent_defined : forall v max text ids tr, ~ In 37 text ->
  r_berts_tokenize_full engine ws pick sporder v max text = Some (Ok (Some ids, tr)) ->
  exists o, logged (mkls 0 true) (Ok (Some ids, tr)) = Ok (Some ids, o).
Proof.
  intros v max text ids tr HF E.
  destruct (N.eq_dec (r_cls (rv_sp v)) INVALID) as [HC|HC].
  { unfold r_berts_tokenize_full in E. cbv zeta in E. rewrite HC, N.eqb_refl in E. discriminate. }
  destruct (N.eq_dec (r_sep (rv_sp v)) INVALID) as [HS|HS].
  { unfold r_berts_tokenize_full in E. cbv zeta in E. rewrite (proj2 (N.eqb_neq _ _) HC), HS, N.eqb_refl in E. discriminate. }
  destruct (full_shape engine ws pick sporder v max text _ tr HC HS E) as (S & _).
  assert (C : Forall clean tr).
  { revert E. unfold r_berts_tokenize_full. cbv zeta. rewrite (proj2 (N.eqb_neq _ _) HC), (proj2 (N.eqb_neq _ _) HS).
    unfold r_tokenize_full. destruct (special_tokens v) as [keep| | |]; try discriminate.
    destruct (split_specials (length text) (sporder keep) [] text) as [parts|] eqn:EP; [|discriminate]. cbn [option_map].
    destruct (r_id_to_token (rv_voc v) (r_mask (rv_sp v))) as [mask| | |]; try discriminate. cbn [obind]. cbv zeta.
    destruct (parts_full engine ws pick v mask [] parts) as [[[ids0 ok] tr0]| | |] eqn:E; try discriminate. cbn [obind]. destruct ok; [|discriminate].
    intros X. apply (f_equal (fun o => match o with Some (Ok p) => snd p | _ => [] end)) in X. cbv beta match in X. cbn [snd] in X. rewrite <- X. clear X.
    apply split_concat in EP. cbn [app] in EP.
    assert (PF : Forall (fun p : bool * list N => free (snd p)) parts).
    { apply Forall_forall. intros p Hp K. apply HF. rewrite <- EP. apply in_concat. exists (snd p). split; [apply in_map; exact Hp|exact K]. }
    apply Forall_app. split.
    - apply Forall_app. split; [cbn [flat_map]; repeat (apply Forall_app; split; [apply id_clean|]); constructor|].
      apply Forall_app. split; [constructor; [vm_compute; intuition discriminate|constructor]|].
      apply Forall_app. split; [|apply Forall_app; split; [apply id_clean|exact (parts_clean _ _ _ _ _ _ PF E)]].
      unfold subtexts_says. constructor; [vm_compute; intuition discriminate|]. apply Forall_map. revert PF. apply Forall_impl. intros [sp p] Fp. cbn [snd] in Fp.
      change (free (u "    """ ++ p ++ u """ " ++ (if sp then u "*" else []))). unfold free in *. destruct sp; texts.
    - destruct (max <? _); constructor; [|constructor]. 
      match goal with |- clean (Formatted Warn (_ ++ decimal ?n ++ _)) =>
        change (free (u "Token count (" ++ decimal n ++ u ") is larger than the max_position_embeddings (" ++ decimal max ++
              u "). Calling eval() with this sequence will cause a failure.")) end. unfold free. texts. }
  assert (L : exists o, log_of 0 (map message_of tr) o).
  { apply log_exists. apply Forall_map. revert C. apply Forall_impl. intros c Hc _.
    destruct c as [l|b|l m|l m]; cbn [message_of snd]; try (apply printable_free; intros []); apply printable_free; exact Hc. }
  destruct L as (o & L). exists o. apply (logged_log 0 (Some ids) tr o S). exact L.
Qed.
End Tokenize.
Print Assumptions C216_no_percent_defined.

Example C216_example : ~ In 37 (u "ab a<mask>") /\
  exists o, yd_log 0 P_Roberta.r_demo 512 (u "ab a<mask>") = Some (Ok (Some [0; 7; 8; 9; 2], o)) /\ ~ In 37 o.
Proof. split; [vm_compute; intuition discriminate|]. eexists. split; [vm_compute; reflexivity|]. vm_compute. intuition discriminate. Qed.
