(** Theorems about what tokenizing with a RoBERTa model writes to the log. *)
From Verif Require Import Base Utf_model Ustr_model Bert_model Vocab_model Bpe_model Roberta_model Log_model.
From Verif Require Import Says_model Says_roberta_model Log_spec Vocab_spec Says_spec P_Log Says_proofs Says_eval_proofs Vocab_proofs.
From Verif Require Import P_Says_vocab Says_load_spec Says_load_lines Api_model.
From Verif Require P_Roberta Bpe_load_proofs.
Local Open Scope N_scope.

(** ** Erasing the log *)

Section Erase.
Context (engine : list N -> list (option (nat * nat))) (ws : N -> bool) (pick : picker).

Lemma pieces_erase b : forall ss cache,
  match pieces_logged pick b cache ss with
  | Ok (Some q, tr) => bpe_pieces pick b cache ss = Ok q /\ tr = []
  | Ok (None, tr) => bpe_pieces pick b cache ss = Fail /\ exists s, tr = [Formatted Error (u "failed to tokenize: " ++ encode s)]
  | Fail => False
  | UB => bpe_pieces pick b cache ss = UB
  | Abort => bpe_pieces pick b cache ss = Abort
  end.
Proof.
  assert (NF : forall bs, encode_bytes bs <> Fail).
  { induction bs as [|c bs IH]; [discriminate|]. cbn [encode_bytes]. unfold encode_byte. destruct (c <? 128); [|discriminate].
    cbn [obind]. destruct (encode_bytes bs); try discriminate. congruence. }
  induction ss as [|s ss IH]; intros cache; [split; reflexivity|]. cbn [pieces_logged bpe_pieces].
  pose proof (NF (encode s)) as E. destruct (encode_bytes (encode s)) as [t| | |]; cbn [obind]; try reflexivity; [|congruence].
  destruct (tokenize_cached b pick _ _ cache t) as [[[ts cache']| | |]|]; cbn [obind]; try reflexivity.
  2: { split; [reflexivity|]. exists s. reflexivity. }
  specialize (IH cache'). destruct (pieces_logged pick b cache' ss) as [[[q|] tr]| | |]; cbn [obind fst snd option_map].
  - destruct IH as (IH & ->). rewrite IH. destruct q as [a c]. split; reflexivity.
  - destruct IH as (IH & s' & ->). rewrite IH. split; [reflexivity|]. exists s'. reflexivity.
  - exact IH.
  - rewrite IH. reflexivity.
  - rewrite IH. reflexivity.
Qed.

(** How a failure is told. *)
Definition told_by (v : voc) (tr : list log_call) : Prop :=
  (exists s, tr = [Formatted Error (u "failed to tokenize: " ++ encode s)]) \/
  exists t m, ~ In t (i2t v) /\ tr = [Formatted Error (u "token " ++ t ++ u " is not found"); Formatted Error m] /\
    (m = u "failed to tokenize: " ++ t \/ exists us, from_utf8 t = Some us /\
       exists us', (us' = us \/ rstrip ws us = Some us') /\ m = u "unknown special token: """ ++ encode us' ++ u """").

Definition consistent (v : voc) : Prop := forall t, token_to_id v t = INVALID -> ~ In t (i2t v).

Lemma ids_erase v : consistent v -> forall ts ids ok tr, ids_logged v ts = (ids, ok, tr) ->
  if ok then ids_of v ts = Ok ids /\ tr = [] else ids_of v ts = Fail /\ told_by v tr.
Proof.
  intros HV. induction ts as [|t ts IH]; intros ids ok tr H; cbn [ids_logged ids_of] in *.
  - injection H as <- <- <-. split; reflexivity.
  - destruct (N.eqb_spec (token_to_id v (enc8s t)) INVALID) as [E|E].
    + injection H as <- <- <-. split; [reflexivity|]. right. exists (enc8s t), (u "failed to tokenize: " ++ enc8s t).
      split; [apply HV, E|]. split; [|left; reflexivity]. unfold token_to_id_says. rewrite (proj2 (N.eqb_eq _ _) E). reflexivity.
    + destruct (ids_logged v ts) as [[ids' ok'] tr']. injection H as <- <- <-. specialize (IH _ _ _ eq_refl).
      destruct ok'; destruct IH as (-> & IH); (split; [reflexivity|exact IH]).
Qed.

Lemma parts_erase v mask : consistent (rv_voc v) -> forall parts cache,
  match parts_logged engine ws pick v mask cache parts with
  | Ok (ids, true, tr) => do_parts engine ws pick v mask cache parts = Ok ids /\ tr = []
  | Ok (ids, false, tr) => do_parts engine ws pick v mask cache parts = Fail /\ told_by (rv_voc v) tr
  | Fail => False
  | UB => do_parts engine ws pick v mask cache parts = UB
  | Abort => do_parts engine ws pick v mask cache parts = Abort
  end.
Proof.
  intros HV. induction parts as [|[special part] parts IH]; intros cache; [split; reflexivity|].
  cbn [parts_logged do_parts]. destruct (from_utf8 part) as [us|] eqn:Eu; [|reflexivity].
  set (bm := match parts with (true, p) :: _ => list_N_eqb p mask | _ => false end).
  destruct (if bm then rstrip ws us else Some us) as [us'|] eqn:Er; [|reflexivity].
  destruct special.
  - destruct (N.eqb_spec (token_to_id (rv_voc v) part) INVALID) as [E|E].
    + split; [reflexivity|]. right. exists part, (u "unknown special token: """ ++ encode us' ++ u """").
      split; [apply HV, E|]. split; [unfold token_to_id_says; rewrite (proj2 (N.eqb_eq _ _) E); reflexivity|].
      right. exists us. split; [exact Eu|]. exists us'. split; [|reflexivity].
      destruct bm; [right; exact Er|left; congruence].
    + specialize (IH cache). destruct (parts_logged engine ws pick v mask cache parts) as [[[ids ok] tr]| | |]; cbn [obind]; try contradiction.
      * destruct ok; destruct IH as (-> & IH); cbn [obind]; (split; [reflexivity|exact IH]).
      * rewrite IH. reflexivity.
      * rewrite IH. reflexivity.
  - pose proof (pieces_erase (rv_bpe v) (fst (regex_split us' (engine us'))) cache) as PE.
    destruct (pieces_logged pick (rv_bpe v) cache (fst (regex_split us' (engine us')))) as [[[[ts cache']|] tr]| | |]; cbn [obind fst snd]; try contradiction.
    + destruct PE as (-> & ->). cbn [obind]. destruct (ids_logged (rv_voc v) ts) as [[ids ok] tr] eqn:EI.
      apply (ids_erase _ HV) in EI. destruct ok.
      * destruct EI as (-> & ->). cbn [obind]. specialize (IH cache').
        destruct (parts_logged engine ws pick v mask cache' parts) as [[[ids' ok'] tr']| | |]; cbn [obind]; try contradiction.
        -- destruct ok'; destruct IH as (-> & IH); cbn [obind]; (split; [reflexivity|exact IH]).
        -- rewrite IH. reflexivity.
        -- rewrite IH. reflexivity.
      * destruct EI as (-> & EI). split; [reflexivity|exact EI].
    + destruct PE as (-> & s & ->). split; [reflexivity|]. left. exists s. reflexivity.
    + rewrite PE. reflexivity.
    + rewrite PE. reflexivity.
Qed.
End Erase.

Definition r_specials (s : rspecial) : list N := [r_bos s; r_eos s; r_cls s; r_mask s; r_pad s; r_sep s; r_unk s].

Lemma consistent_loaded g ts rv : Roberta_proofs.loaded g ts rv -> N.of_nat (length ts) < 2 ^ 32 -> consistent (rv_voc rv).
Proof.
  intros LD B t E K. pose proof (Roberta_proofs.ld_voc _ _ _ LD) as V. destruct (voc_find _ _ V B) as (F & _).
  rewrite (proj1 V) in K. apply In_nth_error in K as (n & K).
  destruct (F (N.of_nat n) t) as (F1 & F2); [|congruence]. unfold Vocab_spec.entry. rewrite Nat2N.id. exact K.
Qed.

(** Messages in front of those about the text. *)
Definition front_messages (count : nat) (s : rspecial) : list message :=
  id_lines count (r_specials s) ++ [(1%Z, u "tokenization start")] ++ id_lines count [r_mask s].

Lemma says_ids tokens ids : map message_of (flat_map (id_to_token_says tokens) ids) = id_lines (length tokens) ids.
Proof.
  unfold id_lines. induction ids as [|i ids IH]; [reflexivity|]. cbn [flat_map]. rewrite map_app, IH. f_equal.
  unfold id_to_token_says. destruct (_ <=? i); reflexivity.
Qed.
Lemma says_id tokens i : map message_of (id_to_token_says tokens i) = id_lines (length tokens) [i].
Proof. rewrite <- says_ids. cbn [flat_map]. rewrite app_nil_r. reflexivity. Qed.
Lemma says_count max n : map message_of (if max <? n
   then [Formatted Warn (u "Token count (" ++ decimal n ++ u ") is larger than the max_position_embeddings ("
           ++ decimal max ++ u "). Calling eval() with this sequence will cause a failure.")] else []) = count_lines max n.
Proof. unfold count_lines. destruct (max <? n); reflexivity. Qed.

Lemma front_says v s : map message_of (flat_map (fun id => id_to_token_says (i2t v) id) (r_specials s)
    ++ [Plain Info (u "tokenization start")] ++ id_to_token_says (i2t v) (r_mask s)) = front_messages (length (i2t v)) s.
Proof. rewrite !map_app, says_ids, says_id. reflexivity. Qed.

Section Whole.
Context (engine : list N -> list (option (nat * nat))) (ws : N -> bool) (pick : picker).

(** The call with its trace. *)
Lemma whole sporder v max text : consistent (rv_voc v) -> r_cls (rv_sp v) <> INVALID -> r_sep (rv_sp v) <> INVALID ->
  let front := front_messages (length (i2t (rv_voc v))) (rv_sp v) in
  match r_tokenize engine ws pick sporder v text with
  | None => r_berts_tokenize_logged engine ws pick sporder v max text = None
  | Some (Ok ids) => exists tr : list log_call, r_berts_tokenize_logged engine ws pick sporder v max text =
        Some (Ok (Some ([r_cls (rv_sp v)] ++ ids ++ [r_sep (rv_sp v)]), tr)) /\ Forall says tr /\
        map message_of tr = front ++ count_lines max (N.of_nat (length ids) + 2)
  | Some Fail => exists (ids : list N) told tr, r_berts_tokenize_logged engine ws pick sporder v max text = Some (Ok (None, tr)) /\ Forall says tr /\
        told_by ws (rv_voc v) told /\ map message_of tr = front ++ map message_of told ++ count_lines max (N.of_nat (length ids) + 1)
  | Some UB => r_berts_tokenize_logged engine ws pick sporder v max text = Some UB
  | Some Abort => r_berts_tokenize_logged engine ws pick sporder v max text = Some Abort
  end.
Proof.
  intros HV HC HS. unfold r_tokenize, r_tokenize_from, r_berts_tokenize_logged, r_tokenize_logged.
  rewrite (proj2 (N.eqb_neq _ _) HC), (proj2 (N.eqb_neq _ _) HS).
  assert (SI : forall i, Forall says (id_to_token_says (i2t (rv_voc v)) i)).
  { intros i. unfold id_to_token_says. destruct (_ <=? i); repeat constructor. }
  assert (SF : Forall says (flat_map (fun id => id_to_token_says (i2t (rv_voc v)) id) (r_specials (rv_sp v)) ++ [Plain Info (u "tokenization start")]
      ++ id_to_token_says (i2t (rv_voc v)) (r_mask (rv_sp v)))).
  { apply Forall_app; split; [apply Forall_flat_map; exact SI|]. apply Forall_app; split; [repeat constructor|apply SI]. }
  assert (SC : forall n, Forall says (if max <? n
   then [Formatted Warn (u "Token count (" ++ decimal n ++ u ") is larger than the max_position_embeddings ("
           ++ decimal max ++ u "). Calling eval() with this sequence will cause a failure.")] else [])).
  { intros n. destruct (max <? n); repeat constructor. }
  destruct (special_tokens v) as [keep| | |] eqn:K; try reflexivity.
  2: { exfalso. revert K. unfold special_tokens.
       assert (D : forall i, r_id_to_token (rv_voc v) i <> Fail) by (intros i; unfold r_id_to_token, decode_token; destruct (from_utf8 _); discriminate).
       pose proof (D (r_bos (rv_sp v))). pose proof (D (r_eos (rv_sp v))). pose proof (D (r_cls (rv_sp v))). pose proof (D (r_mask (rv_sp v))).
       pose proof (D (r_pad (rv_sp v))). pose proof (D (r_sep (rv_sp v))). pose proof (D (r_unk (rv_sp v))).
       repeat match goal with |- context [obind (r_id_to_token ?w ?i) _] => destruct (r_id_to_token w i); cbn [obind]; try congruence end. }
  destruct (split_specials (length text) (sporder keep) [] text) as [parts|]; [|reflexivity].
  destruct (r_id_to_token (rv_voc v) (r_mask (rv_sp v))) as [mask| | |] eqn:Em; cbn [obind option_map]; try reflexivity.
  2: { exfalso. revert Em. unfold r_id_to_token, decode_token. destruct (from_utf8 _); discriminate. }
  pose proof (parts_erase engine ws pick v mask HV parts []) as PE.
  destruct (parts_logged engine ws pick v mask [] parts) as [[[ids ok] tr]| | |]; cbn [obind option_map]; try contradiction.
  - destruct ok; destruct PE as (-> & PE).
    + subst tr. eexists. split; [reflexivity|]. rewrite app_nil_r. split.
      * apply Forall_app; split; [exact SF|apply SC].
      * rewrite map_app, says_count. change (flat_map _ _) with (flat_map (fun id => id_to_token_says (i2t (rv_voc v)) id) (r_specials (rv_sp v))).
        rewrite front_says. do 2 f_equal. rewrite !app_length. cbn [length]. lia.
    + exists ids, tr. eexists. split; [reflexivity|].
      assert (ST : Forall says tr) by (destruct PE as [(s & ->)|(t & m & _ & -> & _)]; repeat constructor).
      split; [|split; [exact PE|]].
      * apply Forall_app; split; [|apply SC]. rewrite !app_assoc. apply Forall_app; split; [rewrite <- app_assoc; exact SF|exact ST].
      * rewrite map_app, says_count. rewrite !(app_assoc (flat_map _ _)), app_assoc, map_app. rewrite <- (app_assoc (flat_map _ _)).
        change (flat_map _ _) with (flat_map (fun id => id_to_token_says (i2t (rv_voc v)) id) (r_specials (rv_sp v))).
        rewrite front_says, <- app_assoc. do 3 f_equal. rewrite !app_length. cbn [length]. lia.
  - rewrite PE. reflexivity.
  - rewrite PE. reflexivity.
Qed.
End Whole.

(** ** Theorems *)

Lemma ids_harmless count ids : Forall (fun x : message => harmless (snd x)) (id_lines count ids).
Proof.
  unfold id_lines. apply Forall_flat_map. intros i. destruct (_ <=? i); repeat constructor.
  - cbn [snd]. repeat apply harmless_app; try apply decimal_harmless; split; vm_compute; intuition discriminate.
  - cbn [snd]. repeat apply harmless_app; try apply decimal_harmless; split; vm_compute; intuition discriminate.
Qed.
Lemma count_harmless max n : Forall (fun x : message => harmless (snd x)) (count_lines max n).
Proof.
  unfold count_lines. destruct (max <? n); repeat constructor;
    cbn [snd]; repeat apply harmless_app; try apply decimal_harmless; split; vm_compute; intuition discriminate.
Qed.
Lemma front_harmless count s : Forall (fun x : message => harmless (snd x)) (front_messages count s).
Proof.
  unfold front_messages. apply Forall_app; split; [apply ids_harmless|]. apply Forall_app; split; [|apply ids_harmless].
  repeat constructor; cbn [snd]; vm_compute; intuition discriminate.
Qed.
Lemma front_low count s o : log_of 2 (front_messages count s) o -> o = [].
Proof.
  intros H. assert (L : log_of 2 (front_messages count s) []).
  { apply log_filter. replace (filter _ _) with (@nil message); [constructor|]. unfold front_messages. rewrite !filter_app.
    assert (I : forall ids, filter (fun x : message => (2 <=? fst x)%Z) (id_lines count ids) = []).
    { induction ids as [|i ids IH]; [reflexivity|]. unfold id_lines in *. cbn [flat_map]. rewrite filter_app. destruct (_ <=? i); exact IH. }
    rewrite !I. reflexivity. }
  exact (log_fun _ _ _ _ H L).
Qed.

(** C192: tokenizing with a loaded vocabulary gives the same ids whatever is logged, at
    every level; the log is the ids outside of the vocabulary among the special ones, one
    line for the start, the mask id again, and the hint if there are too many tokens. *)
Theorem C192_success_log : forall engine ws pick sporder g ts rv max text l ids,
  Roberta_proofs.loaded g ts rv -> N.of_nat (length ts) < 2 ^ 32 ->
  r_cls (rv_sp rv) <> INVALID -> r_sep (rv_sp rv) <> INVALID ->
  r_tokenize engine ws pick sporder rv text = Some (Ok ids) ->
  exists r o, r_berts_tokenize_logged engine ws pick sporder rv max text = Some r /\
    logged (mkls l true) r = Ok (Some ([r_cls (rv_sp rv)] ++ ids ++ [r_sep (rv_sp rv)]), o) /\
    log_of l (front_messages (length ts) (rv_sp rv) ++ count_lines max (N.of_nat (length ids) + 2)) o.
Proof.
  intros engine ws pick sporder g ts rv max text l ids LD B HC HS T.
  pose proof (whole engine ws pick sporder rv max text (consistent_loaded _ _ _ LD B) HC HS) as W. cbv zeta in W.
  rewrite T in W. destruct W as (tr & E & S & M). rewrite (proj1 (Roberta_proofs.ld_voc _ _ _ LD)) in M.
  assert (X : exists o, log_of l (map message_of tr) o).
  { rewrite M. eexists. apply lines_log. apply Forall_app; split; [apply front_harmless|apply count_harmless]. }
  destruct X as (o & X). exists (Ok (Some ([r_cls (rv_sp rv)] ++ ids ++ [r_sep (rv_sp rv)]), tr)), o. split; [exact E|]. split.
  - apply (logged_log l _ tr o S). exact X.
  - rewrite <- M. exact X.
Qed.
Print Assumptions C192_success_log.

(** C193: a refusal by the tokenizer. At the default level only the hint can be written,
    the call is always defined, and the answer is false. *)
Theorem C193_refusal_default_log : forall engine ws pick sporder g ts rv max text,
  Roberta_proofs.loaded g ts rv -> N.of_nat (length ts) < 2 ^ 32 ->
  r_cls (rv_sp rv) <> INVALID -> r_sep (rv_sp rv) <> INVALID ->
  r_tokenize engine ws pick sporder rv text = Some Fail ->
  exists r n o, r_berts_tokenize_logged engine ws pick sporder rv max text = Some r /\
    logged log_start r = Ok (None, o) /\ log_of 2 (count_lines max (n + 1)) o.
Proof.
  intros engine ws pick sporder g ts rv max text LD B HC HS T.
  pose proof (whole engine ws pick sporder rv max text (consistent_loaded _ _ _ LD B) HC HS) as W. cbv zeta in W.
  rewrite T in W. destruct W as (ids & told & tr & E & S & TB & M).
  assert (X : exists o, log_of 2 (count_lines max (N.of_nat (length ids) + 1)) o) by (eexists; apply lines_log, count_harmless).
  destruct X as (o & X). exists (Ok (None, tr)), (N.of_nat (length ids)), o. split; [exact E|]. split; [|exact X].
  apply (logged_log 2 _ tr o S). rewrite M.
  pose proof (lines_log 2 _ (front_harmless (length (i2t (rv_voc rv))) (rv_sp rv))) as F. rewrite (front_low _ _ _ F) in F.
  rewrite <- (app_nil_l o). apply log_app; [exact F|]. rewrite <- (app_nil_l o). apply log_app; [|exact X].
  apply log_filter. destruct TB as [(s & ->)|(t & m & _ & -> & _)]; constructor.
Qed.
Print Assumptions C193_refusal_default_log.

(** From INFO on the refusal is told: its log ends with the token that is not in the
    vocabulary and what it was to be. *)
Theorem C193_refusal_told : forall engine ws pick sporder g ts rv max text l r x o,
  Roberta_proofs.loaded g ts rv -> N.of_nat (length ts) < 2 ^ 32 ->
  r_cls (rv_sp rv) <> INVALID -> r_sep (rv_sp rv) <> INVALID ->
  r_tokenize engine ws pick sporder rv text = Some Fail ->
  r_berts_tokenize_logged engine ws pick sporder rv max text = Some r ->
  logged (mkls l true) r = Ok (x, o) ->
  x = None /\ exists n told,
    log_of l (front_messages (length ts) (rv_sp rv) ++ told ++ count_lines max (n + 1)) o /\
    ((exists s, told = [(1%Z, u "failed to tokenize: " ++ encode s)]) \/
     exists t m, ~ In t ts /\ told = [(1%Z, u "token " ++ t ++ u " is not found"); (1%Z, m)] /\
       (m = u "failed to tokenize: " ++ t \/
        exists us us', from_utf8 t = Some us /\ (us' = us \/ rstrip ws us = Some us') /\
          m = u "unknown special token: """ ++ encode us' ++ u """")).
Proof.
  intros engine ws pick sporder g ts rv max text l r x o LD B HC HS T H HL.
  pose proof (whole engine ws pick sporder rv max text (consistent_loaded _ _ _ LD B) HC HS) as W. cbv zeta in W.
  rewrite T in W. destruct W as (ids & told & tr & E & S & TB & M). rewrite E in H. injection H as <-.
  assert (x = None) as -> by (eapply (proj1 (logged_says (mkls l true) None tr S)); eauto). split; [reflexivity|].
  exists (N.of_nat (length ids)), (map message_of told). apply (logged_log l _ tr o S) in HL. rewrite M in HL.
  rewrite (proj1 (Roberta_proofs.ld_voc _ _ _ LD)) in HL. split; [exact HL|].
  rewrite <- (proj1 (Roberta_proofs.ld_voc _ _ _ LD)).
  destruct TB as [(s & ->)|(t & m & K & -> & P)]; [left; exists s; reflexivity|right].
  exists t, m. split; [exact K|]. split; [reflexivity|]. destruct P as [P|(us & P1 & us' & P2 & P3)]; [left; exact P|right].
  exists us, us'. auto.
Qed.
Print Assumptions C193_refusal_told.

(** A call that is undefined, aborts or does not return is so at every level. *)
Theorem C192_other_results : forall engine ws pick sporder g ts rv max text,
  Roberta_proofs.loaded g ts rv -> N.of_nat (length ts) < 2 ^ 32 ->
  r_cls (rv_sp rv) <> INVALID -> r_sep (rv_sp rv) <> INVALID ->
  (r_tokenize engine ws pick sporder rv text = None <-> r_berts_tokenize_logged engine ws pick sporder rv max text = None) /\
  (r_tokenize engine ws pick sporder rv text = Some UB <-> r_berts_tokenize_logged engine ws pick sporder rv max text = Some UB) /\
  (r_tokenize engine ws pick sporder rv text = Some Abort <-> r_berts_tokenize_logged engine ws pick sporder rv max text = Some Abort).
Proof.
  intros engine ws pick sporder g ts rv max text LD B HC HS.
  pose proof (whole engine ws pick sporder rv max text (consistent_loaded _ _ _ LD B) HC HS) as W. cbv zeta in W.
  destruct (r_tokenize engine ws pick sporder rv text) as [[ids| | |]|].
  - destruct W as (tr & -> & _). repeat split; discriminate.
  - destruct W as (ids & told & tr & -> & _). repeat split; discriminate.
  - rewrite W. repeat split; discriminate.
  - rewrite W. repeat split; discriminate.
  - rewrite W. repeat split; discriminate.
Qed.
Print Assumptions C192_other_results.

(** ** Examples *)

Definition y_load (g : gguf) : rvocab :=
  match roberta_init_vocab P_Roberta.same_order g (Some (mkt 1 T_I8 P_Roberta.r_demo_lens))
          (Some (mkt 1 T_I8 (concat P_Roberta.r_demo_tokens))) (Some P_Roberta.r_demo_merges) with
  | Ok rv => rv
  | _ => P_Roberta.empty_rv
  end.
Definition y_log (l : Z) (rv : rvocab) (max : N) (text : list N) : option (outcome (option (list N) * list N)) :=
  option_map (logged (mkls l true))
    (r_berts_tokenize_logged P_Roberta.one_match P_Roberta.is_space Bpe_load_proofs.pick_max (fun l => l) rv max text).

(** A text that is tokenized, with and without room for its tokens. *)
Example C192_example :
  Roberta_proofs.loaded P_Vocab.no_kv P_Roberta.r_demo_tokens P_Roberta.r_demo /\
  y_log 2 P_Roberta.r_demo 512 (u "ab a<mask>") = Some (Ok (Some [0; 7; 8; 9; 2], [])) /\
  y_log 1 P_Roberta.r_demo 512 (u "ab a<mask>") = Some (Ok (Some [0; 7; 8; 9; 2], line (u "tokenization start"))) /\
  y_log 2 P_Roberta.r_demo 4 (u "ab a<mask>") = Some (Ok (Some [0; 7; 8; 9; 2],
    line (u "Token count (5) is larger than the max_position_embeddings (4). Calling eval() with this sequence will cause a failure."))).
Proof. split; [exact P_Roberta.r_demo_loaded|]. vm_compute. repeat split; reflexivity. Qed.

(** The mask id is that of the token of " a", which the text is then searched for and
    which is no token of the file. *)
Definition y_mask : gguf := fun k => match k with K_mask => Some (KU32 8) | _ => None end.

Lemma y_mask_loaded : Roberta_proofs.loaded y_mask P_Roberta.r_demo_tokens (y_load y_mask).
Proof.
  apply (Roberta_proofs.roberta_loaded P_Roberta.same_order y_mask (Some P_Roberta.r_demo_merges) _ _ _ _) with (2 := P_Roberta.r_demo_layout); [|vm_compute; reflexivity].
  intros l. apply Permutation.Permutation_refl.
Qed.

(** Not every refusal is reported at the default level. *)
Theorem C193_refusal_reported_refuted : exists g ts rv text,
  Roberta_proofs.loaded g ts rv /\ r_cls (rv_sp rv) <> INVALID /\ r_sep (rv_sp rv) <> INVALID /\
  y_log 2 rv 512 text = Some (Ok (None, [])).
Proof.
  exists y_mask, P_Roberta.r_demo_tokens, (y_load y_mask), (u "b a").
  split; [exact y_mask_loaded|]. vm_compute. repeat split; try reflexivity; discriminate.
Qed.
Print Assumptions C193_refusal_reported_refuted.

Example C193_example :
  r_tokenize P_Roberta.one_match P_Roberta.is_space Bpe_load_proofs.pick_max (fun l => l) (y_load y_mask) (u "b a") = Some Fail /\
  y_log 1 (y_load y_mask) 512 (u "b a") = Some (Ok (None,
    line (u "tokenization start") ++ line (u "token  a is not found") ++ line (u "unknown special token: "" a""")) ).
Proof. vm_compute. split; reflexivity. Qed.
