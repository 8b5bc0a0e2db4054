(** Theorems about what tokenizing writes to the log. *)
From Verif Require Import Base Utf_model Trie_model Bert_model Vocab_model Log_model Says_model.
From Verif Require Import Trie_spec Utf_spec Bert_spec Wp_spec Log_spec Says_spec.
From Verif Require Import Utf_proofs Trie_proofs Bert_proofs Vocab_proofs Wp_proofs P_Log P_Bert P_Wp Says_proofs.
Local Open Scope N_scope.

(** What the loaded vocabulary, the settings and the text decide about a call: the steps
    of C145, and what WordPiece comes across on the way. *)
Record steps (k : icu) (v : bvocab) (text : list N) (uss : list (list N)) (ncs ids : list N) (hs : list heard) : Prop := {
  st_lower : t_lower (v_cond v) = false;
  st_small : N.of_nat (length (v_tokens v)) <= INVALID;
  st_cls : v_cls v <> INVALID;
  st_sep : v_sep v <> INVALID;
  st_run : exists toks never s ws pss m m',
    Forall2 same_text (v_tokens v) toks /\ has_cont toks /\
    Forall2 same_text (map (bv_token v) (specials v)) never /\
    same_text text s /\ utf16 ncs (i_nfc k s) /\ no_wide_special k (v_cond v) ncs /\
    words_of (kind_for k (v_cond v)) ncs ws /\
    Forall2 (looked_up (t_accents (v_cond v)) (t_punct (v_cond v)) (i_mark k) (i_nfd k) (i_nfc k)
               (punct_char (i_punct k)) never) ws pss /\
    Forall2 utf16 (concat pss) uss /\
    text_run toks (v_unk v) AtStart uss ids m /\ text_hears toks AtStart uss hs m'
}.

(** C172: tokenizing writes exactly these messages, at every level; if one of them that
    is to be written is no format, the call is undefined. *)
Theorem C172_tokenize_log : forall k v max text uss ncs ids hs lines l,
  steps k v text uss ncs ids hs -> Forall2 heard_line hs lines ->
  let msgs := tokenize_messages (id_lines (length (v_tokens v)) (specials v))
                (flat_map (clean_lines (t_rm_null (v_cond v)) (t_rm_repl (v_cond v))) ncs) lines
                (count_lines max (N.of_nat (length ids) + 2)) in
  let r := logged (mkls l true) (berts_tokenize_logged k v max text) in
  (forall o, r = Ok (Some ([v_cls v] ++ ids ++ [v_sep v]), o) <-> log_of l msgs o) /\
  (~ (exists o, log_of l msgs o) -> r = UB).
Proof.
  intros k v max text uss ncs ids hs lines l [HL HS HC HE (toks & never & s & ws & pss & m & m' & H1 & H2 & H3 & H4 & H5 & H6 & H7 & H8 & H9 & H10 & H11)] F.
  destruct (tokenize_trace k v max text toks never s ncs ws pss uss ids m hs m' lines HL HS HC HE H1 H2 H3 H4 H5 H6 H7 H8 H9 H10 H11 F)
    as (tr & E & T & M).
  cbv zeta. rewrite E, <- M. split.
  - intros o. apply logged_log, T.
  - intros N. destruct (proj2 (logged_says (mkls l true) (Some ([v_cls v] ++ ids ++ [v_sep v])) tr T)) as [(o & K)|K]; [|exact K].
    elim N. exists o. apply logged_log in K; assumption.
Qed.
Print Assumptions C172_tokenize_log.

(** Without a log file nothing is written and nothing depends on the texts. *)
Theorem C172_no_file : forall k v max text uss ncs ids hs l,
  steps k v text uss ncs ids hs ->
  logged (mkls l false) (berts_tokenize_logged k v max text) = Ok (Some ([v_cls v] ++ ids ++ [v_sep v]), []).
Proof.
  intros k v max text uss ncs ids hs l S.
  destruct S as [HL HS HC HE (toks & never & s & ws & pss & m & m' & H1 & H2 & H3 & H4 & H5 & H6 & H7 & H8 & H9 & H10 & H11)].
  assert (SM : small toks) by (unfold small; rewrite <- (Forall2_len _ _ _ H1); exact HS).
  destruct (hears_lines toks uss hs m' SM H2 (Forall2_units _ _ H9) H11) as (lines & F).
  destruct (tokenize_trace k v max text toks never s ncs ws pss uss ids m hs m' lines HL HS HC HE H1 H2 H3 H4 H5 H6 H7 H8 H9 H10 H11 F)
    as (tr & E & T & M).
  unfold logged. rewrite E. cbn [obind fst snd]. rewrite (calls_no_file l tr T). reflexivity.
Qed.
Print Assumptions C172_no_file.

(** The steps exist for every text, under what C145 asks for. *)
Theorem C172_steps_exist : forall k v text,
  let f := v_cond v in
  (forall us, (exists cs, utf16 cs us) -> exists cs, utf16 cs (i_nfd k us)) ->
  (forall us, (exists cs, utf16 cs us) -> exists cs, utf16 cs (i_nfc k us)) ->
  t_lower f = false -> t_rm_ctrl f = true -> t_norm_ws f = true ->
  N.of_nat (length (v_tokens v)) <= INVALID -> v_cls v <> INVALID -> v_sep v <> INVALID ->
  Forall valid_utf8 (v_tokens v) -> valid_utf8 text ->
  (exists t r, In t (v_tokens v) /\ t = u "##" ++ r) ->
  exists uss ncs ids hs lines, steps k v text uss ncs ids hs /\ Forall2 heard_line hs lines /\
    ids = map (heard_id (v_unk v)) hs.
Proof.
  intros k v text f A1 A2 A3 A4 A5 A6 A7 A8 A9 A10 A11.
  destruct (C145_tokenize_total k v text A1 A2 A3 A4 A5 A6 A7 A8 A9 A10 A11)
    as (toks & never & s & ncs & ws & pss & uss & ids & m & H1 & H2 & H3 & H4 & H5 & H6 & H7 & H8 & H9 & H10 & _).
  assert (SM : small toks) by (unfold small; rewrite <- (Forall2_len _ _ _ H1); exact A6).
  destruct (hears_total toks uss SM H2 (Forall2_units _ _ H9)) as (hs & m' & HH).
  destruct (hears_lines toks uss hs m' SM H2 (Forall2_units _ _ H9) HH) as (lines & F).
  exists uss, ncs, ids, hs, lines. split; [|split; [exact F|]].
  - constructor; try assumption. exists toks, never, s, ws, pss, m, m'. auto 12.
  - destruct (text_run_fun _ _ _ _ _ _ H10 _ _ (text_hears_run _ (v_unk v) _ _ _ _ HH)) as [E _]. exact E.
Qed.
Print Assumptions C172_steps_exist.

(** ** The default level *)

Lemma default_messages sp cl ps ct :
  Forall (fun x => (fst x < 2)%Z) sp -> Forall (fun x => (fst x < 2)%Z) cl ->
  forall l o, (2 <= l)%Z -> (log_of l (tokenize_messages sp cl ps ct) o <-> log_of l (ps ++ ct) o).
Proof.
  intros H1 H2 l o L.
  assert (Z : forall x, Forall (fun x => (fst x < 2)%Z) x -> filter (fun x : message => (l <=? fst x)%Z) x = []).
  { clear -L. induction 1 as [|a x Ha H IH]; [reflexivity|]. cbn [filter]. replace (l <=? fst a)%Z with false by lia. exact IH. }
  rewrite (log_filter l (tokenize_messages sp cl ps ct)), (log_filter l (ps ++ ct)). unfold tokenize_messages. rewrite !filter_app.
  rewrite (Z sp H1), (Z cl H2). cbn [filter fst app].
  replace (l <=? 1)%Z with false by lia. replace (l <=? 0)%Z with false by lia. reflexivity.
Qed.

Lemma id_lines_low n ids : Forall (fun x => (fst x < 2)%Z) (id_lines n ids).
Proof. apply Forall_flat_map. intros i. destruct (_ <=? _); repeat constructor. Qed.

Lemma clean_lines_low a b cs : Forall (fun x => (fst x < 2)%Z) (flat_map (clean_lines a b) cs).
Proof.
  apply Forall_flat_map. intros c. unfold clean_lines.
  destruct (c =? 0); [destruct a; repeat constructor|]. destruct (c =? 0xfffd); [destruct b; repeat constructor|constructor].
Qed.

(** The remainders nothing matched. *)
Definition unknowns (hs : list heard) : list (list N) :=
  flat_map (fun h => match h with Unknown r => [r] | Known _ _ => [] end) hs.

Lemma unknown_filter hs lines : Forall2 heard_line hs lines ->
  exists bs, Forall2 shown (unknowns hs) bs /\
    filter (fun x : message => (2 <=? fst x)%Z) lines = map (fun b => (2%Z, u "  unknown token: " ++ b)) bs.
Proof.
  induction 1 as [|h x hs lines H F (bs & S & E)]; [exists []; split; [constructor|reflexivity]|].
  inversion H as [f i b Hb|r b Hb]; subst; unfold unknowns; cbn [flat_map filter fst]; fold (unknowns hs).
  - exists bs. split; [exact S|]. cbn. exact E.
  - exists (b :: bs). split; [constructor; assumption|]. cbn [Z.leb Z.compare Pos.compare Pos.compare_cont map]. rewrite E. reflexivity.
Qed.

Lemma all_printable bs : Forall printable_text bs \/ exists b, In b bs /\ ~ printable_text b.
Proof.
  induction bs as [|b bs [IH|(x & H & K)]]; [left; constructor| |right; exists x; split; [right; exact H|exact K]].
  destruct (fprintf_two (c_str b) (Datatypes.S (length (c_str b))) (PeanoNat.Nat.lt_succ_diag_r _)) as [(p & E' & Hp)|(E' & Hp)].
  - left. constructor; [|exact IH]. exists (c_str b), p. split; [apply cut_c_str|exact Hp].
  - right. exists b. split; [left; reflexivity|]. intros (t & p & C & Q). apply cut_fun in C. subst t. exact (Hp _ Q).
Qed.

(** C173: at the default level exactly the unknown remainders are written, and a warning
    about too many tokens; the call is defined if and only if every unknown remainder,
    printed, is a text printf can print. *)
Theorem C173_default_log : forall k v max text uss ncs ids hs bs,
  steps k v text uss ncs ids hs -> Forall2 shown (unknowns hs) bs ->
  let r := logged log_start (berts_tokenize_logged k v max text) in
  (forall o, r = Ok (Some ([v_cls v] ++ ids ++ [v_sep v]), o) <->
     log_of 2 (map (fun b => (2%Z, u "  unknown token: " ++ b)) bs ++ count_lines max (N.of_nat (length ids) + 2)) o) /\
  (r = UB <-> exists b, In b bs /\ ~ printable_text b).
Proof.
  intros k v max text uss ncs ids hs bs S HB.
  assert (exists lines, Forall2 heard_line hs lines) as (lines & F).
  { destruct S as [HL HS HC HE (toks & never & s & ws & pss & m & m' & H1 & H2 & H3 & H4 & H5 & H6 & H7 & H8 & H9 & H10 & H11)].
    eapply hears_lines; [|exact H2|eapply Forall2_units; eauto|exact H11]. unfold small. rewrite <- (Forall2_len _ _ _ H1). exact HS. }
  destruct (C172_tokenize_log k v max text uss ncs ids hs lines 2 S F) as (I & NU). cbv zeta.
  set (msgs := tokenize_messages _ _ _ _) in *. change (mkls 2 true) with log_start in *.
  destruct (unknown_filter hs lines F) as (bs' & HB' & E).
  assert (bs' = bs) as ->.
  { clear -HB HB'. revert bs' HB'. induction HB as [|r b rs bs H B IH]; intros bs' H'; inversion H'; subst; [reflexivity|].
    f_equal; [eapply shown_fun; eauto|apply IH; assumption]. }
  set (few := map (fun b => (2%Z, u "  unknown token: " ++ b)) bs ++ count_lines max (N.of_nat (length ids) + 2)).
  assert (M : forall o, log_of 2 msgs o <-> log_of 2 few o).
  { intros o. unfold msgs. rewrite (default_messages _ _ _ _ (id_lines_low _ _) (clean_lines_low _ _ _) 2 o) by lia.
    rewrite (log_filter 2 (lines ++ _)), (log_filter 2 few). unfold few. rewrite !filter_app, E.
    assert (X : forall l : list (list N), filter (fun x : message => (2 <=? fst x)%Z) (map (fun b => (2%Z, u "  unknown token: " ++ b)) l)
      = map (fun b => (2%Z, u "  unknown token: " ++ b)) l).
    { induction l as [|a l IH]; [reflexivity|]. cbn [map filter fst]. cbn [Z.leb Z.compare Pos.compare Pos.compare_cont]. rewrite IH. reflexivity. }
    rewrite X. reflexivity. }
  assert (P : (exists o, log_of 2 few o) <-> Forall printable_text bs).
  { rewrite log_exists. unfold few. rewrite Forall_app. split.
    - intros (K & _). apply Forall_forall. intros b Hb. rewrite Forall_forall in K.
      specialize (K (2%Z, u "  unknown token: " ++ b) (in_map _ _ _ Hb)). cbn [fst snd] in K.
      apply printable_app in K; [exact K| |lia]. split; vm_compute; intuition discriminate.
    - intros K. split.
      + apply Forall_forall. intros x Hx. apply in_map_iff in Hx as (b & <- & Hb). intros _. cbn [snd].
        apply printable_app; [split; vm_compute; intuition discriminate|]. rewrite Forall_forall in K. apply K, Hb.
      + unfold count_lines. destruct (_ <? _); [|constructor]. constructor; [|constructor]. intros _. cbn [snd].
        apply printable_free. repeat apply app_free; try apply decimal_free; vm_compute; intuition discriminate. }
  split; [intros o; rewrite I; apply M|]. split.
  - intros U. destruct (all_printable bs) as [K|K]; [|exact K].
    apply P in K as (o & K). apply M, I in K. congruence.
  - intros (b & Hb & K). apply NU. intros (o & L). apply K.
    assert (Q : Forall printable_text bs) by (apply P; exists o; apply M, L). rewrite Forall_forall in Q. apply Q, Hb.
Qed.
Print Assumptions C173_default_log.

(** C174: a percent sign is the only character that can do this: if no string looked up
    contains one, tokenizing is defined at every level, with the same ids. *)
Theorem C174_no_percent : forall k v max text uss ncs ids hs st,
  steps k v text uss ncs ids hs -> Forall (fun us => ~ In 37 us) uss ->
  exists o, logged st (berts_tokenize_logged k v max text) = Ok (Some ([v_cls v] ++ ids ++ [v_sep v]), o).
Proof.
  intros k v max text uss ncs ids hs st S H. destruct st as [l [|]].
  2: { exists []. eapply C172_no_file. exact S. }
  assert (exists lines, Forall2 heard_line hs lines /\ Forall (fun x => ~ In 37 (snd x)) lines) as (lines & F & FP).
  { destruct S as [HL HS HC HE (toks & never & s & ws & pss & m & m' & H1 & H2 & H3 & H4 & H5 & H6 & H7 & H8 & H9 & H10 & H11)].
    destruct (hears_lines toks uss hs m') as (lines & F); [|exact H2|eapply Forall2_units; eauto|exact H11|].
    { unfold small. rewrite <- (Forall2_len _ _ _ H1). exact HS. }
    exists lines. split; [exact F|]. eapply lines_free; [exact F|]. eapply text_hears_free; eauto. }
  destruct (C172_tokenize_log k v max text uss ncs ids hs lines l S F) as (I & _).
  assert (exists o, log_of l (tokenize_messages (id_lines (length (v_tokens v)) (specials v))
                (flat_map (clean_lines (t_rm_null (v_cond v)) (t_rm_repl (v_cond v))) ncs) lines
                (count_lines max (N.of_nat (length ids) + 2))) o) as (o & K).
  { apply log_exists.
    assert (X : Forall (fun x : message => ~ In 37 (snd x)) (tokenize_messages (id_lines (length (v_tokens v)) (specials v))
                (flat_map (clean_lines (t_rm_null (v_cond v)) (t_rm_repl (v_cond v))) ncs) lines
                (count_lines max (N.of_nat (length ids) + 2)))).
    { unfold tokenize_messages. apply Forall_app; split.
      { apply Forall_flat_map. intros i. destruct (_ <=? _); [|constructor]. constructor; [|constructor]. cbn [snd].
        repeat apply app_free; try apply decimal_free; vm_compute; intuition discriminate. }
      apply Forall_app; split; [repeat constructor; vm_compute; intuition discriminate|].
      apply Forall_app; split.
      { apply Forall_flat_map. intros c. unfold clean_lines.
        destruct (c =? 0); [destruct (t_rm_null _); repeat constructor; vm_compute; intuition discriminate|].
        destruct (c =? 0xfffd); [destruct (t_rm_repl _); repeat constructor; vm_compute; intuition discriminate|constructor]. }
      apply Forall_app; split; [repeat constructor; vm_compute; intuition discriminate|].
      apply Forall_app; split; [exact FP|].
      apply Forall_app; split; [repeat constructor; vm_compute; intuition discriminate|].
      unfold count_lines. destruct (_ <? _); [|constructor]. constructor; [|constructor]. cbn [snd].
      repeat apply app_free; try apply decimal_free; vm_compute; intuition discriminate. }
    eapply Forall_impl; [|exact X]. intros x Hx _. apply printable_free, Hx. }
  exists o. apply I, K.
Qed.
Print Assumptions C174_no_percent.

(** Above the level WARN nothing is ever written. *)
Theorem C174_errors_only : forall k v max text uss ncs ids hs l,
  steps k v text uss ncs ids hs -> (2 < l)%Z ->
  logged (mkls l true) (berts_tokenize_logged k v max text) = Ok (Some ([v_cls v] ++ ids ++ [v_sep v]), []).
Proof.
  intros k v max text uss ncs ids hs l S Hl.
  assert (exists lines, Forall2 heard_line hs lines) as (lines & F).
  { destruct S as [HL HS HC HE (toks & never & s & ws & pss & m & m' & H1 & H2 & H3 & H4 & H5 & H6 & H7 & H8 & H9 & H10 & H11)].
    eapply hears_lines; [|exact H2|eapply Forall2_units; eauto|exact H11]. unfold small. rewrite <- (Forall2_len _ _ _ H1). exact HS. }
  destruct (C172_tokenize_log k v max text uss ncs ids hs lines l S F) as (I & _). apply I.
  apply default_messages; [apply id_lines_low|apply clean_lines_low|lia|].
  assert (Z : Forall (fun x : message => (fst x <= 2)%Z) (lines ++ count_lines max (N.of_nat (length ids) + 2))).
  { apply Forall_app. split.
    - clear -F. induction F as [|h x hs lines H F IH]; constructor; auto. inversion H; subst; cbn [fst]; lia.
    - unfold count_lines. destruct (_ <? _); repeat constructor. cbn [fst]. lia. }
  clear -Z Hl. induction Z as [|[r m] ms Hr H IH]; [constructor|]. apply log_skip; [cbn [fst] in Hr; lia|exact IH].
Qed.
Print Assumptions C174_errors_only.

(** ** Examples *)

(** "100%" and "a": the vocabulary knows neither "1" nor "%". *)
Definition demo_settings := make_info false true true false.
Lemma demo_steps text us : from_utf8 text = Some us -> exists uss ncs ids hs lines,
  steps demo_icu (demo_bv demo_settings) text uss ncs ids hs /\ Forall2 heard_line hs lines.
Proof.
  intros H. destruct (C172_steps_exist demo_icu (demo_bv demo_settings) text) as (uss & ncs & ids & hs & lines & S & F & _).
  - intros us' K. exact K.
  - intros us' K. exact K.
  - reflexivity.
  - reflexivity.
  - reflexivity.
  - vm_compute. discriminate.
  - vm_compute. discriminate.
  - vm_compute. discriminate.
  - apply C12_hypotheses.
  - apply valid_utf8_iff. exists us. exact H.
  - exists (u "##b"), (u "b"). split; [simpl; auto 10|reflexivity].
  - exists uss, ncs, ids, hs, lines. auto.
Qed.

(** "a%" has the hypotheses of all the theorems above; at the default level it is
    undefined, at the level ERROR it gives ids, and "ab" is fine at every level. *)
Example C173_example :
  (exists uss ncs ids hs lines, steps demo_icu (demo_bv demo_settings) (u "a%") uss ncs ids hs /\ Forall2 heard_line hs lines) /\
  logged log_start (berts_tokenize_logged demo_icu (demo_bv demo_settings) 512 (u "a%")) = UB /\
  logged (mkls 3 true) (berts_tokenize_logged demo_icu (demo_bv demo_settings) 512 (u "a%")) = Ok (Some [0; 5; 4; 1], []) /\
  logged log_start (berts_tokenize_logged demo_icu (demo_bv demo_settings) 3 (u "az")) =
    Ok (Some [0; 5; 4; 1], u "  unknown token: z" ++ [10] ++
        u "Token count (4) is larger than the max_position_embeddings (3). Calling eval() with this sequence will cause a failure." ++ [10]) /\
  logged (mkls 0 true) (berts_tokenize_logged demo_icu (demo_bv demo_settings) 512 (u "ab")) =
    Ok (Some [0; 5; 6; 1], u "start tokenize" ++ [10] ++ u "start basic_tokenize" ++ [10] ++ u "end basic_tokenize" ++ [10] ++
        u "start wordpiece_tokenize" ++ [10] ++ u "  token: a (5)" ++ [10] ++ u "  token: b (6)" ++ [10] ++
        u "end wordpiece_tokenize" ++ [10] ++ u "end tokenize" ++ [10]).
Proof.
  split; [eapply demo_steps; vm_compute; reflexivity|].
  repeat (split; [vm_compute; reflexivity|]). vm_compute; reflexivity.
Qed.

(** C173 as one would state it (a text that has ids has them at the default level) is false. *)
Theorem C173_defined_at_default_refuted :
  exists k v text ids, berts_ids k v text = Ok ids /\ valid_utf8 text /\ Forall valid_utf8 (v_tokens v) /\
    forall max, logged log_start (berts_tokenize_logged k v max text) = UB.
Proof.
  exists demo_icu, (demo_bv demo_settings), (u "a%"), [0; 5; 4; 1].
  split; [vm_compute; reflexivity|].
  split; [apply valid_utf8_iff; exists (u "a%"); vm_compute; reflexivity|]. split; [apply C12_hypotheses|].
  intros max.
  assert (E : exists tr1 tr2, (forall max, exists c, berts_tokenize_logged demo_icu (demo_bv demo_settings) max (u "a%") =
    Ok (Some [0; 5; 4; 1], (tr1 ++ [Formatted Warn (u "  unknown token: %")] ++ tr2) ++ c)) /\
    calls log_start tr1 = Ok (log_start, [])).
  { exists [Plain Info (u "start tokenize"); Plain Debug (u "start basic_tokenize"); Plain Debug (u "end basic_tokenize");
            Plain Debug (u "start wordpiece_tokenize"); Formatted Debug (u "  token: a (5)")],
           [Plain Debug (u "end wordpiece_tokenize"); Plain Info (u "end tokenize")].
    split; [|vm_compute; reflexivity]. intros mx. eexists.
    unfold berts_tokenize_logged.
    assert (Q : model_tokenize_logged demo_icu (demo_bv demo_settings) (u "a%") = Ok ([5; 4],
      [Plain Info (u "start tokenize"); Plain Debug (u "start basic_tokenize"); Plain Debug (u "end basic_tokenize");
            Plain Debug (u "start wordpiece_tokenize"); Formatted Debug (u "  token: a (5)")] ++ [Formatted Warn (u "  unknown token: %")] ++
           [Plain Debug (u "end wordpiece_tokenize"); Plain Info (u "end tokenize")])) by (vm_compute; reflexivity).
    rewrite Q. reflexivity. }
  destruct E as (tr1 & tr2 & E & C). destruct (E max) as (c & ->). unfold logged. cbn [obind fst snd].
  rewrite <- !app_assoc.
  assert (X : forall a b st st' o, calls st a = Ok (st', o) -> calls st' b = UB -> calls st (a ++ b) = UB).
  { clear. induction a as [|x a IH]; intros b st st' o H K.
    - cbn in H. injection H as <- <-. exact K.
    - cbn [app calls] in *. destruct (call st x) as [[st1 o1]| | |]; try discriminate. cbn [obind fst snd] in *.
      destruct (calls st1 a) as [[st2 o2]| | |] eqn:A; try discriminate. cbn [obind fst snd] in H.
      assert (st2 = st') as -> by congruence. rewrite (IH b _ _ _ A K). reflexivity. }
  rewrite (X _ _ _ _ _ C); reflexivity.
Qed.
Print Assumptions C173_defined_at_default_refuted.
