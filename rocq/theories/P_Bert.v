(** Properties of the BERT tokenizer: cleaning, word splitting, punctuation, and
    the whole pipeline. *)
From Verif Require Import Base Utf_model Utf_spec Utf_proofs Trie_model Trie_spec Trie_proofs
  Bert_model Bert_spec Bert_proofs.
Open Scope N_scope.

(** A small classification for the examples: ASCII, the no-break space, accents
    U+0300..U+036F, private use from U+E000 on unprintable. *)
Definition demo_icu : icu :=
  mkicu (fun c => (c =? 9) || (c =? 32) || (c =? 0xa0) || (c =? 0x3000))
        (fun c => ((32 <=? c) && (c <=? 126)) || ((0xa0 <=? c) && (c <? 0xe000)) || ((0x1f300 <=? c) && (c <? 0x30000)))
        (fun c => (c =? 0x3002) || (c =? 0xa1))
        (fun c => (0x300 <=? c) && (c <=? 0x36f))
        (fun s => s) (fun s => s)
        (map (fun c => if (65 <=? c) && (c <=? 90) then c + 32 else c)).

(** C08: the words are the maximal unseparated runs of the kept characters. *)
Theorem C08_clean_words : forall k f us is,
  Forall unit16 us -> reads us is -> no_wide_special k f (map item_char is) ->
  exists ws, words_of (kind_for k f) (map item_char is) ws /\
             Forall2 utf16 ws (clean_text_and_split k f us).
Proof. exact clean_words_ok. Qed.
Print Assumptions C08_clean_words.

Theorem C08_words_unique : forall kind_of text ws1 ws2,
  words_of kind_of text ws1 -> words_of kind_of text ws2 -> ws1 = ws2.
Proof. exact words_of_unique. Qed.
Print Assumptions C08_words_unique.

(** "a<NUL>b  c<U+4E2D>d<U+1F600>": one removed, two separators, one ideograph,
    one surrogate pair *)
Example C08_example :
  clean_text_and_split demo_icu info_basic ([97; 0; 98; 32; 0xa0; 99; 0x4e2d; 100; 0xd83d; 0xde00])
  = [[97; 98]; [99]; [0x4e2d]; [100; 0xd83d; 0xde00]].
Proof. reflexivity. Qed.

Example C08_hypotheses : forall us, no_wide_special demo_icu info_basic us.
Proof.
  intros us c _ K [H|H]; exfalso; revert K; unfold kept, kind_for, char_kind; cbn [info_basic t_rm_null t_rm_repl t_rm_ctrl t_norm_ws orb];
    destruct (c =? 0), (c =? 0xfffd); try discriminate; try rewrite H; try discriminate.
  destruct (control_char _ c); try discriminate.
Qed.

(** Both standard configurations normalize whitespace, and the basic one removes
    control characters: then nothing is narrowed and the hypothesis is free. *)
Theorem C08_basic_configuration : forall k us is lower cjk accents,
  Forall unit16 us -> reads us is ->
  exists ws, words_of (kind_for k (make_info lower true cjk accents)) (map item_char is) ws /\
             Forall2 utf16 ws (clean_text_and_split k (make_info lower true cjk accents) us).
Proof.
  intros k us is lower cjk accents Hu R. apply clean_words_ok; [exact Hu|exact R|].
  intros c _ K [H|H]; exfalso; revert K; unfold kept, kind_for, char_kind; cbn [make_info info_basic t_rm_null t_rm_repl t_rm_ctrl t_norm_ws orb];
    destruct (c =? 0), (c =? 0xfffd); try discriminate; try rewrite H; try discriminate.
  destruct (control_char _ c); try discriminate.
Qed.
Print Assumptions C08_basic_configuration.

(** C09: with control characters kept (do_basic_tokenize = false), a private-use
    character above U+FFFF turns into an unrelated letter. *)
Theorem C09_kept_chars_unaltered_refuted :
  exists f us, Forall unit16 us /\ f = make_info false false false false /\
  (forall k, i_print k 0xf0041 = false ->
     utf16 [0xf0041] us /\ clean_text_and_split k f us = [[65]] /\ ~ utf16 [0xf0041] [65]).
Proof.
  exists (make_info false false false false), [0xdb80; 0xdc41].
  split; [repeat constructor|]. split; [reflexivity|]. intros k H. split; [|split].
  - apply (utf16_sup 0xf0041 0xdb80 0xdc41); [unfold hi_sur; lia|unfold lo_sur; lia|reflexivity|constructor].
  - assert (P : pair_value 0xdb80 0xdc41 = 0xf0041) by reflexivity.
    unfold clean_text_and_split.
    change (each_cp false [0xdb80; 0xdc41]) with [mkcp 0xf0041 0xdb80 0xdc41].
    cbn [flat_map]. unfold clean_cp. cbn [cp_c]. change (0xf0041 =? 0) with false. change (0xf0041 =? 0xfffd) with false.
    cbv iota. unfold CTRL, is_control. rewrite H. reflexivity.
  - intros U. apply utf16_enc16s in U as [_ U]. vm_compute in U. discriminate U.
Qed.
Print Assumptions C09_kept_chars_unaltered_refuted.

(** ... and one more splits a word in two: U+F0020 becomes a space. *)
Theorem C09_private_use_splits_word_refuted :
  exists f us, f = make_info false false false false /\
  (forall k, i_print k 0xf0020 = false -> i_print k 97 = true -> i_blank k 97 = false ->
     utf16 [97; 0xf0020; 97] us /\ clean_text_and_split k f us = [[97]; [97]]).
Proof.
  exists (make_info false false false false), [97; 0xdb80; 0xdc20; 97].
  split; [reflexivity|]. intros k H HA HB. split.
  - apply utf16_bmp; [unfold scalar_value; lia|lia|].
    apply (utf16_sup 0xf0020 0xdb80 0xdc20); [unfold hi_sur; lia|unfold lo_sur; lia|reflexivity|].
    apply utf16_bmp; [unfold scalar_value; lia|lia|constructor].
  - unfold clean_text_and_split.
    change (each_cp false [97; 0xdb80; 0xdc20; 97]) with [cp_unit 97; mkcp 0xf0020 0xdb80 0xdc20; cp_unit 97].
    cbn [flat_map]. unfold clean_cp. cbn [cp_c cp_unit]. unfold CTRL, WS, is_control, is_whitespace.
    rewrite HA, HB. rewrite H. reflexivity.
Qed.
Print Assumptions C09_private_use_splits_word_refuted.

(** What holds: up to U+FFFF every kept character survives in its place. *)
Theorem C09_kept_chars_unaltered_partial : forall k f us is,
  Forall unit16 us -> reads us is -> Forall (fun c => c < 0x10000) (map item_char is) ->
  exists ws, Forall2 utf16 ws (clean_text_and_split k f us) /\
             concat ws = filter (kept (kind_for k f)) (map item_char is).
Proof.
  intros k f us is Hu R B. destruct (clean_words_ok k f us is Hu R) as (ws & W & F).
  { intros c Hc _ _. rewrite Forall_forall in B. apply B, Hc. }
  exists ws. split; [exact F|]. apply W.
Qed.
Print Assumptions C09_kept_chars_unaltered_partial.

(** Exactly when: no control character or unnormalized whitespace above U+FFFF is kept. *)
Theorem C09_kept_chars_unaltered_iff : forall k f us is,
  Forall unit16 us -> reads us is ->
  ((exists ws, Forall2 utf16 ws (clean_text_and_split k f us) /\
               concat ws = filter (kept (kind_for k f)) (map item_char is)) <->
   forall c, In c (map item_char is) -> kept (kind_for k f) c = true ->
     control_char (i_print k) c = true \/ white_char (i_blank k) c = true -> c < 0x10000).
Proof.
  intros k f us is Hu R. split.
  - intros (ws & F & E). exact (clean_exact k f us is ws Hu R F E).
  - intros NW. destruct (clean_words_ok k f us is Hu R NW) as (ws & W & F). exists ws. split; [exact F|]. apply W.
Qed.
Print Assumptions C09_kept_chars_unaltered_iff.

Example C09_ex_bmp : clean_text_and_split demo_icu (make_info false false false false) [0xe000; 1; 32; 0; 0xd800]
  = [[0xe000; 1]; [0; 0xfffd]].
Proof. reflexivity. Qed.

(** C10: punctuation splitting. *)
Theorem C10_punct_split : forall k f never us is,
  Forall unit16 us -> reads us is -> ~ In us never ->
  t_lower f = false -> t_accents f = false -> t_punct f = true ->
  exists ps, punct_pieces (punct_char (i_punct k)) (map item_char (filter is_char is)) ps /\
             Forall2 utf16 ps (basic_word k f never us).
Proof. exact punct_word_ok. Qed.
Print Assumptions C10_punct_split.

Theorem C10_pieces_unique : forall punct w ps1 ps2,
  punct_pieces punct w ps1 -> punct_pieces punct w ps2 -> ps1 = ps2.
Proof. intros punct w ps1 ps2. apply punct_pieces_unique. Qed.
Print Assumptions C10_pieces_unique.

Example C10_example : basic_word demo_icu (make_info false true true false) [u "[MASK]"] (u ".ab,,c$")
  = [u "."; u "ab"; u ","; u ","; u "c"; u "$"].
Proof. vm_compute. reflexivity. Qed.

(** C11: with do_lower_case every word that is not a special token vanishes. *)
Theorem C11_lower_casing_drops_words : forall k v text never s,
  i_nfc k [] = [] -> i_nfd k [] = [] ->
  Forall valid_utf8 (v_tokens v) -> N.of_nat (length (v_tokens v)) <= INVALID ->
  t_lower (v_cond v) = true -> from_utf8 text = Some s ->
  all_some (map (fun id => from_utf8 (bv_token v id)) (specials v)) = Some never ->
  Forall (fun w => ~ In w never) (clean_text_and_split k (v_cond v) (i_nfc k s)) ->
  model_tokenize k v text = Ok [].
Proof. exact lower_text_gone. Qed.
Print Assumptions C11_lower_casing_drops_words.

Definition demo_bv (f : tok_info) : bvocab :=
  mkbv [u "[CLS]"; u "[SEP]"; u "[MASK]"; u "[PAD]"; u "[UNK]"; u "a"; u "##b"; u "b"; u "."] 0 2 3 1 4 f.

(** C11 refuted: upper- and lower-case spelling do not give the same tokens, and
    even lower-case text is lost. *)
Theorem C11_lower_case_refuted :
  exists k v, v = demo_bv (make_info true true true true) /\ i_lower k (u "A") = u "a" /\ i_lower k (u "a") = u "a" /\
    berts_ids k v (u "A") = Ok [0; 1] /\ berts_ids k v (u "a") = Ok [0; 1] /\
    berts_ids k (demo_bv (make_info false true true true)) (u "a") = Ok [0; 5; 1].
Proof. exists demo_icu, (demo_bv (make_info true true true true)). vm_compute. auto 10. Qed.
Print Assumptions C11_lower_case_refuted.

(** What remains: special tokens written in the text survive unchanged. *)
Theorem C11_specials_survive_partial : forall k f never w, In w never -> basic_word k f never w = [w].
Proof. intros k f never w H. unfold basic_word. apply mem_word_iff in H. rewrite H. reflexivity. Qed.
Print Assumptions C11_specials_survive_partial.

Example C11_ex_special : berts_ids demo_icu (demo_bv (make_info true true true true)) (u "[MASK] a b") = Ok [0; 2; 1].
Proof. vm_compute. reflexivity. Qed.

(** C12 *)
Theorem C12_bracketed_ids : forall k v text,
  Forall valid_utf8 (v_tokens v) -> N.of_nat (length (v_tokens v)) <= INVALID ->
  v_cls v <> INVALID -> v_sep v <> INVALID -> valid_utf8 text ->
  exists ids, berts_ids k v text = Ok ([v_cls v] ++ ids ++ [v_sep v]) /\
    Forall (fun i => i < N.of_nat (length (v_tokens v)) \/ i = v_unk v) ids.
Proof. exact berts_ids_total. Qed.
Print Assumptions C12_bracketed_ids.

Example C12_hypotheses : Forall valid_utf8 (v_tokens (demo_bv info_basic)) /\ valid_utf8 (u "ab. zb").
Proof.
  split.
  - repeat (apply Forall_cons; [apply valid_utf8_iff; eexists; vm_compute; reflexivity|]). apply Forall_nil.
  - apply valid_utf8_iff; eexists; vm_compute; reflexivity.
Qed.

Example C12_example :
  berts_ids demo_icu (demo_bv (make_info false true true true)) (u "ab. z") = Ok [0; 5; 6; 8; 4; 1].
Proof. vm_compute. reflexivity. Qed.

(** C79: a text that is not UTF-8 runs into undefined behaviour. *)
Theorem C79_any_bytes_refuted : exists text, forall k v,
  v_cls v <> INVALID -> v_sep v <> INVALID -> berts_ids k v text = UB.
Proof.
  exists [0xff]. intros k v HC HS. apply invalid_text_ub; [exact HC|exact HS|].
  intros H. apply valid_utf8_iff in H as [us H]. discriminate H.
Qed.
Print Assumptions C79_any_bytes_refuted.

Theorem C79_defined_iff_valid_partial : forall k v text,
  Forall valid_utf8 (v_tokens v) -> N.of_nat (length (v_tokens v)) <= INVALID ->
  v_cls v <> INVALID -> v_sep v <> INVALID ->
  (valid_utf8 text <-> exists ids, berts_ids k v text = Ok ids).
Proof.
  intros k v text HT HS HC HP. split.
  - intros HX. destruct (berts_ids_total k v text HT HS HC HP HX) as (ids & E & _). eauto.
  - intros [ids E]. destruct (from_utf8 text) as [us|] eqn:F.
    + apply valid_utf8_iff. eauto.
    + exfalso. assert (N0 : ~ valid_utf8 text).
      { intros H. apply valid_utf8_iff in H as [us H]. congruence. }
      rewrite (invalid_text_ub k v text HC HP N0) in E. discriminate E.
Qed.
Print Assumptions C79_defined_iff_valid_partial.

(** C80: a vocabulary without any continuation piece is not reported. *)
Theorem C80_unusable_vocabulary_reported_refuted :
  exists k v text, Forall valid_utf8 (v_tokens v) /\ In text (v_tokens v) /\
    wordpiece (v_tokens v) (v_unk v) [text] = WpNoCont /\ berts_ids k v text = Ok [v_cls v; v_sep v].
Proof.
  exists demo_icu, (mkbv [u "[CLS]"; u "[SEP]"; u "[MASK]"; u "[PAD]"; u "[UNK]"; u "a"] 0 2 3 1 4 (make_info false true true true)), (u "a").
  split; [|split; [|split]]; [|simpl; auto 10|vm_compute; reflexivity|vm_compute; reflexivity].
  repeat (apply Forall_cons; [apply valid_utf8_iff; eexists; vm_compute; reflexivity|]). apply Forall_nil.
Qed.
Print Assumptions C80_unusable_vocabulary_reported_refuted.

(** The exact extent: without continuation pieces every text gives just the brackets. *)
Theorem C80_no_continuation_partial : forall k v text toks,
  Forall2 same_text (v_tokens v) toks -> ~ has_cont toks -> N.of_nat (length (v_tokens v)) <= INVALID ->
  v_cls v <> INVALID -> v_sep v <> INVALID -> valid_utf8 text ->
  berts_ids k v text = Ok [v_cls v; v_sep v].
Proof.
  intros k v text toks HT HN HS HC HP HX.
  assert (HV : Forall valid_utf8 (v_tokens v)).
  { clear -HT. induction HT as [|b us bs uss (cs & H & _) F IH]; constructor; [exists cs; exact H|exact IH]. }
  destruct (tokens_decode v HV) as (toks' & never & E1 & E2 & F1 & _).
  assert (toks' = toks) as ->.
  { clear -HT F1. revert toks' F1. induction HT as [|b us bs uss H F IH]; intros t F1; inversion F1; subst; [reflexivity|].
    f_equal; [apply same_text_iff in H; congruence|apply IH; assumption]. }
  apply valid_utf8_iff in HX as [s E3].
  unfold berts_ids.
  replace (v_cls v =? INVALID) with false by (symmetry; apply N.eqb_neq; exact HC).
  replace (v_sep v =? INVALID) with false by (symmetry; apply N.eqb_neq; exact HP).
  unfold model_tokenize. fold (specials v). rewrite E1, E2, E3.
  assert (SM : small toks) by (unfold small; rewrite <- (Forall2_len _ _ _ F1); exact HS).
  rewrite (proj2 (wordpiece_total toks (v_unk v) _ SM) HN). reflexivity.
Qed.
Print Assumptions C80_no_continuation_partial.

(** C81: a special token in the text can come out as unknown. *)
Theorem C81_special_token_id_refuted :
  exists k v text, Forall valid_utf8 (v_tokens v) /\ NoDup (v_tokens v) /\
    bv_token v (v_mask v) = u "[MASK]" /\ text = u "az [MASK]" /\
    berts_ids k v text = Ok [v_cls v; 5; v_unk v; v_unk v; v_sep v] /\ v_unk v <> v_mask v.
Proof.
  exists demo_icu, (demo_bv (make_info false true true true)), (u "az [MASK]").
  split; [|split; [|split; [|split; [|split]]]]; try (vm_compute; reflexivity); [apply C12_hypotheses| |vm_compute; discriminate].
  repeat (constructor; [intros H; vm_compute in H; repeat (destruct H as [H|H]; [discriminate H|]); destruct H|]). constructor.
Qed.
Print Assumptions C81_special_token_id_refuted.

(** C82: whitespace in the text separates completely. *)
Theorem C82_whitespace_separates : forall k f a w b,
  w < 0x10000 -> ~ hi_sur w -> ~ lo_sur w -> kind_for k f w = Separator ->
  clean_text_and_split k f (a ++ w :: b) = clean_text_and_split k f a ++ clean_text_and_split k f b.
Proof.
  intros k f a w b Hw Hh Hl K. apply clean_independent; auto; [apply is_low_false|apply is_high_false]; assumption.
Qed.
Print Assumptions C82_whitespace_separates.

(** Hence repeated, leading and trailing whitespace is irrelevant. *)
Theorem C82_extra_whitespace : forall k f a w w' b,
  w < 0x10000 -> ~ hi_sur w -> ~ lo_sur w -> kind_for k f w = Separator ->
  w' < 0x10000 -> ~ hi_sur w' -> ~ lo_sur w' -> kind_for k f w' = Separator ->
  clean_text_and_split k f (a ++ w :: w' :: b) = clean_text_and_split k f (a ++ w :: b) /\
  clean_text_and_split k f (w :: b) = clean_text_and_split k f b /\
  clean_text_and_split k f (a ++ [w]) = clean_text_and_split k f a.
Proof.
  intros k f a w w' b H1 H2 H3 H4 H5 H6 H7 H8. split; [|split].
  - rewrite !C82_whitespace_separates by assumption. f_equal.
    exact (C82_whitespace_separates k f [] w' b H5 H6 H7 H8).
  - exact (C82_whitespace_separates k f [] w b H1 H2 H3 H4).
  - rewrite C82_whitespace_separates by assumption. apply app_nil_r.
Qed.
Print Assumptions C82_extra_whitespace.

Example C82_ex : kind_for demo_icu info_basic 32 = Separator /\ kind_for demo_icu info_basic 0xa0 = Separator /\
  kind_for demo_icu info_basic 10 = Separator /\ kind_for demo_icu info_basic 97 = Part.
Proof. repeat split; reflexivity. Qed.

(** C83: the whole tokenizer against its specification, when lower-casing and
    accent stripping are off: clean, split into words, split words at
    punctuation, segment each piece greedily. *)
Theorem C83_end_to_end : forall k v text toks never s ncs ws pss idss,
  let f := v_cond v in
  t_lower f = false -> t_accents f = false -> t_punct f = true ->
  N.of_nat (length (v_tokens v)) <= INVALID -> v_cls v <> INVALID -> v_sep v <> INVALID ->
  Forall2 same_text (v_tokens v) toks -> has_cont toks ->
  Forall2 same_text (map (bv_token v) (specials v)) never ->
  same_text text s -> utf16 ncs (i_nfc k s) -> no_wide_special k f ncs ->
  words_of (kind_for k f) ncs ws ->
  Forall2 (word_pieces (punct_char (i_punct k)) never) ws pss ->
  Forall2 (fun p ids => exists us, utf16 p us /\ segments toks [] us ids) (concat pss) idss ->
  berts_ids k v text = Ok ([v_cls v] ++ concat idss ++ [v_sep v]).
Proof. exact end_to_end. Qed.
Print Assumptions C83_end_to_end.

(** All hypotheses of C83 at once, for "ab. [MASK]". *)
Example C83_nonvacuous :
  let v := demo_bv (make_info false true true false) in
  let never := map (bv_token v) (specials v) in
  let ws := [u "ab."; u "[MASK]"] in let pss := [[u "ab"; u "."]; [u "[MASK]"]] in
  Forall2 same_text (v_tokens v) (v_tokens v) /\ has_cont (v_tokens v) /\
  Forall2 same_text (map (bv_token v) (specials v)) never /\
  same_text (u "ab. [MASK]") (u "ab. [MASK]") /\ utf16 (u "ab. [MASK]") (i_nfc demo_icu (u "ab. [MASK]")) /\
  words_of (kind_for demo_icu (v_cond v)) (u "ab. [MASK]") ws /\
  Forall2 (word_pieces (punct_char (i_punct demo_icu)) never) ws pss /\
  Forall2 (fun p ids => exists us, utf16 p us /\ segments (v_tokens v) [] us ids) (concat pss) [[5; 6]; [8]; [2]] /\
  berts_ids demo_icu v (u "ab. [MASK]") = Ok [0; 5; 6; 8; 2; 1].
Proof.
  cbv zeta.
  assert (ST : forall s, from_utf8 s = Some s -> same_text s s) by (intros s H; apply same_text_iff, H).
  assert (UT : forall s, forallb (fun c => c <? 128) s = true -> utf16 s s).
  { intros s H. apply utf16_enc16s. rewrite forallb_forall in H.
    assert (F : Forall (fun b => b < 0x80) s) by (apply Forall_forall; intros c Hc; specialize (H c Hc); lia).
    split; [|symmetry; apply enc16s_ascii, F]. eapply Forall_impl; [|exact F]. cbv beta. unfold scalar_value. lia. }
  split; [repeat (apply Forall2_cons; [apply ST; vm_compute; reflexivity|]); apply Forall2_nil|].
  split; [exists (u "##b"); split; [simpl; auto 10|exists (u "b"); reflexivity]|].
  split; [repeat (apply Forall2_cons; [apply ST; vm_compute; reflexivity|]); apply Forall2_nil|].
  split; [apply ST; vm_compute; reflexivity|].
  split; [apply UT; reflexivity|].
  split; [exact (ref_words_ok (kind_for demo_icu (make_info false true true false)) (u "ab. [MASK]"))|].
  split.
  { apply Forall2_cons; [|apply Forall2_cons; [|apply Forall2_nil]].
    - exists (u "ab."). split; [apply UT; reflexivity|right]. split.
      + intros H. vm_compute in H. repeat (destruct H as [H|H]; [discriminate H|]). destruct H.
      + exact (ref_punct_ok (punct_char (i_punct demo_icu)) (u "ab.") [] (Forall_nil _)).
    - exists (u "[MASK]"). split; [apply UT; reflexivity|left]. split; [simpl; auto 10|reflexivity]. }
  split; [|vm_compute; reflexivity].
  apply Forall2_cons; [|apply Forall2_cons; [|apply Forall2_cons; [|apply Forall2_nil]]].
  - exists (u "ab"). split; [apply UT; reflexivity|].
    apply (seg_cons _ [] (u "a") (u "b")); [discriminate|solve_entry|solve_max|solve_nd|].
    apply (seg_cons _ cont_prefix (u "b") []); [discriminate|solve_entry|solve_max|solve_nd|constructor].
  - exists (u "."). split; [apply UT; reflexivity|].
    apply (seg_cons _ [] (u ".") []); [discriminate|solve_entry|solve_max|solve_nd|constructor].
  - exists (u "[MASK]"). split; [apply UT; reflexivity|].
    apply (seg_cons _ [] (u "[MASK]") []); [discriminate|solve_entry|solve_max|solve_nd|constructor].
Qed.
