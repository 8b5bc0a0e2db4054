(** Theorems about the mask filling tool. *)
From Verif Require Import Base Api_model Ggml_model Encoder_model Encoder_spec Eval_model Eval_spec
  Eval_proofs Encoder_proofs Tool_spec Fill_model Fill_spec Fill_proofs P_Api P_Eval.
Local Open Scope nat_scope.

(** Everything up to the mask. *)
Lemma up_to_mask {V} (P : prim V) L ji jt jv load exe path k_str prompt z (m : opened (V := V)) ids :
  reads k_str z -> is_int z -> (1 <= z)%Z -> load path = Ok (Some m) -> (Z.to_N z <= m_count (op_api m))%N ->
  m_cls (op_api m) <> INVALID -> m_sep (op_api m) <> INVALID -> token_ids (op_api m) prompt = Ok ids ->
  length ids <= length prompt -> tokens32 ji -> Forall (fun t => (t < 4294967296)%N) ids ->
  exists cells, firstn (length ids) cells = ids /\ length ids <= length cells /\ Forall (fun t => (t < 4294967296)%N) cells /\
  fill_mask P L ji jt jv load [exe; path; k_str; prompt] =
  match find_mask (m_mask (op_api m)) 0 None ids with
  | None => Ok (1%N, [])
  | Some pos =>
      obind (berts_eval P L (ELoaded (op_eval m)) cells None (length ids) (Some (mkei (-1) PoolNone)) None (Some 0%N)) (fun e =>
      match e_ok e, e_count e with
      | true, Some size =>
          obind (berts_eval P L (ELoaded (op_eval m)) cells None (length ids) (Some (mkei (-1) PoolNone)) (Some (fresh_cells jv size)) (Some size)) (fun e =>
          match e_ok e, e_out e, e_count e with
          | true, Some hidden, Some size =>
              obind (berts_eval_lm P L (ELoaded (op_eval m)) hidden (N.to_nat size) (Some (mkli z)) None None (Some 0%N)) (fun l =>
              match l_ok l, l_count l with
              | true, Some size' =>
                  obind (berts_eval_lm P L (ELoaded (op_eval m)) hidden (N.to_nat size) (Some (mkli z)) (Some (fresh_cells jt size'))
                           (Some (fresh_cells jv size')) (Some size')) (fun l =>
                  match l_ok l, l_ids l, l_probs l with
                  | true, Some ids, Some scores =>
                      obind (result_lines (Loaded (op_api m)) (Z.to_nat z * pos) (seq 0 (Z.to_nat z)) ids scores) (fun ls =>
                      Ok (0%N, map (filled (widest ls)) ls))
                  | _, _, _ => Ok (1%N, [])
                  end)
              | _, _ => Ok (1%N, [])
              end)
          | _, _, _ => Ok (1%N, [])
          end)
      | _, _ => Ok (1%N, [])
      end)
  end.
Proof.
  intros Hz Hi H1 Hl Hc Hcls Hsep Ht Hroom Hj Hw.
  destruct (tokenize_ok (op_api m) prompt ids ji Hcls Hsep Ht) as (cells & E & LC & A & B).
  assert (F : firstn (length ids) cells = ids) by (apply prefix_of; [lia|]; intros i Hi'; apply A; lia).
  exists cells. split; [exact F|]. split; [lia|]. split.
  - apply Forall_forall. intros t Hin. apply In_nth_error in Hin as (i & Hn).
    destruct (Nat.lt_ge_cases i (length ids)) as [Hlt|Hge].
    + rewrite Forall_forall in Hw. apply Hw. rewrite A in Hn by lia. eapply nth_error_In, Hn.
    + rewrite B in Hn by lia. unfold fresh_cells in Hn. apply nth_error_In, in_map_iff in Hn as (x & <- & _). apply Hj.
  - cbn [fill_mask]. rewrite (proj2 (stoi_iff k_str z) (conj Hz Hi)). cbn [obind].
    replace (z <=? 0)%Z with false by lia. rewrite Hl. cbn [obind]. cbn [berts_vocab_size with_model].
    replace (m_count (op_api m) <? Z.to_N z)%N with false by lia. rewrite E. cbn [obind r_ok r_out r_len negb].
    rewrite Nat2N.id. replace (length cells <? length ids) with false by (symmetry; apply Nat.ltb_ge; lia).
    rewrite F. reflexivity.
Qed.

(** * C70 *)

(** A prompt with more tokens than bytes: the tool reads behind the end of its buffer. *)
Theorem C70_out_of_bounds : forall V (P : prim V) L ji jt jv load exe path k_str prompt z (m : opened (V := V)) ids,
  reads k_str z -> is_int z -> (1 <= z)%Z -> load path = Ok (Some m) -> (Z.to_N z <= m_count (op_api m))%N ->
  m_cls (op_api m) <> INVALID -> m_sep (op_api m) <> INVALID -> token_ids (op_api m) prompt = Ok ids ->
  length prompt < length ids ->
  fill_mask P L ji jt jv load [exe; path; k_str; prompt] = UB.
Proof.
  intros V P L ji jt jv load exe path k_str prompt z m ids Hz Hi H1 Hl Hc Hcls Hsep Ht Hlt.
  destruct (tokenize_ok (op_api m) prompt ids ji Hcls Hsep Ht) as (cells & E & LC & _).
  cbn [fill_mask]. rewrite (proj2 (stoi_iff k_str z) (conj Hz Hi)). cbn [obind].
  replace (z <=? 0)%Z with false by lia. rewrite Hl. cbn [obind]. cbn [berts_vocab_size with_model].
  replace (m_count (op_api m) <? Z.to_N z)%N with false by lia. rewrite E. cbn [obind r_ok r_out r_len negb].
  rewrite Nat2N.id. replace (length cells <? length ids) with true by (symmetry; apply Nat.ltb_lt; lia). reflexivity.
Qed.
Print Assumptions C70_out_of_bounds.

(** * C109 *)

Lemma hidden_ok {V} (P : prim V) L (m : opened (V := V)) words rows s prompt ids pos cells jv :
  prepared P L m words rows s prompt ids pos ->
  firstn (length ids) cells = ids -> length ids <= length cells -> Forall (fun t => (t < 4294967296)%N) cells ->
  let e := op_eval m in
  let c := Some (mkei (-1) PoolNone) in
  let n := length ids in
  let size := N.of_nat (n * hidden_dim (em_hp e)) in
  let a := answer P e s PoolNone (n_layers (em_hp e)) ids (repeat 0%N n) in
  length a = n * hidden_dim (em_hp e) /\
  berts_eval P L (ELoaded e) cells None n c None (Some 0%N) = Ok (mkev true None (Some size)) /\
  berts_eval P L (ELoaded e) cells None n c (Some (fresh_cells jv size)) (Some size) = Ok (mkev true (Some a) (Some size)).
Proof.
  intros Hp F Hn Hw e c n size a. fold n in F, Hn. pose proof (rd_run _ _ _ _ _ _ _ _ _ Hp) as Hr.
  pose proof (r_sound _ _ _ _ _ _ _ _ _ _ Hr) as Hs.
  assert (Ha : arrays_ok cells None n) by (split; [exact Hn|exact I]).
  assert (Hg : given_segments None n = repeat 0%N n) by reflexivity.
  split; [|split].
  - destruct (runs P L e words rows s cells None n (mkei (-1) PoolNone) (n_layers (em_hp e)) (fresh_cells jv size) size Ha Hw) as (LA & _).
    + rewrite F, Hg. exact Hr.
    + rewrite F. exact (rd_known _ _ _ _ _ _ _ _ _ Hp).
    + rewrite F. exact (rd_rows _ _ _ _ _ _ _ _ _ Hp).
    + rewrite fresh_length. lia.
    + rewrite F, Hg in LA. exact LA.
  - apply (C43_dry_run P L e cells None n (mkei (-1) PoolNone) 0%N Ha);
      [rewrite F, Hg; exact (r_valid _ _ _ _ _ _ _ _ _ _ Hr)|exact (s_max _ _ _ _ _ Hs)|exact (s_dim _ _ _ _ _ Hs)].
  - destruct (runs P L e words rows s cells None n (mkei (-1) PoolNone) (n_layers (em_hp e)) (fresh_cells jv size) size Ha Hw) as (LA & E).
    + rewrite F, Hg. exact Hr.
    + rewrite F. exact (rd_known _ _ _ _ _ _ _ _ _ Hp).
    + rewrite F. exact (rd_rows _ _ _ _ _ _ _ _ _ Hp).
    + rewrite fresh_length. lia.
    + cbn [pool_type] in LA, E. rewrite F, Hg in LA, E. fold a in LA, E. unfold values in LA, E. unfold c. rewrite E. do 2 f_equal. f_equal.
      assert (W : Nat.min (N.to_nat size) (n * hidden_dim (em_hp e)) = n * hidden_dim (em_hp e)) by (unfold size; lia).
      rewrite W. rewrite firstn_all2 by lia. rewrite skipn_all2 by (rewrite fresh_length; unfold size; lia). apply app_nil_r.
Qed.

(** The tool prints the k most probable tokens for the mask, best first, with their
    probabilities and texts. *)
Theorem C109_most_probable : forall V (le : V -> V -> Prop) (P : prim V) L ji jt jv load exe path k_str prompt z
    (m : opened (V := V)) words rows s sh act ids pos,
  reads k_str z -> is_int z -> (1 <= z)%Z -> load path = Ok (Some m) -> (Z.to_N z <= m_count (op_api m))%N -> tokens32 ji ->
  prepared P L m words rows s prompt ids pos -> ready le P L m sh act (length ids) ->
  exists ls, fill_mask P L ji jt jv load [exe; path; k_str; prompt] = Ok (0%N, ls) /\
    printed le P (op_api m) (Z.to_nat z) (mask_row P (op_eval m) s sh act ids pos) ls.
Proof.
  intros V le P L ji jt jv load exe path k_str prompt z m words rows s sh act ids pos Hz Hi H1 Hl Hc Hj Hp Hr.
  destruct (up_to_mask P L ji jt jv load exe path k_str prompt z m ids Hz Hi H1 Hl Hc (rd_cls _ _ _ _ _ _ _ _ _ Hp)
    (rd_sep _ _ _ _ _ _ _ _ _ Hp) (rd_ids _ _ _ _ _ _ _ _ _ Hp) (rd_room _ _ _ _ _ _ _ _ _ Hp) Hj (rd_small _ _ _ _ _ _ _ _ _ Hp))
    as (cells & F & Hn & Hw & E).
  rewrite E. clear E. rewrite (proj2 (find_mask_iff _ _ _) (rd_mask _ _ _ _ _ _ _ _ _ Hp)).
  destruct (hidden_ok P L m words rows s prompt ids pos cells jv Hp F Hn Hw) as (LA & E1 & E2). cbv zeta in LA, E1, E2.
  rewrite E1. cbn [obind e_ok e_count]. rewrite E2. cbn [obind e_ok e_out e_count]. clear E1 E2.
  set (e := op_eval m) in *. set (h := hidden_dim (em_hp e)) in *. set (n := length ids) in *. rewrite Nat2N.id.
  set (a := answer P e s PoolNone (n_layers (em_hp e)) ids (repeat 0%N n)) in *.
  pose proof (rd_lm _ _ _ _ _ _ _ Hr) as HL. fold e in HL. pose proof (rd_lm_run _ _ _ _ _ _ _ Hr) as HR. fold e in HR.
  assert (HC := rd_count _ _ _ _ _ _ _ _ _ Hp). fold e in HC.
  unfold h at 1. rewrite (C51_lm_dry_run P L e a n (mkli z) 0 (ls_hidden _ _ _ _ HL) (ls_bound _ _ _ _ HL) (lr_bound _ _ _ HR)).
  cbn [obind l_ok l_count].
  assert (LW : lm_width e (mkli z) = Z.to_nat z).
  { unfold lm_width. cbn [top_k]. replace (0 <? z)%Z with true by lia. lia. }
  rewrite LW. set (k := Z.to_nat z) in *.
  destruct (C52_top_k le P L e sh act a n (mkli z) (N.of_nat (n * k)) (fresh_cells jt (N.of_nat (n * k))) (fresh_cells jv (N.of_nat (n * k)))
    HL HR (rd_sorts _ _ _ _ _ _ _ Hr)) as (iss & pss & E & Lrows & Li & Lp & HB).
  { fold h. lia. }
  { cbn [top_k]. lia. }
  { rewrite fresh_length. cbn [top_k]. fold k. lia. }
  { rewrite fresh_length. cbn [top_k]. fold k. lia. }
  cbn [top_k] in E, HB. fold k in E, HB. fold h in E, HB, Lrows. rewrite E. clear E. cbn [obind l_ok l_ids l_probs].
  assert (Hpos : pos < n). { destruct (rd_mask _ _ _ _ _ _ _ _ _ Hp) as (Hm & _). apply nth_error_Some. congruence. }
  rewrite (skipn_all2 (fresh_cells jt (N.of_nat (n * k)))) by (rewrite fresh_length; lia).
  rewrite (skipn_all2 (fresh_cells jv (N.of_nat (n * k)))) by (rewrite fresh_length; lia). rewrite !app_nil_r.
  assert (Fi : Forall (fun r => length r = k) iss).
  { apply Forall_forall. intros r Hin. apply (In_nth _ _ []) in Hin as (t & Ht & <-). exact (best_length _ _ _ _ _ _ (HB t ltac:(lia))). }
  assert (Fp : Forall (fun r => length r = k) pss).
  { apply Forall_forall. intros r Hin. apply (In_nth _ _ []) in Hin as (t & Ht & <-).
    rewrite (best_probs _ _ _ _ _ _ (HB t ltac:(lia))), map_length. exact (best_length _ _ _ _ _ _ (HB t ltac:(lia))). }
  pose proof (HB pos Hpos) as Hb. fold (lm_probs P (ln_eps (em_hp e)) act sh h n a) in Hb, HB, Lrows.
  set (row := nth pos (lm_probs P (ln_eps (em_hp e)) act sh h n a) []) in *.
  set (is := nth pos iss []) in *. set (ps := nth pos pss []) in *.
  assert (Lis : length is = k) by exact (best_length _ _ _ _ _ _ Hb).
  assert (Lps : length ps = k) by (rewrite (best_probs _ _ _ _ _ _ Hb), map_length; exact Lis).
  assert (Hrow : length row <= em_vocab_count e).
  { unfold row. clear - HL HR LA Hpos.
    destruct (lm_run P L e sh act a n HL HR) as (prob & _ & _ & LR & FR); [symmetry; exact LA|].
    rewrite Forall_forall in FR. rewrite FR; [lia|]. apply nth_In.
    rewrite LR. exact Hpos. }
  destruct (result_lines_ok (op_api m) (k * pos) (concat iss) (concat pss) (seq 0 k) (combine is ps) (rd_texts _ _ _ _ _ _ _ Hr)) as (ls & EL & FL).
  - assert (G : forall q, q <= k -> Forall2 (fun i x => nth_error (concat iss) (k * pos + i) = Some (fst x) /\ nth_error (concat pss) (k * pos + i) = Some (snd x))
      (seq (k - q) q) (skipn (k - q) (combine is ps))).
    { assert (LCm : length (combine is ps) = k) by (rewrite combine_length; lia).
      induction q as [|q IH]; intros Hq; [rewrite skipn_all2 by lia; constructor|].
      cbn [seq]. destruct (skipn (k - S q) (combine is ps)) as [|x r] eqn:Es.
      { exfalso. apply (f_equal (@length _)) in Es. rewrite skipn_length in Es. cbn [length] in Es. lia. }
      assert (Ex : nth_error (combine is ps) (k - S q) = Some x).
      { rewrite <- (firstn_skipn (k - S q) (combine is ps)), Es, nth_error_app2 by (rewrite firstn_length; lia).
        rewrite firstn_length, LCm. replace (k - S q - Nat.min (k - S q) k) with 0 by lia. reflexivity. }
      constructor.
      - rewrite (concat_rows [] iss k Fi) by lia. rewrite (concat_rows [] pss k Fp) by lia. fold is ps.
        exact (nth_combine is ps _ _ Ex).
      - replace (S (k - S q)) with (k - q) by lia. replace r with (skipn (k - q) (combine is ps)); [apply IH; lia|].
        replace (k - q) with (S (k - S q)) by lia. exact (skipn_tail _ _ _ _ Es). }
    specialize (G k ltac:(lia)). rewrite Nat.sub_diag in G. exact G.
  - apply Forall_forall. intros x Hx. destruct x as (x1 & x2). apply in_combine_l in Hx. cbn [fst].
    assert (X := best_exist _ _ _ _ _ _ Hb). rewrite Forall_forall in X. specialize (X _ Hx). cbv beta in X. lia.
  - rewrite EL. cbn [obind]. eexists. split; [reflexivity|]. exact (printed_lines (op_api m) le P k row is ps ls Hb FL).
Qed.
Print Assumptions C109_most_probable.

(** * C70, the other direction: no more tokens than bytes, and the tool ends normally. *)
Theorem C70_inside_partial : forall V (le : V -> V -> Prop) (P : prim V) L ji jt jv load exe path k_str prompt
    (m : opened (V := V)) words rows s sh act ids pos,
  load path = Ok (Some m) -> tokens32 ji ->
  prepared P L m words rows s prompt ids pos -> ready le P L m sh act (length ids) ->
  fill_mask P L ji jt jv load [exe; path; k_str; prompt] <> UB.
Proof.
  intros V le P L ji jt jv load exe path k_str prompt m words rows s sh act ids pos Hl Hj Hp Hr H.
  destruct (stoi_total k_str) as [(z & Hz)|Hz].
  2:{ cbn [fill_mask] in H. rewrite Hz in H. discriminate H. }
  destruct (Z.le_gt_cases z 0) as [Hn|Hn].
  { cbn [fill_mask] in H. rewrite Hz in H. cbn [obind] in H. replace (z <=? 0)%Z with true in H by lia. discriminate H. }
  destruct (N.le_gt_cases (Z.to_N z) (m_count (op_api m))) as [Hc|Hc].
  2:{ cbn [fill_mask] in H. rewrite Hz in H. cbn [obind] in H. replace (z <=? 0)%Z with false in H by lia.
      rewrite Hl in H. cbn [obind] in H. cbn [berts_vocab_size with_model] in H.
      replace (m_count (op_api m) <? Z.to_N z)%N with true in H by lia. discriminate H. }
  apply stoi_iff in Hz as (Hz & Hi).
  destruct (C109_most_probable V le P L ji jt jv load exe path k_str prompt z m words rows s sh act ids pos Hz Hi ltac:(lia) Hl Hc Hj Hp Hr)
    as (ls & E & _). rewrite E in H. discriminate H.
Qed.
Print Assumptions C70_inside_partial.

(** * C110: the number of results *)

(** A text that is no number, or no int, ends the process with an uncaught exception. *)
Theorem C110_bad_number_aborts : forall V (P : prim V) L ji jt jv load exe path k_str prompt,
  (forall z, reads k_str z -> ~ is_int z) ->
  fill_mask P L ji jt jv load [exe; path; k_str; prompt] = Abort.
Proof.
  intros V P L ji jt jv load exe path k_str prompt H. cbn [fill_mask].
  destruct (stoi_total k_str) as [(z & Hz)|Hz]; [|rewrite Hz; reflexivity].
  apply stoi_iff in Hz as (Hz & Hi). elim (H z Hz Hi).
Qed.
Print Assumptions C110_bad_number_aborts.

Theorem C110_bad_number_refuted : exists k_str, (forall z, ~ reads k_str z) /\
  forall V (P : prim V) L ji jt jv load exe path prompt, fill_mask P L ji jt jv load [exe; path; k_str; prompt] = Abort.
Proof.
  exists (u "abc"). split; [|reflexivity].
  intros z H. apply reads_taken in H as (neg & body & n & v & r & E1 & E2 & Hn & _).
  cbn in E1. injection E1 as <- <-. cbn in E2. injection E2 as <- _ _. congruence.
Qed.
Print Assumptions C110_bad_number_refuted.

(** Zero and less are refused. *)
Theorem C110_not_positive : forall V (P : prim V) L ji jt jv load exe path k_str prompt z,
  reads k_str z -> is_int z -> (z <= 0)%Z ->
  fill_mask P L ji jt jv load [exe; path; k_str; prompt] = Ok (1%N, []).
Proof.
  intros V P L ji jt jv load exe path k_str prompt z Hz Hi Hn. cbn [fill_mask].
  rewrite (proj2 (stoi_iff k_str z) (conj Hz Hi)). cbn [obind]. replace (z <=? 0)%Z with true by lia. reflexivity.
Qed.
Print Assumptions C110_not_positive.

(** Only the number counts: what follows it is ignored, and no text is two numbers. *)
Theorem C110_rest_ignored : forall V (P : prim V) L ji jt jv load exe path k_str k_str' prompt z,
  reads k_str z -> reads k_str' z ->
  fill_mask P L ji jt jv load [exe; path; k_str; prompt] = fill_mask P L ji jt jv load [exe; path; k_str'; prompt] /\
  forall z', reads k_str z' -> z' = z.
Proof.
  intros V P L ji jt jv load exe path k_str k_str' prompt z H H'. split; [|intros z' Hz'; exact (reads_fun _ _ _ Hz' H)].
  cbn [fill_mask]. rewrite (stoi_reads _ _ H), (stoi_reads _ _ H'). reflexivity.
Qed.
Print Assumptions C110_rest_ignored.

(** * C111: exactly one mask *)
Theorem C111_one_mask : forall V (P : prim V) L ji jt jv load exe path k_str prompt z (m : opened (V := V)) ids,
  reads k_str z -> is_int z -> (1 <= z)%Z -> load path = Ok (Some m) -> (Z.to_N z <= m_count (op_api m))%N ->
  m_cls (op_api m) <> INVALID -> m_sep (op_api m) <> INVALID -> token_ids (op_api m) prompt = Ok ids ->
  length ids <= length prompt ->
  (forall pos, ~ only_at (m_mask (op_api m)) ids pos) ->
  fill_mask P L ji jt jv load [exe; path; k_str; prompt] = Ok (1%N, []).
Proof.
  intros V P L ji jt jv load exe path k_str prompt z m ids Hz Hi H1 Hl Hc Hcls Hsep Ht Hroom Hm.
  destruct (tokenize_ok (op_api m) prompt ids ji Hcls Hsep Ht) as (cells & E & LC & A & _).
  cbn [fill_mask]. rewrite (proj2 (stoi_iff k_str z) (conj Hz Hi)). cbn [obind].
  replace (z <=? 0)%Z with false by lia. rewrite Hl. cbn [obind]. cbn [berts_vocab_size with_model].
  replace (m_count (op_api m) <? Z.to_N z)%N with false by lia. rewrite E. cbn [obind r_ok r_out r_len negb].
  rewrite Nat2N.id. replace (length cells <? length ids) with false by (symmetry; apply Nat.ltb_ge; lia).
  rewrite (prefix_of ids cells) by (try lia; intros i Hi'; apply A; lia). cbn [berts_mask_id with_model].
  destruct (find_mask (m_mask (op_api m)) 0 None ids) as [p|] eqn:Ef; [|reflexivity].
  apply find_mask_iff in Ef. elim (Hm p Ef).
Qed.
Print Assumptions C111_one_mask.

(** * C112: exit status *)

Lemma result_lines_length {V} c at_ todo ids (scores : list V) ls :
  result_lines c at_ todo ids scores = Ok ls -> length ls = length todo.
Proof.
  revert ls. induction todo as [|i todo IH]; intros ls H; cbn [result_lines] in H; [injection H as <-; reflexivity|].
  destruct (nth_error ids (at_ + i)); [|discriminate H]. destruct (nth_error scores (at_ + i)); [|discriminate H].
  destruct (berts_id_to_token _ _ _ _) as [r| | |]; try discriminate H. cbn [obind] in H.
  destruct (r_out r); [|discriminate H]. destruct (r_len r); [|discriminate H].
  destruct (256 <? _)%N; [discriminate H|]. destruct (result_lines _ _ todo _ _) as [l'| | |] eqn:E; try discriminate H.
  cbn [obind] in H. injection H as <-. cbn [length]. rewrite (IH l' eq_refl). reflexivity.
Qed.

(** Status 0 and k lines, or status 1 and none. *)
Theorem C112_status : forall V (P : prim V) L ji jt jv load argv n (ls : list (line (V := V))),
  fill_mask P L ji jt jv load argv = Ok (n, ls) ->
  (n = 1%N /\ ls = []) \/
  (n = 0%N /\ exists exe path k_str prompt z, argv = [exe; path; k_str; prompt] /\
     reads k_str z /\ (1 <= z)%Z /\ length ls = Z.to_nat z).
Proof.
  intros V P L ji jt jv load argv n ls H.
  assert (F : forall r, r = Ok (1%N, []) -> r = Ok (n, ls) -> n = 1%N /\ ls = []) by (intros r -> E; injection E as <- <-; auto).
  do 4 (destruct argv as [|? argv]; [left; exact (F _ eq_refl H)|]). destruct argv; [|left; exact (F _ eq_refl H)].
  unfold fill_mask in H. rename l into exe, l0 into path, l1 into k_str, l2 into prompt.
  destruct (stoi k_str) as [z| | |] eqn:Hz; try discriminate H. cbn [obind] in H. apply stoi_iff in Hz as (Hz & _).
  destruct (z <=? 0)%Z eqn:Hp; [left; exact (F _ eq_refl H)|].
  destruct (load path) as [[m|]| | |]; try discriminate H; cbn [obind] in H; [|left; exact (F _ eq_refl H)].
  destruct (_ <? Z.to_N z)%N; [left; exact (F _ eq_refl H)|].
  destruct (berts_tokenize _ _ _ _) as [r| | |]; try discriminate H; cbn [obind] in H.
  destruct (negb (r_ok r)); [left; exact (F _ eq_refl H)|].
  destruct (r_out r) as [cells|]; [|discriminate H]. destruct (r_len r) as [count|]; [|discriminate H].
  destruct (_ <? _) in H; [discriminate H|].
  destruct (find_mask _ _ _ _) as [pos|]; [|left; exact (F _ eq_refl H)].
  destruct (berts_eval _ _ _ _ _ _ _ None _) as [e| | |] in H; try discriminate H; cbn [obind] in H.
  destruct (e_ok e) in H; [|left; exact (F _ eq_refl H)]. destruct (e_count e) as [size|] in H; [|left; exact (F _ eq_refl H)].
  destruct (berts_eval _ _ _ _ _ _ _ (Some _) _) as [e'| | |] in H; try discriminate H; cbn [obind] in H.
  destruct (e_ok e') in H; [|left; exact (F _ eq_refl H)]. destruct (e_out e') as [hidden|] in H; [|left; exact (F _ eq_refl H)].
  destruct (e_count e') as [size'|] in H; [|left; exact (F _ eq_refl H)].
  destruct (berts_eval_lm _ _ _ _ _ _ None None _) as [l| | |] in H; try discriminate H; cbn [obind] in H.
  destruct (l_ok l) in H; [|left; exact (F _ eq_refl H)]. destruct (l_count l) as [size2|] in H; [|left; exact (F _ eq_refl H)].
  destruct (berts_eval_lm _ _ _ _ _ _ (Some _) (Some _) _) as [l'| | |] in H; try discriminate H; cbn [obind] in H.
  destruct (l_ok l') in H; [|left; exact (F _ eq_refl H)]. destruct (l_ids l') as [ids|] in H; [|left; exact (F _ eq_refl H)].
  destruct (l_probs l') as [scores|] in H; [|left; exact (F _ eq_refl H)].
  destruct (result_lines _ _ _ _ _) as [rs| | |] eqn:Er in H; try discriminate H; cbn [obind] in H.
  injection H as <- <-. right. split; [reflexivity|]. exists exe, path, k_str, prompt, z.
  split; [reflexivity|]. split; [exact Hz|]. split; [lia|]. rewrite map_length, (result_lines_length _ _ _ _ _ _ Er), seq_length. reflexivity.
Qed.
Print Assumptions C112_status.

(** The failures the tool reports. *)
Theorem C112_argument_count : forall V (P : prim V) L ji jt jv load argv,
  length argv <> 4 -> fill_mask P L ji jt jv load argv = Ok (1%N, []).
Proof.
  intros V P L ji jt jv load argv H. do 4 (destruct argv as [|? argv]; [reflexivity|]).
  destruct argv; [cbn in H; congruence|reflexivity].
Qed.
Print Assumptions C112_argument_count.

Theorem C112_no_model : forall V (P : prim V) L ji jt jv load exe path k_str prompt z,
  reads k_str z -> is_int z -> (1 <= z)%Z ->
  (load path = Ok None \/
   exists m : opened (V := V), load path = Ok (Some m) /\
     ((m_count (op_api m) < Z.to_N z)%N \/ m_cls (op_api m) = INVALID \/ m_sep (op_api m) = INVALID \/
      m_tokenize (op_api m) prompt = Fail)) ->
  fill_mask P L ji jt jv load [exe; path; k_str; prompt] = Ok (1%N, []).
Proof.
  intros V P L ji jt jv load exe path k_str prompt z Hz Hi H1 H. cbn [fill_mask].
  rewrite (proj2 (stoi_iff k_str z) (conj Hz Hi)). cbn [obind]. replace (z <=? 0)%Z with false by lia.
  destruct H as [H|(m & Hl & H)]; [rewrite H; reflexivity|]. rewrite Hl. cbn [obind berts_vocab_size with_model].
  destruct (m_count (op_api m) <? Z.to_N z)%N eqn:Ec; [reflexivity|].
  unfold berts_tokenize. cbn [with_model].
  destruct (m_cls (op_api m) =? INVALID)%N eqn:E1; [reflexivity|]. destruct (m_sep (op_api m) =? INVALID)%N eqn:E2; [reflexivity|].
  destruct H as [H|[H|[H|H]]]; [lia|lia|lia|]. rewrite H. reflexivity.
Qed.
Print Assumptions C112_no_model.

(** Too many tokens, or a model without a head. *)
Theorem C112_too_many_tokens : forall V (P : prim V) L ji jt jv load exe path k_str prompt z (m : opened (V := V)) ids,
  reads k_str z -> is_int z -> (1 <= z)%Z -> load path = Ok (Some m) -> (Z.to_N z <= m_count (op_api m))%N ->
  m_cls (op_api m) <> INVALID -> m_sep (op_api m) <> INVALID -> token_ids (op_api m) prompt = Ok ids ->
  length ids <= length prompt -> tokens32 ji -> Forall (fun t => (t < 4294967296)%N) ids ->
  max_tokens (em_hp (op_eval m)) < length ids ->
  fill_mask P L ji jt jv load [exe; path; k_str; prompt] = Ok (1%N, []).
Proof.
  intros V P L ji jt jv load exe path k_str prompt z m ids Hz Hi H1 Hl Hc Hcls Hsep Ht Hroom Hj Hw Hmax.
  destruct (up_to_mask P L ji jt jv load exe path k_str prompt z m ids Hz Hi H1 Hl Hc Hcls Hsep Ht Hroom Hj Hw) as (cells & F & Hn & _ & E).
  rewrite E. destruct (find_mask _ _ _ _); [|reflexivity]. cbn [berts_eval].
  replace (length cells <? length ids) with false by (symmetry; apply Nat.ltb_ge; exact Hn).
  unfold eval. rewrite F. replace (max_tokens (em_hp (op_eval m)) <? length ids) with true by (symmetry; apply Nat.ltb_lt; exact Hmax).
  reflexivity.
Qed.
Print Assumptions C112_too_many_tokens.

Theorem C112_no_head : forall V (P : prim V) L ji jt jv load exe path k_str prompt z (m : opened (V := V)) words rows s ids pos,
  reads k_str z -> is_int z -> (1 <= z)%Z -> load path = Ok (Some m) -> (Z.to_N z <= m_count (op_api m))%N -> tokens32 ji ->
  prepared P L m words rows s prompt ids pos -> lm (em_weights (op_eval m)) = None ->
  fill_mask P L ji jt jv load [exe; path; k_str; prompt] = Ok (1%N, []).
Proof.
  intros V P L ji jt jv load exe path k_str prompt z m words rows s ids pos Hz Hi H1 Hl Hc Hj Hp Hh.
  destruct (up_to_mask P L ji jt jv load exe path k_str prompt z m ids Hz Hi H1 Hl Hc (rd_cls _ _ _ _ _ _ _ _ _ Hp)
    (rd_sep _ _ _ _ _ _ _ _ _ Hp) (rd_ids _ _ _ _ _ _ _ _ _ Hp) (rd_room _ _ _ _ _ _ _ _ _ Hp) Hj (rd_small _ _ _ _ _ _ _ _ _ Hp))
    as (cells & F & Hn & Hw & E).
  rewrite E. clear E. rewrite (proj2 (find_mask_iff _ _ _) (rd_mask _ _ _ _ _ _ _ _ _ Hp)).
  destruct (hidden_ok P L m words rows s prompt ids pos cells jv Hp F Hn Hw) as (LA & E1 & E2). cbv zeta in LA, E1, E2.
  rewrite E1. cbn [obind e_ok e_count]. rewrite E2. cbn [obind e_ok e_out e_count]. clear E1 E2.
  pose proof (s_hidden _ _ _ _ _ (r_sound _ _ _ _ _ _ _ _ _ _ (rd_run _ _ _ _ _ _ _ _ _ Hp))) as Hh0.
  set (e := op_eval m) in *. rewrite Nat2N.id. cbn [berts_eval_lm]. unfold eval_lm.
  replace (hidden_dim (em_hp e) =? 0) with false by (symmetry; apply Nat.eqb_neq; lia).
  rewrite Nat.mod_mul by lia. cbn [Nat.eqb negb obind l_ok l_count]. rewrite LA, Nat.ltb_irrefl.
  unfold build_lm_graph. rewrite Hh. reflexivity.
Qed.
Print Assumptions C112_no_head.
