(** Theorems about the mask filling tool with its log. *)
From Verif Require Import Base Utf_model Trie_model Bert_model Vocab_model Bpe_model Roberta_model Api_model Ggml_model Encoder_model Encoder_spec Eval_model Eval_spec.
From Verif Require Import Log_model Says_model Says_roberta_model Says_eval_model Fill_model Fill_text_model Fill_log_model.
From Verif Require Import Trie_spec Utf_spec Bert_spec Wp_spec Log_spec Says_spec Tool_spec Fill_spec Fill_proofs.
From Verif Require Import Says_proofs Says_eval_proofs P_Log P_Says P_Says_eval P_Fill P_Fill_text.
From Verif Require Vocab_proofs Utf_proofs Roberta_proofs Gguf_model P_Rfill P_Convert P_Roberta Bpe_load_proofs Vocab_spec Says_load_proofs Loader_model Loader_spec Loader_proofs Says_load_model Says_load_spec P_Says_load P_Says_roberta P_FillFile P_Loader P_Eval Roberta_proofs.
Local Open Scope nat_scope.

(** ** Specification *)

(** The reports of an evaluation that was refused, on the lines before the tool's own. *)
Inductive refusal {V} (m : emodel V) : list N -> list N -> Prop :=
| silent rest : refusal m [] rest
| no_activation : refusal m (row (u "unknown activation function")) (row (u "fail to call `berts_eval`"))
| no_lm head : refusal m (lm_report (em_hp m) (em_kind m) head true false) (row (u "fail to call `berts_eval_lm`")).

(** The messages about the words of a prompt that are not in the vocabulary. *)
Definition unknown_lines (bs : list (list N)) : list message := map (fun b => (2%Z, u "  unknown token: " ++ b)) bs.

(** ** Proofs *)

Lemma endl_row t : t ++ endl = row t.
Proof. reflexivity. Qed.

(** A log is written or undefined. *)
Lemma fprintf_two n : forall f, length f <= n -> (exists o, fprintf f = Ok o) \/ fprintf f = UB.
Proof.
  induction n as [|n IH]; intros [|b f] H; cbn [length] in H; try lia; [left; eexists; reflexivity|left; eexists; reflexivity|].
  cbn [fprintf]. destruct (b =? 37)%N.
  - destruct f as [|c f]; [right; reflexivity|]. destruct (c =? 37)%N; [|right; reflexivity].
    cbn [length] in H. destruct (IH f ltac:(lia)) as [(o & E)|E]; rewrite E; [left; eexists; reflexivity|right; reflexivity].
  - destruct (IH f ltac:(lia)) as [(o & E)|E]; rewrite E; [left; eexists; reflexivity|right; reflexivity].
Qed.
Lemma calls_two cs : forall st, (exists w, calls st cs = Ok w) \/ calls st cs = UB.
Proof.
  assert (W : forall st m, (exists o, write st m = Ok o) \/ write st m = UB).
  { intros st m. unfold write. destruct (has_file st); [|left; eexists; reflexivity].
    destruct (fprintf_two _ (c_str m) (le_n _)) as [(o & E)|E]; rewrite E; [left; eexists; reflexivity|right; reflexivity]. }
  assert (Pl : forall st s m, (exists o, plain st s m = Ok o) \/ plain st s m = UB).
  { intros st s m. unfold plain. destruct (_ <=? _)%Z; [apply W|left; eexists; reflexivity]. }
  induction cs as [|c cs IH]; intros st; [left; eexists; reflexivity|]. cbn [calls].
  assert (C : (exists w, call st c = Ok w) \/ call st c = UB).
  { destruct c as [l|f|s m|s m]; cbn [call]; try (left; eexists; reflexivity).
    - destruct (Pl st s m) as [(o & E)|E]; rewrite E; [left; eexists; reflexivity|right; reflexivity].
    - unfold formatted. destruct (is_logging _ _); [|left; eexists; reflexivity].
      destruct (Pl st s m) as [(o & E)|E]; rewrite E; [left; eexists; reflexivity|right; reflexivity]. }
  destruct C as [(w & E)|E]; rewrite E; [|right; reflexivity]. cbn [obind].
  destruct (IH (fst w)) as [(w' & E')|E']; rewrite E'; [left; eexists; reflexivity|right; reflexivity].
Qed.

Section T.
Context {V : Type} (P : prim V) (L : lib) (ji : nat -> N) (jt : nat -> nat) (jv : nat -> V) (version : list N) (score : V -> list N).
Context (ptr : nat -> N) (threads code : Z).
Context (load : list N -> outcome (option (told (V := V)) * list log_call)).
Let load0 p := obind (load p) (fun q => Ok (option_map fst (fst q))).
Local Notation text := (fill_text P L ji jt jv version score load0).
Local Notation logging := (fill_log P L ji jt jv version score ptr threads code load).

Lemma load_said path m o : logged warn_state (load path) = Ok (m, o) -> load0 path = Ok (option_map fst m).
Proof.
  unfold logged, load0. destruct (load path) as [[x ls]| | |]; try discriminate. cbn [obind fst snd].
  destruct (calls _ ls) as [w| | |]; try discriminate. cbn [obind]. congruence.
Qed.

Lemma eval_step m cells n c out cnt i :
  match berts_eval P L (ELoaded m) cells None n (Some (mkei (-1) c)) out (Some cnt) with
  | Ok e => exists o, logged warn_state (berts_eval_logged P L (ptr i) (ELoaded m) cells None n (Some (mkei (-1) c)) threads code out (Some cnt)) = Ok (e, o) /\
      (e_ok e = true -> o = []) /\ (o = [] \/ o = row (u "unknown activation function"))
  | Fail => logged warn_state (berts_eval_logged P L (ptr i) (ELoaded m) cells None n (Some (mkei (-1) c)) threads code out (Some cnt)) = Fail
  | UB => logged warn_state (berts_eval_logged P L (ptr i) (ELoaded m) cells None n (Some (mkei (-1) c)) threads code out (Some cnt)) = UB
  | Abort => logged warn_state (berts_eval_logged P L (ptr i) (ELoaded m) cells None n (Some (mkei (-1) c)) threads code out (Some cnt)) = Abort
  end.
Proof.
  destruct (C175_eval_logging P L (ptr i) (ELoaded m) cells None n (Some (mkei (-1) c)) threads code out (Some cnt) warn_state) as (A & B & C).
  cbv zeta in A, B, C. destruct (berts_eval P L (ELoaded m) cells None n (Some (mkei (-1) c)) out (Some cnt)) as [e| | |] eqn:E.
  - destruct (proj2 (A e) eq_refl) as (o & K). exists o. split; [exact K|].
    apply (C176_default_log P L (ptr i) m cells None n (mkei (-1) c) threads code out cnt e o) in K; [|discriminate]. cbv zeta in K.
    destruct K as [((_ & K & _) & ->)|(_ & ->)]; split; try (left; reflexivity); try reflexivity.
    + congruence.
    + right. reflexivity.
  - unfold logged, berts_eval_logged. rewrite E. reflexivity.
  - apply B. reflexivity.
  - apply C. reflexivity.
Qed.

Lemma lm_step m hidden n z out outp cnt i :
  match berts_eval_lm P L (ELoaded m) hidden n (Some (mkli z)) out outp (Some cnt) with
  | Ok e => exists o, logged warn_state (berts_eval_lm_logged P L (ptr i) (ELoaded m) hidden n (Some (mkli z)) out outp (Some cnt)) = Ok (e, o) /\
      (l_ok e = true -> o = []) /\
      (o = [] \/ match out, outp with
                 | Some _, Some _ => exists head, o = lm_report (em_hp m) (em_kind m) head true false
                 | None, None => o = []
                 | _, _ => True
                 end)
  | Fail => logged warn_state (berts_eval_lm_logged P L (ptr i) (ELoaded m) hidden n (Some (mkli z)) out outp (Some cnt)) = Fail
  | UB => logged warn_state (berts_eval_lm_logged P L (ptr i) (ELoaded m) hidden n (Some (mkli z)) out outp (Some cnt)) = UB
  | Abort => logged warn_state (berts_eval_lm_logged P L (ptr i) (ELoaded m) hidden n (Some (mkli z)) out outp (Some cnt)) = Abort
  end.
Proof.
  destruct (C175_eval_lm_logging P L (ptr i) (ELoaded m) hidden n (Some (mkli z)) out outp (Some cnt) warn_state) as (A & B & C).
  cbv zeta in A, B, C. destruct (berts_eval_lm P L (ELoaded m) hidden n (Some (mkli z)) out outp (Some cnt)) as [e| | |] eqn:E.
  - destruct (proj2 (A e) eq_refl) as (o & K). exists o. split; [exact K|].
    apply (C178_lm_default_log P L (ptr i) m hidden n (mkli z) out outp cnt e o) in K. cbv zeta in K. destruct K as (K1 & K2). split.
    + intros H. apply K2 in H. apply H.
    + destruct (n mod hidden_dim (em_hp m) =? 0); [|left; exact K1]. right. destruct out, outp; try exact I; cbn [andb xorb] in K1.
      * exists (match lm (em_weights m) with Some _ => true | None => false end). exact K1.
      * exact K1.
  - unfold logged, berts_eval_lm_logged. rewrite E. reflexivity.
  - apply B. reflexivity.
  - apply C. reflexivity.
Qed.

(** The run with log, once the tokenizer has spoken. *)
Lemma log_rel exe path k_str prompt z m says st o1 o2 :
  reads k_str z -> is_int z -> (1 <= z)%Z -> logged warn_state (load path) = Ok (Some (m, says), o1) ->
  (Z.to_N z <= m_count (op_api m))%N -> calls warn_state (says prompt) = Ok (st, o2) ->
  match text [exe; path; k_str; prompt] with
  | Ok r => exists o3 rest, fr_err r = greeting version ++ rest /\
      logging [exe; path; k_str; prompt] = Ok (mkfr (fr_status r) (fr_out r) (greeting version ++ o1 ++ o2 ++ o3 ++ rest)) /\
      (fr_status r = 0%N -> o3 = [] /\ rest = []) /\ refusal (op_eval m) o3 rest
  | Fail => logging [exe; path; k_str; prompt] = Fail
  | UB => logging [exe; path; k_str; prompt] = UB
  | Abort => logging [exe; path; k_str; prompt] = Abort
  end.
Proof.
  intros Hz Hi H1 LG Hc Hs2.
  assert (EB : fill_banner version = greeting version) by (unfold fill_banner, greeting, row, endl; rewrite <- !app_assoc; reflexivity).
  assert (ST := proj2 (stoi_iff k_str z) (conj Hz Hi)).
  assert (L0 : load0 path = Ok (Some m)) by (apply (load_said _ _ _ LG)).
  assert (FAIL : forall out (log message : list N), (exists o3, refusal (op_eval m) o3 (row message) /\ log = o1 ++ o2 ++ o3) ->
     exists o3 rest, fr_err (mkfr 1 out (fill_banner version ++ message ++ endl)) = greeting version ++ rest /\
       Ok (mkfr 1 out (fill_banner version ++ log ++ message ++ endl)) = Ok (mkfr (fr_status (mkfr 1 out (fill_banner version ++ message ++ endl)))
         (fr_out (mkfr 1 out (fill_banner version ++ message ++ endl))) (greeting version ++ o1 ++ o2 ++ o3 ++ rest)) /\
       (fr_status (mkfr 1 out (fill_banner version ++ message ++ endl)) = 0%N -> o3 = [] /\ rest = []) /\ refusal (op_eval m) o3 rest).
  { intros out log message (o3 & R & ->). exists o3, (row message). cbn [fr_err fr_status fr_out]. rewrite EB. split; [reflexivity|].
    split; [rewrite <- !app_assoc; reflexivity|]. split; [discriminate|exact R]. }
  assert (MUTE : forall message (log : list N), log = o1 ++ o2 -> exists o3, refusal (op_eval m) o3 (row message) /\ log = o1 ++ o2 ++ o3).
  { intros message log ->. exists []. split; [constructor|rewrite app_nil_r; reflexivity]. }
  cbn [fill_text fill_log]. rewrite ST. cbn [obind]. replace (z <=? 0)%Z with false by lia.
  rewrite L0. cbn [obind]. rewrite LG. cbn [obind].
  cbn [berts_vocab_size with_model]. replace (m_count (op_api m) <? Z.to_N z)%N with false by lia.
  destruct (berts_tokenize _ _ _ _) as [rt| | |]; try reflexivity. cbn [obind]. rewrite Hs2. cbn [obind snd].
  destruct (r_ok rt); cbn [negb]; [|apply FAIL, MUTE; reflexivity].
  destruct (r_out rt) as [cells|]; [|reflexivity]. destruct (r_len rt) as [count|]; [|reflexivity].
  destruct (length cells <? N.to_nat count); [reflexivity|].
  destruct (find_mask _ _ _ _) as [pos|]; [|apply FAIL, MUTE; reflexivity].
  pose proof (eval_step (op_eval m) cells (N.to_nat count) PoolNone None 0%N 0) as S.
  destruct (berts_eval _ _ _ _ _ _ _ None _) as [e| | |]; [|rewrite S; reflexivity|rewrite S; reflexivity|rewrite S; reflexivity].
  destruct S as (x1 & E1 & Q1 & R1). rewrite E1. cbn [obind]. clear E1.
  assert (REF : forall x, (x = [] \/ x = row (u "unknown activation function")) -> forall log : list N, log = (o1 ++ o2) ++ x ->
    exists o3, refusal (op_eval m) o3 (row (u "fail to call `berts_eval`")) /\ log = o1 ++ o2 ++ o3).
  { intros x [->| ->] log ->; eexists; (split; [|rewrite <- app_assoc; reflexivity]); constructor. }
  destruct (e_ok e); [|apply FAIL, (REF x1 R1); reflexivity]. rewrite (Q1 eq_refl), app_nil_r. clear x1 Q1 R1.
  destruct (e_count e) as [size|]; [|apply FAIL, MUTE; reflexivity].
  pose proof (eval_step (op_eval m) cells (N.to_nat count) PoolNone (Some (fresh_cells jv size)) size 1) as S.
  destruct (berts_eval _ _ _ _ _ _ _ _ _) as [e2| | |]; [|rewrite S; reflexivity|rewrite S; reflexivity|rewrite S; reflexivity].
  destruct S as (x1 & E1 & Q1 & R1). rewrite E1. cbn [obind]. clear E1.
  destruct (e_ok e2); [|apply FAIL, (REF x1 R1); reflexivity]. rewrite (Q1 eq_refl), app_nil_r. clear x1 Q1 R1.
  destruct (e_out e2) as [hidden|]; [|apply FAIL, MUTE; reflexivity].
  destruct (e_count e2) as [size2|]; [|apply FAIL, MUTE; reflexivity].
  pose proof (lm_step (op_eval m) hidden (N.to_nat size2) z None None 0%N 2) as S.
  destruct (berts_eval_lm _ _ _ _ _ _ None None _) as [l1| | |]; [|rewrite S; reflexivity|rewrite S; reflexivity|rewrite S; reflexivity].
  destruct S as (x1 & E1 & Q1 & R1). rewrite E1. cbn [obind]. clear E1.
  assert (x1 = []) as -> by (destruct R1; assumption). rewrite app_nil_r. clear Q1 R1.
  destruct (l_ok l1); [|apply FAIL, MUTE; reflexivity].
  destruct (l_count l1) as [size'|]; [|apply FAIL, MUTE; reflexivity].
  pose proof (lm_step (op_eval m) hidden (N.to_nat size2) z (Some (fresh_cells jt size')) (Some (fresh_cells jv size')) size' 3) as S.
  destruct (berts_eval_lm _ _ _ _ _ _ _ _ _) as [l2| | |]; [|rewrite S; reflexivity|rewrite S; reflexivity|rewrite S; reflexivity].
  destruct S as (x1 & E1 & Q1 & R1). rewrite E1. cbn [obind]. clear E1.
  destruct (l_ok l2).
  2: { apply FAIL. destruct R1 as [->|(head & ->)]; eexists; (split; [|rewrite <- app_assoc; reflexivity]); constructor. }
  rewrite (Q1 eq_refl), app_nil_r. clear x1 Q1 R1.
  destruct (l_ids l2) as [ids|]; [|apply FAIL, MUTE; reflexivity]. destruct (l_probs l2) as [scores|]; [|apply FAIL, MUTE; reflexivity].
  destruct (result_lines _ _ _ _ _) as [lns| | |]; try reflexivity. cbn [obind fr_err fr_status fr_out].
  exists [], []. rewrite EB. split; [rewrite app_nil_r; reflexivity|]. split; [rewrite !app_nil_r; reflexivity|]. split; [auto|constructor].
Qed.
End T.

(** Only the model at the path given matters. *)
Lemma text_ext {V} (P : prim V) L ji jt jv version score load load' exe path k_str prompt :
  load path = load' path ->
  fill_text P L ji jt jv version score load [exe; path; k_str; prompt] = fill_text P L ji jt jv version score load' [exe; path; k_str; prompt].
Proof. intros H. cbn [fill_text]. rewrite H. reflexivity. Qed.

(** A run that succeeds has no more tokens than the model takes. *)
Lemma success_fits {V} (P : prim V) L ji jt jv version score load exe path k_str prompt z (m : opened (V := V)) ids r :
  reads k_str z -> is_int z -> (1 <= z)%Z -> load path = Ok (Some m) -> (Z.to_N z <= m_count (op_api m))%N ->
  m_cls (op_api m) <> INVALID -> m_sep (op_api m) <> INVALID -> token_ids (op_api m) prompt = Ok ids ->
  fill_text P L ji jt jv version score load [exe; path; k_str; prompt] = Ok r -> fr_status r = 0%N ->
  length ids <= max_tokens (em_hp (op_eval m)).
Proof.
  intros Hz Hi H1 Hl Hc Hcls Hsep TI T T0.
  assert (Hroom : length ids <= length prompt).
  { destruct (text_status P L ji jt jv version score load _ _ T) as (ls & _ & Q).
    destruct (Q T0) as (exe' & path' & k' & prompt' & m' & rt & cells & count & Ea & El & ET & E1 & E2 & E3 & E4 & _).
    injection Ea as <- <- <- <-. assert (m' = m) as -> by congruence.
    destruct (tokenize_ok (op_api m) prompt ids ji Hcls Hsep TI) as (cells' & E & LC & _). rewrite E in ET. injection ET as <-.
    cbn in E2, E3. injection E2 as ->. injection E3 as <-. rewrite Nat2N.id in E4. lia. }
  destruct (Nat.le_gt_cases (length ids) (max_tokens (em_hp (op_eval m)))) as [H|H]; [exact H|exfalso].
  destruct (C205_messages P L ji jt jv version score load exe path k_str prompt z Hz Hi) as (_ & K). cbv zeta in K.
  destruct (K H1) as (_ & K'). destruct (K' m Hl) as (_ & K2). destruct (K2 Hc) as (_ & K3).
  destruct (K3 ids Hcls Hsep TI Hroom) as (N1 & N2).
  destruct (find_mask (m_mask (op_api m)) 0 None ids) as [pos|] eqn:EM.
  - apply find_mask_iff in EM. rewrite (N2 pos EM H) in T. injection T as <-. discriminate T0.
  - assert (X : forall pos, ~ only_at (m_mask (op_api m)) ids pos).
    { intros pos O. apply find_mask_iff in O. congruence. }
    rewrite (N1 X) in T. injection T as <-. discriminate T0.
Qed.

Lemma app_log l a : forall b o, log_of l (a ++ b) o <-> exists o1 o2, o = o1 ++ o2 /\ log_of l a o1 /\ log_of l b o2.
Proof.
  induction a as [|[r m] a IH]; intros b o; cbn [app].
  - split; [intros H; exists [], o; repeat split; [constructor|exact H]|]. intros (o1 & o2 & -> & H1 & H2). inversion H1. exact H2.
  - split.
    + intros H. inversion H as [|? ? ? ? Hr Hk|? ? ? t p o' Hr Hc He Hk]; subst.
      * apply IH in Hk as (o1 & o2 & -> & H1 & H2). exists o1, o2. repeat split; [apply log_skip; assumption|exact H2].
      * apply IH in Hk as (o1 & o2 & -> & H1 & H2). exists (p ++ [10%N] ++ o1), o2. repeat split; [rewrite <- !app_assoc; reflexivity| |exact H2].
        eapply log_line; eassumption.
    + intros (o1 & o2 & -> & H1 & H2). inversion H1 as [|? ? ? ? Hr Hk|? ? ? t p o' Hr Hc He Hk]; subst.
      * apply log_skip; [exact Hr|]. apply IH. exists o1, o2. auto.
      * rewrite <- !app_assoc. eapply log_line; try eassumption. apply IH. exists o', o2. auto.
Qed.

Section F.
Context {V : Type} (P : prim V) (L : lib) (ji : nat -> N) (jt : nat -> nat) (jv : nat -> V) (version : list N) (score : V -> list N).
Context (ptr : nat -> N) (threads code : Z).
Context (k : icu) (engine : list N -> list (option (nat * nat))) (ws : N -> bool) (pick : picker) (sporder : list (list N) -> list (list N)).
Context (junk : nat -> N) (value : Loader_model.gty -> list N -> nat -> V) (order : list (Bpe_model.ustring * N) -> list (Bpe_model.ustring * N)).
Context (text : Loader_model.skey -> list N) (double : N -> list N) (n_kv : N).
(** What is found at a path, and whether it can be opened a second time. *)
Context (files : list N -> option Loader_model.file * bool).

Definition load_at (path : list N) : outcome (Loader_model.load_result (V := V) * list log_call) :=
  Says_load_model.load_logged L junk value order path text double n_kv (fst (files path)) (snd (files path)).

(** The tool with its log, and without. *)
Local Notation run := (fill_log P L ji jt jv version score ptr threads code (fun p => open_log k engine ws pick sporder (load_at p))).
Local Notation quiet := (fill_text P L ji jt jv version score
  (fun p => open k engine ws pick sporder (Loader_model.load_from_file L junk value order (fst (files p)) (snd (files p))))).

Lemma open_at path m o : logged log_start (load_at path) = Ok (m, o) ->
  logged warn_state (open_log k engine ws pick sporder (load_at path)) =
    Ok (match m with
        | Loader_model.Loaded m => Some (mkopened (api_of k engine ws pick sporder m) (Loader_model.evaluator m), tokenize_says k engine ws pick sporder m)
        | Loader_model.Null _ => None
        end, o) /\
  open k engine ws pick sporder (Loader_model.load_from_file L junk value order (fst (files path)) (snd (files path))) =
    Ok (match m with
        | Loader_model.Loaded m => Some (mkopened (api_of k engine ws pick sporder m) (Loader_model.evaluator m))
        | Loader_model.Null _ => None
        end).
Proof.
  intros H. unfold logged in H |- *. assert (E := Says_load_proofs.load_result_same L junk value order path text double n_kv (fst (files path)) (snd (files path))).
  fold (load_at path) in E. destruct (load_at path) as [[x ls]| | |]; try discriminate. cbn [obind fst snd] in H, E.
  change log_start with warn_state in H. destruct (calls warn_state ls) as [w| | |] eqn:EC; try discriminate. cbn [obind] in H. injection H as -> <-.
  rewrite <- E. destruct m as [m|b]; cbn [open_log obind fst snd open]; rewrite EC; split; reflexivity.
Qed.

Lemma run_rel exe path k_str prompt z m o1 st o2 :
  logged log_start (load_at path) = Ok (Loader_model.Loaded m, o1) ->
  reads k_str z -> is_int z -> (1 <= z)%Z -> (Z.to_N z <= m_count (api_of k engine ws pick sporder m))%N ->
  calls log_start (tokenize_says k engine ws pick sporder m prompt) = Ok (st, o2) ->
  match quiet [exe; path; k_str; prompt] with
  | Ok r => exists o3 rest, fr_err r = greeting version ++ rest /\
      run [exe; path; k_str; prompt] = Ok (mkfr (fr_status r) (fr_out r) (greeting version ++ o1 ++ o2 ++ o3 ++ rest)) /\
      (fr_status r = 0%N -> o3 = [] /\ rest = []) /\ refusal (Loader_model.evaluator m) o3 rest
  | Fail => run [exe; path; k_str; prompt] = Fail
  | UB => run [exe; path; k_str; prompt] = UB
  | Abort => run [exe; path; k_str; prompt] = Abort
  end.
Proof.
  intros LD Hz Hi H1 Hc Hs. destruct (open_at path _ _ LD) as (A & B).
  pose proof (log_rel P L ji jt jv version score ptr threads code (fun p => open_log k engine ws pick sporder (load_at p))
    exe path k_str prompt z _ _ st o1 o2 Hz Hi H1 A Hc Hs) as R.
  rewrite (text_ext P L ji jt jv version score _ (fun p => open k engine ws pick sporder (Loader_model.load_from_file L junk value order (fst (files p)) (snd (files p)))) exe path k_str prompt) in R; [exact R|].
  rewrite B. exact (load_said (fun p => open_log k engine ws pick sporder (load_at p)) path _ _ A).
Qed.

(** C206: with a BERT model the words of the prompt that are not in the vocabulary are
    printed to stderr, as printf formats.  If they are such formats, the run is the same as
    without the log; if not, it is undefined. *)
Theorem C206_unknown_words : forall exe path k_str prompt z m v o1 uss ncs ids hs bs,
  logged log_start (load_at path) = Ok (Loader_model.Loaded m, o1) -> Loader_model.lo_vocab m = Loader_model.LBert v ->
  reads k_str z -> is_int z -> (1 <= z)%Z -> (Z.to_N z <= N.of_nat (length (Bert_model.v_tokens v)))%N ->
  P_Says.steps k v prompt uss ncs ids hs -> Forall2 Says_spec.shown (unknowns hs) bs ->
  (Forall printable_text bs ->
   match quiet [exe; path; k_str; prompt] with
   | Ok r => exists o2 o3 rest,
       log_of 2 (unknown_lines bs ++ count_lines (N.of_nat (max_tokens (em_hp (Loader_model.evaluator m)))) (N.of_nat (length ids) + 2)) o2 /\
       fr_err r = greeting version ++ rest /\ refusal (Loader_model.evaluator m) o3 rest /\
       run [exe; path; k_str; prompt] = Ok (mkfr (fr_status r) (fr_out r) (greeting version ++ o1 ++ o2 ++ o3 ++ rest)) /\
       (fr_status r = 0%N -> log_of 2 (unknown_lines bs) o2 /\ o3 = [] /\ rest = [])
   | Fail => run [exe; path; k_str; prompt] = Fail
   | UB => run [exe; path; k_str; prompt] = UB
   | Abort => run [exe; path; k_str; prompt] = Abort
   end) /\
  ((exists b, In b bs /\ ~ printable_text b) -> run [exe; path; k_str; prompt] = UB).
Proof.
  intros exe path k_str prompt z m v o1 uss ncs ids hs bs LD EV Hz Hi H1 Hc S HB.
  set (max := N.of_nat (max_tokens (em_hp (Loader_model.evaluator m)))).
  destruct (C173_default_log k v max prompt uss ncs ids hs bs S HB) as (D1 & D2). cbv zeta in D1, D2.
  assert (Hcls := st_cls _ _ _ _ _ _ _ S). assert (Hsep := st_sep _ _ _ _ _ _ _ S).
  assert (X : exists tr, berts_tokenize_logged k v max prompt = Ok (Some ([v_cls v] ++ ids ++ [v_sep v]), tr)).
  { pose proof (C172_no_file k v max prompt uss ncs ids hs 2 S) as Q. unfold logged in Q.
    destruct (berts_tokenize_logged k v max prompt) as [[x tr]| | |]; try discriminate. cbn [obind fst snd] in Q.
    destruct (calls _ tr); try discriminate. cbn [obind] in Q. injection Q as -> _. eauto. }
  destruct X as (tr & EX).
  assert (ET : tokenize_says k engine ws pick sporder m prompt = tr).
  { unfold tokenize_says. rewrite EV. fold max. rewrite EX. reflexivity. }
  assert (TI : token_ids (api_of k engine ws pick sporder m) prompt = Ok ([v_cls v] ++ ids ++ [v_sep v])).
  { revert EX. unfold token_ids, api_of, berts_tokenize_logged, model_tokenize_logged. rewrite EV. cbn [m_tokenize m_cls m_sep].
    destruct (v_cls v =? INVALID)%N; [intros; congruence|]. destruct (v_sep v =? INVALID)%N; [intros; congruence|].
    destruct (all_some _); [|discriminate]. destruct (all_some _); [|discriminate]. destruct (from_utf8 prompt); [|discriminate].
    destruct (model_tokenize k v prompt) as [i| | |]; try discriminate. cbn [obind fst snd]. intros Q.
    assert (Q' := f_equal (fun x => match x with Ok (Some y, _) => y | _ => [] end) Q). cbv beta iota in Q'. rewrite <- Q'. reflexivity. }
  assert (Hcls' : m_cls (api_of k engine ws pick sporder m) <> INVALID) by (unfold api_of; rewrite EV; exact Hcls).
  assert (Hsep' : m_sep (api_of k engine ws pick sporder m) <> INVALID) by (unfold api_of; rewrite EV; exact Hsep).
  assert (Hc' : (Z.to_N z <= m_count (api_of k engine ws pick sporder m))%N) by (unfold api_of; rewrite EV; exact Hc).
  destruct (open_at path _ _ LD) as (A & B). rewrite EX in D1, D2. unfold logged in D1, D2. cbn [obind fst snd] in D1, D2. split.
  - intros HP. destruct (calls_two tr log_start) as [([st o2] & EC)|EC].
    2: { exfalso. rewrite EC in D2. destruct (proj1 D2 eq_refl) as (b & Hb & Hn). rewrite Forall_forall in HP. exact (Hn (HP b Hb)). }
    rewrite EC in D1.
    pose proof (run_rel exe path k_str prompt z m o1 st o2 LD Hz Hi H1 Hc' ltac:(rewrite ET; exact EC)) as R.
    destruct (quiet [exe; path; k_str; prompt]) as [r| | |] eqn:Eq; try exact R.
    destruct R as (o3 & rest & R1 & R2 & R3 & R4). exists o2, o3, rest.
    assert (LO : log_of 2 (unknown_lines bs ++ count_lines max (N.of_nat (length ids) + 2)) o2) by (apply D1; reflexivity).
    split; [exact LO|]. split; [exact R1|]. split; [exact R4|]. split; [exact R2|]. intros H0. split; [|apply R3, H0].
    assert (F : length ([v_cls v] ++ ids ++ [v_sep v]) <= max_tokens (em_hp (Loader_model.evaluator m))).
    { exact (success_fits P L ji jt jv version score _ exe path k_str prompt z _ _ r Hz Hi H1 B Hc' Hcls' Hsep' TI Eq H0). }
    rewrite !app_length in F. cbn [length] in F. unfold count_lines in LO. fold max in LO.
    replace (max <? N.of_nat (length ids) + 2)%N with false in LO by (symmetry; apply N.ltb_ge; unfold max; lia).
    rewrite app_nil_r in LO. exact LO.
  - intros HU. apply D2 in HU.
    cbn [fill_log]. rewrite (proj2 (stoi_iff k_str z) (conj Hz Hi)). cbn [obind]. replace (z <=? 0)%Z with false by lia.
    rewrite A. cbn [obind]. cbn [berts_vocab_size with_model op_api].
    replace (m_count (api_of k engine ws pick sporder m) <? Z.to_N z)%N with false by lia.
    destruct (tokenize_ok (api_of k engine ws pick sporder m) prompt _ ji Hcls' Hsep' TI) as (cells & E & _). rewrite E. cbn [obind].
    rewrite ET. change warn_state with log_start. destruct (calls log_start tr); try discriminate. reflexivity.
Qed.

(** A model that is not loaded: the log says what C187 says, then the tool its own line. *)
Theorem C206_no_model : forall exe path k_str prompt z b o1,
  logged log_start (load_at path) = Ok (Loader_model.Null b, o1) -> reads k_str z -> is_int z -> (1 <= z)%Z ->
  run [exe; path; k_str; prompt] = Ok (mkfr 1 [] (greeting version ++ o1 ++ row (u "fail to load model: " ++ path))).
Proof.
  intros exe path k_str prompt z b o1 LD Hz Hi H1. destruct (open_at path _ _ LD) as (A & _).
  assert (EB : fill_banner version = greeting version) by (unfold fill_banner, greeting, row, endl; rewrite <- !app_assoc; reflexivity).
  cbn [fill_log]. rewrite (proj2 (stoi_iff k_str z) (conj Hz Hi)). cbn [obind]. replace (z <=? 0)%Z with false by lia.
  rewrite A. cbn [obind]. rewrite EB. reflexivity.
Qed.

(** C207: with a RoBERTa model the log never changes or breaks a run; besides what loading
    reports only the hint about too many tokens and a refused evaluation are in it, and on
    success nothing. *)
Theorem C207_roberta : forall exe path k_str prompt z m rv g ts o1,
  logged log_start (load_at path) = Ok (Loader_model.Loaded m, o1) -> Loader_model.lo_vocab m = Loader_model.LRoberta rv ->
  Roberta_proofs.loaded g ts rv -> (N.of_nat (length ts) < 2 ^ 32)%N ->
  r_cls (rv_sp rv) <> INVALID -> r_sep (rv_sp rv) <> INVALID ->
  reads k_str z -> is_int z -> (1 <= z)%Z -> (Z.to_N z <= N.of_nat (length ts))%N ->
  match quiet [exe; path; k_str; prompt] with
  | Ok r => exists n o2 o3 rest,
      log_of 2 (count_lines (N.of_nat (max_tokens (em_hp (Loader_model.evaluator m)))) n) o2 /\
      fr_err r = greeting version ++ rest /\ refusal (Loader_model.evaluator m) o3 rest /\
      run [exe; path; k_str; prompt] = Ok (mkfr (fr_status r) (fr_out r) (greeting version ++ o1 ++ o2 ++ o3 ++ rest)) /\
      (fr_status r = 0%N -> o2 = [] /\ o3 = [] /\ rest = [])
  | Fail => run [exe; path; k_str; prompt] = Fail
  | UB => run [exe; path; k_str; prompt] = UB
  | Abort => run [exe; path; k_str; prompt] = Abort
  end.
Proof.
  intros exe path k_str prompt z m rv g ts o1 LD EV LV LB Hcls Hsep Hz Hi H1 Hc.
  set (max := N.of_nat (max_tokens (em_hp (Loader_model.evaluator m)))).
  assert (Hc' : (Z.to_N z <= m_count (api_of k engine ws pick sporder m))%N).
  { unfold api_of. rewrite EV. cbn [m_count]. rewrite (proj1 (Roberta_proofs.ld_voc _ _ _ LV)). exact Hc. }
  assert (X : exists st o2 n, calls log_start (tokenize_says k engine ws pick sporder m prompt) = Ok (st, o2) /\
    log_of 2 (count_lines max n) o2 /\
    (forall ids, r_tokenize engine ws pick sporder rv prompt = Some (Ok ids) -> n = (N.of_nat (length ids) + 2)%N)).
  { unfold tokenize_says. rewrite EV. fold max.
    assert (ZERO : log_of 2 (count_lines max 0) []) by (unfold count_lines; replace (max <? 0)%N with false by (symmetry; apply N.ltb_ge; lia); constructor).
    destruct (r_tokenize engine ws pick sporder rv prompt) as [[ids| | |]|] eqn:ER.
    - destruct (P_Says_roberta.C192_success_log engine ws pick sporder g ts rv max prompt 2 ids LV LB Hcls Hsep ER) as (r & o & E1 & E2 & E3).
      rewrite E1. unfold logged in E2. destruct r as [[x tr]| | |]; try discriminate. cbn [obind fst snd] in E2 |- *.
      change (mkls 2 true) with log_start in E2. destruct (calls log_start tr) as [[st w]| | |]; try discriminate. cbn [obind snd] in E2.
      injection E2 as _ ->. exists st, o, (N.of_nat (length ids) + 2)%N. split; [reflexivity|]. split; [|intros ids' Q; congruence].
      apply app_log in E3 as (f1 & f2 & -> & F1 & F2). rewrite (P_Says_roberta.front_low _ _ _ F1). exact F2.
    - destruct (P_Says_roberta.C193_refusal_default_log engine ws pick sporder g ts rv max prompt LV LB Hcls Hsep ER) as (r & n & o & E1 & E2 & E3).
      rewrite E1. unfold logged in E2. destruct r as [[x tr]| | |]; try discriminate. cbn [obind fst snd] in E2 |- *.
      destruct (calls log_start tr) as [[st w]| | |]; try discriminate. cbn [obind snd] in E2.
      injection E2 as _ ->. exists st, o, (n + 1)%N. split; [reflexivity|]. split; [exact E3|discriminate].
    - rewrite (proj1 (proj1 (proj2 (P_Says_roberta.C192_other_results engine ws pick sporder g ts rv max prompt LV LB Hcls Hsep))) ER).
      exists log_start, [], 0%N. split; [reflexivity|]. split; [exact ZERO|discriminate].
    - rewrite (proj1 (proj2 (proj2 (P_Says_roberta.C192_other_results engine ws pick sporder g ts rv max prompt LV LB Hcls Hsep))) ER).
      exists log_start, [], 0%N. split; [reflexivity|]. split; [exact ZERO|discriminate].
    - rewrite (proj1 (proj1 (P_Says_roberta.C192_other_results engine ws pick sporder g ts rv max prompt LV LB Hcls Hsep)) ER).
      exists log_start, [], 0%N. split; [reflexivity|]. split; [exact ZERO|discriminate]. }
  destruct X as (st & o2 & n & EC & LO & HN).
  pose proof (run_rel exe path k_str prompt z m o1 st o2 LD Hz Hi H1 Hc' EC) as R.
  destruct (quiet [exe; path; k_str; prompt]) as [r| | |] eqn:Eq; try exact R.
  destruct R as (o3 & rest & R1 & R2 & R3 & R4). exists n, o2, o3, rest.
  split; [exact LO|]. split; [exact R1|]. split; [exact R4|]. split; [exact R2|]. intros H0. split; [|apply R3, H0].
  destruct (open_at path _ _ LD) as (A & B).
  assert (Hcls' : m_cls (api_of k engine ws pick sporder m) <> INVALID) by (unfold api_of; rewrite EV; exact Hcls).
  assert (Hsep' : m_sep (api_of k engine ws pick sporder m) <> INVALID) by (unfold api_of; rewrite EV; exact Hsep).
  destruct (C204_success_text P L ji jt jv version score _ _ _ Eq H0) as (exe' & path' & k' & prompt' & m' & ids' & ls' & Ea & El & TI & _).
  injection Ea as <- <- <- <-. rewrite B in El. injection El as <-. cbn [op_api] in TI.
  pose proof (success_fits P L ji jt jv version score _ exe path k_str prompt z _ _ r Hz Hi H1 B Hc' Hcls' Hsep' TI Eq H0) as F.
  cbn [op_eval] in F. unfold token_ids, api_of in TI. rewrite EV in TI. cbn [m_tokenize m_cls m_sep] in TI.
  destruct (r_tokenize engine ws pick sporder rv prompt) as [[ids| | |]|]; try discriminate.
  rewrite (HN ids eq_refl) in LO.
  assert (length ids' = length ids + 2)%nat.
  { assert (Q := f_equal (fun x => match x with Ok y => y | _ => [] end) TI). cbn [obind] in Q. rewrite <- Q. cbn [length]. rewrite app_length. cbn [length]. lia. }
  unfold count_lines in LO. replace (max <? N.of_nat (length ids) + 2)%N with false in LO by (symmetry; apply N.ltb_ge; unfold max; lia).
  inversion LO. reflexivity.
Qed.
End F.
Print Assumptions C206_unknown_words.
Print Assumptions C206_no_model.
Print Assumptions C207_roberta.

(** The file of P_FillFile with its special ids and without lower-casing. *)
Definition g_tok : gguf := fun k =>
  match k with
  | K_cls => Some (KU32 0) | K_sep => Some (KU32 1) | K_mask => Some (KU32 2) | K_pad => Some (KU32 3) | K_unk => Some (KU32 4)
  | K_lower => Some (KBool false) | _ => None
  end.
Definition g_file : Loader_model.file :=
  let f := P_FillFile.e_file in
  Loader_model.mkfile (Loader_model.f_set f) g_tok (Loader_model.f_tensors f) (Loader_model.f_data f) (Loader_model.f_bytes f).
Definition g_bv : bvocab := mkbv P_FillFile.e_tokens 0 2 3 1 4 (make_info false true true false).
Definition g_load (path : list N) :=
  load_at P_Eval.lib64 P_Loader.d_junk P_Loader.d_value (fun l => l) (fun _ => u "x") (fun _ => u "1e-12") 20
    (fun p => if list_N_eqb p (u "m.gguf") then (Some g_file, true) else (None, true)) path.
Definition g_run (k_str prompt : list N) : outcome fill_run :=
  fill_log P_Eval.zprim P_Eval.lib64 (fun _ => 7%N) (fun _ => 8) (fun _ => 9%Z) (u "0.1.0") t_score (fun _ => 4096%N) (-1) 0
    (fun p => open_log P_Bert.demo_icu (fun _ => []) (fun _ => false) (fun _ => None) (fun l => l) (g_load p))
    (t_args k_str prompt).

Example C206_example :
  match logged log_start (g_load (u "m.gguf")) with
  | Ok (Loader_model.Loaded m, o) => Loader_model.lo_vocab m = Loader_model.LBert g_bv /\ o = []
  | _ => False
  end /\
  (exists uss ncs ids hs lines, P_Says.steps P_Bert.demo_icu g_bv (u "[MASK] %d") uss ncs ids hs /\ Forall2 heard_line hs lines) /\
  g_run (u "2") (u "[MASK] %d") = UB /\
  (exists out, g_run (u "2") (u "[MASK] ab") = Ok (mkfr 0 out
     (row (u "* berts.cpp v0.1.0 fill_mask") ++ row (u "  unknown token: ab")))) /\
  g_run (u "2") (u "[MASK] a a") = Ok (mkfr 1 (P_Fill_text.shown (u "[MASK] a a") [0; 2; 4; 4; 1]%N)
     (row (u "* berts.cpp v0.1.0 fill_mask") ++ row (u "  unknown token: a") ++ row (u "  unknown token: a") ++
      row (u "Token count (5) is larger than the max_position_embeddings (4). Calling eval() with this sequence will cause a failure.") ++
      row (u "fail to call `berts_eval`"))).
Proof.
  split; [vm_compute; split; reflexivity|]. split.
  - destruct (C172_steps_exist P_Bert.demo_icu g_bv (u "[MASK] %d")) as (uss & ncs & ids & hs & lines & S & F & _).
    + intros us H. exact H.
    + intros us H. exact H.
    + reflexivity. + reflexivity. + reflexivity. + vm_compute. discriminate. + discriminate. + discriminate.
    + apply Forall_forall. intros t Ht. apply Utf_proofs.valid_utf8_iff. cbn [g_bv Bert_model.v_tokens P_FillFile.e_tokens In] in Ht.
      repeat (destruct Ht as [<-|Ht]; [eexists; vm_compute; reflexivity|]). destruct Ht.
    + apply Utf_proofs.valid_utf8_iff; eexists; vm_compute; reflexivity.
    + exists (u "##x"), (u "x"). split; [vm_compute; auto 10|reflexivity].
    + exists uss, ncs, ids, hs, lines. split; assumption.
  - split; [vm_compute; reflexivity|]. split; [eexists; vm_compute; reflexivity|]. vm_compute. reflexivity.
Qed.

(** The RoBERTa checkpoint of P_Rfill; its words of the prompt may have percent signs. *)
Definition h_file : option Loader_model.file :=
  match Gguf_model.read_gguf P_Rfill.x5_file with Ok r => Some (snd r) | _ => None end.
Definition h_load (path : list N) :=
  load_at P_Eval.lib64 P_Loader.d_junk P_Convert.x_value (fun l => l) (fun _ => u "x") (fun _ => u "1e-12") 20 (fun _ => (h_file, true)) path.
Definition h_run (k_str prompt : list N) : outcome fill_run :=
  fill_log P_Eval.zprim P_Eval.lib64 (fun _ => 7%N) (fun _ => 8) (fun _ => 9%Z) (u "0.1.0") t_score (fun _ => 4096%N) (-1) 0
    (fun p => open_log P_Bert.demo_icu P_Roberta.one_match P_Roberta.is_space Bpe_load_proofs.pick_max (fun l => l) (h_load p))
    (t_args k_str prompt).
Definition h_tokens : list (list N) := [u "<s>"; u "<pad>"; u "</s>"; u "<unk>"; u "<mask>"; u "a"; u "b"; u "ab"].
Lemma h_layout : Vocab_spec.layout [3;5;4;5;6;1;1;2]%N (concat h_tokens) h_tokens.
Proof.
  destruct (Vocab_proofs.write_tokens_ok h_tokens) as (lens & W & LY).
  - intros t Ht. simpl in Ht. repeat (destruct Ht as [<-|Ht]; [simpl; lia|]). contradiction.
  - assert (E : lens = [3;5;4;5;6;1;1;2]%N).
    { assert (W2 : Vocab_model.write_tokens h_tokens = Some (Vocab_model.mkt 1 Vocab_model.T_I8 [3;5;4;5;6;1;1;2]%N, Vocab_model.mkt 1 Vocab_model.T_I8 (concat h_tokens)))
        by (vm_compute; reflexivity). congruence. }
    rewrite E in LY. exact LY.
Qed.

(** The vocabulary that this file loads has these tokens, and a run on "<mask>" ends normally with only the reports of
    loading after the greeting: one per special token id that the file leaves out. *)
Definition h_vocab : option rvocab :=
  match logged log_start (h_load (u "m.gguf")) with
  | Ok (Loader_model.Loaded m, _) => match Loader_model.lo_vocab m with Loader_model.LRoberta rv => Some rv | _ => None end
  | _ => None
  end.

Example C207_example :
  (exists g rv, h_vocab = Some rv /\ Roberta_proofs.loaded g h_tokens rv /\
     r_cls (rv_sp rv) <> INVALID /\ r_sep (rv_sp rv) <> INVALID) /\
  (exists out, h_run (u "2") (u "<mask>") = Ok (mkfr 0 out
     (row (u "* berts.cpp v0.1.0 fill_mask") ++
      row (u "berts.bos_id is not defined; use <s> instead") ++ row (u "berts.eos_id is not defined; use </s> instead") ++
      row (u "berts.cls_id is not defined; use <s> instead") ++ row (u "berts.mask_id is not defined; use <mask> instead") ++
      row (u "berts.sep_id is not defined; use </s> instead") ++ row (u "berts.unk_id is not defined; use <unk> instead")))).
Proof.
  split.
  - destruct (Roberta_model.roberta_init_vocab (fun l => l) (fun _ => None) (Some (Vocab_model.mkt 1 Vocab_model.T_I8 [3;5;4;5;6;1;1;2]%N))
      (Some (Vocab_model.mkt 1 Vocab_model.T_I8 (concat h_tokens))) (Some (Vocab_model.mkt 1 Vocab_model.T_I32 [5;6;0]%N))) as [rv| | |] eqn:E;
      [|vm_compute in E; discriminate..].
    exists (fun _ => None), rv. split.
    + vm_compute in E. vm_compute. congruence.
    + split; [exact (Roberta_proofs.roberta_loaded (fun l => l) (fun _ => None) _ _ _ _ _ (fun l => Permutation.Permutation_refl l) h_layout E)|].
      vm_compute in E. split; intros X; injection E as <-; vm_compute in X; discriminate.
  - vm_compute. eexists. reflexivity.
Qed.
