(** Theorems about what the mask filling tool prints. *)
From Verif Require Import Base Api_model Ggml_model Encoder_model Encoder_spec Eval_model Eval_spec
  Eval_proofs Encoder_proofs Tool_spec Fill_model Fill_text_model Fill_spec Fill_proofs P_Api P_Eval P_Fill.
From Verif Require Import Vocab_model.
From Verif Require P_FillFile.
Local Open Scope nat_scope.

(** ** Specification *)

(** A line of stdout or stderr. *)
Definition row (t : list N) : list N := t ++ [10%N].

(** The line about a result: its number, the token, the id, the score. *)
Definition result_row {V} (score : V -> list N) (i : nat) (l : line (V := V)) : list N :=
  row (decimal (N.of_nat i) ++ u ": " ++ li_text l ++ u " (" ++ decimal (li_id l) ++ u "); p = " ++ score (li_score l)).

(** Stdout of a run that got as far as the ids. *)
Definition shown (prompt : list N) (ids : list N) : list N :=
  row (u "prompt = " ++ prompt) ++ row (u "token id = " ++ concat (map (fun i => decimal i ++ u " ") ids)).

(** The first line of stderr. *)
Definition greeting (version : list N) : list N := row (u "* berts.cpp v" ++ version ++ u " fill_mask").

(** ** Proofs *)

Lemma show_shown prompt ids : (u "prompt = " ++ prompt ++ endl) ++ show_ids ids = shown prompt ids.
Proof. unfold shown, show_ids, row, endl. rewrite flat_map_concat_map, <- !app_assoc. reflexivity. Qed.

Lemma show_rows {V} (score : V -> list N) ls : forall i,
  show_lines score (N.of_nat i) ls = concat (map (fun p => result_row score (fst p) (snd p)) (combine (seq i (length ls)) ls)).
Proof.
  induction ls as [|l ls IH]; intros i; [reflexivity|]. cbn [show_lines length seq combine map concat fst snd].
  replace (N.of_nat i + 1)%N with (N.of_nat (S i)) by lia. rewrite IH. unfold result_row, row, endl. rewrite <- !app_assoc. reflexivity.
Qed.

Lemma ok_inj {A} (a b : A) : Ok a = Ok b -> a = b.
Proof. congruence. Qed.

Section T.
Context {V : Type} (P : prim V) (L : lib) (ji : nat -> N) (jt : nat -> nat) (jv : nat -> V) (version : list N) (score : V -> list N).
Context (load : list N -> outcome (option (opened (V := V)))).
Local Notation text := (fill_text P L ji jt jv version score load).
Local Notation plain := (fill_mask P L ji jt jv load).

(** The same status, and on success the result lines. *)
Lemma text_status argv r : text argv = Ok r -> exists ls, plain argv = Ok (fr_status r, ls) /\
  (fr_status r = 0%N -> exists exe path k_str prompt m rt cells count, argv = [exe; path; k_str; prompt] /\ load path = Ok (Some m) /\
     berts_tokenize (Loaded (op_api m)) (Some prompt) (Some (fresh_cells ji (N.of_nat (length prompt)))) (Some (N.of_nat (length prompt))) = Ok rt /\
     r_ok rt = true /\ r_out rt = Some cells /\ r_len rt = Some count /\ N.to_nat count <= length cells /\ fr_err r = fill_banner version /\
     fr_out r = shown prompt (firstn (N.to_nat count) cells) ++ show_lines score 0 ls).
Proof.
  intros H.
  destruct argv as [|exe [|path [|k_str [|prompt [|x argv]]]]]; cbn [fill_text] in H;
    try discriminate; try (injection H as <-; exists []; split; [reflexivity|discriminate]).
  cbn [fill_mask]. destruct (stoi k_str) as [k| | |]; try discriminate. cbn [obind] in H |- *.
  destruct (k <=? 0)%Z; [injection H as <-; exists []; split; [reflexivity|discriminate]|].
  destruct (load path) as [[m|]| | |] eqn:EL; try discriminate; cbn [obind] in H |- *; [|injection H as <-; exists []; split; [reflexivity|discriminate]].
  destruct (berts_vocab_size _ <? _)%N; [injection H as <-; exists []; split; [reflexivity|discriminate]|].
  destruct (berts_tokenize _ _ _ _) as [rt| | |] eqn:ET; try discriminate. cbn [obind] in H |- *.
  destruct (r_ok rt) eqn:E1; cbn [negb] in H |- *; [|injection H as <-; exists []; split; [reflexivity|discriminate]].
  destruct (r_out rt) as [cells|] eqn:E2; [|discriminate]. destruct (r_len rt) as [count|] eqn:E3; [|discriminate].
  destruct (length cells <? N.to_nat count) eqn:E4; [discriminate|]. apply Nat.ltb_ge in E4.
  destruct (find_mask _ _ _ _) as [pos|]; [|injection H as <-; exists []; split; [reflexivity|discriminate]].
  destruct (berts_eval _ _ _ _ _ _ _ None _) as [e| | |]; try discriminate. cbn [obind] in H |- *.
  destruct (e_ok e); [|injection H as <-; exists []; split; [reflexivity|discriminate]].
  destruct (e_count e) as [size|]; [|injection H as <-; exists []; split; [reflexivity|discriminate]].
  destruct (berts_eval _ _ _ _ _ _ _ _ _) as [e2| | |]; try discriminate. cbn [obind] in H |- *.
  destruct (e_ok e2); [|injection H as <-; exists []; split; [reflexivity|discriminate]].
  destruct (e_out e2) as [hidden|]; [|injection H as <-; exists []; split; [reflexivity|discriminate]].
  destruct (e_count e2) as [size2|]; [|injection H as <-; exists []; split; [reflexivity|discriminate]].
  destruct (berts_eval_lm _ _ _ _ _ _ None None _) as [l1| | |]; try discriminate. cbn [obind] in H |- *.
  destruct (l_ok l1); [|injection H as <-; exists []; split; [reflexivity|discriminate]].
  destruct (l_count l1) as [size'|]; [|injection H as <-; exists []; split; [reflexivity|discriminate]].
  destruct (berts_eval_lm _ _ _ _ _ _ _ _ _) as [l2| | |]; try discriminate. cbn [obind] in H |- *.
  destruct (l_ok l2); [|injection H as <-; exists []; split; [reflexivity|discriminate]].
  destruct (l_ids l2) as [ids|]; [|injection H as <-; exists []; split; [reflexivity|discriminate]].
  destruct (l_probs l2) as [scores|]; [|injection H as <-; exists []; split; [reflexivity|discriminate]].
  destruct (result_lines _ _ _ _ _) as [ls| | |]; try discriminate. cbn [obind] in H |- *. apply ok_inj in H. subst r.
  eexists. split; [reflexivity|]. intros _. exists exe, path, k_str, prompt, m, rt, cells, count.
  split; [reflexivity|]. split; [exact EL|]. split; [exact ET|]. split; [exact E1|]. split; [exact E2|]. split; [exact E3|]. split; [exact E4|].
  split; [reflexivity|]. cbn [fr_out]. rewrite show_shown. reflexivity.
Qed.

(** The other way round. *)
Lemma status_text exe args : 
  match plain (exe :: args) with
  | Ok (n, _) => exists r, text (exe :: args) = Ok r /\ fr_status r = n
  | Fail => text (exe :: args) = Fail
  | UB => text (exe :: args) = UB
  | Abort => text (exe :: args) = Abort
  end.
Proof.
  destruct args as [|path [|k_str [|prompt [|x argv]]]]; cbn [fill_text fill_mask]; try (eexists; split; reflexivity).
  destruct (stoi k_str) as [k| | |]; try reflexivity. cbn [obind].
  destruct (k <=? 0)%Z; [eexists; split; reflexivity|].
  destruct (load path) as [[m|]| | |]; cbn [obind]; try reflexivity; [|eexists; split; reflexivity].
  destruct (berts_vocab_size _ <? _)%N; [eexists; split; reflexivity|].
  destruct (berts_tokenize _ _ _ _) as [rt| | |]; try reflexivity. cbn [obind].
  destruct (r_ok rt); cbn [negb]; [|eexists; split; reflexivity].
  destruct (r_out rt) as [cells|]; [|reflexivity]. destruct (r_len rt) as [count|]; [|reflexivity].
  destruct (length cells <? N.to_nat count); [reflexivity|].
  destruct (find_mask _ _ _ _) as [pos|]; [|eexists; split; reflexivity].
  destruct (berts_eval _ _ _ _ _ _ _ None _) as [e| | |]; try reflexivity. cbn [obind].
  destruct (e_ok e); [|eexists; split; reflexivity]. destruct (e_count e) as [size|]; [|eexists; split; reflexivity].
  destruct (berts_eval _ _ _ _ _ _ _ _ _) as [e2| | |]; try reflexivity. cbn [obind].
  destruct (e_ok e2); [|eexists; split; reflexivity]. destruct (e_out e2) as [hidden|]; [|eexists; split; reflexivity].
  destruct (e_count e2) as [size2|]; [|eexists; split; reflexivity].
  destruct (berts_eval_lm _ _ _ _ _ _ None None _) as [l1| | |]; try reflexivity. cbn [obind].
  destruct (l_ok l1); [|eexists; split; reflexivity]. destruct (l_count l1) as [size'|]; [|eexists; split; reflexivity].
  destruct (berts_eval_lm _ _ _ _ _ _ _ _ _) as [l2| | |]; try reflexivity. cbn [obind].
  destruct (l_ok l2); [|eexists; split; reflexivity]. destruct (l_ids l2) as [ids|]; [|eexists; split; reflexivity].
  destruct (l_probs l2) as [scores|]; [|eexists; split; reflexivity].
  destruct (result_lines _ _ _ _ _) as [ls| | |]; try reflexivity. cbn [obind]. eexists; split; reflexivity.
Qed.

(** Everything up to the ids. *)
Lemma text_ids exe path k_str prompt z (m : opened (V := V)) ids :
  reads k_str z -> is_int z -> (1 <= z)%Z -> load path = Ok (Some m) -> (Z.to_N z <= m_count (op_api m))%N ->
  m_cls (op_api m) <> INVALID -> m_sep (op_api m) <> INVALID -> token_ids (op_api m) prompt = Ok ids ->
  length ids <= length prompt ->
  exists cells, firstn (length ids) cells = ids /\ length ids <= length cells /\
  (tokens32 ji -> Forall (fun t => (t < 4294967296)%N) ids -> Forall (fun t => (t < 4294967296)%N) cells) /\
  text [exe; path; k_str; prompt] =
  match find_mask (m_mask (op_api m)) 0 None ids with
  | None => Ok (mkfr 1 (shown prompt ids) (fill_banner version ++ u "please specify one mask" ++ endl))
  | Some pos =>
      obind (berts_eval P L (ELoaded (op_eval m)) cells None (length ids) (Some (mkei (-1) PoolNone)) None (Some 0%N)) (fun e =>
      match e_ok e, e_count e with
      | true, Some size =>
          obind (berts_eval P L (ELoaded (op_eval m)) cells None (length ids) (Some (mkei (-1) PoolNone)) (Some (fresh_cells jv size)) (Some size)) (fun e =>
          match e_ok e, e_out e, e_count e with
          | true, Some hidden, Some size =>
              obind (berts_eval_lm P L (ELoaded (op_eval m)) hidden (N.to_nat size) (Some (mkli z)) None None (Some 0%N)) (fun l =>
              match l_ok l, l_count l with
              | true, Some size' =>
                  obind (berts_eval_lm P L (ELoaded (op_eval m)) hidden (N.to_nat size) (Some (mkli z)) (Some (fresh_cells jt size'))
                           (Some (fresh_cells jv size')) (Some size')) (fun l =>
                  match l_ok l, l_ids l, l_probs l with
                  | true, Some ids', Some scores =>
                      obind (result_lines (Loaded (op_api m)) (Z.to_nat z * pos) (seq 0 (Z.to_nat z)) ids' scores) (fun ls =>
                      Ok (mkfr 0 (shown prompt ids ++ show_lines score 0 (map (filled (widest ls)) ls)) (fill_banner version)))
                  | _, _, _ => Ok (mkfr 1 (shown prompt ids) (fill_banner version ++ u "fail to call `berts_eval_lm`" ++ endl))
                  end)
              | _, _ => Ok (mkfr 1 (shown prompt ids) (fill_banner version ++ u "fail to call `berts_eval_lm`" ++ endl))
              end)
          | _, _, _ => Ok (mkfr 1 (shown prompt ids) (fill_banner version ++ u "fail to call `berts_eval`" ++ endl))
          end)
      | _, _ => Ok (mkfr 1 (shown prompt ids) (fill_banner version ++ u "fail to call `berts_eval`" ++ endl))
      end)
  end.
Proof.
  intros Hz Hi H1 Hl Hc Hcls Hsep Ht Hroom.
  destruct (tokenize_ok (op_api m) prompt ids ji Hcls Hsep Ht) as (cells & E & LC & A & B).
  assert (F : firstn (length ids) cells = ids) by (apply prefix_of; [lia|]; intros i Hi'; apply A; lia).
  exists cells. split; [exact F|]. split; [lia|]. split.
  { intros Hj Hw. apply Forall_forall. intros t Hin. apply In_nth_error in Hin as (i & Hn).
    destruct (Nat.lt_ge_cases i (length ids)) as [Hlt|Hge].
    - rewrite Forall_forall in Hw. apply Hw. rewrite A in Hn by lia. eapply nth_error_In, Hn.
    - rewrite B in Hn by lia. unfold fresh_cells in Hn. apply nth_error_In, in_map_iff in Hn as (x & <- & _). apply Hj. }
  cbn [fill_text]. rewrite (proj2 (stoi_iff k_str z) (conj Hz Hi)). cbn [obind].
  replace (z <=? 0)%Z with false by lia. rewrite Hl. cbn [obind]. cbn [berts_vocab_size with_model].
  replace (m_count (op_api m) <? Z.to_N z)%N with false by lia. rewrite E. cbn [obind r_ok r_out r_len negb].
  rewrite Nat2N.id. replace (length cells <? length ids) with false by (symmetry; apply Nat.ltb_ge; lia).
  rewrite F, show_shown. reflexivity.
Qed.

(** C204: on success stdout has the prompt, its ids and the results, nothing else; stderr only
    the greeting. *)
Theorem C204_success_text : forall argv r, text argv = Ok r -> fr_status r = 0%N ->
  exists exe path k_str prompt m ids ls, argv = [exe; path; k_str; prompt] /\ load path = Ok (Some m) /\
    token_ids (op_api m) prompt = Ok ids /\ plain argv = Ok (0%N, ls) /\
    fr_out r = shown prompt ids ++ concat (map (fun p => result_row score (fst p) (snd p)) (combine (seq 0 (length ls)) ls)) /\
    fr_err r = greeting version.
Proof.
  intros argv r H H0. destruct (text_status argv r H) as (ls & HP & HT). rewrite H0 in HP.
  destruct (HT H0) as (exe & path & k_str & prompt & m & rt & cells & count & -> & EL & ET & E1 & E2 & E3 & E4 & EB & EO).
  assert (TI : exists ids, token_ids (op_api m) prompt = Ok ids /\ firstn (N.to_nat count) cells = ids).
  { assert (K := ET). unfold berts_tokenize in K. cbn [with_model] in K.
    destruct (m_cls (op_api m) =? INVALID)%N eqn:C1; [injection K as <-; discriminate|].
    destruct (m_sep (op_api m) =? INVALID)%N eqn:C2; [injection K as <-; discriminate|].
    apply N.eqb_neq in C1, C2.
    destruct (token_ids (op_api m) prompt) as [ids| | |] eqn:TI.
    - exists ids. split; [reflexivity|]. destruct (tokenize_ok (op_api m) prompt ids ji C1 C2 TI) as (cells' & E & LC & A & _).
      rewrite E in ET. injection ET as <-. cbn in E2, E3. injection E2 as ->. injection E3 as <-. rewrite Nat2N.id in E4 |- *.
      apply prefix_of; [lia|]. intros i Hi. apply A; lia.
    - exfalso. unfold token_ids in TI. destruct (m_tokenize (op_api m) prompt); try discriminate. injection K as <-. discriminate.
    - exfalso. unfold token_ids in TI. destruct (m_tokenize (op_api m) prompt); try discriminate.
    - exfalso. unfold token_ids in TI. destruct (m_tokenize (op_api m) prompt); try discriminate. }
  destruct TI as (ids & TI & EI). exists exe, path, k_str, prompt, m, ids, ls. split; [reflexivity|]. split; [exact EL|]. split; [exact TI|].
  split; [exact HP|]. split; [rewrite EO, EI; rewrite <- (show_rows score ls 0); reflexivity|].
  rewrite EB. unfold fill_banner, greeting, row, endl. rewrite <- !app_assoc. reflexivity.
Qed.

(** The status and whether there is one are those of the model without texts. *)
Theorem C204_same_run : forall exe args,
  match plain (exe :: args) with
  | Ok (n, _) => exists r, text (exe :: args) = Ok r /\ fr_status r = n
  | Fail => text (exe :: args) = Fail
  | UB => text (exe :: args) = UB
  | Abort => text (exe :: args) = Abort
  end.
Proof. exact status_text. Qed.

(** With a model that is ready, what is shown are the most probable tokens. *)
Theorem C204_most_probable_shown : forall (le : V -> V -> Prop) exe path k_str prompt z (m : opened (V := V)) words rows s sh act ids pos,
  reads k_str z -> is_int z -> (1 <= z)%Z -> load path = Ok (Some m) -> (Z.to_N z <= m_count (op_api m))%N -> tokens32 ji ->
  prepared P L m words rows s prompt ids pos -> ready le P L m sh act (length ids) ->
  exists ls, printed le P (op_api m) (Z.to_nat z) (mask_row P (op_eval m) s sh act ids pos) ls /\
    text [exe; path; k_str; prompt] =
    Ok (mkfr 0 (shown prompt ids ++ concat (map (fun p => result_row score (fst p) (snd p)) (combine (seq 0 (length ls)) ls))) (greeting version)).
Proof.
  intros le exe path k_str prompt z m words rows s sh act ids pos Hz Hi H1 Hl Hc Hj Hp Hr.
  destruct (C109_most_probable V le P L ji jt jv load exe path k_str prompt z m words rows s sh act ids pos Hz Hi H1 Hl Hc Hj Hp Hr) as (ls & E & HPr).
  exists ls. split; [exact HPr|]. pose proof (status_text exe [path; k_str; prompt]) as ST. rewrite E in ST. destruct ST as (r & ET & Es).
  destruct (C204_success_text _ _ ET Es) as (exe' & path' & k' & prompt' & m' & ids' & ls' & Ea & El & TI & EP & EO & EE).
  injection Ea as <- <- <- <-. assert (m' = m) as -> by congruence.
  assert (ids' = ids) as -> by (pose proof (rd_ids _ _ _ _ _ _ _ _ _ Hp); congruence).
  assert (ls' = ls) as -> by congruence. rewrite ET. destruct r as [st out err]. cbn in *. subst. reflexivity.
Qed.

(** C205: what stops the tool is said on stderr, and stdout has what was known by then. *)
Theorem C205_arguments : forall exe args, length args <> 3 ->
  text (exe :: args) = Ok (mkfr 1 (row (u "usage: " ++ exe ++ u " input.gguf k prompt") ++ row []) (greeting version)).
Proof.
  intros exe args H. assert (EB : fill_banner version = greeting version) by (unfold fill_banner, greeting, row, endl; rewrite <- !app_assoc; reflexivity).
  assert (EU : fill_usage exe = row (u "usage: " ++ exe ++ u " input.gguf k prompt") ++ row []) by (unfold fill_usage, row, endl; rewrite <- !app_assoc; reflexivity).
  rewrite <- EB, <- EU. do 3 (destruct args as [|? args]; [reflexivity|]). destruct args; [cbn in H; congruence|reflexivity].
Qed.

Theorem C205_messages : forall exe path k_str prompt z, reads k_str z -> is_int z ->
  let says out message := text [exe; path; k_str; prompt] = Ok (mkfr 1 out (greeting version ++ row message)) in
  ((z <= 0)%Z -> says [] (u "invalid k: " ++ k_str ++ [10%N] ++ u "k must be a positive integer")) /\
  ((1 <= z)%Z ->
   (load path = Ok None -> says [] (u "fail to load model: " ++ path)) /\
   forall m, load path = Ok (Some m) ->
   ((m_count (op_api m) < Z.to_N z)%N ->
      says [] (u "invalid k: " ++ k_str ++ [10%N] ++ u "k must be in range 1.." ++ decimal (m_count (op_api m)))) /\
   ((Z.to_N z <= m_count (op_api m))%N ->
    (m_cls (op_api m) = INVALID \/ m_sep (op_api m) = INVALID \/ m_tokenize (op_api m) prompt = Fail ->
       says (row (u "prompt = " ++ prompt)) (u "fail to tokenize prompt: " ++ prompt)) /\
    forall ids, m_cls (op_api m) <> INVALID -> m_sep (op_api m) <> INVALID -> token_ids (op_api m) prompt = Ok ids ->
      length ids <= length prompt ->
    ((forall pos, ~ only_at (m_mask (op_api m)) ids pos) -> says (shown prompt ids) (u "please specify one mask")) /\
    (forall pos, only_at (m_mask (op_api m)) ids pos -> max_tokens (em_hp (op_eval m)) < length ids ->
       says (shown prompt ids) (u "fail to call `berts_eval`")))).
Proof.
  intros exe path k_str prompt z Hz Hi says.
  assert (EB : fill_banner version = greeting version) by (unfold fill_banner, greeting, row, endl; rewrite <- !app_assoc; reflexivity).
  assert (ST := proj2 (stoi_iff k_str z) (conj Hz Hi)). unfold says. rewrite <- EB. unfold row at 1 2 3 5 6 7. split.
  - intros Hn. cbn [fill_text]. rewrite ST. cbn [obind]. replace (z <=? 0)%Z with true by lia. unfold not_positive, endl. rewrite <- !app_assoc. reflexivity.
  - intros H1. split; [|intros m Hl; split; [|intros Hc; split]].
    + intros Hl. cbn [fill_text]. rewrite ST. cbn [obind]. replace (z <=? 0)%Z with false by lia. rewrite Hl. reflexivity.
    + intros Hc. cbn [fill_text]. rewrite ST. cbn [obind]. replace (z <=? 0)%Z with false by lia. rewrite Hl. cbn [obind berts_vocab_size with_model].
      replace (m_count (op_api m) <? Z.to_N z)%N with true by lia. reflexivity.
    + intros H. cbn [fill_text]. rewrite ST. cbn [obind]. replace (z <=? 0)%Z with false by lia. rewrite Hl. cbn [obind berts_vocab_size with_model].
      replace (m_count (op_api m) <? Z.to_N z)%N with false by lia. unfold row, endl. rewrite <- !app_assoc. unfold berts_tokenize. cbn [with_model].
      destruct (m_cls (op_api m) =? INVALID)%N eqn:E1; [reflexivity|]. destruct (m_sep (op_api m) =? INVALID)%N eqn:E2; [reflexivity|].
      destruct H as [H|[H|H]]; [lia|lia|]. rewrite H. reflexivity.
    + intros ids Hcls Hsep TI Hroom. destruct (text_ids exe path k_str prompt z m ids Hz Hi H1 Hl Hc Hcls Hsep TI Hroom) as (cells & F & Hn & _ & E). split.
      * intros NM. rewrite E. destruct (find_mask (m_mask (op_api m)) 0 None ids) as [pos|] eqn:EM; [|reflexivity].
        apply find_mask_iff in EM. elim (NM pos EM).
      * intros pos OM Hmax. rewrite E, (proj2 (find_mask_iff _ _ _) OM). cbn [berts_eval].
        replace (length cells <? length ids) with false by (symmetry; apply Nat.ltb_ge; exact Hn).
        unfold eval. rewrite F. replace (max_tokens (em_hp (op_eval m)) <? length ids) with true by (symmetry; apply Nat.ltb_lt; exact Hmax).
        reflexivity.
Qed.

(** A model without the head for masks. *)
Theorem C205_no_head : forall exe path k_str prompt z (m : opened (V := V)) words rows s ids pos,
  reads k_str z -> is_int z -> (1 <= z)%Z -> load path = Ok (Some m) -> (Z.to_N z <= m_count (op_api m))%N -> tokens32 ji ->
  prepared P L m words rows s prompt ids pos -> lm (em_weights (op_eval m)) = None ->
  text [exe; path; k_str; prompt] = Ok (mkfr 1 (shown prompt ids) (greeting version ++ row (u "fail to call `berts_eval_lm`"))).
Proof.
  intros exe path k_str prompt z m words rows s ids pos Hz Hi H1 Hl Hc Hj Hp Hh.
  assert (EB : fill_banner version = greeting version) by (unfold fill_banner, greeting, row, endl; rewrite <- !app_assoc; reflexivity).
  destruct (text_ids exe path k_str prompt z m ids Hz Hi H1 Hl Hc (rd_cls _ _ _ _ _ _ _ _ _ Hp)
    (rd_sep _ _ _ _ _ _ _ _ _ Hp) (rd_ids _ _ _ _ _ _ _ _ _ Hp) (rd_room _ _ _ _ _ _ _ _ _ Hp)) as (cells & F & Hn & Hw0 & E).
  assert (Hw := Hw0 Hj (rd_small _ _ _ _ _ _ _ _ _ Hp)).
  rewrite E, EB. clear E. rewrite (proj2 (find_mask_iff _ _ _) (rd_mask _ _ _ _ _ _ _ _ _ Hp)).
  destruct (hidden_ok P L m words rows s prompt ids pos cells jv Hp F Hn Hw) as (LA & E1 & E2). cbv zeta in LA, E1, E2.
  rewrite E1. cbn [obind e_ok e_count]. rewrite E2. cbn [obind e_ok e_out e_count]. clear E1 E2.
  pose proof (s_hidden _ _ _ _ _ (r_sound _ _ _ _ _ _ _ _ _ _ (rd_run _ _ _ _ _ _ _ _ _ Hp))) as Hh0.
  set (e := op_eval m) in *. rewrite Nat2N.id. cbn [berts_eval_lm]. unfold eval_lm.
  replace (hidden_dim (em_hp e) =? 0) with false by (symmetry; apply Nat.eqb_neq; lia).
  rewrite Nat.mod_mul by lia. cbn [Nat.eqb negb obind l_ok l_count]. rewrite LA, Nat.ltb_irrefl.
  unfold build_lm_graph. rewrite Hh. reflexivity.
Qed.
End T.
Print Assumptions C204_success_text.
Print Assumptions C204_same_run.
Print Assumptions C204_most_probable_shown.
Print Assumptions C205_arguments.
Print Assumptions C205_messages.
Print Assumptions C205_no_head.

(** The file of P_FillFile; scores are whole numbers there. *)
Definition t_score (v : Z) : list N := decimal (Z.to_N v).
Definition t_run (argv : list (list N)) : outcome fill_run :=
  fill_text P_Eval.zprim P_Eval.lib64 (fun _ => 7%N) (fun _ => 8) (fun _ => 9%Z) (u "0.1.0") t_score
    (fun p => if list_N_eqb p (u "m.gguf") then P_FillFile.e_open P_FillFile.e_file else Ok None) argv.
Definition t_args (k prompt : list N) : list (list N) := [u "fill_mask"; u "m.gguf"; k; prompt].

Example C204_example :
  t_run (t_args (u "2") (u "[MASK]")) =
  Ok (mkfr 0 (row (u "prompt = [MASK]") ++ row (u "token id = 0 2 1 ") ++ row (u "0: ##x    (5); p = 21723252") ++
              row (u "1: [MASK] (2); p = 8860132")) (row (u "* berts.cpp v0.1.0 fill_mask"))).
Proof. vm_compute. reflexivity. Qed.

Example C205_example :
  let says out message := Ok (mkfr 1 out (row (u "* berts.cpp v0.1.0 fill_mask") ++ message)) in
  t_run [u "fill_mask"] = says (row (u "usage: fill_mask input.gguf k prompt") ++ row []) [] /\
  t_run (t_args (u "0x") (u "[MASK]")) = says [] (row (u "invalid k: 0x") ++ row (u "k must be a positive integer")) /\
  t_run [u "fill_mask"; u "none"; u "1"; u "[MASK]"] = says [] (row (u "fail to load model: none")) /\
  t_run (t_args (u "7") (u "[MASK]")) = says [] (row (u "invalid k: 7") ++ row (u "k must be in range 1..6")) /\
  t_run (t_args (u "2") (u "x    ")) = says (row (u "prompt = x    ") ++ row (u "token id = 0 1 ")) (row (u "please specify one mask")).
Proof. cbv zeta. repeat (split; [vm_compute; reflexivity|]). vm_compute. reflexivity. Qed.
