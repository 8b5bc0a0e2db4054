(** Vocabulary files and special ids: properties C16-C20, C68, C84. *)
From Verif Require Import Base Utf_model Utf_spec Utf_proofs Bert_model Assoc Vocab_model Vocab_spec Vocab_proofs P_Bert.
Local Open Scope N_scope.

(** * C16 *)

(** Tokens written by the converter are read back, ids and tokens both ways. *)
Theorem C16_round_trip : forall ts,
  NoDup ts -> (forall t, In t ts -> (1 <= length t <= 256)%nat) -> N.of_nat (length ts) < 2 ^ 32 ->
  exists s d v,
    write_tokens ts = Some (s, d) /\ read_vocab (Some s) (Some d) = Ok v /\
    length (i2t v) = length ts /\
    forall n t, entry ts n t -> id_to_token v n = t /\ token_to_id v t = n.
Proof.
  intros ts ND L B. destruct (write_tokens_ok ts L) as (lens & W & LY).
  destruct (read_vocab_layout lens (concat ts) ts LY ND) as (v & R & V).
  exists (mkt 1 T_I8 lens), (mkt 1 T_I8 (concat ts)), v. split; [exact W|]. split; [exact R|].
  split; [destruct V as (-> & _); reflexivity|].
  intros n t H. split.
  - rewrite (voc_i2t v ts n V). unfold entry in H. rewrite H. reflexivity.
  - eapply voc_t2i_in; eauto.
Qed.
Print Assumptions C16_round_trip.

(** The same from the tokenizer's dictionary to the loaded model. *)
Theorem C16_dictionary_round_trip : forall n dict,
  NoDup (map fst dict) -> NoDup (map snd dict) ->
  (forall t i, In (t, i) dict -> i < N.of_nat n /\ (1 <= length t <= 256)%nat) ->
  N.of_nat n < 2 ^ 32 ->
  exists s d v,
    write_vocab n dict = Some (s, d) /\ read_vocab (Some s) (Some d) = Ok v /\
    length (i2t v) = n /\
    forall t i, In (t, i) dict -> id_to_token v i = t /\ token_to_id v t = i.
Proof.
  intros n dict N1 N2 H B.
  destruct (write_vocab_ok n dict N1 N2 H B) as (ts & lens & W & LY & ND & L & E & _).
  destruct (read_vocab_layout lens (concat ts) ts LY ND) as (v & R & V).
  exists (mkt 1 T_I8 lens), (mkt 1 T_I8 (concat ts)), v. split; [exact W|]. split; [exact R|].
  split; [destruct V as (-> & _); exact L|].
  intros t i Hi. specialize (E t i Hi). split.
  - rewrite (voc_i2t v ts i V). unfold entry in E. rewrite E. reflexivity.
  - eapply voc_t2i_in; eauto. rewrite L. exact B.
Qed.
Print Assumptions C16_dictionary_round_trip.

Example C16_example : exists s d v,
  write_tokens [repeat 97 256; [98]; u "[unused0]"] = Some (s, d) /\ t_data s = [0; 1; 9] /\
  read_vocab (Some s) (Some d) = Ok v /\ id_to_token v 0 = repeat 97 256 /\ token_to_id v [98] = 1.
Proof. do 3 eexists. repeat split; vm_compute; reflexivity. Qed.

Example C16_dictionary_example : exists s d,
  write_vocab 4 [(u "[unused0]", 3); (u "b", 1)] = Some (s, d) /\
  t_data s = [9; 1; 9; 9] /\ t_data d = u "[unused1]" ++ u "b" ++ u "[unused2]" ++ u "[unused0]".
Proof. do 2 eexists. repeat split; vm_compute; reflexivity. Qed.

(** * C17 *)

(** Whatever the file, a vocabulary that was loaded is a bijection between
    0..n-1 and distinct tokens that are exactly the ones in the file. *)
Theorem C17_bijection : forall lens data v,
  Forall (fun b => b < 256) lens ->
  read_vocab (Some (mkt 1 T_I8 lens)) (Some (mkt 1 T_I8 data)) = Ok v ->
  N.of_nat (length lens) < 2 ^ 32 ->
  exists ts, layout lens data ts /\ NoDup ts /\ i2t v = ts /\
    (forall n, n < N.of_nat (length ts) ->
       entry ts n (id_to_token v n) /\ token_to_id v (id_to_token v n) = n) /\
    (forall t, In t ts -> token_to_id v t < N.of_nat (length ts) /\ id_to_token v (token_to_id v t) = t) /\
    (forall n, N.of_nat (length ts) <= n -> id_to_token v n = []) /\
    (forall t, ~ In t ts -> token_to_id v t = INVALID).
Proof.
  intros lens data v B H L.
  destruct (read_vocab_ok lens data v B H) as (ts & LY & V). exists ts.
  pose proof (layout_len _ _ _ LY) as LL. rewrite LL in L.
  assert (V' := V). destruct V' as (E & ND & _). repeat split; auto.
  - rewrite (voc_i2t v ts n V). unfold entry.
    destruct (nth_error ts (N.to_nat n)) eqn:F; [reflexivity|]. apply nth_error_None in F. lia.
  - rewrite (voc_i2t v ts n V).
    destruct (nth_error ts (N.to_nat n)) as [t|] eqn:F; [|apply nth_error_None in F; lia].
    eapply voc_t2i_in; eauto.
  - destruct (in_entry ts t H0) as [n Hn]. rewrite (voc_t2i_in v ts n t V L Hn).
    apply entry_lt in Hn. lia.
  - destruct (in_entry ts t H0) as [n Hn]. rewrite (voc_t2i_in v ts n t V L Hn).
    rewrite (voc_i2t v ts n V). unfold entry in Hn. rewrite Hn. reflexivity.
  - intros n Hn. rewrite (voc_i2t v ts n V).
    destruct (nth_error ts (N.to_nat n)) eqn:F; [|reflexivity].
    assert (K : (N.to_nat n < length ts)%nat) by (apply nth_error_Some; congruence). lia.
  - intros t Ht. eapply voc_t2i_out; eauto.
Qed.
Print Assumptions C17_bijection.

(** A file is accepted exactly if it describes distinct tokens. *)
Theorem C17_accepted_iff : forall lens data,
  Forall (fun b => b < 256) lens ->
  ((exists v, read_vocab (Some (mkt 1 T_I8 lens)) (Some (mkt 1 T_I8 data)) = Ok v) <->
   (exists ts, layout lens data ts /\ NoDup ts)).
Proof.
  intros lens data B. split.
  - intros [v H]. destruct (read_vocab_ok lens data v B H) as (ts & LY & V).
    exists ts. split; [exact LY|apply V].
  - intros (ts & LY & ND). destruct (read_vocab_layout lens data ts LY ND) as (v & R & _).
    exists v; exact R.
Qed.
Print Assumptions C17_accepted_iff.

Theorem C17_repeated_token_rejected : forall lens data ts,
  layout lens data ts -> ~ NoDup ts ->
  read_vocab (Some (mkt 1 T_I8 lens)) (Some (mkt 1 T_I8 data)) = Fail.
Proof.
  intros lens data ts LY ND. pose proof (layout_bytes _ _ _ LY) as B.
  destruct (read_vocab (Some (mkt 1 T_I8 lens)) (Some (mkt 1 T_I8 data))) as [v| | |] eqn:R.
  - destruct (read_vocab_ok lens data v B R) as (ts' & LY' & V).
    rewrite (layout_fun _ _ _ LY _ LY') in V. destruct V as (_ & ND' & _). contradiction.
  - reflexivity.
  - exfalso. apply (read_vocab_ub lens data B) in R.
    destruct R as (l1 & b & l2 & d1 & d2 & ts1 & E1 & E2 & L1 & N1 & S). subst lens.
    destruct (layout_prefix _ _ _ L1 (b :: l2) d2 data ts LY E2) as (t2 & _ & L2).
    inversion L2 as [|t ls d ts2 HL H2 Eb Ed]; subst.
    change (N.of_nat (length (t ++ d)) < tok_len (N.of_nat (length t) mod 256)) in S.
    rewrite tok_len_layout, app_length in S by assumption. lia.
  - exfalso. exact (read_vocab_no_abort _ _ R).
Qed.
Print Assumptions C17_repeated_token_rejected.

(** Missing, badly shaped or badly typed tensors are rejected. *)
Theorem C17_wrong_tensor_rejected : forall s d,
  (s = None \/ d = None \/ exists s' d', s = Some s' /\ d = Some d' /\
     (t_dims s' <> 1 \/ t_dims d' <> 1 \/ t_type s' <> T_I8 \/ t_type d' <> T_I8)) ->
  read_vocab s d = Fail.
Proof.
  intros s d H. unfold read_vocab. destruct s as [s|]; [|reflexivity]. destruct d as [d|]; [|reflexivity].
  destruct H as [H|[H|(s' & d' & E1 & E2 & H)]]; try discriminate.
  injection E1 as <-. injection E2 as <-.
  destruct (N.eqb_spec (t_dims s) 1); simpl; [|reflexivity].
  destruct (N.eqb_spec (t_dims d) 1); simpl; [|reflexivity].
  destruct (t_type s), (t_type d); try reflexivity. exfalso. intuition congruence.
Qed.
Print Assumptions C17_wrong_tensor_rejected.

Example C17_example : exists v,
  read_vocab (Some (mkt 1 T_I8 [2; 1])) (Some (mkt 1 T_I8 [97; 98; 97])) = Ok v /\
  layout [2; 1] [97; 98; 97] [[97; 98]; [97]] /\ token_to_id v [97] = 1 /\ token_to_id v [98] = INVALID.
Proof.
  eexists. split; [vm_compute; reflexivity|]. split; [|split; vm_compute; reflexivity].
  apply (lay_cons [97; 98]); [simpl; lia|]. apply (lay_cons [97] [] []); [simpl; lia|]. constructor.
Qed.

Example C17_repeated_example : read_vocab (Some (mkt 1 T_I8 [1; 1])) (Some (mkt 1 T_I8 [97; 97])) = Fail.
Proof. vm_compute. reflexivity. Qed.

(** * C18 *)

(** A file can make the loader read outside the data: the size is only compared
    after the loop. *)
Theorem C18_in_bounds_refuted : exists lens data,
  Forall (fun b => b < 256) lens /\
  read_vocab (Some (mkt 1 T_I8 lens)) (Some (mkt 1 T_I8 data)) = UB.
Proof. exists [5], [97]. split; [repeat constructor|vm_compute; reflexivity]. Qed.
Print Assumptions C18_in_bounds_refuted.

(** It happens exactly if the lengths run past the end of the data before a
    repeated token is met; otherwise a file is accepted or rejected. *)
Theorem C18_in_bounds_partial : forall lens data,
  Forall (fun b => b < 256) lens ->
  (read_vocab (Some (mkt 1 T_I8 lens)) (Some (mkt 1 T_I8 data)) = UB <-> overruns lens data) /\
  (read_vocab (Some (mkt 1 T_I8 lens)) (Some (mkt 1 T_I8 data)) = Fail <->
     ~ overruns lens data /\ ~ exists ts, layout lens data ts /\ NoDup ts).
Proof.
  intros lens data B. pose proof (read_vocab_ub lens data B) as U. split; [exact U|].
  pose proof (C17_accepted_iff lens data B) as A. unfold i8 in U.
  pose proof (read_vocab_no_abort (Some (mkt 1 T_I8 lens)) (Some (mkt 1 T_I8 data))) as Q.
  rewrite <- A, <- U.
  destruct (read_vocab (Some (mkt 1 T_I8 lens)) (Some (mkt 1 T_I8 data))) as [v| | |].
  - split; [discriminate|]. intros [_ H]. exfalso. apply H. exists v; reflexivity.
  - split; [|reflexivity]. intros _. split; [discriminate|]. intros [v H]; discriminate.
  - split; [discriminate|]. tauto.
  - tauto.
Qed.
Print Assumptions C18_in_bounds_partial.

(** Lengths that add up to too little are rejected. *)
Theorem C18_trailing_data_rejected : forall lens d1 d2 ts,
  layout lens d1 ts -> d2 <> [] ->
  read_vocab (Some (mkt 1 T_I8 lens)) (Some (mkt 1 T_I8 (d1 ++ d2))) = Fail.
Proof.
  intros lens d1 d2 ts LY NE. pose proof (layout_bytes _ _ _ LY) as B.
  apply (proj2 (C18_in_bounds_partial lens (d1 ++ d2) B)). split.
  - intros (l1 & b & l2 & e1 & e2 & ts1 & E1 & E2 & L1 & N1 & S).
    assert (G : forall l d t, layout l d t -> forall l1 e1 t1, layout l1 e1 t1 -> forall b l2 rest e2,
       l = l1 ++ b :: l2 -> d ++ rest = e1 ++ e2 -> N.of_nat (length e2) < tok_len b -> False).
    { clear. intros l d t LY l1 e1 t1 L1. revert l d t LY.
      induction L1 as [|x ls dd xs HL H IH]; intros l d t LY b l2 rest e2 E1 E2 S; simpl in *.
      - subst l. inversion LY as [|y ls' d' ys HL' H' F1 F2]; subst. rewrite tok_len_layout in S by assumption.
        rewrite !app_length in S. lia.
      - subst l. inversion LY as [|y ls' d' ys HL' H' F1 F2]; subst.
        apply (f_equal tok_len) in F1. rewrite !tok_len_layout in F1 by assumption.
        assert (EL : length y = length x) by lia.
        rewrite <- !app_assoc in E2. apply (f_equal (skipn (length x))) in E2.
        rewrite <- EL in E2 at 1. rewrite !skipn_app, !Nat.sub_diag, !skipn_all in E2. simpl in E2.
        exact (IH _ _ _ H' b l2 rest e2 eq_refl E2 S). }
    exact (G _ _ _ LY _ _ _ L1 b l2 d2 e2 E1 E2 S).
  - intros (ts' & LY' & _).
    pose proof (layout_prefix lens d1 ts LY [] d2 (d1 ++ d2) ts') as K. rewrite app_nil_r in K.
    destruct (K LY' eq_refl) as (t2 & _ & L2). inversion L2; subst. congruence.
Qed.
Print Assumptions C18_trailing_data_rejected.

Example C18_example :
  read_vocab (Some (mkt 1 T_I8 [1])) (Some (mkt 1 T_I8 [97; 98])) = Fail /\ overruns [1; 0] [97; 98] /\
  read_vocab (Some (mkt 1 T_I8 [1; 1; 9])) (Some (mkt 1 T_I8 [97; 97])) = Fail.
Proof.
  split; [vm_compute; reflexivity|]. split; [|vm_compute; reflexivity].
  exists [1], 0, [], [97], [98], [[97]]. repeat split.
  - apply (lay_cons [97] [] []); [simpl; lia|constructor].
  - repeat constructor. simpl; tauto.
Qed.

(** * C19 *)

Definition bert_spellings (k : key) : list (list N) :=
  match k with
  | K_cls => [u "[CLS]"; u "<s>"]
  | K_mask => [u "[MASK]"; u "<mask>"]
  | K_pad => [u "[PAD]"; u "<pad>"]
  | K_sep => [u "[SEP]"; u "</s>"]
  | K_unk => [u "[UNK]"; u "<unk>"]
  | _ => []
  end.
Definition bert_keys := [K_cls; K_mask; K_pad; K_sep; K_unk].

(** For a file with a well-formed vocabulary of UTF-8 tokens and well-typed
    key/values: loading succeeds iff each of the five special tokens has an id
    according to [special_id], and then these are the ids used. *)
Theorem C19_bert_special_ids : forall g lens data ts,
  layout lens data ts -> NoDup ts -> ts <> [] -> N.of_nat (length ts) < 2 ^ 32 ->
  Forall (fun t => from_utf8 t <> None) ts ->
  (forall k, In k bert_keys -> typed_u32 g k) ->
  (forall k, In k [K_lower; K_basic; K_cjk; K_accent] -> typed_bool g k) ->
  match bert_init_vocab g (Some (mkt 1 T_I8 lens)) (Some (mkt 1 T_I8 data)) with
  | Ok b => v_tokens b = ts /\
            forall k, In k bert_keys -> special_id (stored g k) ts (bert_spellings k) (bert_special b k)
  | Fail => exists k, In k bert_keys /\ forall n, ~ special_id (stored g k) ts (bert_spellings k) n
  | _ => False
  end.
Proof.
  intros g lens data ts LY ND NE B U8 T1 T2. unfold bert_init_vocab.
  destruct (read_vocab_layout lens data ts LY ND) as (v & R & V). unfold i8 in R. rewrite R. cbn [obind].
  exact (bert_vocab_init_spec g v ts bert_spellings eq_refl eq_refl eq_refl eq_refl eq_refl V B NE U8 T1 T2).
Qed.
Print Assumptions C19_bert_special_ids.

(** [special_id] names at most one id. *)
Theorem C19_special_id_unique : forall st ts alts n m,
  NoDup ts -> special_id st ts alts n -> special_id st ts alts m -> n = m.
Proof. exact special_id_fun. Qed.
Print Assumptions C19_special_id_unique.

(** A special id stored with another type stops the process. *)
Theorem C19_wrong_type_aborts : forall g v,
  match g K_cls with Some (KU32 _) | None => False | _ => True end ->
  bert_vocab_init g v = Abort.
Proof.
  intros g v H. unfold bert_vocab_init, get_token_id, gguf_u32.
  destruct (g K_cls) as [[]|]; try contradiction; reflexivity.
Qed.
Print Assumptions C19_wrong_type_aborts.

(** Every well-formed vocabulary, whatever is stored: the process stops for a pair of another
    type, loading fails for a missing special token or an empty vocabulary, reading a token that
    is not UTF-8 is undefined, and everything else is loaded.  The four cases exclude each other,
    so each is an equivalence. *)
Definition bert_flags := [K_lower; K_basic; K_cjk; K_accent].
Theorem C19_bert_outcomes : forall g lens data ts,
  layout lens data ts -> NoDup ts -> N.of_nat (length ts) < 2 ^ 32 ->
  let found k := exists n, special_id (stored g k) ts (bert_spellings k) n in
  let all_found := (forall k, In k bert_keys -> typed_u32 g k) /\ forall k, In k bert_keys -> found k in
  match bert_init_vocab g (Some (mkt 1 T_I8 lens)) (Some (mkt 1 T_I8 data)) with
  | Abort => (exists k, In k bert_keys /\ ~ typed_u32 g k) \/ (all_found /\ exists k, In k bert_flags /\ ~ typed_bool g k)
  | Fail => (forall k, In k bert_keys -> typed_u32 g k) /\
            ((exists k, In k bert_keys /\ ~ found k) \/ (all_found /\ (forall k, In k bert_flags -> typed_bool g k) /\ ts = []))
  | UB => all_found /\ (forall k, In k bert_flags -> typed_bool g k) /\ exists t, In t ts /\ ~ valid_utf8 t
  | Ok b => all_found /\ (forall k, In k bert_flags -> typed_bool g k) /\ Forall valid_utf8 ts /\ ts <> [] /\ v_tokens b = ts /\
            forall k, In k bert_keys -> special_id (stored g k) ts (bert_spellings k) (bert_special b k)
  end.
Proof.
  intros g lens data ts LY ND B found all_found.
  assert (TU : forall k, typed_u32 g k \/ ~ typed_u32 g k) by (intros k; unfold typed_u32; destruct (g k) as [[]|]; tauto).
  assert (TB : forall k, typed_bool g k \/ ~ typed_bool g k) by (intros k; unfold typed_bool; destruct (g k) as [[]|]; tauto).
  unfold bert_init_vocab. destruct (read_vocab_layout lens data ts LY ND) as (v & R & V). unfold i8 in R. rewrite R. cbn [obind].
  destruct (voc_find v ts V B) as [F1 F2].
  assert (AB : forall k, ~ typed_u32 g k -> get_token_id g (token_to_id v) k (bert_spellings k) = Abort) by (intros; apply get_token_id_abort; assumption).
  assert (G : forall k, typed_u32 g k -> exists i, get_token_id g (token_to_id v) k (bert_spellings k) = Ok i /\
      ((i <> INVALID /\ special_id (stored g k) ts (bert_spellings k) i) \/
       (i = INVALID /\ forall j, ~ special_id (stored g k) ts (bert_spellings k) j)))
    by (intros k Hk; apply (get_token_id_ok g (token_to_id v) ts F1 F2 k (bert_spellings k) Hk)).
  unfold bert_vocab_init.
  change [s_CLS; s_s] with (bert_spellings K_cls). change [s_MASK; s_mask] with (bert_spellings K_mask).
  change [s_PAD; s_pad] with (bert_spellings K_pad). change [s_SEP; s_es] with (bert_spellings K_sep).
  change [s_UNK; s_unk] with (bert_spellings K_unk).
  destruct (TU K_cls) as [T1|T1]; [|rewrite (AB _ T1); left; exists K_cls; split; [cbn; tauto|exact T1]].
  destruct (G _ T1) as (i1 & E1 & C1). rewrite E1. cbn [obind].
  destruct (TU K_mask) as [T2|T2]; [|rewrite (AB _ T2); left; exists K_mask; split; [cbn; tauto|exact T2]].
  destruct (G _ T2) as (i2 & E2 & C2). rewrite E2. cbn [obind].
  destruct (TU K_pad) as [T3|T3]; [|rewrite (AB _ T3); left; exists K_pad; split; [cbn; tauto|exact T3]].
  destruct (G _ T3) as (i3 & E3 & C3). rewrite E3. cbn [obind].
  destruct (TU K_sep) as [T4|T4]; [|rewrite (AB _ T4); left; exists K_sep; split; [cbn; tauto|exact T4]].
  destruct (G _ T4) as (i4 & E4 & C4). rewrite E4. cbn [obind].
  destruct (TU K_unk) as [T5|T5]; [|rewrite (AB _ T5); left; exists K_unk; split; [cbn; tauto|exact T5]].
  destruct (G _ T5) as (i5 & E5 & C5). rewrite E5. cbn [obind].
  assert (T : forall k, In k bert_keys -> typed_u32 g k) by (intros k [<-|[<-|[<-|[<-|[<-|[]]]]]]; assumption).
  assert (MISS : forall k, In k bert_keys -> (forall j, ~ special_id (stored g k) ts (bert_spellings k) j) ->
    (forall k, In k bert_keys -> typed_u32 g k) /\
    ((exists k, In k bert_keys /\ ~ found k) \/ (all_found /\ (forall k, In k bert_flags -> typed_bool g k) /\ ts = []))).
  { intros k Hk Hn. split; [exact T|]. left. exists k. split; [exact Hk|]. intros (n & Hf). exact (Hn n Hf). }
  destruct C1 as [[N1 D1]|[-> D1]]; [|rewrite N.eqb_refl; cbn [orb]; apply (MISS K_cls); [cbn; tauto|exact D1]].
  destruct C2 as [[N2 D2]|[-> D2]]; [|rewrite N.eqb_refl, !orb_true_r; cbn [orb]; apply (MISS K_mask); [cbn; tauto|exact D2]].
  destruct C3 as [[N3 D3]|[-> D3]]; [|rewrite N.eqb_refl, !orb_true_r; cbn [orb]; apply (MISS K_pad); [cbn; tauto|exact D3]].
  destruct C4 as [[N4 D4]|[-> D4]]; [|rewrite N.eqb_refl, !orb_true_r; cbn [orb]; apply (MISS K_sep); [cbn; tauto|exact D4]].
  destruct C5 as [[N5 D5]|[-> D5]]; [|rewrite N.eqb_refl, !orb_true_r; cbn [orb]; apply (MISS K_unk); [cbn; tauto|exact D5]].
  apply N.eqb_neq in N1, N2, N3, N4, N5. rewrite N1, N2, N3, N4, N5. cbn [orb].
  assert (AF : all_found). { split; [exact T|]. intros k [<-|[<-|[<-|[<-|[<-|[]]]]]]; eexists; eassumption. }
  assert (BA : forall k d, ~ typed_bool g k -> gguf_bool g k d = Abort).
  { intros k d. unfold typed_bool, gguf_bool. destruct (g k) as [[]|]; tauto. }
  destruct (TB K_lower) as [U1|U1]; [|rewrite (BA _ _ U1); right; split; [exact AF|exists K_lower; split; [cbn; tauto|exact U1]]].
  destruct (gguf_bool_ok g K_lower true U1) as [b1 Q1]. rewrite Q1. cbn [obind].
  destruct (TB K_basic) as [U2|U2]; [|rewrite (BA _ _ U2); right; split; [exact AF|exists K_basic; split; [cbn; tauto|exact U2]]].
  destruct (gguf_bool_ok g K_basic true U2) as [b2 Q2]. rewrite Q2. cbn [obind].
  destruct (TB K_cjk) as [U3|U3]; [|rewrite (BA _ _ U3); right; split; [exact AF|exists K_cjk; split; [cbn; tauto|exact U3]]].
  destruct (gguf_bool_ok g K_cjk true U3) as [b3 Q3]. rewrite Q3. cbn [obind].
  destruct (TB K_accent) as [U4|U4]; [|rewrite (BA _ _ U4); right; split; [exact AF|exists K_accent; split; [cbn; tauto|exact U4]]].
  destruct (gguf_bool_ok g K_accent b1 U4) as [b4 Q4]. rewrite Q4. cbn [obind].
  assert (TF : forall k, In k bert_flags -> typed_bool g k) by (intros k [<-|[<-|[<-|[<-|[]]]]]; assumption).
  destruct V as (E & _). rewrite E.
  assert (A : match all_some (map from_utf8 ts) with Some _ => Forall valid_utf8 ts | None => exists t, In t ts /\ ~ valid_utf8 t end).
  { clear. induction ts as [|t ts IH]; cbn [map all_some]; [constructor|].
    destruct (from_utf8 t) as [x|] eqn:X.
    - destruct (all_some (map from_utf8 ts)); [constructor; [apply valid_utf8_iff; eauto|exact IH]|].
      destruct IH as (t' & H1 & H2). exists t'. split; [right; exact H1|exact H2].
    - exists t. split; [left; reflexivity|]. intros H. apply valid_utf8_iff in H as (y & H). congruence. }
  destruct (all_some (map from_utf8 ts)); [|split; [exact AF|split; [exact TF|exact A]]].
  destruct (Nat.eqb_spec (length ts) 0) as [Z|Z].
  - split; [exact T|]. right. split; [exact AF|]. split; [exact TF|]. destruct ts; [reflexivity|discriminate].
  - split; [exact AF|]. split; [exact TF|]. split; [exact A|]. split; [intros ->; apply Z; reflexivity|]. split; [reflexivity|].
    intros k [<-|[<-|[<-|[<-|[<-|[]]]]]]; assumption.
Qed.
Print Assumptions C19_bert_outcomes.

(** Making a BERT vocabulary is undefined exactly if the lengths run past the data, or all is
    well but for a token that is not UTF-8. *)
Theorem C98_bert_vocabulary_undefined_iff : forall g s d,
  (forall lens, s = Some (mkt 1 T_I8 lens) -> Forall (fun b => b < 256) lens /\ N.of_nat (length lens) < 2 ^ 32) ->
  (bert_init_vocab g s d = UB <->
   exists lens data, s = Some (mkt 1 T_I8 lens) /\ d = Some (mkt 1 T_I8 data) /\
     (overruns lens data \/
      exists ts, layout lens data ts /\ NoDup ts /\ (forall k, In k bert_keys -> typed_u32 g k) /\
        (forall k, In k bert_keys -> exists n, special_id (stored g k) ts (bert_spellings k) n) /\
        (forall k, In k bert_flags -> typed_bool g k) /\ exists t, In t ts /\ ~ valid_utf8 t)).
Proof.
  intros g s d HB. split.
  - intros H. assert (T : exists lens data, s = Some (mkt 1 T_I8 lens) /\ d = Some (mkt 1 T_I8 data)).
    { unfold bert_init_vocab, read_vocab in H. destruct s as [[ds ts ls]|]; [|discriminate H]. destruct d as [[dd td ld]|]; [|discriminate H].
      cbn [t_dims t_type t_data] in H. destruct (N.eqb_spec ds 1) as [->|]; [|discriminate H]. destruct (N.eqb_spec dd 1) as [->|]; [|discriminate H].
      cbn [negb orb] in H. destruct ts; try discriminate H. destruct td; try discriminate H. eexists; eexists; split; reflexivity. }
    destruct T as (lens & data & -> & ->). exists lens, data. split; [reflexivity|]. split; [reflexivity|].
    destruct (HB lens eq_refl) as (BO & LN). unfold bert_init_vocab in H.
    destruct (read_vocab (Some (mkt 1 T_I8 lens)) (Some (mkt 1 T_I8 data))) as [v| | |] eqn:R; try discriminate H.
    + right. destruct (proj1 (C17_accepted_iff lens data BO)) as (ts & LY & ND); [exists v; exact R|]. exists ts. split; [exact LY|]. split; [exact ND|].
      assert (L : N.of_nat (length ts) < 2 ^ 32) by (rewrite <- (layout_len _ _ _ LY); exact LN).
      pose proof (C19_bert_outcomes g lens data ts LY ND L) as C. cbv zeta in C. unfold bert_init_vocab in C. rewrite R in C. cbn [obind] in C, H.
      rewrite H in C. tauto.
    + left. apply (proj1 (C18_in_bounds_partial lens data BO)). exact R.
  - intros (lens & data & -> & -> & [O|(ts & LY & ND & T & F & TF & t & It & Ut)]); destruct (HB lens eq_refl) as (BO & LN).
    + apply (proj1 (C18_in_bounds_partial lens data BO)) in O. unfold bert_init_vocab. rewrite O. reflexivity.
    + assert (L : N.of_nat (length ts) < 2 ^ 32) by (rewrite <- (layout_len _ _ _ LY); exact LN).
      pose proof (C19_bert_outcomes g lens data ts LY ND L) as C. cbv zeta in C.
      destruct (bert_init_vocab g (Some (mkt 1 T_I8 lens)) (Some (mkt 1 T_I8 data))); [exfalso|exfalso|reflexivity|exfalso].
      * destruct C as (_ & _ & U & _). rewrite Forall_forall in U. exact (Ut (U t It)).
      * destruct C as (_ & [(k & Hk & N)|(_ & _ & ->)]); [exact (N (F k Hk))|destruct It].
      * destruct C as [(k & Hk & N)|(_ & k & Hk & N)]; [exact (N (T k Hk))|exact (N (TF k Hk))].
Qed.
Print Assumptions C98_bert_vocabulary_undefined_iff.

Definition demo_tokens := [u "<s>"; u "[SEP]"; u "[MASK]"; u "[PAD]"; u "[UNK]"; u "a"; u "##b"].
Definition no_kv : gguf := fun _ => None.

Example C19_example : exists s d b,
  write_tokens demo_tokens = Some (s, d) /\
  bert_init_vocab no_kv (Some s) (Some d) = Ok b /\ v_cls b = 0 /\ v_sep b = 1 /\
  bert_init_vocab (fun k => match k with K_sep => Some (KU32 4) | _ => None end) (Some s) (Some d)
    = Ok (mkbv demo_tokens 0 2 3 4 4 (make_info true true true true)).
Proof.
  exists (mkt 1 T_I8 [3; 5; 6; 5; 5; 1; 3]), (mkt 1 T_I8 (concat demo_tokens)), (mkbv demo_tokens 0 2 3 1 4 (make_info true true true true)).
  split; [vm_compute; reflexivity|]. split; [vm_compute; reflexivity|]. split; [reflexivity|]. split; [reflexivity|]. vm_compute. reflexivity.
Qed.

(** The other outcomes: a flag stored as a number, a token that is not UTF-8, no token at all. *)
Example C19_outcomes_example :
  layout [1] [0xff] [[0xff]] /\
  bert_init_vocab (fun k => match k with K_lower => Some (KU32 1) | K_basic | K_cjk | K_accent => None | _ => Some (KU32 0) end)
    (Some (mkt 1 T_I8 [1])) (Some (mkt 1 T_I8 [0xff])) = Abort /\
  bert_init_vocab (fun k => match k with K_lower | K_basic | K_cjk | K_accent => None | _ => Some (KU32 0) end)
    (Some (mkt 1 T_I8 [1])) (Some (mkt 1 T_I8 [0xff])) = UB /\
  bert_init_vocab (fun k => match k with K_lower | K_basic | K_cjk | K_accent => None | _ => Some (KU32 0) end)
    (Some (mkt 1 T_I8 [])) (Some (mkt 1 T_I8 [])) = Fail.
Proof.
  split; [apply (lay_cons [0xff] [] []); [simpl; lia|constructor]|]. split; [vm_compute; reflexivity|]. split; vm_compute; reflexivity.
Qed.

Example C19_missing : exists s d,
  write_tokens [u "[CLS]"; u "[SEP]"; u "[PAD]"; u "[UNK]"] = Some (s, d) /\
  bert_init_vocab no_kv (Some s) (Some d) = Fail.
Proof.
  exists (mkt 1 T_I8 [5; 5; 5; 5]), (mkt 1 T_I8 (concat [u "[CLS]"; u "[SEP]"; u "[PAD]"; u "[UNK]"])). split; vm_compute; reflexivity.
Qed.

(** * C20 *)

(** A stored id is not compared with the vocabulary: a file can make cls an id
    that names nothing, and tokenizing then emits it. *)
Theorem C20_in_range_refuted : exists g s d b k,
  bert_init_vocab g (Some s) (Some d) = Ok b /\
  N.of_nat (length (v_tokens b)) <= v_cls b /\ bv_token b (v_cls b) = [] /\
  berts_ids k b (u "a") = Ok [v_cls b; 5; v_sep b].
Proof.
  exists (fun k => match k with K_cls => Some (KU32 1000) | K_lower => Some (KBool false) | _ => None end).
  exists (mkt 1 T_I8 [3; 5; 6; 5; 5; 1; 3]), (mkt 1 T_I8 (concat demo_tokens)).
  exists (mkbv demo_tokens 1000 2 3 1 4 (make_info false true true false)), demo_icu.
  split; [vm_compute; reflexivity|]. split; [vm_compute; discriminate|].
  split; vm_compute; reflexivity.
Qed.
Print Assumptions C20_in_range_refuted.

(** It holds for files whose stored ids are in range. *)
Theorem C20_in_range_partial : forall g lens data ts b,
  layout lens data ts -> NoDup ts -> ts <> [] -> N.of_nat (length ts) < 2 ^ 32 ->
  Forall (fun t => from_utf8 t <> None) ts ->
  (forall k, In k bert_keys -> typed_u32 g k) ->
  (forall k, In k [K_lower; K_basic; K_cjk; K_accent] -> typed_bool g k) ->
  (forall k n, In k bert_keys -> g k = Some (KU32 n) -> n < N.of_nat (length ts) \/ n = INVALID) ->
  bert_init_vocab g (Some (mkt 1 T_I8 lens)) (Some (mkt 1 T_I8 data)) = Ok b ->
  forall k, In k bert_keys -> bert_special b k < N.of_nat (length (v_tokens b)).
Proof.
  intros g lens data ts b LY ND NE B U8 T1 T2 R H k Hk.
  pose proof (C19_bert_special_ids g lens data ts LY ND NE B U8 T1 T2) as C. rewrite H in C.
  destruct C as [E C]. rewrite E. specialize (C k Hk). specialize (R k).
  inversion C as [n alts S V|pre a post n S P En]; subst.
  - unfold stored in S. destruct (g k) as [[m|x|]|]; try discriminate. injection S as ->.
    destruct (R _ Hk eq_refl) as [?|?]; [assumption|contradiction].
  - apply entry_lt in En. lia.
Qed.
Print Assumptions C20_in_range_partial.

(** Exactly: of a loaded file, the special ids are in range iff the stored ones are. *)
Theorem C20_in_range_iff : forall g lens data ts b,
  layout lens data ts -> NoDup ts -> N.of_nat (length ts) < 2 ^ 32 ->
  bert_init_vocab g (Some (mkt 1 T_I8 lens)) (Some (mkt 1 T_I8 data)) = Ok b ->
  ((forall k, In k bert_keys -> bert_special b k < N.of_nat (length (v_tokens b))) <->
   (forall k n, In k bert_keys -> g k = Some (KU32 n) -> n < N.of_nat (length ts) \/ n = INVALID)).
Proof.
  intros g lens data ts b LY ND B H. pose proof (C19_bert_outcomes g lens data ts LY ND B) as C. cbv zeta in C. rewrite H in C.
  destruct C as (_ & _ & _ & _ & E & C). rewrite E. split.
  - intros R k n Hk Hg. specialize (R k Hk). specialize (C k Hk). destruct (N.eq_dec n INVALID) as [->|Hn]; [right; reflexivity|left].
    assert (S : special_id (stored g k) ts (bert_spellings k) n) by (apply from_file; [unfold stored; rewrite Hg; reflexivity|exact Hn]).
    rewrite (special_id_fun _ _ _ _ _ ND S C). exact R.
  - intros R k Hk. specialize (C k Hk). specialize (R k).
    inversion C as [n alts S V|pre a post n S P En]; subst.
    + unfold stored in S. destruct (g k) as [[m|x|]|]; try discriminate. injection S as ->.
      destruct (R _ Hk eq_refl) as [?|?]; [assumption|contradiction].
    + apply entry_lt in En. lia.
Qed.
Print Assumptions C20_in_range_iff.

Example C20_example : exists b,
  bert_init_vocab (fun k => match k with K_cls => Some (KU32 5) | _ => None end)
    (Some (mkt 1 T_I8 [3; 5; 6; 5; 5; 1; 3])) (Some (mkt 1 T_I8 (concat demo_tokens))) = Ok b /\ v_cls b = 5.
Proof. eexists. split; vm_compute; reflexivity. Qed.

(** * C68 *)

(** The token list the converter writes: one entry per id, no duplicates, the
    tokenizer's tokens at their ids, and invented names (none of them a token of
    the tokenizer) elsewhere. *)
Theorem C68_converter_unique : forall n dict,
  NoDup (map fst dict) -> NoDup (map snd dict) ->
  (forall t i, In (t, i) dict -> i < N.of_nat n /\ (1 <= length t <= 256)%nat) ->
  N.of_nat n < 2 ^ 32 ->
  exists lens data ts,
    write_vocab n dict = Some (mkt 1 T_I8 lens, mkt 1 T_I8 data) /\
    layout lens data ts /\ NoDup ts /\ length ts = n /\
    (forall t i, In (t, i) dict -> entry ts i t) /\
    (forall i, i < N.of_nat n -> ~ In i (map snd dict) ->
       exists m, entry ts i (u "[unused" ++ m ++ u "]") /\ ~ In (u "[unused" ++ m ++ u "]") (map fst dict)) /\
    (exists v, read_vocab (Some (mkt 1 T_I8 lens)) (Some (mkt 1 T_I8 data)) = Ok v).
Proof.
  intros n dict N1 N2 H B.
  destruct (write_vocab_ok n dict N1 N2 H B) as (ts & lens & W & LY & ND & L & E & F).
  exists lens, (concat ts), ts. repeat split; auto.
  - intros i Li Ni. destruct (F i Li Ni) as (k & K1 & K2). exists (decimal k). split; assumption.
  - destruct (read_vocab_layout lens (concat ts) ts LY ND) as (v & R & _). exists v; exact R.
Qed.
Print Assumptions C68_converter_unique.

(** Conversely the converter stops with an error when two tokens share an id or
    an id does not fit. *)
Theorem C68_bad_ids_rejected : forall n dict r,
  write_vocab n dict = Some r -> NoDup (map snd dict) /\ forall t i, In (t, i) dict -> i < N.of_nat n.
Proof.
  intros n dict r H. unfold write_vocab in H.
  destruct (put_all dict (repeat None n)) as [slots|] eqn:E; [|discriminate].
  destruct (put_all_ids _ _ _ E) as [A K]. split; [exact A|]. intros t i Hi.
  specialize (K t i Hi).
  assert (Q : (N.to_nat i < length (repeat (@None (list N)) n))%nat) by (apply nth_error_Some; congruence).
  rewrite repeat_length in Q. lia.
Qed.
Print Assumptions C68_bad_ids_rejected.

(** The search for a free name always ends. *)
Theorem C68_search_ends : forall slots i, exists j,
  next_unused (S (length slots)) slots i = Some j /\ i <= j /\ ~ In (Some (unused_name j)) slots.
Proof.
  intros slots i. destruct (next_unused_total slots i) as [j E]. exists j. split; [exact E|].
  destruct (next_unused_spec _ _ _ _ E) as (A & C & _). auto.
Qed.
Print Assumptions C68_search_ends.

(** * C84 *)

(** The converter also accepts an empty token, whose stored length 0 the loader
    takes for 256; loading the file then reads outside the data. *)
Theorem C84_converter_output_loads_refuted : exists n dict s d,
  NoDup (map fst dict) /\ NoDup (map snd dict) /\
  write_vocab n dict = Some (s, d) /\ read_vocab (Some s) (Some d) = UB.
Proof.
  exists 2%nat, [(u "a", 0); ([], 1)], (mkt 1 T_I8 [1; 0]), (mkt 1 T_I8 [97]).
  split; [repeat constructor; simpl; intuition discriminate|]. split; [repeat constructor; simpl; intuition discriminate|]. split; vm_compute; reflexivity.
Qed.
Print Assumptions C84_converter_output_loads_refuted.

(** No file written from a vocabulary with an empty token loads. *)
Theorem C84_empty_token_never_loads : forall ts s d v,
  In [] ts -> write_tokens ts = Some (s, d) -> read_vocab (Some s) (Some d) <> Ok v.
Proof.
  intros ts s d v I W R. unfold write_tokens in W.
  destruct (all_some (map stored_len ts)) as [lens|] eqn:A; [|discriminate].
  injection W as <- <-.
  destruct (stored_lens_bytes ts lens A) as [B S].
  destruct (read_vocab_ok lens (concat ts) v B R) as (ts' & LY & _).
  apply layout_total in LY. rewrite LY in S. specialize (S I). lia.
Qed.
Print Assumptions C84_empty_token_never_loads.

Example C84_example : exists s d, write_tokens [u "a"; []] = Some (s, d).
Proof. do 2 eexists. vm_compute. reflexivity. Qed.
