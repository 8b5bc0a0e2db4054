(** C133: RoBERTa tokenization is byte-level byte-pair encoding. *)
From Coq Require Import Permutation FinFun.
From Verif Require Import Base Assoc Utf_model Utf_spec Utf_proofs Ustr_model Ustr_spec Ustr_proofs Bert_model.
From Verif Require Import Bpe_model Bpe_spec Bpe_proofs Bpe_load_proofs.
From Verif Require Import Vocab_model Vocab_spec Vocab_proofs Roberta_model Roberta_spec Roberta_proofs Rtext_spec Rtext_proofs P_Roberta.
Local Open Scope N_scope.

(** * C133 *)

(** The ids of a 7-bit text are the byte-pair encoding of its words, with the special tokens
    in between; the specification does not mention the tokenizer's queue, cache or tables. *)
Theorem C133_byte_pair_encoding : forall engine matches ws pick sporder order g l lens data ts rv keep mask text,
  (forall x, Permutation x (order x)) -> layout lens data ts -> N.of_nat (length ts) < 2 ^ 32 ->
  roberta_init_vocab order g (Some (mkt 1 T_I8 lens)) (Some (mkt 1 T_I8 data)) (Some (mkt 1 T_I32 (triples l))) = Ok rv ->
  (forall s, engine s = map Some (matches s) /\ ordered 0 (length s) (matches s)) ->
  removes_maximal Bpe_model.entry_lt pick -> (forall x k, In k (sporder x) <-> In k x) ->
  Forall2 (fun k t => plain_token ts (roberta_special (rv_sp rv) k) t) roberta_keys keep ->
  entry ts (r_mask (rv_sp rv)) mask ->
  Forall (fun c => c < 0x80) text ->
  exists parts ids,
    cut keep text parts /\
    r_tokenize engine ws pick sporder rv text = Some (Ok ids) /\
    text_ids ts (map fst l) (r_unk (rv_sp rv)) mask ws matches parts ids.
Proof.
  intros engine matches ws pick sporder order g l lens data ts rv keep mask text HO LY B H HE HP HS HK HM HT.
  assert (PO := roberta_parts order g l lens data ts rv HO LY H).
  assert (LD := po_loaded _ _ _ _ PO).
  destruct (special_tokens_ok _ _ _ LD) as (keep' & K & F).
  assert (keep' = keep).
  { clear - F HK PO. revert keep HK. induction F as [|k t ks keep' E F IH]; intros keep HK; inversion HK; subst; [reflexivity|].
    f_equal; [|apply IH; assumption].
    match goal with X : plain_token ts _ ?y |- _ => rewrite (plain_decoded g ts (map fst l) rv PO _ _ X) in E end. congruence. }
  subst keep'.
  assert (HKI : forall k, In k keep -> k <> [] /\ Forall (fun c => 0x21 <= c <= 0x7e) k /\ In k ts).
  { clear - HK. induction HK as [|k t ks keep (E & NE & S7) HK IH]; [intros k []|]. intros k' [<-|Hk']; [|auto].
    split; [exact NE|]. split; [exact S7|]. eapply nth_error_In. exact E. }
  assert (HU : exists tu, plain_token ts (r_unk (rv_sp rv)) tu).
  { clear - HK. unfold roberta_keys in HK. do 6 (inversion HK as [|? ? ? ? _ HK']; subst; clear HK; rename HK' into HK).
    inversion HK; subst. eexists; eassumption. }
  destruct HU as (tu & HU).
  assert (M : r_id_to_token (rv_voc rv) (r_mask (rv_sp rv)) = Ok mask).
  { clear - HK HM PO. unfold roberta_keys in HK. do 3 (inversion HK as [|? ? ? ? _ HK']; subst; clear HK; rename HK' into HK).
    inversion HK as [|? t ? ? PT]; subst. cbn [roberta_special] in PT. rewrite (plain_decoded g ts (map fst l) rv PO _ _ PT).
    destruct PT as (E & _). unfold entry in *. congruence. }
  assert (NK : Forall (fun k => k <> []) (sporder keep)).
  { apply Forall_forall. intros k Hk. apply (proj1 (HS _ _)) in Hk. apply HKI. exact Hk. }
  destruct (split_enough (sporder keep) NK (length text) [] text (le_n _)) as [parts S].
  destruct (C29_special_split _ _ _ _ S) as [C _].
  apply (cut_permutation _ keep) in C; [|intros k; apply HS].
  assert (G : Forall (fine_part ts) parts).
  { apply Forall_forall. intros [sp p] Hp. destruct (cut_parts _ _ _ C _ Hp) as [(a & b & E) Q].
    unfold fine_part. cbn [fst snd] in *. split.
    - rewrite E in HT. apply Forall_app in HT as (_ & HT). apply Forall_app in HT as (HT & _). exact HT.
    - intros ->. apply HKI. exact (Q eq_refl). }
  destruct (parts_encoded engine matches HE ws pick HP g ts (map fst l) rv PO B tu HU mask parts [] G) as (ids & D & R).
  { intros t r L; discriminate. }
  exists parts, ids. split; [exact C|]. split; [|exact R].
  unfold r_tokenize, r_tokenize_from. rewrite K, S, M. cbn [obind]. rewrite D. reflexivity.
Qed.
Print Assumptions C133_byte_pair_encoding.

(** The specification leaves no choice: the tokens are distinct (C26) and the special ones
    are not prefixes of each other. *)
Theorem C133_unique : forall ts ms unk mask ws matches keep text ps ps' ids ids',
  NoDup ts -> prefix_free keep -> ~ In [] keep ->
  cut keep text ps -> cut keep text ps' ->
  text_ids ts ms unk mask ws matches ps ids -> text_ids ts ms unk mask ws matches ps' ids' -> ids = ids'.
Proof.
  intros ts ms unk mask ws matches keep text ps ps' ids ids' ND PF NE C C' T T'.
  rewrite <- (cut_fun keep PF NE text ps C ps' C') in T'. exact (text_ids_once ts ms unk mask ws matches ND ps ids T ids' T').
Qed.
Print Assumptions C133_unique.

(** Every id is that of a token. *)
Theorem C133_known_ids : forall ts ms unk mask ws matches ps ids,
  (exists t, entry ts unk t) -> text_ids ts ms unk mask ws matches ps ids -> Forall (fun i => i < N.of_nat (length ts)) ids.
Proof.
  intros ts ms unk mask ws matches ps ids (tu & HU) T.
  assert (EN : forall i t, entry ts i t -> i < N.of_nat (length ts)).
  { intros i t E. unfold entry in E. assert (N.to_nat i < length ts)%nat by (apply nth_error_Some; congruence). lia. }
  assert (W : forall w is, word_ids ts ms unk w is -> Forall (fun i => i < N.of_nat (length ts)) is).
  { intros w is (R & s & HR & HB & (CN & _)).
    assert (HS : Forall (fun i => i < N.of_nat (length ts)) s).
    { clear - HB EN HU. induction HB as [last|last b i bs is H1 H2 IH|last b bs is H1 H2 H3 IH|b bs is H1 H2 IH]; [constructor| | |exact IH].
      - constructor; [destruct H1 as (t & _ & E); eauto|exact IH].
      - constructor; [eauto|exact IH]. }
    clear - CN HS HR EN. induction CN as [a b (p & x & y & q & r & z & E1 & E2 & E3 & _)|a|a b c _ IH1 _ IH2]; [|exact HS|auto].
    subst a b. apply Forall_app in HS as (S1 & S2). inversion S2 as [|? ? S3 S4]; subst. inversion S4; subst.
    apply Forall_app. split; [exact S1|]. constructor; [|assumption]. apply HR in E2 as (_ & tx & ty & _ & _ & E). eauto. }
  assert (Q : forall p is, part_ids ts ms unk matches p is -> Forall (fun i => i < N.of_nat (length ts)) is).
  { intros p is (wss & idss & _ & F & ->). clear - F W. induction F as [|w i wss idss H F IH]; [constructor|]. cbn [concat].
    apply Forall_app. split; [eauto|exact IH]. }
  induction T as [|k i ps ids H1 H2 IH|p kept run is ps ids H1 H2 H3 IH|p is ps ids H1 H2 H3 IH]; [constructor| | |].
  - constructor; eauto.
  - apply Forall_app; eauto.
  - apply Forall_app; eauto.
Qed.
Print Assumptions C133_known_ids.

(** The demo model of P_Roberta: "ab" and " a" are merges. *)
Definition demo_keep : list (list N) := [u "<s>"; u "</s>"; u "<s>"; u "<mask>"; u "<pad>"; u "</s>"; u "<unk>"].
Example C133_example :
  (exists l, r_demo_merges = mkt 1 T_I32 (triples l) /\ map fst l = [(4, 5); (6, 4)]) /\
  (forall s, one_match s = map Some [(0%nat, length s)] /\ ordered 0 (length s) [(0%nat, length s)]) /\
  Forall2 (fun k t => plain_token r_demo_tokens (roberta_special (rv_sp r_demo) k) t) roberta_keys demo_keep /\
  prefix_free demo_keep /\ ~ In [] demo_keep /\ NoDup r_demo_tokens /\
  entry r_demo_tokens (r_mask (rv_sp r_demo)) (u "<mask>") /\
  r_tokenize one_match is_space pick_max (fun l => l) r_demo (u "<s>ab a<mask>bzz  a</s>") = Some (Ok [0; 7; 8; 9; 5; 3; 6; 8; 2]).
Proof.
  split; [exists [((4, 5), 0); ((6, 4), 1)]; split; reflexivity|].
  split; [intros s; split; [reflexivity|simpl; lia]|].
  split.
  { assert (P : forall i t, (nth_error r_demo_tokens (N.to_nat i) = Some t /\ t <> []) ->
      forallb (fun c => (0x21 <=? c) && (c <=? 0x7e)) t = true -> plain_token r_demo_tokens i t).
    { intros i t (E & NE) F. split; [exact E|]. split; [exact NE|]. rewrite forallb_forall in F. apply Forall_forall. intros c Hc.
      specialize (F c Hc). lia. }
    unfold roberta_keys, demo_keep.
    repeat (apply Forall2_cons; [apply P; [split; [vm_compute; reflexivity|discriminate]|vm_compute; reflexivity]|]).
    apply Forall2_nil. }
  split; [apply prefix_free_dec; vm_compute; reflexivity|].
  split; [simpl; intuition discriminate|].
  split.
  { assert (ND := ld_voc _ _ _ r_demo_loaded). destruct ND as (_ & ND & _). exact ND. }
  split; vm_compute; reflexivity.
Qed.

(** The encoding of one word, by the specification: "zaab" with the demo model is an unknown
    token, "a" and the merged "ab". *)
Example C133_word_example : word_ids r_demo_tokens [(4, 5); (6, 4)] 3 (u "zaab") [3; 4; 7].
Proof.
  destruct (C133_byte_pair_encoding one_match (fun s => [(0%nat, length s)]) is_space pick_max (fun l => l) same_order P_Vocab.no_kv
    [((4, 5), 0); ((6, 4), 1)] r_demo_lens (concat r_demo_tokens) r_demo_tokens r_demo demo_keep (u "<mask>") (u "zaab"))
    as (parts & ids & C & T & R).
  - intros x. apply Permutation_refl.
  - exact r_demo_layout.
  - reflexivity.
  - exact r_demo_ok.
  - intros s; split; [reflexivity|simpl; lia].
  - exact pick_max_ok.
  - intros; tauto.
  - apply C133_example.
  - vm_compute; reflexivity.
  - repeat constructor.
  - assert (E : r_tokenize one_match is_space pick_max (fun l => l) r_demo (u "zaab") = Some (Ok [3; 4; 7])) by (vm_compute; reflexivity).
    rewrite E in T. injection T as <-.
    assert (Ep : parts = [(false, u "zaab")]).
    { apply (no_occurrence_cut demo_keep); [discriminate| |exact C]. intros k a b Hk E'. simpl in Hk.
      assert (X : In 60 (u "zaab")) by (rewrite E', !in_app_iff; right; left; intuition (subst; simpl; tauto)).
      simpl in X. intuition discriminate. }
    subst parts. inversion R as [| | |p is ps ids H1 H2 H3 E1 E2]; subst. inversion H3; subst. rewrite app_nil_r in E2. subst is.
    destruct H2 as (wss & idss & PS & F & E2). cbn [pieces_spec] in PS. destruct PS as (rest & PR & [(_ & ->)|(Q & _)]); [|exact (False_ind _ (Nat.nlt_0_r _ Q))].
    destruct PR as [(_ & ->)|(Q & _)]; [|exact (False_ind _ (Nat.lt_irrefl _ Q))].
    inversion F as [|? i ? is Hw F' X1 X2]; subst. inversion F'; subst. cbn [concat] in E2. rewrite app_nil_r in E2. subst i. exact Hw.
Qed.

(** No more ids than bytes: a special token is one id, and merging only makes words shorter. *)
Theorem C133_no_more_ids_than_bytes : forall ts ms unk mask ws matches keep text ps ids,
  (forall s, ordered 0 (length s) (matches s)) -> ~ In [] keep -> cut keep text ps ->
  text_ids ts ms unk mask ws matches ps ids ->
  (length ids <= length text)%nat /\
  (In (true, mask) ps -> (length ids + length mask <= length text + 1)%nat).
Proof.
  intros ts ms unk mask ws matches keep text ps ids HO NE C T.
  rewrite <- (cut_concat _ _ _ C).
  assert (NS : forall k, In (true, k) ps -> k <> []).
  { intros k Hk ->. destruct (cut_parts _ _ _ C _ Hk) as (_ & Q). exact (NE (Q eq_refl)). }
  clear C keep NE.
  assert (W : forall w is, word_ids ts ms unk w is -> (length is <= length w)%nat).
  { intros w is (R & s & _ & HB & (CN & _)).
    assert (L1 : (length s <= length w)%nat) by (clear - HB; induction HB; cbn [length]; lia).
    assert (L2 : (length is <= length s)%nat); [|lia].
    clear - CN. induction CN as [a b (p & x & y & q & r & z & E1 & E2 & E3 & _)|a|a b c _ IH1 _ IH2]; [|lia|lia].
    subst. rewrite !app_length. cbn [length]. lia. }
  assert (Q : forall p is, part_ids ts ms unk matches p is -> (length is <= length p)%nat).
  { intros p is (wss & idss & PS & F & ->).
    assert (Ec : concat wss = p).
    { destruct (split_loop_spec p (matches p) 0 (HO p)) as (wss' & E & C & PS'). rewrite (pieces_once p _ _ _ _ PS PS'). exact C. }
    rewrite <- Ec. clear - F W. induction F as [|w i wss idss H F IH]; [cbn; lia|]. cbn [concat]. rewrite !app_length. specialize (W _ _ H). lia. }
  induction T as [|k i ps ids H1 H2 IH|p kept run is ps ids H1 H2 H3 IH|p is ps ids H1 H2 H3 IH].
  - split; [cbn; lia|intros []].
  - destruct IH as (I1 & I2); [intros k' Hk'; apply NS; right; exact Hk'|]. cbn [map concat snd length]. rewrite app_length.
    assert (K := NS k (or_introl eq_refl)). assert (1 <= length k)%nat by (destruct k; [congruence|cbn; lia]).
    split; [lia|]. intros [E|Hin]; [injection E as ->; lia|specialize (I2 Hin); lia].
  - destruct IH as (I1 & I2); [intros k' Hk'; apply NS; right; exact Hk'|]. change (map snd ((false, p) :: (true, mask) :: ps)) with (p :: map snd ((true, mask) :: ps)).
    change (concat (p :: map snd ((true, mask) :: ps))) with (p ++ concat (map snd ((true, mask) :: ps))). rewrite !app_length.
    specialize (Q _ _ H2). destruct H1 as (-> & _). rewrite app_length. split; [lia|]. intros [E|Hin]; [discriminate E|specialize (I2 Hin); lia].
  - destruct IH as (I1 & I2); [intros k' Hk'; apply NS; right; exact Hk'|]. cbn [map concat snd]. rewrite !app_length.
    specialize (Q _ _ H2). split; [lia|]. intros [E|Hin]; [discriminate E|specialize (I2 Hin); lia].
Qed.
Print Assumptions C133_no_more_ids_than_bytes.
