(** The vocabulary of a converted checkpoint. *)
From Coq Require Import Permutation.
From Verif Require Import Base Assoc Utf_model Utf_spec Utf_proofs Bert_model Vocab_model Vocab_spec Vocab_proofs Bpe_model Bpe_spec
  Roberta_model Roberta_spec Roberta_proofs
  Loader_model Loader_spec Loader_proofs Quantize_model Quantize_spec Quantize_proofs Gguf_model Gguf_spec Gguf_proofs
  Convert_model Convert_spec Convert_proofs Convert_arrays Convert_load.
From Verif Require Ggml_model Bpe_load_proofs P_Vocab P_Roberta.
Local Open Scope nat_scope.

Lemma words_back l : Forall (fun n => (n < 4294967296)%N) l -> words32 (concat (map (le 4) l)) = l.
Proof.
  induction 1 as [|n l Hn H IH]; [reflexivity|]. cbn [map concat].
  assert (W : words32 (le 4 n ++ concat (map (le 4) l)) = unle (le 4 n) :: words32 (concat (map (le 4) l))).
  { generalize (concat (map (le 4) l)). intros r. unfold le. cbn [app words32]. f_equal. unfold unle. cbn [fold_right].
    generalize (n mod 256)%N ((n / 256) mod 256)%N ((n / 256 / 256) mod 256)%N ((n / 256 / 256 / 256) mod 256)%N. intros; lia. }
  rewrite W, IH, unle4 by exact Hn. reflexivity.
Qed.

Lemma written_small vocab : forall ms l, write_merges vocab ms = Some l -> Forall (fun n => (n < 4294967296)%N) l.
Proof.
  induction ms as [|[[t0 t1] r] ms IH]; intros l H; cbn [write_merges] in H; [injection H as <-; constructor|].
  destruct (lookup list_N_eqb t0 vocab) as [i0|]; [|discriminate]. destruct (lookup list_N_eqb t1 vocab) as [i1|]; [|discriminate].
  destruct (_ && _ && _) eqn:B; [|discriminate]. destruct (write_merges vocab ms) as [l'|]; [|discriminate]. cbn [option_map] in H. injection H as <-.
  apply andb_prop in B as (B & B3). apply andb_prop in B as (B1 & B2). apply N.ltb_lt in B1, B2, B3.
  repeat (apply Forall_cons; [lia|]). apply IH. reflexivity.
Qed.

Lemma digits_ascii fuel : forall n, Forall (fun b => (b < 128)%N) (digits fuel n).
Proof.
  induction fuel as [|g IH]; intros n; cbn [digits]; [constructor|]. destruct (N.ltb_spec n 10) as [L|L].
  - constructor; [lia|constructor].
  - apply Forall_app. split; [apply IH|]. constructor; [|constructor]. assert (n mod 10 < 10)%N by (apply N.mod_lt; lia). lia.
Qed.
Lemma unused_ascii k : Forall (fun b => (b < 128)%N) (u "[unused" ++ decimal k ++ u "]").
Proof.
  apply Forall_app. split; [|apply Forall_app; split; [apply digits_ascii|]];
    (apply Forall_forall; intros x Hx; vm_compute in Hx; repeat (destruct Hx as [<-|Hx]; [reflexivity|]); destruct Hx).
Qed.
Lemma ascii_valid bs : Forall (fun b => (b < 128)%N) bs -> valid_utf8 bs.
Proof. intros H. exists bs, (map (fun b => [b]) bs). split; [|induction bs as [|b bs IH]; [reflexivity|]; inversion H; subst; cbn [map concat app]; rewrite <- IH by assumption; reflexivity].
  induction H as [|b bs Hb H IH]; [constructor|]. constructor; [constructor; exact Hb|exact IH]. Qed.
Lemma valid_from bs : valid_utf8 bs -> from_utf8 bs <> None.
Proof. intros (cs & U). apply utf8_enc8s in U as (S & ->). unfold from_utf8. rewrite dec8_enc8s by exact S. discriminate. Qed.

Section Vocab.
Context {E : Type} (c : checkpoint E).

Lemma tokens_written : proper_vocab c -> (ck_vocab_size c < 4294967296)%N ->
  exists ts lens, write_vocab (N.to_nat (ck_vocab_size c)) (ck_vocab c) = Some (mkt 1 T_I8 lens, mkt 1 T_I8 (concat ts)) /\
    Vocab_spec.layout lens (concat ts) ts /\ tokens_of c ts.
Proof.
  intros [P1 P2 P3 P4 P5] B.
  destruct (write_vocab_ok (N.to_nat (ck_vocab_size c)) (ck_vocab c) P1 P2) as (ts & lens & W & LY & ND & L & H1 & H2);
    [intros t i Hi; rewrite N2Nat.id; apply P3, Hi|rewrite N2Nat.id; exact B|].
  exists ts, lens. split; [exact W|]. split; [exact LY|]. constructor; auto; [rewrite L, N2Nat.id; reflexivity|].
  intros i Hi Hn. rewrite N2Nat.id in H2. exact (H2 i Hi Hn).
Qed.

Lemma tokens_are ts t : tokens_of c ts -> In t ts -> (exists i, In (t, i) (ck_vocab c)) \/ exists k, t = u "[unused" ++ decimal k ++ u "]".
Proof.
  intros [L D G R] Ht. apply In_nth_error in Ht as (j & Hj). assert (Hl : j < length ts) by (apply nth_error_Some; congruence).
  destruct (in_dec N.eq_dec (N.of_nat j) (map snd (ck_vocab c))) as [Hin|Hin].
  - apply in_map_iff in Hin as ([t' i] & Ei & Hi). cbn [snd] in Ei. subst i. assert (Q := G _ _ Hi). unfold Vocab_spec.entry in Q.
    rewrite Nat2N.id in Q. left. exists (N.of_nat j). congruence.
  - destruct (R (N.of_nat j)) as (k & Q & _); [lia|exact Hin|]. unfold Vocab_spec.entry in Q. rewrite Nat2N.id in Q. right. exists k. congruence.
Qed.

Lemma tokens_valid ts : proper_vocab c -> tokens_of c ts -> Forall valid_utf8 ts.
Proof.
  intros P T. apply Forall_forall. intros t Ht. destruct (tokens_are ts t T Ht) as [(i & Hi)|(k & ->)]; [exact (pv_utf8 _ P _ _ Hi)|apply ascii_valid, unused_ascii].
Qed.

Lemma tokens_some ts : proper_vocab c -> tokens_of c ts -> ts <> [].
Proof. intros P T Q. assert (L := to_length _ _ T). assert (S := pv_some _ P). subst ts. cbn in L. lia. Qed.

(** A spelling is a token of the file iff it is one of the tokenizer. *)
Lemma spelling_in ts s k : tokens_of c ts -> In s (spellings (ck_class c) k) -> In s ts <-> In s (map fst (ck_vocab c)).
Proof.
  intros T Hs. split.
  - intros H. destruct (tokens_are ts s T H) as [(i & Hi)|(j & Q)]; [exact (in_map fst _ _ Hi)|]. exfalso. subst s.
    assert (Z : forall x, In x (spellings (ck_class c) k) -> x <> u "[unused" ++ decimal j ++ u "]").
    { intros x Hx Q. assert (Y : forall l, In x l -> Forall (fun y => list_N_eqb (firstn 7 y) (u "[unused") = false) l -> False).
      { intros l Hl F. rewrite Forall_forall in F. specialize (F _ Hl). rewrite Q in F.
        change 7 with (length (u "[unused")) in F. rewrite firstn_app, firstn_all, Nat.sub_diag in F. cbn [firstn] in F. rewrite app_nil_r, list_N_eqb_refl in F. discriminate F. }
      apply (Y _ Hx). destruct (ck_class c), k; repeat constructor. }
    exact (Z _ Hs eq_refl).
  - intros H. apply in_map_iff in H as ([t i] & <- & Hi). exact (entry_in _ _ _ (to_given _ _ T _ _ Hi)).
Qed.

Lemma first_present (l : list (list N)) vocab : (exists s, In s l /\ In s (map fst vocab)) ->
  exists pre s post n, l = pre ++ s :: post /\ In (s, n) (vocab : list (list N * N)) /\ forall x, In x pre -> ~ In x (map fst vocab).
Proof.
  induction l as [|a l IH]; intros (s & Hs & Hv); [destruct Hs|].
  destruct (in_dec (list_eq_dec N.eq_dec) a (map fst vocab)) as [Ha|Ha].
  - apply in_map_iff in Ha as ([t n] & Q & Hn). cbn [fst] in Q. subst t. exists [], a, l, n. split; [reflexivity|]. split; [exact Hn|intros x []].
  - destruct Hs as [->|Hs]; [contradiction|]. destruct (IH (ex_intro _ s (conj Hs Hv))) as (pre & t & post & n & -> & Hn & Hp).
    exists (a :: pre), t, post, n. split; [reflexivity|]. split; [exact Hn|]. intros x [<-|Hx]; [exact Ha|apply Hp, Hx].
Qed.

Lemma special_same ts k n : (forall i, ck_ids c k = Some i -> (i < 4294967295)%N) -> tokens_of c ts -> proper_vocab c ->
  special_id (ck_ids c k) ts (spellings (ck_class c) k) n -> special_of c k n.
Proof.
  intros B T P H. inversion H as [m alts Q1 Q2|pre s post m Q1 Q2 Q3 Q4]; subst.
  - unfold special_of. rewrite Q1. reflexivity.
  - unfold special_of. destruct (ck_ids c k) as [i|].
    + exfalso. destruct Q1 as [Q1|Q1]; [discriminate Q1|]. injection Q1 as ->. specialize (B _ eq_refl). vm_compute in B. discriminate B.
    + exists pre, s, post. split; [symmetry; exact Q4|].
      assert (Hin : forall x, In x (pre ++ s :: post) -> In x ts <-> In x (map fst (ck_vocab c))) by (rewrite Q4; intros x; apply spelling_in, T).
      split.
      * assert (Hs : In s (map fst (ck_vocab c))) by (apply Hin; [apply in_app_iff; right; left; reflexivity|exact (entry_in _ _ _ Q3)]).
        apply in_map_iff in Hs as ([t i] & Qe & Hi). cbn [fst] in Qe. subst t. assert (G := to_given _ _ T _ _ Hi).
        assert (N.to_nat i = N.to_nat n).
        { apply (proj1 (NoDup_nth_error ts) (to_distinct _ _ T)); [exact (Vocab_proofs.entry_lt _ _ _ G)|unfold Vocab_spec.entry in *; congruence]. }
        replace n with i by lia. exact Hi.
      * intros x Hx Q. apply (Q2 x Hx). apply Hin; [apply in_app_iff; left; exact Hx|exact Q].
Qed.

Lemma special_exists ts k : has_special c k -> tokens_of c ts -> exists n, special_id (ck_ids c k) ts (spellings (ck_class c) k) n.
Proof.
  unfold has_special. intros H T. destruct (ck_ids c k) as [n|] eqn:Q.
  - exists n. apply from_file; [reflexivity|]. unfold INVALID. lia.
  - destruct (first_present _ _ H) as (pre & s & post & n & Es & Hn & Hp). exists n. rewrite Es. apply from_vocab; [left; reflexivity| |exact (to_given _ _ T _ _ Hn)].
    intros x Hx Hi. apply (Hp x Hx). apply (spelling_in ts x k T); [|exact Hi]. rewrite Es. apply in_app_iff. left. exact Hx.
Qed.
End Vocab.

Lemma utf8_parts ts : Forall valid_utf8 ts -> exists cps, all_some (map dec8 ts) = Some cps /\ Forall2 utf8 cps ts.
Proof.
  induction 1 as [|t ts (cs & U) H (cps & Q & F)]; [exists []; split; [reflexivity|constructor]|].
  exists (cs :: cps). split; [|constructor; assumption]. cbn [map all_some]. rewrite Q. apply utf8_enc8s in U as (S & ->).
  rewrite dec8_enc8s by exact S. reflexivity.
Qed.

Lemma utf8_app_ a b x y : utf8 a x -> utf8 b y -> utf8 (a ++ b) (x ++ y).
Proof. intros Ha. revert b y. destruct Ha as (xs & F & ->). intros b y (ys & G & ->). exists (xs ++ ys). split; [apply Forall2_app; assumption|symmetry; apply concat_app]. Qed.

Lemma paired_entry {A} : forall (l : list A) i x, In (x, i) (combine l (map N.of_nat (seq 0 (length l)))) <-> nth_error l (N.to_nat i) = Some x.
Proof.
  intros l. assert (G : forall s i x, In (x, i) (combine l (map N.of_nat (seq s (length l)))) <-> exists j, i = N.of_nat (s + j) /\ nth_error l j = Some x).
  { induction l as [|a l IH]; intros s i x; cbn [length seq map combine].
    - split; [intros []|intros (j & _ & Hj); destruct j; discriminate].
    - cbn [In]. rewrite IH. split.
      + intros [Q|(j & -> & Hj)]; [injection Q as <- <-; exists 0; rewrite Nat.add_0_r; split; reflexivity|].
        exists (S j). split; [f_equal; lia|exact Hj].
      + intros ([|j] & -> & Hj); [left; injection Hj as <-; rewrite Nat.add_0_r; reflexivity|right; exists j; split; [f_equal; lia|exact Hj]]. }
  intros i x. rewrite G. split.
  - intros (j & -> & Hj). rewrite Nat2N.id. exact Hj.
  - intros H. exists (N.to_nat i). split; [symmetry; apply N2Nat.id|exact H].
Qed.

Section Merges.
Context {E : Type} (c : checkpoint E) (ts : list (list N)) (cps : list (list N)).
Hypothesis (PV : proper_vocab c) (T : tokens_of c ts) (F : Forall2 utf8 cps ts).
Let words := combine cps (map N.of_nat (seq 0 (length cps))).

Lemma word_of t i : In (t, i) (ck_vocab c) -> exists cs, utf8 cs t /\ In (cs, i) words.
Proof.
  intros H. assert (G := to_given _ _ T _ _ H). unfold Vocab_spec.entry in G. revert G. generalize (N.to_nat i) as j. intros j G.
  assert (X : exists cs, utf8 cs t /\ nth_error cps (N.to_nat i) = Some cs).
  2:{ destruct X as (cs & U & X). exists cs. split; [exact U|]. apply paired_entry. exact X. }
  assert (G' := to_given _ _ T _ _ H). unfold Vocab_spec.entry in G'. revert G'. generalize (N.to_nat i) as k. clear -F. intros k. revert k.
  induction F as [|cs t' cps' ts' U F' IH]; intros [|k] G; try discriminate G; cbn [nth_error] in *; [injection G as ->; exists cs; auto|auto].
Qed.

Lemma rules_made ms l : NoDup (map fst (ck_vocab c)) -> Forall (fun m => In (fst (fst m) ++ snd (fst m)) (map fst (ck_vocab c))) ms ->
  write_merges (ck_vocab c) ms = Some l -> exists ps, read_merges (Some (mkt 1 T_I32 l)) = Ok ps /\
    Forall (fun p => exists z, Bpe_spec.rule [] words (fst p) (snd p) z) ps.
Proof.
  intros ND J W. destruct (write_merges_spec _ _ _ W) as (tr & -> & _ & F2). exists (map fst tr). split; [apply read_merges_triples|].
  clear W. induction F2 as [|m p ms tr (Q1 & Q2) F2 IH]; [constructor|]. inversion J as [|? ? J1 J2]; subst. constructor; [|apply IH, J2].
  apply (lookup_in list_N_eqb list_N_eqb_eq) in Q1, Q2. apply in_map_iff in J1 as ([t z] & Et & Hz). cbn [fst] in Et. subst t.
  destruct (word_of _ _ Q1) as (c1 & U1 & I1), (word_of _ _ Q2) as (c2 & U2 & I2), (word_of _ _ Hz) as (c3 & U3 & I3).
  exists z, c1, c2. split; [exact I1|]. split; [exact I2|]. unfold Bpe_spec.joined. cbn [length skipn].
  replace (c1 ++ c2) with c3 by (apply (utf8_fun2 _ _ _ U3), utf8_app_; assumption). exact I3.
Qed.
End Merges.

Section Loading.
Context {E : Type} (single half : E -> list N).
Hypothesis (H32 : forall e, length (single e) = 4) (H16 : forall e, length (half e) = 2).
Context (c : checkpoint E) (f32 : bool).
Hypothesis (HS : storable c) (PV : proper_vocab c).
Variables (bytes : list N) (a : N) (kvs : list kv) (ws : list wtensor).
Hypothesis (CV : conversion single half c f32 bytes a kvs ws) (Hf : fits64 (N.of_nat (length bytes))).
Let f := file_read kvs ws.

Lemma stored_vocab junk t : In t ws -> length (o_shape t) = 1 -> vocab_at junk f (o_name t) =
  Some match o_type t with TI8 => mkt 1 T_I8 (o_bytes t) | TI32 => mkt 1 T_I32 (words32 (o_bytes t)) | _ => mkt 1 T_other [] end.
Proof.
  intros Ht L. destruct (cv_stored single half c f32 bytes a kvs ws CV t Ht) as (i & Q1 & Q2 & Q3 & Q4 & _ & Q6).
  unfold vocab_at. fold f in Q1, Q2, Q6. rewrite Q1, Q3, Q4, L, (memory_inside junk f i Q2), Q6. reflexivity.
Qed.

Lemma vocab_size_small : (ck_vocab_size c < 4294967296)%N.
Proof. exact (Forall_inv (pf_numbers _ _ (cv_facts _ _ _ _ _ _ _ _ CV))). Qed.

Lemma file_tokens junk : exists ts lens, vocab_at junk f (u "berts.vocab.size") = Some (mkt 1 T_I8 lens) /\
  vocab_at junk f (u "berts.vocab.data") = Some (mkt 1 T_I8 (concat ts)) /\ Vocab_spec.layout lens (concat ts) ts /\ tokens_of c ts.
Proof.
  destruct (tokens_written c PV vocab_size_small) as (ts & lens & W & LY & T). exists ts, lens.
  assert (A := cv_arrays _ _ _ _ _ _ _ _ CV). unfold arrays in A.
  destruct (vocab_arrays c) as [v|] eqn:Ev; [|discriminate A]. destruct (merge_arrays c) as [m|]; [|discriminate A]. apply some_inj in A.
  unfold vocab_arrays in Ev. rewrite W in Ev. cbn [t_data] in Ev. apply some_inj in Ev.
  assert (I1 : In (mkwt (u "berts.vocab.size") TI8 [length lens] lens) ws) by (rewrite <- A, <- Ev; left; reflexivity).
  assert (I2 : In (mkwt (u "berts.vocab.data") TI8 [length (concat ts)] (concat ts)) ws) by (rewrite <- A, <- Ev; right; left; reflexivity).
  assert (S1 := stored_vocab junk _ I1 eq_refl). assert (S2 := stored_vocab junk _ I2 eq_refl). cbn [o_name o_type o_bytes] in S1, S2.
  split; [exact S1|]. split; [exact S2|]. split; [exact LY|exact T].
Qed.

Lemma file_merges junk ms : ck_merges c = Some ms -> exists l, write_merges (ck_vocab c) ms = Some l /\
  vocab_at junk f (u "berts.merge.data") = Some (mkt 1 T_I32 l).
Proof.
  intros Q. assert (A := cv_arrays _ _ _ _ _ _ _ _ CV). unfold arrays in A.
  destruct (vocab_arrays c) as [v|]; [|discriminate A]. destruct (merge_arrays c) as [m|] eqn:Em; [|discriminate A]. apply some_inj in A.
  unfold merge_arrays in Em. rewrite Q in Em. destruct (write_merges (ck_vocab c) ms) as [l|] eqn:W; [|discriminate Em]. apply some_inj in Em.
  exists l. split; [reflexivity|].
  assert (I : In (mkwt (u "berts.merge.data") TI32 [length l] (concat (map (le 4) l))) ws).
  { rewrite <- A, <- Em. apply in_app_iff. right. left. reflexivity. }
  assert (S := stored_vocab junk _ I eq_refl). cbn [o_name o_type o_bytes] in S. rewrite S, words_back by exact (written_small _ _ _ W). reflexivity.
Qed.

Lemma typed_ids k : In k (special_keys (ck_class c)) -> typed_u32 (f_tok f) k /\ Vocab_proofs.stored (f_tok f) k = ck_ids c k.
Proof.
  assert (S := cv_settings single half c f32 HS bytes a kvs ws CV). fold f in S. intros Hk.
  assert (Q : f_tok f k = option_map KU32 (ck_ids c k)).
  { destruct (in_dec (fun x y : Vocab_model.key => ltac:(decide equality) : {x = y} + {x <> y}) k [K_cls; K_mask; K_pad; K_sep; K_unk]) as [Hi|Hi]; [apply (sf_ids _ _ _ S _ Hi)|].
    assert (Hm : In k [K_bos; K_eos]).
    { destruct (ck_class c); cbn [special_keys] in Hk; [contradiction|destruct Hk as [<-|[<-|Hk]]; [left; reflexivity|right; left; reflexivity|contradiction]..]. }
    rewrite (sf_more_ids _ _ _ S _ Hm). destruct (so_class _ HS) as [Ec|Ec]; rewrite Ec in *; [|reflexivity].
    exfalso. destruct Hm as [<-|[<-|[]]]; cbn [special_keys In] in Hk; intuition discriminate. }
  unfold typed_u32, Vocab_proofs.stored. rewrite Q. destruct (ck_ids c k); split; exact I || reflexivity.
Qed.

Lemma typed_flags k : In k [K_lower; K_basic; K_cjk; K_accent] -> typed_bool (f_tok f) k.
Proof.
  intros Hk. assert (S := cv_settings single half c f32 HS bytes a kvs ws CV). fold f in S. unfold typed_bool. rewrite (sf_flags _ _ _ S _ Hk).
  destruct (ck_class c); [destruct (ck_flags c k)| |]; exact I.
Qed.

Lemma ids_bounded k : specials_ok c -> In k (special_keys (ck_class c)) -> forall i, ck_ids c k = Some i -> (i < 4294967295)%N.
Proof. intros SP Hk i Q. assert (H := SP _ Hk). unfold has_special in H. rewrite Q in H. exact H. Qed.

Lemma flag_read k d : ck_class c = BertModel -> In k [K_lower; K_basic; K_cjk; K_accent] -> gguf_bool (f_tok f) k d = Ok (flag_of c k d).
Proof.
  intros Ec Hk. assert (S := cv_settings single half c f32 HS bytes a kvs ws CV). fold f in S. unfold gguf_bool, flag_of. rewrite (sf_flags _ _ _ S _ Hk), Ec.
  destruct (ck_flags c k); reflexivity.
Qed.

Lemma bert_vocabulary junk : ck_class c = BertModel -> specials_ok c -> exists b ts,
  bert_init_vocab (f_tok f) (vocab_at junk f (u "berts.vocab.size")) (vocab_at junk f (u "berts.vocab.data")) = Ok b /\
  v_tokens b = ts /\ tokens_of c ts /\
  (forall k, In k (special_keys BertModel) -> special_of c k (bert_special b k)) /\
  cleaned_as c (v_cond b).
Proof.
  intros Ec SP. destruct (file_tokens junk) as (ts & lens & -> & -> & LY & T).
  assert (TV := tokens_valid c ts PV T). assert (Lt := to_length _ _ T). assert (Bv := vocab_size_small).
  assert (TI := typed_ids). rewrite Ec in TI. cbn [special_keys] in TI.
  assert (X := P_Vocab.C19_bert_special_ids (f_tok f) lens (concat ts) ts LY (to_distinct _ _ T) (tokens_some c ts PV T)).
  assert (Lt2 : (N.of_nat (length ts) < 2 ^ 32)%N) by (rewrite Lt; exact Bv). specialize (X Lt2). clear Lt2.
  assert (FU : Forall (fun t => from_utf8 t <> None) ts) by (revert TV; apply Forall_impl; intros t; apply valid_from).
  specialize (X FU (fun k Hk => proj1 (TI k Hk)) typed_flags).
  destruct (bert_init_vocab (f_tok f) (Some (mkt 1 T_I8 lens)) (Some (mkt 1 T_I8 (concat ts)))) as [b| | |] eqn:EB.
  - exists b, ts. split; [reflexivity|]. destruct X as (X1 & X2). split; [exact X1|]. split; [exact T|]. split.
    + intros k Hk. assert (Z := X2 k Hk). rewrite (proj2 (TI k Hk)) in Z.
      apply (special_same c ts k); [|exact T|exact PV|].
      * apply (ids_bounded k SP). rewrite Ec. exact Hk.
      * rewrite Ec. replace (spellings BertModel k) with (P_Vocab.bert_spellings k); [exact Z|]. destruct k; reflexivity.
    + clear X1 X2. unfold bert_init_vocab in EB. destruct (read_vocab _ _) as [v| | |]; try discriminate EB. cbn [obind] in EB.
      unfold bert_vocab_init in EB.
      do 5 (match type of EB with obind ?x _ = _ => destruct x; try discriminate EB end; cbn [obind] in EB).
      match type of EB with (if ?x then _ else _) = _ => destruct x; [discriminate EB|] end.
      rewrite !(flag_read _ _ Ec) in EB by (cbn [In]; tauto). cbn [obind] in EB. rewrite !(flag_read _ _ Ec) in EB by (cbn [In]; tauto). cbn [obind] in EB.
      destruct (all_some _); [|discriminate EB]. destruct (_ =? 0); [discriminate EB|]. injection EB as <-. cbn [v_cond].
      constructor; cbn; try reflexivity; destruct (flag_of c K_basic true); repeat constructor.
  - exfalso. destruct X as (k & Hk & X). destruct (special_exists c ts k) as (n & Hn); [apply SP; rewrite Ec; exact Hk|exact T|].
    apply (X n). rewrite (proj2 (TI k Hk)). rewrite Ec in Hn. replace (P_Vocab.bert_spellings k) with (spellings BertModel k); [exact Hn|]. destruct k; reflexivity.
  - destruct X.
  - destruct X.
Qed.

Lemma seven_same bs : Forall (fun b => (b < 128)%N) bs -> map (fun x => N.land x 255) bs = bs.
Proof.
  induction 1 as [|b bs Hb H IH]; [reflexivity|]. cbn [map]. rewrite IH. f_equal. change 255%N with (N.ones 8). rewrite N.land_ones. apply N.mod_small.
  change (2 ^ 8)%N with 256%N. lia.
Qed.

Lemma seven_dec bs : Forall (fun b => (b < 128)%N) bs -> utf8 bs bs.
Proof.
  intros H. exists (map (fun b => [b]) bs). split; [|induction bs as [|b bs IH]; [reflexivity|]; inversion H; subst; cbn [map concat app]; rewrite <- IH by assumption; reflexivity].
  induction H as [|b bs Hb H IH]; [constructor|]. constructor; [constructor; exact Hb|exact IH].
Qed.

Lemma roberta_vocabulary junk order : ck_class c = RobertaModel -> specials_ok c -> proper_merges c -> (forall l, Permutation l (order l)) ->
  exists rv ts,
  roberta_init_vocab order (f_tok f) (vocab_at junk f (u "berts.vocab.size")) (vocab_at junk f (u "berts.vocab.data"))
    (vocab_at junk f (u "berts.merge.data")) = Ok rv /\
  Roberta_proofs.loaded (f_tok f) ts rv /\ tokens_of c ts /\
  (forall k, In k (special_keys RobertaModel) -> special_of c k (roberta_special (rv_sp rv) k)).
Proof.
  intros Ec SP [PM1 PM2 PM3] HO. destruct (file_tokens junk) as (ts & lens & -> & -> & LY & T).
  destruct (ck_merges c) as [ms|] eqn:Em; [|contradiction PM1; reflexivity]. destruct (file_merges junk ms Em) as (l & Wl & ->).
  assert (TV := tokens_valid c ts PV T). assert (Lt := to_length _ _ T). assert (Bv := vocab_size_small). rewrite <- Lt in Bv.
  assert (TI := typed_ids). rewrite Ec in TI. cbn [special_keys] in TI.
  assert (X : exists rv, roberta_init_vocab order (f_tok f) (Some (mkt 1 T_I8 lens)) (Some (mkt 1 T_I8 (concat ts))) (Some (mkt 1 T_I32 l)) = Ok rv /\
    forall k, In k (special_keys RobertaModel) -> special_of c k (roberta_special (rv_sp rv) k)).
  2:{ destruct X as (rv & X1 & X2). exists rv, ts. split; [exact X1|]. split; [|split; [exact T|exact X2]]. exact (roberta_loaded _ _ _ _ _ _ _ HO LY X1). }
  unfold roberta_init_vocab. destruct (read_vocab_layout lens (concat ts) ts LY (to_distinct _ _ T)) as (v & R & V). unfold i8 in R. rewrite R. cbn [obind].
  unfold roberta_vocab_init. pose proof (roberta_specials_spec (f_tok f) v ts V Bv (fun k Hk => proj1 (TI k Hk))) as S. cbv zeta in S.
  assert (SE : forall k, In k roberta_keys -> exists n, special_id (Vocab_proofs.stored (f_tok f) k) ts [roberta_spelling k] n).
  { intros k Hk. rewrite (proj2 (TI k Hk)). destruct (special_exists c ts k) as (n & Hn); [apply SP; rewrite Ec; exact Hk|exact T|]. exists n.
    rewrite Ec in Hn. destruct k; cbn in Hk; intuition (try discriminate); exact Hn. }
  destruct (roberta_specials (f_tok f) (r_find v)) as [sp| | |] eqn:ES; try contradiction.
  2:{ exfalso. destruct S as (k & Hk & S). destruct (SE k Hk) as (n & Hn). apply (S n). left. exact Hn. }
  assert (SO : forall k, In k (special_keys RobertaModel) -> special_of c k (roberta_special sp k)).
  { intros k Hk. destruct (S k Hk) as [Z|(Z & _)]; [|destruct (SE k Hk) as (n & Hn); destruct (Z n Hn)].
    rewrite (proj2 (TI k Hk)) in Z. apply (special_same c ts k); [|exact T|exact PV|].
    - apply (ids_bounded k SP). rewrite Ec. exact Hk.
    - rewrite Ec. replace (spellings RobertaModel k) with [roberta_spelling k]; [exact Z|]. destruct k; cbn in Hk; intuition (try discriminate); reflexivity. }
  cbn [obind]. unfold r_id_to_token. rewrite (voc_i2t v ts (r_unk sp) V).
  assert (UK : exists w, match nth_error ts (N.to_nat (r_unk sp)) with Some t => t | None => [] end = w /\ Forall (fun b => (b < 128)%N) w).
  { destruct (nth_error ts (N.to_nat (r_unk sp))) as [t|] eqn:Et; [|exists []; split; [reflexivity|constructor]]. exists t. split; [reflexivity|].
    destruct (in_dec N.eq_dec (r_unk sp) (map snd (ck_vocab c))) as [Hin|Hin].
    - apply in_map_iff in Hin as ([t' i] & Ei & Hi). cbn [snd] in Ei. subst i. assert (Q := to_given _ _ T _ _ Hi). unfold Vocab_spec.entry in Q.
      assert (t' = t) by congruence. subst t'. apply (PM3 (r_unk sp) t); [exact (SO K_unk ltac:(cbn; tauto))|exact Hi].
    - destruct (to_rest _ _ T (r_unk sp)) as (k & Q & _); [|exact Hin|].
      + assert (N.to_nat (r_unk sp) < length ts) by (apply nth_error_Some; congruence). lia.
      + unfold Vocab_spec.entry in Q. rewrite Et in Q. injection Q as ->. apply unused_ascii. }
  destruct UK as (w & -> & Hw). rewrite (decode_utf8 w w (seven_dec w Hw)). cbn [obind]. rewrite (seven_same w Hw).
  assert (DW : dec8 w = Some w) by (destruct (seven_dec w Hw) as (? & _ & _); assert (U := seven_dec w Hw); apply utf8_enc8s in U as (SU & QU); rewrite QU at 1; apply dec8_enc8s, SU).
  rewrite DW. destruct (utf8_parts ts TV) as (cps & QC & FC). unfold bpe_words. assert (V' := V). destruct V' as (Ei & _). rewrite Ei, QC. cbn [option_map].
  destruct (rules_made c ts cps T FC ms l (pv_tokens _ PV) (PM2 ms eq_refl) Wl) as (ps & RP & FR). rewrite RP. cbn [obind].
  set (words := combine cps (map N.of_nat (seq 0 (length cps)))) in *.
  assert (Lc : length cps = length (map N.of_nat (seq 0 (length cps)))) by (rewrite map_length, seq_length; reflexivity).
  assert (LV : fst (load_vocab (bpe_new w DZero true) (order words) ps) = true).
  { change (bpe_new w DZero true) with (Bpe_load_proofs.fresh w DZero true [] []). apply Bpe_load_proofs.load_fresh_ok.
    - apply (Permutation_NoDup (Permutation_map fst (HO words))). unfold words. rewrite combine_fst by exact Lc. exact (cps_nodup _ _ FC (to_distinct _ _ T)).
    - apply (Permutation_NoDup (Permutation_map snd (HO words))). unfold words. rewrite combine_snd by exact Lc.
      apply FinFun.Injective_map_NoDup; [|apply seq_NoDup]. intros x y Q. apply Nat2N.inj, Q.
    - revert FR. apply Forall_impl. intros p (z & tx & ty & P1 & P2 & P3). exists z, tx, ty.
      split; [|split]; apply (Permutation_in _ (HO words)); assumption. }
  destruct (load_vocab (bpe_new w DZero true) (order words) ps) as [[] b]; [|discriminate LV].
  eexists. split; [reflexivity|]. exact SO.
Qed.
End Loading.

(** ** Loading the file *)

Section Load.
Context {E : Type} (single half : E -> list N).
Hypothesis (H32 : forall e, length (single e) = 4) (H16 : forall e, length (half e) = 2).
Context (c : checkpoint E) (f32 : bool).
Hypothesis (HS : storable c).
Variables (bytes : list N) (a : N) (kvs : list kv) (ws : list wtensor).
Hypothesis (CV : conversion single half c f32 bytes a kvs ws) (Hf : fits64 (N.of_nat (length bytes))).
Let f := file_read kvs ws.

Lemma has_written key name t : written_as c key name t -> has f (u "berts.bert." ++ name).
Proof.
  intros W. unfold f. apply has_read. assert (I := array_in single half c f32 HS bytes a kvs ws CV key name t W).
  apply (in_map o_name) in I. rewrite array_name in I. exact I.
Qed.
Lemma has_mat d r n key : d = ck_state c -> has_matrix d r n key -> has f (u "berts.bert." ++ key).
Proof. intros -> (t & Ht & _). exact (has_written key key t (wa_state c key t Ht)). Qed.
Lemma has_vec d n key : d = ck_state c -> has_vector d n key -> has f (u "berts.bert." ++ key).
Proof. intros -> (t & Ht & _). exact (has_written key key t (wa_state c key t Ht)). Qed.

Lemma layer_has n m h : layer_ok (ck_state c) h m n -> Forall (has f) (Loader_spec.layer_names n).
Proof.
  intros [L1 L2 L3 L4 L5].
  assert (Q : forall s, u "berts.bert.encoder.layer." ++ decimal (N.of_nat n) ++ u "." ++ s = u "berts.bert." ++ layer_key n s)
    by (intros s; unfold layer_key; rewrite app_assoc; reflexivity).
  unfold Loader_spec.layer_names, layer_parts. cbn [map]. rewrite !Q. clear Q.
  assert (M : forall s r k, has_matrix (ck_state c) r k (layer_key n s) -> has f (u "berts.bert." ++ layer_key n s)) by (intros s r k; apply has_mat; reflexivity).
  assert (V : forall s k, has_vector (ck_state c) k (layer_key n s) -> has f (u "berts.bert." ++ layer_key n s)) by (intros s k; apply has_vec; reflexivity).
  apply M in L2, L4. apply V in L3.
  apply Forall_forall. intros x Hx. cbn [In] in Hx. rewrite Forall_forall in L1, L5.
  assert (L1' : forall s, In s [u "attention.self.query.weight"; u "attention.self.key.weight"; u "attention.self.value.weight";
     u "attention.output.dense.weight"] -> has f (u "berts.bert." ++ layer_key n s)) by (intros s Hs; exact (M s _ _ (L1 s Hs))).
  assert (L5' : forall s, In s [u "attention.self.query.bias"; u "attention.self.key.bias"; u "attention.self.value.bias";
     u "attention.output.dense.bias"; u "attention.output.LayerNorm.weight"; u "attention.output.LayerNorm.bias";
     u "output.dense.bias"; u "output.LayerNorm.weight"; u "output.LayerNorm.bias"] -> has f (u "berts.bert." ++ layer_key n s)) by (intros s Hs; exact (V s _ (L5 s Hs))).
  clear L1 L5 M V.
  repeat (destruct Hx as [<-|Hx]; [first [exact L2 | exact L3 | exact L4 | solve [apply L1'; repeat first [left; reflexivity | right]] | solve [apply L5'; repeat first [left; reflexivity | right]]]|]).
  destruct Hx.
Qed.

Lemma encoder_has : encoder_ok c -> Forall (has f) (required_names (N.to_nat (ck_layers c))).
Proof.
  intros [E1 E2 E3 E4 E5 E6 E7 E8 E9]. unfold required_names. apply Forall_app. split; [|apply Forall_app; split].
  - apply has_mat in E3, E4, E5; try reflexivity. rewrite Forall_forall in E6.
    assert (F1 := has_vec _ _ _ eq_refl (E6 _ (or_introl eq_refl))). assert (F2 := has_vec _ _ _ eq_refl (E6 _ (or_intror (or_introl eq_refl)))).
    unfold embedding_names. constructor; [exact E3|]. constructor; [exact E5|]. constructor; [exact E4|]. constructor; [exact F1|]. constructor; [exact F2|constructor].
  - apply Forall_forall. intros x Hx. apply in_flat_map in Hx as (n & Hn & Hx). apply in_seq in Hn.
    assert (F := layer_has n _ _ (E7 n ltac:(lia))). rewrite Forall_forall in F. exact (F _ Hx).
  - apply has_mat in E8; [|reflexivity]. apply has_vec in E9; [|reflexivity]. unfold pooler_names.
    constructor; [exact E8|]. constructor; [exact E9|constructor].
Qed.

Lemma file_general : general_ok f.
Proof.
  assert (S := cv_settings single half c f32 HS bytes a kvs ws CV). fold f in S. destruct (sf_general _ _ _ S) as (G1 & G2 & G3). assert (GA := sf_absent _ _ _ S).
  rewrite Forall_forall in GA.
  assert (O : forall k P, In k [S_author; S_url; S_description; S_license; S_quant_version] -> optional f P k).
  { intros k P Hk. unfold optional. rewrite (GA k Hk). exact I. }
  split; [|split; [|split]].
  - unfold optional_str. constructor; [unfold optional; rewrite G1; reflexivity|]. constructor; [unfold optional; rewrite G3; destruct (ck_repo c); [exact I|reflexivity]|].
    repeat (constructor; [apply O; repeat first [left; reflexivity | right]|]). constructor.
  - apply O. repeat first [left; reflexivity | right].
  - unfold optional. rewrite G2. exists 32%N. reflexivity.
  - exists (if f32 then 0 else 1)%N. split; [exact (sf_file_type _ _ _ S)|destruct f32; reflexivity].
Qed.

Lemma file_settings_ok : settings_ok f.
Proof.
  assert (S := cv_settings single half c f32 HS bytes a kvs ws CV). fold f in S. split; [|split].
  - intros k Hk. unfold required_keys in Hk. cbn [In] in Hk. destruct (sf_act _ _ _ S) as (n & _ & Sa).
    destruct Hk as [<-|[<-|[<-|[<-|[<-|[<-|[<-|[<-|[]]]]]]]]]; eexists;
      first [exact (sf_type _ _ _ S) | exact (sf_vocab _ _ _ S) | exact (sf_hidden _ _ _ S) | exact (sf_layers _ _ _ S) | exact (sf_heads _ _ _ S) | exact (sf_max _ _ _ S) | exact (sf_inter _ _ _ S) | exact Sa].
  - unfold optional. rewrite (sf_segments _ _ _ S). eexists; reflexivity.
  - destruct (sf_floats _ _ _ S) as (F1 & F2). constructor; [unfold optional; rewrite F1; eexists; reflexivity|]. constructor; [unfold optional; rewrite F2; eexists; reflexivity|constructor].
Qed.

Lemma act_one n m : act_number c n -> act_number c m -> n = m.
Proof. intros H1 H2. apply act_spec in H1, H2. congruence. Qed.

Context (L : Ggml_model.lib) (HL : lib_ok L) (junk : nat -> N) {V : Type} (value : gty -> list N -> nat -> V) (order : list (ustring * N) -> list (ustring * N)).

Lemma converted_loads v : let arch := match ck_class c with BertModel => 0 | _ => 1 end%N in
  encoder_ok c -> act_number c 0 -> vocabulary junk order f arch = Ok v ->
  exists m, load_bytes L junk value order (Some bytes) true = Ok (Loaded m) /\
    load_from_file L junk value order (Some f) true = Ok (Loaded m) /\ lo_vocab m = v /\
    runs_with c (Eval_model.em_hp (evaluator m)).
Proof.
  intros arch EO HA HV. assert (S := cv_settings single half c f32 HS bytes a kvs ws CV). fold f in S.
  assert (Sact : f_set f S_hidden_act = Some (SU32 0)).
  { destruct (sf_act _ _ _ S) as (n & Hn & ->). rewrite (act_one n 0%N Hn HA). reflexivity. }
  assert (LD : loadable junk order f arch (ck_layers c)).
  { constructor.
    - exact file_general.
    - exact file_settings_ok.
    - apply short_read. apply CV.
    - apply readable_read; [exact (cv_fine _ _ _ _ _ _ _ _ CV)|exact (cv_names _ _ _ _ _ _ _ _ CV)].
    - exact Sact.
    - exact (sf_type _ _ _ S).
    - unfold arch. destruct (ck_class c); [left|right|right]; reflexivity.
    - exact (sf_layers _ _ _ S).
    - exists v. exact HV.
    - exact (encoder_has EO). }
  destruct (loadable_loads L HL junk value order f arch (ck_layers c) LD) as (m & Hm). exists m.
  split; [|split; [exact Hm|]].
  - unfold load_bytes. rewrite (cv_read single half c f32 bytes a kvs ws CV Hf). cbn [snd]. exact Hm.
  - destruct (loaded_inv L HL junk value order f true m Hm) as (_ & made & arch' & layers & Hmm & LD' & RS & _ & Hv & _). split.
    + assert (Qa : arch' = arch).
      { assert (Q := l_arch _ _ _ _ _ LD'). rewrite (sf_type _ _ _ S) in Q. injection Q as Q. symmetry. exact Q. }
      subst arch'. rewrite HV in Hv. injection Hv as <-. reflexivity.
    + assert (Ehp : Eval_model.em_hp (evaluator m) = se_hp (lo_settings m)) by (unfold evaluator; destruct (lo_vocab m); reflexivity).
      rewrite Ehp. destruct (read_settings_ok f _ RS) as (_ & arch2 & vocab & h & layers' & heads & max & inter & segs & act & eps &
        E1 & E2 & E3 & E4 & E5 & E6 & E7 & E8 & E9 & Ee & E10). rewrite E10. cbn [se_hp].
      rewrite (sf_hidden _ _ _ S) in E3. rewrite (sf_layers _ _ _ S) in E4. rewrite (sf_heads _ _ _ S) in E5. rewrite (sf_max _ _ _ S) in E6.
      rewrite (sf_inter _ _ _ S) in E7. rewrite (sf_segments _ _ _ S) in E8. rewrite Sact in E9.
      injection E3 as <-. injection E4 as <-. injection E5 as <-. injection E6 as <-. injection E7 as <-. injection E9 as <-.
      assert (segs = ck_segments c). { destruct E8 as [E8|(E8 & _)]; [injection E8 as ->; reflexivity|discriminate E8]. }
      assert (eps = ck_eps c).
      { destruct Ee as [Ee|(Ee & _)]; rewrite (proj1 (sf_floats _ _ _ S)) in Ee; [injection Ee as ->; reflexivity|discriminate Ee]. }
      subst segs eps. constructor; reflexivity.
Qed.
End Load.

(** ** Conversion succeeds *)

Lemma conversion_succeeds {E} (single half : E -> list N) (c : checkpoint E) f32 a : ck_class c <> OtherModel ->
  proper_vocab c -> numbers_ok c -> merges_ok c -> act_number c a -> (ck_class c = BertModel -> ck_never_split c = 0) ->
  exists bytes, convert single half c f32 = Some bytes.
Proof.
  intros Hc PV [N1 N2 N3 N4 N5 N6 N7 N8] MO HA HN.
  assert (PF : pairs_facts c a).
  { constructor; [apply act_spec; exact HA|repeat (constructor; [assumption|]); constructor|intros k n _; apply N8|intros _ k n _; apply N8|exact HN]. }
  destruct (pairs_accepted c f32 a PF) as (kvs & Ep).
  destruct (tokens_written c PV N1) as (ts & lens & W & _ & _).
  assert (Em : exists m, merge_arrays c = Some m).
  { unfold merge_arrays. destruct (ck_merges c) as [ms|] eqn:Q; [|exists []; reflexivity].
    assert (X : exists l, write_merges (ck_vocab c) ms = Some l).
    { apply write_merges_total. specialize (MO ms Q). revert MO. apply Forall_impl. intros m (M1 & (i & M2 & M3) & (j & M4 & M5)).
      split; [exact M1|]. split; [exists i|exists j]; (split; [|assumption]); apply (in_lookup list_N_eqb list_N_eqb_eq); assumption || exact (pv_tokens _ PV). }
    destruct X as (l & ->). eexists. reflexivity. }
  destruct Em as (m & Em). unfold convert. rewrite Ep. unfold arrays, vocab_arrays. rewrite W, Em.
  destruct (ck_class c); [eexists; reflexivity|eexists; reflexivity|contradiction Hc; reflexivity].
Qed.
