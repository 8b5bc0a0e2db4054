(** Theorems about the RoBERTa tokenizer: C26-C32, C69, C85 and the RoBERTa part of
    C19. *)
From Coq Require Import Permutation.
From Verif Require Import Base Assoc Utf_model Utf_spec Utf_proofs Ustr_model Ustr_spec Ustr_proofs Bert_model.
From Verif Require Import Bpe_model Bpe_spec Bpe_proofs Bpe_load_proofs P_Bpe.
From Verif Require Import Vocab_model Vocab_spec Vocab_proofs P_Vocab Roberta_model Roberta_spec Roberta_proofs.
Local Open Scope N_scope.

(** ** C26 *)

Theorem C26_gpt2_alphabet :
  length byte_encoder = 256%nat /\
  forall b, b < 256 -> nth_error byte_encoder (N.to_nat b) = Some (byte_symbol b).
Proof.
  split; [reflexivity|]. intros b H. rewrite <- table_symbol by exact H. apply nth_error_nth'.
  change (length byte_encoder) with 256%nat. lia.
Qed.
Print Assumptions C26_gpt2_alphabet.

Theorem C26_injective : forall i j x,
  nth_error byte_encoder i = Some x -> nth_error byte_encoder j = Some x -> i = j.
Proof.
  intros i j x Hi Hj.
  assert (Li : (i < 256)%nat) by (change 256%nat with (length byte_encoder); apply nth_error_Some; congruence).
  assert (Lj : (j < 256)%nat) by (change 256%nat with (length byte_encoder); apply nth_error_Some; congruence).
  destruct C26_gpt2_alphabet as [_ T].
  pose proof (T (N.of_nat i) ltac:(lia)) as Ti. pose proof (T (N.of_nat j) ltac:(lia)) as Tj.
  rewrite Nat2N.id in Ti, Tj. apply Nat2N.inj. apply symbol_inj; [lia|lia|congruence].
Qed.
Print Assumptions C26_injective.

(** No control character, space or surrogate appears in a byte symbol. *)
Theorem C26_visible : forall i x, nth_error byte_encoder i = Some x ->
  (0x21 <= x <= 0x7e) \/ (0xa1 <= x <= 0xff) \/ (0x100 <= x <= 0x143).
Proof.
  intros i x H.
  assert (L : (i < 256)%nat) by (change 256%nat with (length byte_encoder); apply nth_error_Some; congruence).
  destruct C26_gpt2_alphabet as [_ T]. pose proof (T (N.of_nat i) ltac:(lia)) as Ti.
  rewrite Nat2N.id, H in Ti. injection Ti as ->.
  pose proof (symbol_range (N.of_nat i) ltac:(lia)) as R. unfold printable in R.
  generalize dependent (byte_symbol (N.of_nat i)). intros; lia.
Qed.
Print Assumptions C26_visible.

(** Byte strings and the tokens that spell them determine each other. *)
Theorem C26_spelling : forall a, Forall (fun x => x < 256) a ->
  (exists t, spelling a t /\ forall t', spelling a t' -> t' = t) /\
  (forall b t, Forall (fun x => x < 256) b -> spelling a t -> spelling b t -> a = b).
Proof.
  intros a H. split.
  - exists (enc8s (map byte_symbol a)). split; [apply spelling_iff; auto|]. intros t' S. apply spelling_iff in S; auto.
  - intros b t Hb Sa Sb. eapply spelling_bytes_inj; eauto.
Qed.
Print Assumptions C26_spelling.

Example C26_example : byte_symbol 0x20 = 0x120 /\ byte_symbol 97 = 97 /\ byte_symbol 0xad = 0x143 /\
  spelling [0x20; 97] [0xc4; 0xa0; 97].
Proof. repeat split. apply spelling_iff; [repeat constructor|vm_compute; reflexivity]. Qed.

(** ** A small model used in the examples *)

Definition r_demo_tokens := [u "<s>"; u "<pad>"; u "</s>"; u "<unk>"; u "a"; u "b"; [0xc4; 0xa0]; u "ab";
                             [0xc4; 0xa0; 97]; u "<mask>"; [0xc4; 0xa1]; u "!"].
Definition r_demo_lens : list N := [3; 5; 4; 5; 1; 1; 2; 2; 3; 6; 2; 1].
Definition r_demo_merges := mkt 1 T_I32 [4; 5; 0; 6; 4; 1].
Definition same_order (l : list (ustring * N)) := l.
Local Notation r_demo_load g :=
  (roberta_init_vocab same_order g (Some (mkt 1 T_I8 r_demo_lens)) (Some (mkt 1 T_I8 (concat r_demo_tokens)))
    (Some r_demo_merges)).
Definition empty_rv : rvocab := mkrv voc0 (mkrs 0 0 0 0 0 0 0) (bpe_new [] DZero true).
Definition r_demo : rvocab :=
  match r_demo_load no_kv with Ok rv => rv | _ => empty_rv end.
Definition one_match (s : list N) : list (option (nat * nat)) := [Some (0%nat, length s)].
Definition is_space (c : N) : bool := c =? 32.

Lemma r_demo_layout : layout r_demo_lens (concat r_demo_tokens) r_demo_tokens.
Proof.
  destruct (write_tokens_ok r_demo_tokens) as (lens & W & LY).
  - intros t Ht. simpl in Ht. repeat (destruct Ht as [<-|Ht]; [simpl; lia|]). contradiction.
  - assert (E : lens = r_demo_lens).
    { assert (W2 : write_tokens r_demo_tokens = Some (mkt 1 T_I8 r_demo_lens, mkt 1 T_I8 (concat r_demo_tokens)))
        by (vm_compute; reflexivity). congruence. }
    rewrite E in LY. exact LY.
Qed.
Lemma r_demo_ok : r_demo_load no_kv = Ok r_demo.
Proof. vm_compute. reflexivity. Qed.
Lemma r_demo_loaded : loaded no_kv r_demo_tokens r_demo.
Proof.
  eapply roberta_loaded; [|exact r_demo_layout|exact r_demo_ok]. intros l. apply Permutation_refl.
Qed.
Lemma one_match_ok : engine_ok one_match.
Proof. intros s. exists [(0%nat, length s)]. split; [reflexivity|]. simpl. lia. Qed.

(** ** C19, RoBERTa *)

(** bos and cls, and eos and sep, stand in for each other. *)
Theorem C19_roberta_special_ids : forall g lens data ts v,
  layout lens data ts -> N.of_nat (length ts) < 2 ^ 32 ->
  read_vocab (Some (mkt 1 T_I8 lens)) (Some (mkt 1 T_I8 data)) = Ok v ->
  (forall k, In k roberta_keys -> typed_u32 g k) ->
  let src k := special_id (stored g k) ts [roberta_spelling k] in
  match roberta_specials g (r_find v) with
  | Ok s => forall k, In k roberta_keys -> or_else (src k) (src (roberta_fallback k)) (roberta_special s k)
  | Fail => exists k, In k roberta_keys /\ forall n, ~ or_else (src k) (src (roberta_fallback k)) n
  | _ => False
  end.
Proof.
  intros g lens data ts v LY B R T.
  destruct (read_vocab_ok lens data v (layout_bytes _ _ _ LY) R) as (ts' & LY' & V).
  rewrite (layout_fun _ _ _ LY _ LY') in V. exact (roberta_specials_spec g v ts V B T).
Qed.
Print Assumptions C19_roberta_special_ids.

(** The ids of a loaded model are these. *)
Theorem C19_roberta_loaded : forall order g merges lens data ts rv,
  (forall l, Permutation l (order l)) -> layout lens data ts -> N.of_nat (length ts) < 2 ^ 32 ->
  (forall k, In k roberta_keys -> typed_u32 g k) ->
  roberta_init_vocab order g (Some (mkt 1 T_I8 lens)) (Some (mkt 1 T_I8 data)) merges = Ok rv ->
  let src k := special_id (stored g k) ts [roberta_spelling k] in
  forall k, In k roberta_keys -> or_else (src k) (src (roberta_fallback k)) (roberta_special (rv_sp rv) k).
Proof.
  intros order g merges lens data ts rv HO LY B T H src.
  pose proof (roberta_loaded _ _ _ _ _ _ _ HO LY H) as LD.
  pose proof (roberta_specials_spec g (rv_voc rv) ts (ld_voc _ _ _ LD) B T) as S.
  rewrite (ld_sp _ _ _ LD) in S. exact S.
Qed.
Print Assumptions C19_roberta_loaded.

(** A missing special token fails the load. *)
Theorem C19_roberta_missing : forall order g merges lens data ts k,
  (forall l, Permutation l (order l)) -> layout lens data ts -> N.of_nat (length ts) < 2 ^ 32 ->
  (forall k, In k roberta_keys -> typed_u32 g k) ->
  let src k := special_id (stored g k) ts [roberta_spelling k] in
  In k roberta_keys -> (forall n, ~ src k n) -> (forall n, ~ src (roberta_fallback k) n) ->
  roberta_init_vocab order g (Some (mkt 1 T_I8 lens)) (Some (mkt 1 T_I8 data)) merges = Fail.
Proof.
  intros order g merges lens data ts k HO LY B T src Hk H1 H2.
  unfold roberta_init_vocab. destruct (read_vocab _ _) as [v| | |] eqn:R; try reflexivity.
  - cbn [obind]. unfold roberta_vocab_init.
    pose proof (C19_roberta_special_ids g lens data ts v LY B R T) as S. cbv zeta in S.
    destruct (roberta_specials g (r_find v)) as [s| | |]; try contradiction; [|reflexivity].
    specialize (S k Hk). destruct S as [S|[_ S]]; [exfalso; exact (H1 _ S)|exfalso; exact (H2 _ S)].
  - exfalso. pose proof (layout_bytes _ _ _ LY) as BO. apply (read_vocab_ub lens data BO) in R.
    destruct R as (l1 & b & l2 & d1 & d2 & ts1 & E1 & E2 & L1 & N1 & S). subst lens.
    destruct (layout_prefix _ _ _ L1 (b :: l2) d2 data ts LY E2) as (t2 & _ & L2).
    inversion L2 as [|t ls d ts2 HL HL2 Eb Ed]; subst.
    change (N.of_nat (length (t ++ d)) < tok_len (N.of_nat (length t) mod 256)) in S.
    rewrite tok_len_layout, app_length in S by assumption. lia.
  - exfalso. exact (read_vocab_no_abort _ _ R).
Qed.
Print Assumptions C19_roberta_missing.

Example C19_roberta_example :
  rv_sp r_demo = mkrs 0 2 0 9 1 2 3 /\
  match r_demo_load (fun k => match k with K_bos => Some (KU32 4) | _ => None end) with
  | Ok rv => rv_sp rv = mkrs 4 2 0 9 1 2 3 | _ => False end /\
  roberta_init_vocab (fun l => l) no_kv (Some (mkt 1 T_I8 [3])) (Some (mkt 1 T_I8 (u "<s>"))) (Some r_demo_merges) = Fail.
Proof. split; [|split]; vm_compute; reflexivity. Qed.

(** ** C27 *)

(** The decoded spelling of an entry. *)
Theorem C27_id_to_token : forall order g merges lens data ts rv n t bs,
  (forall l, Permutation l (order l)) -> layout lens data ts ->
  roberta_init_vocab order g (Some (mkt 1 T_I8 lens)) (Some (mkt 1 T_I8 data)) merges = Ok rv ->
  entry ts n t -> spelling bs t -> Forall (fun b => b < 256) bs ->
  (r_id_to_token (rv_voc rv) n = Ok bs <-> Forall (fun b => printable b \/ b <= 0x20) bs).
Proof.
  intros order g merges lens data ts rv n t bs HO LY H E S B.
  pose proof (roberta_loaded _ _ _ _ _ _ _ HO LY H) as LD.
  rewrite (entry_decode _ _ _ LD n t E), (decode_spelling bs t S), <- (decoded_back bs B).
  split; [intros Q; injection Q as Q; exact Q|congruence].
Qed.
Print Assumptions C27_id_to_token.

(** Finding a token: the id of the entry that spells it, or the invalid id. *)
Theorem C27_token_to_id : forall order g merges lens data ts rv bs,
  (forall l, Permutation l (order l)) -> layout lens data ts -> N.of_nat (length ts) < 2 ^ 32 ->
  roberta_init_vocab order g (Some (mkt 1 T_I8 lens)) (Some (mkt 1 T_I8 data)) merges = Ok rv ->
  Forall (fun b => b < 0x80) bs ->
  (exists n t, entry ts n t /\ spelling bs t /\ r_token_to_id (rv_voc rv) bs = Ok n) \/
  ((forall t, spelling bs t -> ~ In t ts) /\ r_token_to_id (rv_voc rv) bs = Ok INVALID).
Proof.
  intros order g merges lens data ts rv bs HO LY B H A.
  pose proof (roberta_loaded _ _ _ _ _ _ _ HO LY H) as LD.
  assert (A' : Forall (fun b => b < 256) bs) by (eapply Forall_impl; [|exact A]; intros c Hc; cbv beta in Hc; lia).
  destruct (C26_spelling bs A') as [(t & S & U) _].
  destruct (voc_find _ ts (ld_voc _ _ _ LD) B) as [F1 F2].
  rewrite (r_token_to_id_ascii _ bs t A S).
  destruct (in_dec list_N_eq_dec t ts) as [I|I].
  - left. destruct (in_entry ts t I) as [n E]. exists n, t. destruct (F1 n t E) as [-> _]. auto.
  - right. split; [intros t' S'; rewrite (U t' S'); exact I|]. rewrite (F2 t I). reflexivity.
Qed.
Print Assumptions C27_token_to_id.

(** Looking a token up and back again loses nothing for bytes below 0x7f ... *)
Theorem C27_round_trip_partial : forall order g merges lens data ts rv bs n,
  (forall l, Permutation l (order l)) -> layout lens data ts -> N.of_nat (length ts) < 2 ^ 32 ->
  roberta_init_vocab order g (Some (mkt 1 T_I8 lens)) (Some (mkt 1 T_I8 data)) merges = Ok rv ->
  Forall (fun b => b < 0x7f) bs ->
  r_token_to_id (rv_voc rv) bs = Ok n -> n <> INVALID ->
  r_id_to_token (rv_voc rv) n = Ok bs.
Proof.
  intros order g merges lens data ts rv bs n HO LY B H A T V.
  assert (A' : Forall (fun b => b < 0x80) bs) by (eapply Forall_impl; [|exact A]; intros c Hc; cbv beta in Hc; lia).
  destruct (C27_token_to_id _ _ _ _ _ _ _ bs HO LY B H A') as [(m & t & E & S & T')|[_ T']]; [|congruence].
  assert (m = n) by congruence. subst m.
  apply (C27_id_to_token _ _ _ _ _ _ _ n t bs HO LY H E S).
  - eapply Forall_impl; [|exact A]; intros c Hc; cbv beta in Hc; lia.
  - eapply Forall_impl; [|exact A]. intros c Hc; cbv beta in Hc. unfold printable. lia.
Qed.
Print Assumptions C27_round_trip_partial.

(** ... but not for 0x7f: its entry decodes to "!". *)
Theorem C27_round_trip_refuted : exists rv n,
  r_demo_load no_kv = Ok rv /\
  r_token_to_id (rv_voc rv) [0x7f] = Ok n /\ n <> INVALID /\ r_id_to_token (rv_voc rv) n = Ok (u "!") /\
  r_token_to_id (rv_voc rv) (u "!") = Ok (n + 1) /\ r_id_to_token (rv_voc rv) (n + 1) = Ok (u "!").
Proof.
  exists r_demo, 10. split; [exact r_demo_ok|]. split; [vm_compute; reflexivity|]. split; [discriminate|].
  repeat split; vm_compute; reflexivity.
Qed.
Print Assumptions C27_round_trip_refuted.

Example C27_example : r_token_to_id (rv_voc r_demo) (u " a") = Ok 8 /\ r_id_to_token (rv_voc r_demo) 8 = Ok (u " a")
  /\ r_token_to_id (rv_voc r_demo) (u "zz") = Ok INVALID.
Proof. repeat split; vm_compute; reflexivity. Qed.

(** ** C28 *)

(** Looking up a token is undefined exactly when it has a byte from 0x80 on. *)
Theorem C28_token_to_id_undefined : forall v bs,
  r_token_to_id v bs = UB <-> exists b, In b bs /\ 0x80 <= b.
Proof.
  intros v bs. unfold r_token_to_id. destruct (ascii_dec bs) as [A|A].
  - rewrite encode_bytes_ascii by exact A. cbn [obind]. split; [discriminate|].
    intros (b & Hb & L). rewrite Forall_forall in A. specialize (A b Hb). cbv beta in A. lia.
  - rewrite encode_bytes_ub by exact A. split; [|reflexivity]. intros _.
    induction bs as [|c bs IH]; [destruct A; constructor|]. destruct (N.ltb_spec c 0x80) as [L|L].
    + destruct IH as (b & Hb & H); [|exists b; split; [right; exact Hb|exact H]].
      intros F. apply A. constructor; assumption.
    + exists c. split; [left; reflexivity|exact L].
Qed.
Print Assumptions C28_token_to_id_undefined.

(** Tokenizing a text of the Basic Multilingual Plane with a non-ASCII character and
    no special token in it is undefined, whatever the vocabulary. *)
Theorem C28_non_ascii_undefined : forall engine ws pick sporder order g merges lens data ts rv keep cs text,
  (forall l, Permutation l (order l)) -> layout lens data ts ->
  roberta_init_vocab order g (Some (mkt 1 T_I8 lens)) (Some (mkt 1 T_I8 data)) merges = Ok rv ->
  engine_ok engine -> removes_maximal Bpe_model.entry_lt pick ->
  (forall l k, In k (sporder l) <-> In k l) ->
  special_tokens rv = Ok keep -> (forall k a b, In k keep -> text <> a ++ k ++ b) ->
  utf8 cs text -> Forall (fun c => c < 0x10000) cs -> (exists c, In c cs /\ 0x80 <= c) ->
  r_tokenize engine ws pick sporder rv text = Some UB.
Proof.
  intros engine ws pick sporder order g merges lens data ts rv keep cs text HO LY H HE HP HS K NO U8 B (c & Hc & Lc).
  pose proof (roberta_loaded _ _ _ _ _ _ _ HO LY H) as LD.
  assert (NE : text <> []).
  { intros ->. apply utf8_enc8s in U8. destruct U8 as [_ E]. destruct cs as [|x cs]; [contradiction|].
    unfold enc8s in E. cbn [flat_map] in E. symmetry in E. apply app_eq_nil in E. destruct E as [E _].
    unfold enc8 in E. destruct (x <? 0x80); [discriminate|]. destruct (x <? 0x800); [discriminate|].
    destruct (x <? 0x10000); discriminate. }
  assert (NK : Forall (fun k => k <> []) (sporder keep)).
  { apply Forall_forall. intros k Hk ->. apply (proj1 (HS _ _)) in Hk. apply (NO [] [] text Hk). reflexivity. }
  unfold r_tokenize, r_tokenize_from. rewrite K.
  destruct (split_enough (sporder keep) NK (length text) [] text (le_n _)) as [parts S]. rewrite S. f_equal.
  assert (C : cut (sporder keep) text parts).
  { apply (split_cut _ (length text) [] text); [|exact S]. intros a b k E Hb. destruct a; [|discriminate]. simpl in E. congruence. }
  apply no_occurrence_cut in C; [|exact NE|intros k a b Hk; apply NO, HS, Hk]. subst parts.
  destruct (special_tokens_ok _ _ _ LD) as (keep' & K' & F). rewrite K in K'. injection K' as <-.
  assert (M : exists m, r_id_to_token (rv_voc rv) (r_mask (rv_sp rv)) = Ok m).
  { do 3 (inversion F as [|? ? ? ? _ F']; subst; clear F; rename F' into F). inversion F; subst. eexists; eassumption. }
  destruct M as [m ->]. cbn [obind].
  apply utf8_enc8s in U8. destruct U8 as [SV ->].
  apply (do_parts_ub engine HE ws pick HP g ts rv LD).
  - rewrite Forall_forall in *. intros x Hx. specialize (SV x Hx). specialize (B x Hx). cbv beta in B.
    unfold scalar_value, bmp in *. lia.
  - intros A. rewrite Forall_forall in A. specialize (A c Hc). cbv beta in A. lia.
  - intros t r L. discriminate.
Qed.
Print Assumptions C28_non_ascii_undefined.

Theorem C28_defined_refuted : exists rv,
  r_demo_load no_kv = Ok rv /\ r_token_to_id (rv_voc rv) [0xc3; 0xa9] = UB /\
  r_tokenize one_match is_space pick_max (fun l => l) rv [0xc3; 0xa9] = Some UB.
Proof.
  exists r_demo. split; [exact r_demo_ok|]. split; vm_compute; reflexivity.
Qed.
Print Assumptions C28_defined_refuted.

(** On ASCII texts every call that returns returns true or false. *)
Theorem C28_ascii_defined_partial : forall engine ws pick sporder order g merges lens data ts rv text fuel r,
  (forall l, Permutation l (order l)) -> layout lens data ts -> N.of_nat (length ts) < 2 ^ 32 ->
  roberta_init_vocab order g (Some (mkt 1 T_I8 lens)) (Some (mkt 1 T_I8 data)) merges = Ok rv ->
  engine_ok engine -> removes_maximal Bpe_model.entry_lt pick ->
  Forall (fun c => c < 0x80) text ->
  r_tokenize_from engine ws pick sporder fuel rv text = Some r ->
  (exists ids, r = Ok ids) \/ r = Fail.
Proof.
  intros engine ws pick sporder order g merges lens data ts rv text fuel r HO LY B H HE HP A T.
  pose proof (roberta_loaded _ _ _ _ _ _ _ HO LY H) as LD.
  destruct (special_tokens_ok _ _ _ LD) as (keep & K & F).
  unfold r_tokenize_from in T. rewrite K in T.
  destruct (split_specials fuel (sporder keep) [] text) as [parts|] eqn:S; [|discriminate].
  assert (M : exists m, r_id_to_token (rv_voc rv) (r_mask (rv_sp rv)) = Ok m).
  { do 3 (inversion F as [|? ? ? ? _ F']; subst; clear F; rename F' into F). inversion F; subst. eexists; eassumption. }
  destruct M as [m M]. rewrite M in T. cbn [obind] in T.
  assert (C : cut (sporder keep) text parts).
  { apply (split_cut _ fuel [] text); [|exact S]. intros a b k E Hb. destruct a; [|discriminate]. simpl in E. congruence. }
  assert (P : Forall (fun p => ascii (snd p)) parts).
  { apply Forall_forall. intros p Hp. destruct (cut_parts _ _ _ C p Hp) as [(a & b & E) _].
    unfold ascii. rewrite E in A. apply Forall_app in A. destruct A as [_ A]. apply Forall_app in A. tauto. }
  injection T as <-.
  apply (do_parts_defined engine HE ws pick HP g ts rv LD m parts []); [exact P|]. intros t r L; discriminate.
Qed.
Print Assumptions C28_ascii_defined_partial.

Example C28_example :
  r_tokenize one_match is_space pick_max (fun l => l) r_demo (u "ab a<mask>") = Some (Ok [7; 8; 9]) /\
  r_tokenize one_match is_space pick_max (fun l => l) r_demo (u "z") = Some (Ok [3]).
Proof. split; vm_compute; reflexivity. Qed.

(** ** C29 *)

Theorem C29_special_split : forall fuel sp text parts,
  split_specials fuel sp [] text = Some parts -> cut sp text parts /\ concat (map snd parts) = text.
Proof.
  intros fuel sp text parts S.
  assert (C : cut sp text parts).
  { apply (split_cut sp fuel [] text); [|exact S]. intros a b k E Hb. destruct a; [|discriminate]. simpl in E. congruence. }
  split; [exact C|]. eapply cut_concat; eauto.
Qed.
Print Assumptions C29_special_split.

(** An ordinary part contains no special string. *)
Theorem C29_ordinary_parts : forall fuel sp text parts p k a b,
  split_specials fuel sp [] text = Some parts -> In (false, p) parts -> In k sp -> k <> [] -> p <> a ++ k ++ b.
Proof.
  intros fuel sp text parts p k a b S Hp Hk NK E. destruct (C29_special_split _ _ _ _ S) as [C _].
  clear S. induction C as [|k' rest ps Hk' C IH|p' rest ps Hp' HN C IH HO]; [contradiction| |].
  - destruct Hp as [Hp|Hp]; [discriminate|auto].
  - destruct Hp as [Hp|Hp]; [|auto]. injection Hp as ->.
    apply (HN a (k ++ b) k E); [destruct k; [congruence|discriminate]|exact Hk|].
    exists (b ++ rest). rewrite app_assoc. reflexivity.
Qed.
Print Assumptions C29_ordinary_parts.

Example C29_example :
  split_specials 20 [u "<s>"; u "<mask>"] [] (u "<s>a <mask>b") =
  Some [(true, u "<s>"); (false, u "a "); (true, u "<mask>"); (false, u "b")].
Proof. vm_compute. reflexivity. Qed.

(** ** C30 *)

(** Two iteration orders of the set of special tokens give the same result if no
    special token is empty or a proper prefix of another ... *)
Theorem C30_order_partial : forall engine ws pick o1 o2 rv keep text fuel1 fuel2,
  (forall l k, In k (o1 l) <-> In k l) -> (forall l k, In k (o2 l) <-> In k l) ->
  special_tokens rv = Ok keep -> prefix_free keep -> ~ In [] keep ->
  (length text <= fuel1)%nat -> (length text <= fuel2)%nat ->
  r_tokenize_from engine ws pick o1 fuel1 rv text = r_tokenize_from engine ws pick o2 fuel2 rv text.
Proof.
  intros engine ws pick o1 o2 rv keep text f1 f2 P1 P2 K PF NE L1 L2.
  unfold r_tokenize_from. rewrite K.
  assert (N : forall o, (forall l k, In k (o l) <-> In k l) -> Forall (fun k : list N => k <> []) (o keep)).
  { intros o P. apply Forall_forall. intros k Hk ->. apply (proj1 (P _ _)) in Hk. contradiction. }
  destruct (split_enough (o1 keep) (N o1 P1) f1 [] text L1) as [ps1 S1].
  destruct (split_enough (o2 keep) (N o2 P2) f2 [] text L2) as [ps2 S2].
  rewrite S1, S2. destruct (C29_special_split _ _ _ _ S1) as [C1 _]. destruct (C29_special_split _ _ _ _ S2) as [C2 _].
  apply (cut_permutation _ keep) in C1; [|intros k; apply P1]. apply (cut_permutation _ keep) in C2; [|intros k; apply P2].
  rewrite (cut_fun keep PF NE text ps1 C1 ps2 C2). reflexivity.
Qed.
Print Assumptions C30_order_partial.

(** ... and different results otherwise: a file whose mask token is "<s>x". *)
Definition r_prefix_tokens := [u "<s>"; u "<pad>"; u "</s>"; u "<unk>"; u "<s>x"; u "x"].
Theorem C30_order_refuted : exists rv,
  roberta_init_vocab (fun l => l) (fun k => match k with K_mask => Some (KU32 4) | _ => None end)
    (Some (mkt 1 T_I8 [3; 5; 4; 5; 4; 1])) (Some (mkt 1 T_I8 (concat r_prefix_tokens))) (Some (mkt 1 T_I32 [])) = Ok rv /\
  r_tokenize one_match is_space pick_max (fun l => l) rv (u "<s>x") = Some (Ok [0; 5]) /\
  r_tokenize one_match is_space pick_max (@rev (list N)) rv (u "<s>x") = Some (Ok [4]).
Proof. eexists. split; [vm_compute; reflexivity|]. split; vm_compute; reflexivity. Qed.
Print Assumptions C30_order_refuted.

(** Exactly: the cut is the same for all orders just when no special token is a proper
    prefix of another. *)
Theorem C30_order_iff : forall sp, ~ In [] sp ->
  (prefix_free sp <->
   forall sp1 sp2 text fuel, Permutation sp sp1 -> Permutation sp sp2 -> (length text <= fuel)%nat ->
     split_specials fuel sp1 [] text = split_specials fuel sp2 [] text).
Proof.
  intros sp NE. split.
  - intros PF sp1 sp2 text fuel P1 P2 L.
    assert (N : forall o, Permutation sp o -> Forall (fun k : list N => k <> []) o).
    { intros o P. apply Forall_forall. intros k Hk ->. apply NE. apply (Permutation_in _ (Permutation_sym P)), Hk. }
    destruct (split_enough sp1 (N sp1 P1) fuel [] text L) as [ps1 S1].
    destruct (split_enough sp2 (N sp2 P2) fuel [] text L) as [ps2 S2].
    rewrite S1, S2. destruct (C29_special_split _ _ _ _ S1) as [C1 _]. destruct (C29_special_split _ _ _ _ S2) as [C2 _].
    apply (cut_permutation _ sp) in C1; [|intros k; split; apply Permutation_in; [apply Permutation_sym|]; exact P1].
    apply (cut_permutation _ sp) in C2; [|intros k; split; apply Permutation_in; [apply Permutation_sym|]; exact P2].
    rewrite (cut_fun sp PF NE text ps1 C1 ps2 C2). reflexivity.
  - intros H a b Ha Hb Pab.
    assert (F : forall x, In x sp -> exists l, Permutation sp (x :: l)).
    { intros x Hx. apply in_split in Hx as (l & r & ->). exists (l ++ r). apply Permutation_sym, Permutation_middle. }
    destruct (F a Ha) as (la & Pa). destruct (F b Hb) as (lb & Pb).
    specialize (H _ _ b (length b) Pa Pb (le_n _)).
    assert (Na : forall x l, In x sp -> prefix x b -> Permutation sp (x :: l) ->
      exists ps, split_specials (length b) (x :: l) [] b = Some ((true, x) :: ps)).
    { intros x l Hx Px P. assert (NF : Forall (fun k : list N => k <> []) (x :: l)).
      { apply Forall_forall. intros k Hk ->. apply NE. apply (Permutation_in _ (Permutation_sym P)), Hk. }
      destruct b as [|c b']; [elim NE; exact Hb|]. cbn [length split_specials].
      replace (find (fun k => begins k (c :: b')) (x :: l)) with (Some x) by (cbn [find]; apply begins_iff in Px; rewrite Px; reflexivity).
      destruct x as [|c0 x']; [elim NE; exact Hx|].
      destruct (split_enough _ NF (length b') [] (skipn (length (c0 :: x')) (c :: b'))) as [ps S].
      - rewrite skipn_length. cbn [length]. lia.
      - rewrite S. exists ps. reflexivity. }
    destruct (Na a la Ha Pab Pa) as (ps1 & S1). destruct (Na b lb Hb ltac:(exists []; symmetry; apply app_nil_r) Pb) as (ps2 & S2).
    rewrite S1, S2 in H. injection H as H _. exact H.
Qed.
Print Assumptions C30_order_iff.

Example C30_iff_example : ~ In [] [u "<s>"; u "</s>"] /\ prefix_free [u "<s>"; u "</s>"] /\ ~ prefix_free [u "<s>"; u "<s>x"].
Proof.
  split; [intros [E|[E|[]]]; discriminate E|]. split.
  - intros a b [<-|[<-|[]]] [<-|[<-|[]]] [r E]; try reflexivity; discriminate E.
  - intros H. assert (E := H (u "<s>") (u "<s>x") ltac:(left; reflexivity) ltac:(right; left; reflexivity) ltac:(exists (u "x"); reflexivity)).
    discriminate E.
Qed.

Definition prefix_free_b (sp : list (list N)) : bool :=
  forallb (fun a => forallb (fun b => negb (begins a b) || list_N_eqb a b) sp) sp.
Lemma prefix_free_dec sp : prefix_free_b sp = true -> prefix_free sp.
Proof.
  intros H a b Ha Hb P. unfold prefix_free_b in H. rewrite forallb_forall in H. specialize (H a Ha).
  rewrite forallb_forall in H. specialize (H b Hb). apply begins_iff in P. rewrite P in H. apply list_N_eqb_eq. exact H.
Qed.
Example C30_example : exists keep, special_tokens r_demo = Ok keep /\ prefix_free keep /\ ~ In [] keep.
Proof.
  eexists. split; [vm_compute; reflexivity|]. split; [apply prefix_free_dec; vm_compute; reflexivity|].
  simpl. intuition discriminate.
Qed.

(** ** C31 *)

(** One step per byte is enough if the special tokens are not empty. *)
Theorem C31_terminates_partial : forall engine ws pick sporder rv keep text,
  (forall l k, In k (sporder l) <-> In k l) ->
  special_tokens rv = Ok keep -> ~ In [] keep ->
  exists r, r_tokenize engine ws pick sporder rv text = Some r /\
    forall fuel, (length text <= fuel)%nat -> r_tokenize_from engine ws pick sporder fuel rv text = Some r.
Proof.
  intros engine ws pick sporder rv keep text P K NE.
  assert (N : Forall (fun k : list N => k <> []) (sporder keep)).
  { apply Forall_forall. intros k Hk ->. apply (proj1 (P _ _)) in Hk. contradiction. }
  destruct (split_enough (sporder keep) N (length text) [] text (le_n _)) as [ps S].
  unfold r_tokenize, r_tokenize_from. rewrite K, S. eexists. split; [reflexivity|].
  intros fuel L. rewrite (split_length _ _ _ _ _ S fuel L). reflexivity.
Qed.
Print Assumptions C31_terminates_partial.

(** The fuel of the model is not a restriction: a call that returns at all returns
    within one step per byte. *)
Theorem C31_fuel_irrelevant : forall engine ws pick sporder rv text fuel r,
  r_tokenize_from engine ws pick sporder fuel rv text = Some r ->
  r_tokenize engine ws pick sporder rv text = Some r.
Proof.
  intros engine ws pick sporder rv text fuel r. unfold r_tokenize, r_tokenize_from.
  destruct (special_tokens rv) as [keep| | |]; auto.
  destruct (split_specials fuel (sporder keep) [] text) as [ps|] eqn:S; [|discriminate].
  rewrite (split_length _ _ _ _ _ S (length text) (le_n _)). auto.
Qed.
Print Assumptions C31_fuel_irrelevant.

(** An empty special token: no text without the other special tokens in it can be
    tokenized. *)
Theorem C31_empty_special_hangs : forall engine ws pick sporder rv keep text,
  (forall l k, In k (sporder l) <-> In k l) ->
  special_tokens rv = Ok keep -> In [] keep -> text <> [] ->
  (forall k, In k keep -> k <> [] -> ~ prefix k text) ->
  forall fuel, r_tokenize_from engine ws pick sporder fuel rv text = None.
Proof.
  intros engine ws pick sporder rv keep text P K HI NE NP fuel. unfold r_tokenize_from. rewrite K.
  destruct text as [|c text]; [congruence|]. rewrite split_stuck; [reflexivity|].
  pose proof (find_special (sporder keep) (c :: text)) as F.
  destruct (find (fun k => begins k (c :: text)) (sporder keep)) as [k|] eqn:E.
  - destruct F as (Hk & r & Er & _). destruct k as [|x k]; [reflexivity|]. exfalso.
    apply (NP (x :: k)); [apply P; exact Hk|discriminate|]. exists r. exact Er.
  - exfalso. apply (F []); [apply P; exact HI|apply prefix_nil].
Qed.
Print Assumptions C31_empty_special_hangs.

(** Such a model loads: its pad id is not in the vocabulary. *)
Theorem C31_terminates_refuted : exists rv,
  r_demo_load (fun k => match k with K_pad => Some (KU32 1000) | _ => None end) = Ok rv /\
  forall engine ws pick sporder fuel, (forall l k, In k (sporder l) <-> In k l) ->
    r_tokenize_from engine ws pick sporder fuel rv (u "a") = None.
Proof.
  eexists. split; [vm_compute; reflexivity|]. intros engine ws pick sporder fuel P.
  eapply C31_empty_special_hangs; [exact P|vm_compute; reflexivity| |discriminate|].
  - simpl. tauto.
  - intros k Hk NK PX. simpl in Hk. destruct PX as [r E].
    repeat (destruct Hk as [<-|Hk]; [try congruence; discriminate|]). contradiction.
Qed.
Print Assumptions C31_terminates_refuted.

Example C31_example : exists keep, special_tokens r_demo = Ok keep /\ ~ In [] keep.
Proof. eexists. split; [vm_compute; reflexivity|]. simpl. intuition discriminate. Qed.

(** ** C86 *)

(** On 7-bit text a loaded model with non-empty special tokens always answers. *)
Theorem C86_seven_bit_total : forall engine ws pick sporder order g merges lens data ts rv keep text,
  (forall l, Permutation l (order l)) -> layout lens data ts -> N.of_nat (length ts) < 2 ^ 32 ->
  roberta_init_vocab order g (Some (mkt 1 T_I8 lens)) (Some (mkt 1 T_I8 data)) merges = Ok rv ->
  engine_ok engine -> removes_maximal Bpe_model.entry_lt pick ->
  (forall l k, In k (sporder l) <-> In k l) ->
  special_tokens rv = Ok keep -> ~ In [] keep ->
  Forall (fun c => c < 0x80) text ->
  (exists ids, r_tokenize engine ws pick sporder rv text = Some (Ok ids)) \/
  r_tokenize engine ws pick sporder rv text = Some Fail.
Proof.
  intros engine ws pick sporder order g merges lens data ts rv keep text HO LY B H HE HP HS K NE A.
  destruct (C31_terminates_partial engine ws pick sporder rv keep text HS K NE) as (r & R & _).
  destruct (C28_ascii_defined_partial engine ws pick sporder order g merges lens data ts rv text (length text) r
              HO LY B H HE HP A R) as [[ids ->]| ->]; [left; exists ids; exact R|right; exact R].
Qed.
Print Assumptions C86_seven_bit_total.

(** Converting an id to a token, in range or not, is always defined; out of range it
    is the empty string. *)
Theorem C86_id_to_token_total : forall order g merges lens data ts rv n,
  (forall l, Permutation l (order l)) -> layout lens data ts ->
  roberta_init_vocab order g (Some (mkt 1 T_I8 lens)) (Some (mkt 1 T_I8 data)) merges = Ok rv ->
  (exists bs, r_id_to_token (rv_voc rv) n = Ok bs /\ Forall (fun b => b < 256) bs) /\
  (N.of_nat (length ts) <= n -> r_id_to_token (rv_voc rv) n = Ok []).
Proof.
  intros order g merges lens data ts rv n HO LY H.
  pose proof (roberta_loaded _ _ _ _ _ _ _ HO LY H) as LD.
  unfold r_id_to_token. rewrite (voc_i2t _ ts n (ld_voc _ _ _ LD)). split.
  - destruct (nth_error ts (N.to_nat n)) as [t|] eqn:E; [|exists []; split; [reflexivity|constructor]].
    destruct (ld_utf8 _ _ _ LD) as (cps & F). apply nth_error_In in E. clear -F E.
    induction F as [|c t' cps ts U F IH]; [contradiction|]. destruct E as [->|E]; [|auto].
    eexists. split; [apply decode_utf8; exact U|]. apply Forall_map. apply Forall_forall. intros x _.
    change 0xff with (N.ones 8). rewrite N.land_ones. apply N.mod_lt. discriminate.
  - intros L. destruct (nth_error ts (N.to_nat n)) as [t|] eqn:E; [|reflexivity].
    assert (N.to_nat n < length ts)%nat by (apply nth_error_Some; congruence). lia.
Qed.
Print Assumptions C86_id_to_token_total.

(** Loading itself: undefined exactly for tokens that are not UTF-8. *)
Theorem C86_load_defined : forall order g merges lens data ts,
  layout lens data ts -> NoDup ts -> N.of_nat (length ts) < 2 ^ 32 ->
  (forall k, In k roberta_keys -> typed_u32 g k) ->
  Forall valid_utf8 ts ->
  match roberta_init_vocab order g (Some (mkt 1 T_I8 lens)) (Some (mkt 1 T_I8 data)) merges with
  | Abort => False
  | UB => exists s n t bs, roberta_specials g s = Ok n /\ entry ts (r_unk n) t /\
                         decode_token t = Ok bs /\ ~ valid_utf8 bs
  | _ => True
  end.
Proof.
  intros order g merges lens data ts LY ND B T U8. unfold roberta_init_vocab.
  destruct (read_vocab_layout lens data ts LY ND) as (v & R & V). unfold i8 in R. rewrite R. cbn [obind].
  unfold roberta_vocab_init. pose proof (roberta_specials_spec g v ts V B T) as S. cbv zeta in S.
  destruct (roberta_specials g (r_find v)) as [sp| | |] eqn:ES; try contradiction; [|exact I]. cbn [obind].
  assert (A : exists cps, all_some (map dec8 ts) = Some cps).
  { clear -U8. induction U8 as [|t ts (cs & U) _ IH]; [exists []; reflexivity|]. destruct IH as [cps E].
    apply utf8_enc8s in U. destruct U as [SV ->]. exists (cs :: cps). cbn [map all_some].
    rewrite dec8_enc8s by exact SV. rewrite E. reflexivity. }
  destruct A as [cps EC]. unfold bpe_words. assert (V' := V). destruct V' as (Ei & _). rewrite Ei, EC. cbn [option_map].
  unfold r_id_to_token. rewrite (voc_i2t v ts (r_unk sp) V).
  assert (Q : forall unk', match obind (read_merges merges) (fun ms =>
      match load_vocab (bpe_new unk' DZero true) (order (combine cps (map N.of_nat (seq 0 (length cps))))) ms with
      | (true, b) => Ok (mkrv v sp b)
      | (false, _) => Fail
      end) with Abort | UB => False | _ => True end).
  { intros unk'. assert (RM : match read_merges merges with Ok _ | Fail => True | _ => False end).
    { unfold read_merges. destruct merges as [[dims ty d]|]; [|exact I]. cbn [t_dims t_type t_data].
      destruct (negb (dims =? 1)); [exact I|]. destruct ty; try exact I. destruct (_ =? 0)%nat; exact I. }
    destruct (read_merges merges); try contradiction; [|exact I]. cbn [obind].
    destruct (load_vocab _ _ _) as [[] ?]; exact I. }
  destruct (nth_error ts (N.to_nat (r_unk sp))) as [t|] eqn:E.
  - rewrite Forall_forall in U8. destruct (U8 t (nth_error_In _ _ E)) as [cs U].
    rewrite (decode_utf8 _ _ U). cbn [obind].
    destruct (dec8 (map (fun c => N.land c 255) cs)) as [unk'|] eqn:D.
    + specialize (Q unk'). destruct (obind _ _); tauto.
    + exists (r_find v), sp, t, (map (fun c => N.land c 255) cs). split; [exact ES|]. split; [exact E|].
      split; [exact (decode_utf8 _ _ U)|]. intros (cs' & U'). apply utf8_enc8s in U'. destruct U' as [SV E'].
      rewrite E', dec8_enc8s in D by exact SV. discriminate.
  - cbn. specialize (Q []). cbn [obind] in Q. destruct (obind _ _); tauto.
Qed.
Print Assumptions C86_load_defined.

(** The case is reachable: the unknown token "é" becomes the byte 0xe9. *)
Example C86_unknown_token_undefined :
  roberta_init_vocab same_order (fun k => match k with K_unk => Some (KU32 4) | _ => None end)
    (Some (mkt 1 T_I8 [3; 5; 4; 6; 2])) (Some (mkt 1 T_I8 (concat [u "<s>"; u "<pad>"; u "</s>"; u "<mask>"; [0xc3; 0xa9]])))
    (Some (mkt 1 T_I32 [])) = UB.
Proof. vm_compute. reflexivity. Qed.

Example C86_example : r_tokenize one_match is_space pick_max (fun l => l) r_demo (u "a<unk>") = Some (Ok [4; 3]) /\
  r_id_to_token (rv_voc r_demo) 99 = Ok [].
Proof. split; vm_compute; reflexivity. Qed.

(** ** C32 *)

(** A text of bytes below 0x7f whose byte symbols are in the vocabulary comes back
    from its ids, except for the whitespace directly before a mask. *)
Theorem C32_lossless : forall engine ws pick sporder order g merges lens data ts rv keep text,
  (forall l, Permutation l (order l)) -> layout lens data ts -> N.of_nat (length ts) < 2 ^ 32 ->
  roberta_init_vocab order g (Some (mkt 1 T_I8 lens)) (Some (mkt 1 T_I8 data)) merges = Ok rv ->
  engine_ok engine -> removes_maximal Bpe_model.entry_lt pick ->
  (forall l k, In k (sporder l) <-> In k l) ->
  special_tokens rv = Ok keep ->
  (forall k, In k keep -> k <> [] /\ Forall (fun c => 0x21 <= c <= 0x7e) k /\ In k ts) ->
  (forall b, In b text -> b < 0x7f /\ exists t, spelling [b] t /\ In t ts) ->
  exists mask parts ids bss,
    r_id_to_token (rv_voc rv) (r_mask (rv_sp rv)) = Ok mask /\
    cut keep text parts /\
    r_tokenize engine ws pick sporder rv text = Some (Ok ids) /\
    Forall2 (fun id bs => r_id_to_token (rv_voc rv) id = Ok bs) ids bss /\
    rendered ws mask parts (concat bss).
Proof.
  intros engine ws pick sporder order g merges lens data ts rv keep text HO LY B H HE HP HS K SPK KN.
  pose proof (roberta_loaded _ _ _ _ _ _ _ HO LY H) as LD.
  destruct (special_tokens_ok _ _ _ LD) as (keep' & K' & F). rewrite K in K'. injection K' as <-.
  assert (M : exists m, r_id_to_token (rv_voc rv) (r_mask (rv_sp rv)) = Ok m).
  { do 3 (inversion F as [|? ? ? ? _ F']; subst; clear F; rename F' into F). inversion F; subst. eexists; eassumption. }
  destruct M as [m M].
  assert (NK : Forall (fun k => k <> []) (sporder keep)).
  { apply Forall_forall. intros k Hk. apply (proj1 (HS _ _)) in Hk. apply SPK. exact Hk. }
  destruct (split_enough (sporder keep) NK (length text) [] text (le_n _)) as [parts S].
  destruct (C29_special_split _ _ _ _ S) as [C _].
  apply (cut_permutation _ keep) in C; [|intros k; apply HS].
  assert (G : Forall (good_part ts) parts).
  { apply Forall_forall. intros [sp p] Hp. destruct (cut_parts _ _ _ C _ Hp) as [(a & b & E) Q].
    unfold good_part. cbn [fst snd] in *. destruct sp.
    - destruct (SPK p (Q eq_refl)) as (_ & S7 & I). split; assumption.
    - assert (X : forall x, In x p -> In x text) by (intros x Hx; rewrite E, !in_app_iff; tauto).
      split; apply Forall_forall; intros x Hx; destruct (KN x (X x Hx)) as [L T]; [exact T|lia]. }
  destruct (do_parts_lossless engine HE ws pick HP g ts rv LD B m parts [] G) as (ids & bss & D & DD & R).
  { intros t r L; discriminate. }
  exists m, parts, ids, bss. split; [exact M|]. split; [exact C|]. split.
  - unfold r_tokenize, r_tokenize_from. rewrite K, S, M. cbn [obind]. rewrite D. reflexivity.
  - split; [exact DD|exact R].
Qed.
Print Assumptions C32_lossless.

(** Without a mask in the text, nothing is lost. *)
Theorem C32_lossless_no_mask : forall engine ws pick sporder order g merges lens data ts rv keep mask text,
  (forall l, Permutation l (order l)) -> layout lens data ts -> N.of_nat (length ts) < 2 ^ 32 ->
  roberta_init_vocab order g (Some (mkt 1 T_I8 lens)) (Some (mkt 1 T_I8 data)) merges = Ok rv ->
  engine_ok engine -> removes_maximal Bpe_model.entry_lt pick ->
  (forall l k, In k (sporder l) <-> In k l) ->
  special_tokens rv = Ok keep ->
  (forall k, In k keep -> k <> [] /\ Forall (fun c => 0x21 <= c <= 0x7e) k /\ In k ts) ->
  (forall b, In b text -> b < 0x7f /\ exists t, spelling [b] t /\ In t ts) ->
  r_id_to_token (rv_voc rv) (r_mask (rv_sp rv)) = Ok mask -> (forall a b, text <> a ++ mask ++ b) ->
  exists ids bss,
    r_tokenize engine ws pick sporder rv text = Some (Ok ids) /\
    Forall2 (fun id bs => r_id_to_token (rv_voc rv) id = Ok bs) ids bss /\
    concat bss = text.
Proof.
  intros engine ws pick sporder order g merges lens data ts rv keep mask text HO LY B H HE HP HS K SPK KN M NM.
  destruct (C32_lossless engine ws pick sporder order g merges lens data ts rv keep text HO LY B H HE HP HS K SPK KN)
    as (m & parts & ids & bss & M' & C & T & D & R).
  assert (m = mask) by congruence. subst m. exists ids, bss. split; [exact T|]. split; [exact D|].
  rewrite (rendered_no_mask _ _ _ _ R); [eapply cut_concat; eauto|].
  intros HI. destruct (cut_parts _ _ _ C _ HI) as [(a & b & E) _]. exact (NM a b E).
Qed.
Print Assumptions C32_lossless_no_mask.

Example C32_example :
  r_tokenize one_match is_space pick_max (fun l => l) r_demo (u "<s>ab a<mask>b  a</s>") = Some (Ok [0; 7; 8; 9; 5; 6; 8; 2]) /\
  (forall k, In k [u "<s>"; u "</s>"; u "<mask>"; u "<pad>"; u "<unk>"] ->
     k <> [] /\ Forall (fun c => 0x21 <= c <= 0x7e) k /\ In k r_demo_tokens) /\
  (forall b, In b (u "ab a") -> b < 0x7f /\ exists t, spelling [b] t /\ In t r_demo_tokens).
Proof.
  split; [vm_compute; reflexivity|]. split.
  - intros k Hk. simpl in Hk.
    repeat (destruct Hk as [<-|Hk]; [split; [discriminate|]; split; [repeat constructor; discriminate|simpl; tauto]|]).
    contradiction.
  - intros b Hb. simpl in Hb.
    assert (X : b = 97 \/ b = 98 \/ b = 32) by intuition.
    destruct X as [->|[->| ->]]; (split; [reflexivity|]).
    + exists [97]. split; [apply spelling_iff; [repeat constructor|vm_compute; reflexivity]|simpl; tauto].
    + exists [98]. split; [apply spelling_iff; [repeat constructor|vm_compute; reflexivity]|simpl; tauto].
    + exists [0xc4; 0xa0]. split; [apply spelling_iff; [repeat constructor|vm_compute; reflexivity]|simpl; tauto].
Qed.

(** ** C69 *)

(** The merges the converter writes are the merges the loader reads, in order. *)
Theorem C69_merge_round_trip : forall vocab merges l,
  write_merges vocab merges = Some l ->
  exists ps, read_merges (Some (mkt 1 T_I32 l)) = Ok ps /\
    Forall2 (fun m p => lookup list_N_eqb (fst (fst m)) vocab = Some (fst p) /\
                        lookup list_N_eqb (snd (fst m)) vocab = Some (snd p)) merges ps.
Proof.
  intros vocab merges l H. destruct (write_merges_spec vocab merges l H) as (tr & -> & _ & F).
  exists (map fst tr). split; [apply read_merges_triples|]. clear -F.
  induction F as [|m p merges tr Q _ IH]; constructor; assumption.
Qed.
Print Assumptions C69_merge_round_trip.

Theorem C69_converter_accepts_iff : forall vocab merges,
  (exists l, write_merges vocab merges = Some l) <->
  Forall (fun m => snd m < 2 ^ 31 /\
    (exists i, lookup list_N_eqb (fst (fst m)) vocab = Some i /\ i < 2 ^ 31) /\
    (exists i, lookup list_N_eqb (snd (fst m)) vocab = Some i /\ i < 2 ^ 31)) merges.
Proof. exact write_merges_total. Qed.
Print Assumptions C69_converter_accepts_iff.

(** The loader takes exactly the one-dimensional int32 tensors of triples. *)
Theorem C69_loader_accepts_iff : forall t ps,
  read_merges t = Ok ps <-> exists l, t = Some (mkt 1 T_I32 (triples l)) /\ ps = map fst l.
Proof.
  intros t ps. split.
  - unfold read_merges. destruct t as [[dims ty d]|]; [|discriminate]. cbn [t_dims t_type t_data].
    destruct (N.eqb_spec dims 1) as [->|]; [|discriminate]. cbn [negb].
    destruct ty; try discriminate.
    destruct (Nat.eqb_spec (length d mod 3) 0) as [M|]; [|discriminate].
    destruct (triples_of d M) as [l ->]. intros H. exists l. split; [reflexivity|].
    rewrite pairs_of_triples in H. congruence.
  - intros (l & -> & ->). apply read_merges_triples.
Qed.
Print Assumptions C69_loader_accepts_iff.

Theorem C69_loader_rejects : forall t, (forall l, t <> Some (mkt 1 T_I32 (triples l))) -> read_merges t = Fail.
Proof.
  intros t H. destruct (read_merges t) as [ps| | |] eqn:E; [| reflexivity| |].
  - apply C69_loader_accepts_iff in E. destruct E as (l & E & _). exfalso. exact (H l E).
  - unfold read_merges in E. destruct t as [[dims ty d]|]; [|discriminate]. cbn [t_dims t_type t_data] in E.
    destruct (negb (dims =? 1)); [discriminate|]. destruct ty; try discriminate. destruct (_ =? 0)%nat; discriminate.
  - unfold read_merges in E. destruct t as [[dims ty d]|]; [|discriminate]. cbn [t_dims t_type t_data] in E.
    destruct (negb (dims =? 1)); [discriminate|]. destruct ty; try discriminate. destruct (_ =? 0)%nat; discriminate.
Qed.
Print Assumptions C69_loader_rejects.

Example C69_example :
  write_merges [(u "a", 4); (u "b", 5)] [((u "a", u "b"), 0); ((u "b", u "b"), 1)] = Some [4; 5; 0; 5; 5; 1] /\
  read_merges (Some (mkt 1 T_I32 [4; 5; 0; 5; 5; 1])) = Ok [(4, 5); (5, 5)] /\
  read_merges (Some (mkt 1 T_I32 [4; 5])) = Fail.
Proof. repeat split; vm_compute; reflexivity. Qed.

(** ** C85 *)

(** The rank column has no influence on the loaded model. *)
Theorem C85_rank_ignored : forall order g vs vd l l', map fst l = map fst l' ->
  roberta_init_vocab order g vs vd (Some (mkt 1 T_I32 (triples l))) =
  roberta_init_vocab order g vs vd (Some (mkt 1 T_I32 (triples l'))).
Proof.
  intros order g vs vd l l' E. unfold roberta_init_vocab, roberta_vocab_init.
  rewrite !read_merges_triples, E. reflexivity.
Qed.
Print Assumptions C85_rank_ignored.

(** Hence the order of the merges does not follow it: rank 0 is stored for (b, a)
    but (a, b) is merged first. *)
Definition r_rank_tokens := [u "<s>"; u "<pad>"; u "</s>"; u "<unk>"; u "<mask>"; u "a"; u "b"; u "ab"; u "ba"].
Theorem C85_rank_order_refuted : exists rv,
  roberta_init_vocab (fun l => l) no_kv (Some (mkt 1 T_I8 [3; 5; 4; 5; 6; 1; 1; 2; 2]))
    (Some (mkt 1 T_I8 (concat r_rank_tokens))) (Some (mkt 1 T_I32 (triples [(5, 6, 1); (6, 5, 0)]))) = Ok rv /\
  r_tokenize one_match is_space pick_max (fun l => l) rv (u "aba") = Some (Ok [7; 5]).
Proof. eexists. split; [vm_compute; reflexivity|]. vm_compute. reflexivity. Qed.
Print Assumptions C85_rank_order_refuted.

(** For files whose ranks increase along the table, as the converter writes them
    from a ranks dictionary in rank order, the two orders agree. *)
Theorem C85_sorted_ranks_partial : forall order g lens data ts rv l,
  (forall l, Permutation l (order l)) -> layout lens data ts ->
  roberta_init_vocab order g (Some (mkt 1 T_I8 lens)) (Some (mkt 1 T_I8 data)) (Some (mkt 1 T_I32 (triples l))) = Ok rv ->
  NoDup (map fst l) ->
  (forall i j r r', (i < j)%nat -> nth_error (map snd l) i = Some r -> nth_error (map snd l) j = Some r' -> r < r') ->
  forall p q r1 r2, In (p, r1) l -> In (q, r2) l ->
    exists k1 z1 k2 z2, bpe_merge (rv_bpe rv) p = Some (k1, z1) /\ bpe_merge (rv_bpe rv) q = Some (k2, z2) /\
      (k1 < k2 <-> r1 < r2).
Proof.
  intros order g lens data ts rv l HO LY H ND SO [x1 y1] [x2 y2] r1 r2 H1 H2.
  unfold roberta_init_vocab in H. destruct (read_vocab _ _) as [v| | |] eqn:R; try discriminate. cbn [obind] in H.
  destruct (read_vocab_ok lens data v (layout_bytes _ _ _ LY) R) as (ts' & LY' & V).
  rewrite (layout_fun _ _ _ LY _ LY') in V. clear ts' LY'.
  unfold roberta_vocab_init in H.
  destruct (roberta_specials g (r_find v)) as [sp| | |] eqn:ES; try discriminate. cbn [obind] in H.
  destruct (r_id_to_token v (r_unk sp)) as [unk| | |] eqn:EU; try discriminate. cbn [obind] in H.
  destruct (dec8 unk) as [unk'|]; [|discriminate].
  unfold bpe_words in H. assert (V' := V). destruct V' as (Ei & NDt & _). rewrite Ei in H.
  destruct (all_some (map dec8 ts)) as [cps|] eqn:EC; [|discriminate]. cbn [option_map] in H.
  rewrite read_merges_triples in H. cbn [obind] in H.
  set (words := combine cps (map N.of_nat (seq 0 (length cps)))) in *.
  destruct (load_vocab (bpe_new unk' DZero true) (order words) (map fst l)) as [[] b] eqn:EL; [|discriminate].
  injection H as <-. cbn [rv_bpe].
  assert (L : length cps = length (map N.of_nat (seq 0 (length cps)))) by (rewrite map_length, seq_length; reflexivity).
  assert (N1 : NoDup (map fst (order words))).
  { eapply Permutation_NoDup; [apply Permutation_map; apply HO|]. unfold words. rewrite combine_fst by exact L.
    eapply cps_nodup; [apply dec8_all; exact EC|exact NDt]. }
  assert (N2 : NoDup (map snd (order words))).
  { eapply Permutation_NoDup; [apply Permutation_map; apply HO|]. unfold words. rewrite combine_snd by exact L.
    apply FinFun.Injective_map_NoDup; [|apply seq_NoDup]. intros a c E. apply Nat2N.inj; exact E. }
  change (bpe_new unk' DZero true) with (Bpe_load_proofs.fresh unk' DZero true [] []) in EL.
  destruct (load_fresh_table unk' [] [] DZero true (order words) (map fst l) N1 N2 b EL) as (DS & _).
  pose proof (proj1 (load_fresh_ok unk' [] [] DZero true (order words) (map fst l) N1 N2)) as LT.
  rewrite EL in LT. specialize (LT eq_refl). rewrite Forall_forall in LT.
  assert (X : forall x y r, In ((x, y), r) l -> exists k z,
     bpe_merge b (x, y) = Some (N.of_nat k, z) /\ nth_error (map fst l) k = Some (x, y) /\ nth_error (map snd l) k = Some r).
  { intros x y r HI. destruct (LT (x, y)) as [z Z]; [apply in_map_iff; exists ((x, y), r); auto|]. cbn [fst snd] in Z.
    apply in_split in HI. destruct HI as (a & c & El). exists (length a), z. subst l.
    rewrite map_app in *. cbn [map fst] in *. split; [|split].
    - apply DS. split; [|exact Z]. exists (length a). split; [reflexivity|].
      exists (map fst a), (map fst c). split; [reflexivity|]. split; [|apply map_length].
      apply NoDup_remove_2 in ND. intros I. apply ND. apply in_app_iff. right; exact I.
    - rewrite nth_error_app2 by (rewrite map_length; lia). rewrite map_length, Nat.sub_diag. reflexivity.
    - rewrite map_app. rewrite nth_error_app2 by (rewrite map_length; lia). rewrite map_length, Nat.sub_diag. reflexivity. }
  destruct (X _ _ _ H1) as (k1 & z1 & T1 & A1 & B1). destruct (X _ _ _ H2) as (k2 & z2 & T2 & A2 & B2).
  exists (N.of_nat k1), z1, (N.of_nat k2), z2. split; [exact T1|]. split; [exact T2|]. split.
  - intros Lk. apply (SO k1 k2); [lia|exact B1|exact B2].
  - intros Lr. destruct (lt_eq_lt_dec k1 k2) as [[?|E]|G].
    + lia.
    + subst k2. rewrite B1 in B2. injection B2 as ->. lia.
    + pose proof (SO k2 k1 r2 r1 G B2 B1). lia.
Qed.
Print Assumptions C85_sorted_ranks_partial.

Example C85_example : forall i j r r', (i < j)%nat ->
  nth_error (map snd [((5, 6), 0); ((6, 5), 1)]) i = Some r -> nth_error (map snd [((5, 6), 0); ((6, 5), 1)]) j = Some r' -> r < r'.
Proof.
  intros [|[|i]] [|[|j]] r r' L Hi Hj; simpl in Hi, Hj; try lia; try congruence.
  - injection Hi as <-. injection Hj as <-. lia.
  - destruct j; discriminate.
  - destruct j; discriminate.
  - destruct i; discriminate.
Qed.
