(** Which bytes of a model file matter: C167; files cut short, byte by byte: C97. *)
From Verif Require Import Base Vocab_model Roberta_model Quantize_model Loader_model Loader_spec Loader_proofs Gguf_model Gguf_spec Gguf_proofs P_Loader P_Gguf.
Local Open Scope nat_scope.

(** The bytes read for description [d] when the tensor of that name is [t]. *)
Definition bytes_for (f : file) (d t : tinfo) : list N :=
  firstn (N.to_nat (nbytes t)) (skipn (N.to_nat (f_data f + ti_offset d)) (f_bytes f)).

(** Two files that agree but for bytes outside their tensors (and where these begin). *)
Definition same_regions (f g : file) : Prop :=
  (forall k, f_set f k = f_set g k) /\ (forall k, f_tok f k = f_tok g k) /\ f_tensors f = f_tensors g /\
  forall d t, In d (f_tensors f) -> In t (f_tensors f) -> ti_name d = ti_name t -> bytes_for f d t = bytes_for g d t.

Lemma regions_read_tensors L junk f g : short_names f -> same_regions f g ->
  forall todo size used failed, incl todo (f_tensors f) ->
    read_tensors L junk f size used failed todo = read_tensors L junk g size used failed todo.
Proof.
  intros HS (_ & _ & Et & Eb). induction todo as [|d todo IH]; intros size used failed Hi; [reflexivity|]. cbn [read_tensors]. rewrite <- Et.
  destruct (get_tensor ti_name (f_tensors f) (ti_name d)) as [t|] eqn:E; [|reflexivity].
  destruct (_ <? _)%N; [reflexivity|]. destruct failed; [reflexivity|].
  assert (It : In t (f_tensors f) /\ ti_name t = ti_name d).
  { unfold get_tensor in E. apply find_some in E as (E1 & E2). apply list_N_eqb_eq in E2. split; [exact E1|]. rewrite <- E2. symmetry.
    apply firstn_all2. unfold short_names in HS. rewrite Forall_forall in HS. specialize (HS t E1). change (MAX_NAME - 1) with 63. lia. }
  assert (R : read_bytes junk f (ti_offset d) (nbytes t) = read_bytes junk g (ti_offset d) (nbytes t)).
  { unfold read_bytes. assert (B := Eb d t (Hi d (or_introl eq_refl)) (proj1 It) (eq_sym (proj2 It))). unfold bytes_for in B. rewrite B. reflexivity. }
  rewrite R. destruct (read_bytes junk g (ti_offset d) (nbytes t)) as [b fl]. rewrite (IH size (used + dup_cost L t)%N fl); [reflexivity|].
  intros x Hx. apply Hi. right. exact Hx.
Qed.

(** * C167 *)
Theorem C167_only_regions_matter : forall L junk V (value : gty -> list N -> nat -> V) order f g reopen,
  same_regions f g ->
  load_from_file L junk value order (Some f) reopen = load_from_file L junk value order (Some g) reopen.
Proof.
  intros L junk V value order f g reopen HR. assert (HR' := HR). destruct HR' as (Hs & Ht & Et & _).
  unfold load_from_file. rewrite (same_metadata f g) by exact Hs. apply obind_ext. intros _.
  destruct (short_dec f) as [HS|HS].
  2:{ rewrite <- Et, ctx_size_long; [reflexivity|]. unfold short_names in HS. rewrite <- Exists_Forall_neg in HS by (intros t; lia).
      apply Exists_exists in HS as (t & Hin & Hl). exists t. split; [exact Hin|lia]. }
  rewrite Et. apply obind_ext. intros size. destruct (negb reopen); [reflexivity|].
  rewrite <- Et. rewrite (regions_read_tensors L junk f g HS HR (f_tensors f) size 0%N false (fun x H => H)).
  rewrite Et. destruct (read_tensors L junk g size 0 false (f_tensors g)); try reflexivity.
  rewrite (same_settings f g) by exact Hs. apply obind_ext. intros s. unfold need_u32. rewrite Hs. apply obind_ext. intros t.
  apply obind_ext. intros _. destruct (negb _); [reflexivity|]. destruct (negb _); [reflexivity|].
  unfold new_context. rewrite (same_vocab order (se_arch s) f g) by exact Ht. reflexivity.
Qed.
Print Assumptions C167_only_regions_matter.

(** The tensors lie inside the first [n] bytes. *)
Definition inside (f : file) (n : nat) (d t : tinfo) : Prop :=
  nbytes t = 0%N \/ (f_data f + ti_offset d + nbytes t <= N.of_nat n)%N.

Lemma firstn_skipn_app {A} (l r : list A) a b : a + b <= length l -> firstn b (skipn a (l ++ r)) = firstn b (skipn a l).
Proof.
  intros H. rewrite skipn_app, firstn_app, skipn_length. replace (a - length l) with 0 by lia. replace (b - (length l - a)) with 0 by lia.
  cbn [firstn skipn]. apply app_nil_r.
Qed.

Lemma read_bytes_kept bs kvs f : read_gguf bs = Ok (kvs, f) -> f_bytes f = bs.
Proof. intros H. destruct (read_inv _ _ _ H) as (infos & a & ts & head & rest & _ & _ & _ & _ & ->). reflexivity. Qed.

(** Whatever follows the tensors is not looked at. *)
Theorem C167_trailing_bytes : forall L junk V (value : gty -> list N -> nat -> V) order bs kvs f extra reopen,
  read_gguf bs = Ok (kvs, f) ->
  (forall d t, In d (f_tensors f) -> In t (f_tensors f) -> ti_name d = ti_name t -> inside f (length bs) d t) ->
  load_bytes L junk value order (Some (bs ++ extra)) reopen = load_bytes L junk value order (Some bs) reopen.
Proof.
  intros L junk V value order bs kvs f extra reopen H Hin.
  assert (Eb := read_bytes_kept _ _ _ H).
  destruct (read_prefix _ _ _ H) as (head & rest & a & E & _ & _ & _ & Hr).
  destruct (Hr (rest ++ extra)) as (f' & R & Et & Ed & Eb' & Es & Ek). rewrite app_assoc, <- E in R.
  unfold load_bytes. rewrite R, H. cbn [snd]. apply C167_only_regions_matter.
  split; [exact Es|]. split; [exact Ek|]. split; [exact Et|]. intros d t Hd Ht En. rewrite Et in Hd, Ht. unfold bytes_for.
  rewrite Ed, Eb', Eb, app_assoc, <- E. destruct (Hin d t Hd Ht En) as [Z|Z]; [rewrite Z; reflexivity|].
  apply firstn_skipn_app. lia.
Qed.
Print Assumptions C167_trailing_bytes.

(** * C97, for every place where a file is cut *)

Lemma distinct_copies f : distinct_names f -> copies f (f_tensors f).
Proof.
  unfold copies, distinct_names. intros Hd.
  assert (G : forall pre ts, NoDup (map ti_name (pre ++ ts)) -> Forall2 (fun d t => first_named (ti_name d) (pre ++ ts) t) ts ts).
  { intros pre ts. revert pre. induction ts as [|t ts IH]; intros pre HN; constructor.
    - clear IH. induction pre as [|x pre IH]; [constructor; reflexivity|]. cbn [app] in *.
      cbn [map] in HN. inversion HN as [|? ? Hx HN']; subst. apply first_later; [|apply IH, HN'].
      intros Eq. apply Hx. rewrite Eq. apply in_map. apply in_app_iff. right. left. reflexivity.
    - replace (pre ++ t :: ts) with ((pre ++ [t]) ++ ts) by (rewrite <- app_assoc; reflexivity). apply IH.
      rewrite <- app_assoc. exact HN. }
  apply (G []). exact Hd.
Qed.

Lemma copies_unique f made made' : copies f made -> copies f made' -> made' = made.
Proof.
  unfold copies. intros Hm Hm'. revert Hm Hm'. generalize (f_tensors f) at 2 4. intros ts. revert made made'.
  induction ts as [|t ts IH]; intros made made' H H'; inversion H; inversion H'; subst; [reflexivity|].
  f_equal; [eapply first_unique; eassumption|apply IH; assumption].
Qed.

Lemma readable_distinct f : distinct_names f ->
  (readable f <-> Forall (fun t => inside f (length (f_bytes f)) t t) (removelast (f_tensors f))).
Proof.
  intros Hd. assert (C := distinct_copies f Hd).
  assert (K : Forall (fun p => (f_data f + ti_offset (fst p) + nbytes (snd p) <= N.of_nat (length (f_bytes f)))%N \/ nbytes (snd p) = 0%N)
                (removelast (combine (f_tensors f) (f_tensors f))) <->
              Forall (fun t => inside f (length (f_bytes f)) t t) (removelast (f_tensors f))).
  { unfold inside. clear. induction (f_tensors f) as [|t ts IH]; [split; constructor|]. destruct ts as [|t' ts]; [split; constructor|].
    change (removelast (combine (t :: t' :: ts) (t :: t' :: ts))) with ((t, t) :: removelast (combine (t' :: ts) (t' :: ts))).
    change (removelast (t :: t' :: ts)) with (t :: removelast (t' :: ts)).
    rewrite !Forall_cons_iff, IH. cbn [fst snd]. tauto. }
  unfold readable. split.
  - intros H. apply K, H, C.
  - intros H made Hm. rewrite (copies_unique f _ _ C Hm). apply K, H.
Qed.

(** The vocabulary is read from these tensors. *)
Definition vocabulary_names : list (list N) := [u "berts.vocab.size"; u "berts.vocab.data"; u "berts.merge.data"].

Lemma vocabulary_same junk order f g arch : (forall k, f_tok f k = f_tok g k) -> f_tensors f = f_tensors g ->
  (forall t, In t (f_tensors f) -> In (ti_name t) vocabulary_names -> bytes_for f t t = bytes_for g t t) ->
  vocabulary junk order f arch = vocabulary junk order g arch.
Proof.
  intros Ek Et H.
  assert (A : forall n, In n vocabulary_names -> vocab_at junk f n = vocab_at junk g n).
  { intros n Hn. unfold vocab_at, named. rewrite <- Et. destruct (find (fun t => list_N_eqb (ti_name t) n) (f_tensors f)) as [t|] eqn:E; [|reflexivity].
    apply find_some in E as (E1 & E2). apply list_N_eqb_eq in E2. rewrite <- E2 in Hn.
    assert (M : memory_of junk f t = memory_of junk g t) by (unfold memory_of; change (region f t) with (bytes_for f t t); rewrite (H t E1 Hn); reflexivity).
    rewrite M. reflexivity. }
  unfold vocabulary. rewrite !(A (u "berts.vocab.size")), !(A (u "berts.vocab.data")), !(A (u "berts.merge.data")) by (cbn; tauto).
  destruct (arch =? 0)%N; [rewrite (same_bert (f_tok f) (f_tok g)) by exact Ek; reflexivity|].
  assert (R : forall a b c, roberta_init_vocab order (f_tok f) a b c = roberta_init_vocab order (f_tok g) a b c).
  { intros a b c. unfold roberta_init_vocab. apply obind_ext. intros v. unfold roberta_vocab_init.
    rewrite (same_specials (f_tok f) (f_tok g)) by exact Ek. reflexivity. }
  rewrite R. reflexivity.
Qed.

(** Everything that can happen when the file of a model is cut after [n] bytes: before the end
    of the descriptions or inside a tensor that is not the last, it is refused; behind all
    tensors nothing changes; inside the last tensor it is loaded all the same (if that tensor
    is not part of the vocabulary). *)
Theorem C97_cut_outcome : forall L junk V (value : gty -> list N -> nat -> V) order bs kvs f m,
  lib_ok L -> read_gguf bs = Ok (kvs, f) -> load_bytes L junk value order (Some bs) true = Ok (Loaded m) -> distinct_names f ->
  exists head rest, bs = head ++ rest /\ (N.of_nat (length head) <= f_data f)%N /\
  forall n, n <= length bs ->
    let cut := load_bytes L junk value order (Some (firstn n bs)) true in
    (n < length head -> cut = Ok (Null false)) /\
    (length head <= n ->
      (~ Forall (fun t => inside f n t t) (removelast (f_tensors f)) -> cut = Ok (Null false)) /\
      (Forall (fun t => inside f n t t) (f_tensors f) -> cut = Ok (Loaded m)) /\
      (Forall (fun t => inside f n t t) (removelast (f_tensors f)) ->
       ~ In (ti_name (last (f_tensors f) (mkti [] TF32 0 0 0 0 0 0))) vocabulary_names -> exists m', cut = Ok (Loaded m'))).
Proof.
  intros L junk V value order bs kvs f m HL H HLd Hd.
  assert (Eb := read_bytes_kept _ _ _ H).
  destruct (read_prefix _ _ _ H) as (head & rest & a & E & Hda & Ha & Hc & Hr). exists head, rest. split; [exact E|].
  split; [rewrite Hda; apply pad_to_spec, Ha|].
  intros n Hn cut. split.
  { intros Hs. unfold cut, load_bytes. rewrite (Hc n Hs). reflexivity. }
  intros Hs. assert (LF := HLd). unfold load_bytes in LF. rewrite H in LF. cbn [snd] in LF.
  assert (Fn : firstn n bs = head ++ firstn (n - length head) rest) by (rewrite E, firstn_app, firstn_all2 by lia; reflexivity).
  destruct (Hr (firstn (n - length head) rest)) as (f' & R & Et & Ed & Eb' & Es & Ek). rewrite <- Fn in R, Eb'.
  assert (Hd' : distinct_names f') by (unfold distinct_names; rewrite Et; exact Hd).
  assert (Ln : length (f_bytes f') = n) by (rewrite Eb', firstn_length; lia).
  assert (In' : forall d t, inside f' n d t <-> inside f n d t) by (intros; unfold inside; rewrite Ed; reflexivity).
  destruct (loaded_inv L HL junk value order f true m LF) as (_ & made & arch & layers & Hm & Ld & _).
  assert (Hg : general_ok f').
  { destruct Ld as [(G1 & G2 & G3 & t & G4 & G5)]. unfold general_ok, optional in *. rewrite !Es.
    split; [eapply Forall_impl; [|exact G1]; intros k; cbv beta; rewrite Es; auto|]. split; [exact G2|]. split; [exact G3|]. exists t. split; assumption. }
  assert (Hsn : short_names f') by (destruct Ld; unfold short_names; rewrite Et; assumption).
  assert (RD : readable f' <-> Forall (fun t => inside f n t t) (removelast (f_tensors f))).
  { rewrite (readable_distinct f' Hd'), Ln, Et. split; intros X; (eapply Forall_impl; [|exact X]); intros t; cbv beta; apply In'. }
  assert (EC : cut = load_from_file L junk value order (Some f') true) by (unfold cut, load_bytes; rewrite R; reflexivity).
  assert (SB : forall d t, inside f n d t -> bytes_for f' d t = bytes_for f d t).
  { intros d t [Z|Z]; unfold bytes_for; [rewrite Z; reflexivity|]. rewrite Ed, Eb', Eb.
    rewrite <- (firstn_skipn n bs) at 2. rewrite firstn_skipn_app; [reflexivity|]. rewrite firstn_length. lia. }
  split; [|split].
  - intros X. rewrite EC. apply (load_unreadable L HL); [exact Hg|exact Hsn|]. rewrite RD. exact X.
  - intros X. rewrite EC, <- LF. apply C167_only_regions_matter. split; [exact Es|]. split; [exact Ek|]. split; [exact Et|].
    intros d t Id It En. rewrite Et in Id, It. assert (d = t) as ->.
    { clear - Hd Id It En. unfold distinct_names in Hd. induction (f_tensors f) as [|x ts IH]; [destruct Id|]. cbn [map] in Hd. inversion Hd as [|? ? Hx Hd']; subst.
      destruct Id as [->|Id], It as [->|It]; [reflexivity| | |auto]; exfalso; apply Hx.
      - rewrite En. apply in_map, It.
      - rewrite <- En. apply in_map, Id. }
    apply SB. rewrite Forall_forall in X. apply X, It.
  - intros X Nv. rewrite EC. apply (loadable_loads L HL junk value order f' arch layers).
    destruct Ld as [G St Sn Rd Act Ar Sup Ly (v & Vo) We]. constructor; try (rewrite ?Es; assumption); try assumption.
    + destruct St as (S1 & S2 & S3). unfold settings_ok, optional in *. split; [|split].
      * intros k Hk. destruct (S1 k Hk) as (x & Sx). exists x. rewrite Es. exact Sx.
      * rewrite Es. exact S2.
      * eapply Forall_impl; [|exact S3]. intros k. cbv beta. rewrite Es. auto.
    + apply RD, X.
    + exists v. rewrite <- Vo. apply vocabulary_same; [exact Ek|exact Et|]. intros t It Iv. rewrite Et in It. apply SB.
      destruct (f_tensors f) as [|t0 ts0] eqn:Ef; [destruct It|]. rewrite <- Ef in *.
      assert (NE : f_tensors f <> []) by (rewrite Ef; discriminate). rewrite (app_removelast_last (mkti [] TF32 0 0 0 0 0 0) NE) in It.
      apply in_app_iff in It as [It|[<-|[]]]; [|contradiction]. rewrite Forall_forall in X. apply X, It.
    + unfold has in *. rewrite Et. exact We.
Qed.
Print Assumptions C97_cut_outcome.

(** A model file: three bytes more, one byte less, sixty-four bytes less. *)
Lemma g_inside : Forall (fun t => inside g_file (length g_bytes) t t) (f_tensors g_file).
Proof.
  assert (F : forallb (fun t => (f_data g_file + ti_offset t + nbytes t <=? N.of_nat (length g_bytes))%N) (f_tensors g_file) = true) by (vm_compute; reflexivity).
  rewrite forallb_forall in F. apply Forall_forall. intros t Ht. right. apply N.leb_le, F, Ht.
Qed.
Example C167_example :
  read_gguf g_bytes = Ok (g_kvs, g_file) /\
  (forall d t, In d (f_tensors g_file) -> In t (f_tensors g_file) -> ti_name d = ti_name t -> inside g_file (length g_bytes) d t) /\
  is_loaded (g_load (g_bytes ++ [1; 2; 3]%N)) = true.
Proof.
  split; [exact g_read|]. split; [|vm_compute; reflexivity].
  intros d t Id It En. assert (d = t) as ->.
  { assert (Hd := g_distinct). unfold distinct_names in Hd. clear - Hd Id It En. revert Id It Hd. generalize (f_tensors g_file). intros l.
    induction l as [|x ts IH]; intros Id It Hd; [destruct Id|]. cbn [map] in Hd. inversion Hd as [|? ? Hx Hd']; subst.
    destruct Id as [->|Id], It as [->|It]; [reflexivity| | |auto]; exfalso; apply Hx.
    - rewrite En. apply in_map, It.
    - rewrite <- En. apply in_map, Id. }
  assert (F := g_inside). rewrite Forall_forall in F. apply F, It.
Qed.

Example C97_cut_example :
  is_loaded (g_load g_bytes) = true /\ distinct_names g_file /\
  ~ In (ti_name (last (f_tensors g_file) (mkti [] TF32 0 0 0 0 0 0))) vocabulary_names /\
  is_loaded (g_load (firstn (length g_bytes - 1) g_bytes)) = true /\
  g_load (firstn (length g_bytes - 64) g_bytes) = Ok (Null false) /\ g_load (firstn 1000 g_bytes) = Ok (Null false).
Proof.
  split; [vm_compute; reflexivity|]. split; [exact g_distinct|]. split.
  { vm_compute. intros [H|[H|[H|[]]]]; discriminate H. }
  split; [vm_compute; reflexivity|]. split; vm_compute; reflexivity.
Qed.
