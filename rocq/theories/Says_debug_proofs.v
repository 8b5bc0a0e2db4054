(** Lemmas about the log of loading a file with the messages of level DEBUG. *)
From Verif Require Import Base Utf_model Bert_model Vocab_model Bpe_model Roberta_model Log_model Loader_model.
From Verif Require Import Says_model Says_eval_model Says_load_model Quantize_model Says_quantize_model Says_debug_model.
From Verif Require Import Log_spec Vocab_spec Says_spec P_Log Says_proofs Says_eval_proofs Vocab_proofs P_Says_vocab Says_load_proofs P_Tool_text.
From Verif Require Ggml_model Encoder_model.
Local Open Scope N_scope.

(** ** The messages of the other levels *)

(** A message about a context taken over or disposed of *)
Definition is_context (c : log_call) : bool :=
  match c with
  | Formatted Debug t =>
      existsb (fun p => list_N_eqb (firstn (length p) t) p)
        [u "berts_init @ "; u "berts_free @ "; u "ggml_init @ "; u "ggml_free @ "; u "gguf_init @ "; u "gguf_free @ "]
  | _ => false
  end.

(** A message of another level than DEBUG, or of a harmless text and not about a context *)
Definition tame (c : log_call) : Prop := no_debug c = true \/ harmless (snd (message_of c)) /\ is_context c = false.

Lemma no_context c : no_debug c = true -> is_context c = false.
Proof. destruct c as [y|y|s m|s m]; try reflexivity. destruct s; [discriminate|reflexivity..]. Qed.
Lemma tame_context tr : Forall tame tr -> filter is_context tr = [].
Proof.
  induction 1 as [|c tr Hc _ IH]; [reflexivity|]. cbn [filter]. replace (is_context c) with false; [exact IH|].
  symmetry. destruct Hc as [Hc|(_ & Hc)]; [apply no_context; exact Hc|exact Hc].
Qed.

Section Load.
Context (order : list (ustring * N) -> list (ustring * N)).

Lemma tame_alternates v : forall alts name, Forall tame (alternates_says v name alts).
Proof.
  induction alts as [|a r IH]; intros name; cbn [alternates_says]; [repeat constructor|].
  apply Forall_cons; [exact (or_introl eq_refl)|]. apply Forall_app; split.
  - unfold token_to_id_says. destruct (_ =? _); repeat constructor.
  - destruct (_ =? _); [apply IH|constructor].
Qed.

Lemma tame_id_line v label id : Forall tame (id_line_says v label id).
Proof.
  unfold id_line_says, id_to_token_says. destruct id; try constructor. destruct (_ <=? _); repeat constructor.
Qed.

Lemma tame_init g v : Forall tame (init_says g v).
Proof.
  unfold init_says. apply Forall_app; split; [|apply Forall_app; split].
  - apply Forall_flat_map. intros w. unfold get_token_id_says. destruct (gguf_u32 _ _ _); try constructor.
    destruct (_ =? _); [apply tame_alternates|constructor].
  - apply Forall_flat_map. intros w. apply tame_id_line.
  - destruct (existsb _ _); [constructor|]. apply Forall_app; split.
    + destruct (gguf_bool g K_lower true); try (apply Forall_nil). destruct (gguf_bool g K_basic true); try (apply Forall_nil).
      destruct (gguf_bool g K_cjk true); try (apply Forall_nil). destruct (gguf_bool g K_accent _); try (apply Forall_nil).
      unfold info_says. repeat constructor.
    + destruct (_ =? _)%nat; repeat constructor.
Qed.

Lemma tame_read_tokens : forall lens data p v, Forall tame (read_tokens_says lens data p v).
Proof.
  induction lens as [|b lens IH]; intros data p v; [constructor|]. cbn [read_tokens_says].
  destruct (add_token _ _); [apply IH|repeat constructor].
Qed.

Lemma tame_get_id g v k name alts : Forall tame (get_token_id_says g v k name alts).
Proof.
  unfold get_token_id_says. destruct (gguf_u32 g k INVALID) as [i| | |]; try constructor.
  destruct (i =? INVALID); [apply tame_alternates|constructor].
Qed.

Lemma count_tame n rest : Forall tame rest -> Forall tame (Formatted Debug (u "  vocab count: " ++ decimal n) :: rest).
Proof.
  intros H. apply Forall_cons; [right; split; [|reflexivity]|exact H]. cbn [message_of snd]. apply harmless_app; [split; vm_compute; intuition discriminate|apply decimal_harmless].
Qed.

Lemma tame_vocab g lens data b tr : vocab_logged g lens data = Ok (b, tr) -> Forall tame tr.
Proof.
  unfold vocab_logged. destruct (read_tokens lens data 0 voc0) as [[p v]| | |]; try discriminate.
  - destruct (negb _).
    + intros E. injection E as _ <-. repeat first [apply count_tame|apply tame_read_tokens|apply Forall_app; split|apply Forall_cons; [exact (or_introl eq_refl)|]|apply Forall_nil].
    + destruct (bert_vocab_init g v) as [b'| | |]; try discriminate; intros E; injection E as _ <-;
        repeat first [apply count_tame|apply tame_read_tokens|apply tame_init|apply Forall_app; split|apply Forall_cons; [exact (or_introl eq_refl)|]|apply Forall_nil].
  - intros E. injection E as _ <-. repeat first [apply count_tame|apply tame_read_tokens|apply Forall_app; split|apply Forall_cons; [exact (or_introl eq_refl)|]|apply Forall_nil].
Qed.

Lemma tame_load_merges : forall ms rank b, Forall tame (load_merges_says rank ms b).
Proof.
  induction ms as [|[x y] ms IH]; intros rank b; [constructor|]. cbn [load_merges_says].
  destruct (bpe_id_to_token b x); [|repeat constructor]. destruct (bpe_id_to_token b y); [|repeat constructor].
  destruct (bpe_token_to_id b _); [apply IH|repeat constructor].
Qed.

Lemma tame_merges m : Forall tame (merges_says m).
Proof.
  unfold merges_says. destruct m as [s|]; [|repeat constructor]. destruct (negb _); [repeat constructor|].
  destruct (ti_type (st_info s)); try (destruct (_ =? _)%nat); repeat constructor.
Qed.

Lemma tame_id_to_token tokens i : Forall tame (id_to_token_says tokens i).
Proof. unfold id_to_token_says. destruct (_ <=? _); repeat constructor. Qed.

Lemma tame_listed label which : forall infos n, Forall tame (listed label which n infos).
Proof.
  induction infos as [|t infos IH]; intros n; [constructor|]. cbn [listed]. apply Forall_app. split; [|apply IH].
  destruct (which _); repeat constructor.
Qed.


(** ** What the messages of level DEBUG add *)

(** [full] is [part] with messages of level DEBUG in between, whose texts are harmless. *)
Definition adds (full part : list log_call) : Prop := filter no_debug full = filter no_debug part /\ Forall tame full.

Lemma adds_app a b c d : adds a b -> adds c d -> adds (a ++ c) (b ++ d).
Proof.
  intros (E & F) (E' & F'). split; [rewrite !filter_app, E, E'; reflexivity|apply Forall_app; split; assumption].
Qed.
Lemma adds_same a : Forall tame a -> adds a a.
Proof. intros H. split; [reflexivity|exact H]. Qed.
Lemma adds_debug a : Forall (fun c => no_debug c = false /\ harmless (snd (message_of c)) /\ is_context c = false) a -> adds a [].
Proof.
  intros H. split.
  - induction H as [|c l (Hc & _) _ IH]; [reflexivity|]. cbn [filter]. rewrite Hc. exact IH.
  - eapply Forall_impl; [|exact H]. intros c (_ & Hc). right. exact Hc.
Qed.

Lemma r_bpe_adds g m v : adds (r_bpe_full order g m v) (r_bpe_says order g m v).
Proof.
  unfold r_bpe_full, r_bpe_says. destruct (roberta_specials g (r_find v)) as [sp| | |]; try (apply adds_same; constructor).
  apply adds_app; [apply adds_same, tame_id_to_token|].
  destruct (r_id_to_token v (r_unk sp)) as [unk| | |]; try (apply adds_same; constructor).
  pose proof (tame_merges m) as SM. destruct (dec8 unk); [|apply adds_same; exact SM]. destruct (bpe_words v); [|apply adds_same; exact SM].
  destruct (merges_says m) as [|c cs]; [|apply adds_same; exact SM]. destruct (read_merges _) as [ms| | |]; try (apply adds_same; constructor).
  cbv zeta. set (b := load_words _ _).
  change (load_merges_says (N.of_nat (length (b_merge b))) ms b ++
          (if fst (load_merges (N.of_nat (length (b_merge b))) ms b) then [] else [Plain Error (u "failed to load bpe vocab")]))
    with ([] ++ load_merges_says (N.of_nat (length (b_merge b))) ms b ++
          (if fst (load_merges (N.of_nat (length (b_merge b))) ms b) then [] else [Plain Error (u "failed to load bpe vocab")])).
  apply adds_app; [|apply adds_app].
  - apply adds_debug. repeat apply Forall_cons; try apply Forall_nil; (split; [reflexivity|split; [|reflexivity]]); cbn [message_of snd].
    + apply harmless_app; [split; vm_compute; intuition discriminate|apply number_harmless].
    + split; vm_compute; intuition discriminate.
    + split; vm_compute; intuition discriminate.
  - apply adds_same, tame_load_merges.
  - destruct (fst _); [|apply adds_same; repeat constructor].
    apply adds_debug. apply Forall_cons; [|apply Forall_nil]. split; [reflexivity|]. split; [split; vm_compute; intuition discriminate|reflexivity].
Qed.

Lemma r_init_adds g m v : adds (r_init_full order g m v) (r_init_says order g m v).
Proof.
  unfold r_init_full, r_init_says. apply adds_app; [|apply adds_app; [|apply adds_app]].
  - apply adds_same, Forall_flat_map. intros w. apply tame_get_id.
  - apply adds_same, Forall_flat_map. intros w. apply tame_id_to_token.
  - apply adds_same, Forall_forall. intros c H. apply in_map_iff in H as (x & <- & _). exact (or_introl eq_refl).
  - apply r_bpe_adds.
Qed.

(** The same for what a run ends with. *)
Definition adds_to {A} (full part : outcome (A * list log_call)) : Prop :=
  match full with
  | Ok (a, tr) => exists tr', part = Ok (a, tr') /\ adds tr tr'
  | Fail => part = Fail
  | UB => part = UB
  | Abort => part = Abort
  end.

Lemma r_vocab_adds g lens data m : adds_to (r_vocab_full order g lens data m) (r_vocab_logged order g lens data m).
Proof.
  assert (H : adds ([Plain Info (u "loading vocab"); Formatted Debug (u "  vocab count: " ++ decimal (N.of_nat (length lens)))] ++ read_tokens_says lens data 0 voc0)
                   ([Plain Info (u "loading vocab")] ++ read_tokens_says lens data 0 voc0)).
  { apply adds_app; [|apply adds_same, tame_read_tokens]. split; [reflexivity|]. apply Forall_cons; [exact (or_introl eq_refl)|]. apply count_tame. constructor. }
  unfold r_vocab_full, r_vocab_logged. destruct (read_tokens lens data 0 voc0) as [[p v]| | |]; try reflexivity.
  - destruct (negb _).
    + eexists. split; [reflexivity|]. apply adds_app; [exact H|apply adds_same; repeat constructor].
    + destruct (roberta_vocab_init order g _ v) as [b'| | |]; try reflexivity; (eexists; split; [reflexivity|]);
        (apply adds_app; [exact H|]); (apply adds_app; [apply r_init_adds|apply adds_same; repeat constructor]).
  - eexists. split; [reflexivity|]. exact H.
Qed.

Lemma init_vocab_adds arch f ts : adds_to (init_vocab_full order arch f ts) (init_vocab_logged order arch f ts).
Proof.
  unfold init_vocab_full, init_vocab_logged.
  destruct (tensors_cases (get_tensor st_name ts key_vocab_size) (get_tensor st_name ts key_vocab_data))
    as [(E & lens & data & F)|(m & E & R)]; rewrite E.
  - destruct F as [sz dt]. destruct (arch =? 0).
    + destruct (vocab_logged _ _ _) as [[b t]| | |] eqn:Q; try reflexivity. cbn [obind fst snd].
      eexists. split; [reflexivity|]. apply adds_same. eapply tame_vocab; eauto.
    + pose proof (r_vocab_adds (f_tok f) (st_bytes sz) (st_bytes dt) (get_tensor st_name ts key_merge_data)) as A.
      destruct (r_vocab_full _ _ _ _ _) as [[b t]| | |]; cbn [adds_to] in A; [destruct A as (tr' & -> & A)|rewrite A; reflexivity..].
      cbn [obind fst snd]. eexists. split; [reflexivity|exact A].
  - assert (X : adds_to (Ok (@None lvocab, [Plain Info (u "loading vocab"); Formatted Error m])) (Ok (None, [Plain Info (u "loading vocab"); Formatted Error m]))).
    { eexists. split; [reflexivity|]. apply adds_same. repeat constructor. }
    destruct (get_tensor st_name ts key_vocab_size), (get_tensor st_name ts key_vocab_data); exact X.
Qed.

Lemma key_harmless s : harmless s -> harmless (Loader_model.key s).
Proof. intros H. unfold Loader_model.key. apply harmless_app; [split; vm_compute; intuition discriminate|exact H]. Qed.
Lemma keys_harmless n : Forall harmless (Says_load_model.keys n).
Proof.
  assert (K : forall l, forallb (fun s => forallb (fun c => negb (c =? 37) && negb (c =? 0)) s) l = true -> Forall harmless l).
  { intros l H. apply Forall_forall. intros s Hs. rewrite forallb_forall in H. specialize (H s Hs). rewrite forallb_forall in H.
    split; intros X; specialize (H _ X); discriminate H. }
  unfold Says_load_model.keys. apply Forall_app; split; [|apply Forall_app; split].
  - apply K. vm_compute. reflexivity.
  - apply Forall_flat_map. intros i. unfold layer_keys. apply Forall_forall. intros s Hs. apply in_map_iff in Hs as (t & <- & Ht).
    unfold key_n. apply harmless_app; [split; vm_compute; intuition discriminate|]. apply harmless_app; [apply decimal_harmless|].
    apply harmless_app; [split; vm_compute; intuition discriminate|]. revert t Ht. apply Forall_forall, K. vm_compute. reflexivity.
  - apply K. vm_compute. reflexivity.
Qed.
Lemma head_harmless : Forall harmless head_keys.
Proof.
  apply Forall_forall. intros s Hs. unfold head_keys in Hs. apply in_map_iff in Hs as (t & <- & Ht). apply key_harmless.
  assert (forallb (fun s => forallb (fun c => negb (c =? 37) && negb (c =? 0)) s)
    [u "predictions.transform.dense.weight"; u "predictions.transform.dense.bias"; u "predictions.transform.LayerNorm.weight";
     u "predictions.transform.LayerNorm.bias"; u "predictions.decoder.weight"; u "predictions.decoder.bias"] = true) as H by (vm_compute; reflexivity).
  rewrite forallb_forall in H. specialize (H t Ht). rewrite forallb_forall in H. split; intros X; specialize (H _ X); discriminate H.
Qed.

Lemma store_adds ts k : harmless k -> adds (store_says ts k) (tensor_says ts k).
Proof.
  intros H. unfold store_says. rewrite <- (app_nil_r (tensor_says ts k)) at 2. apply adds_app.
  - apply adds_same. unfold tensor_says. destruct (present ts k); repeat constructor.
  - apply adds_debug. apply Forall_cons; [|apply Forall_nil]. split; [reflexivity|]. split; [|reflexivity].
    cbn [message_of snd]; apply harmless_app; try exact H; split; vm_compute; intuition discriminate.
Qed.

Lemma required_adds ts : forall ks, Forall harmless ks ->
  adds (fst (required_full ts ks)) (fst (required_says ts ks)) /\ snd (required_full ts ks) = snd (required_says ts ks).
Proof.
  induction ks as [|k ks IH]; intros H; [split; [apply adds_same; constructor|reflexivity]|]. inversion H as [|? ? Hk Hks]; subst.
  cbn [required_full required_says]. destruct (IH Hks) as (A & B). destruct (present ts k) eqn:E.
  - destruct (required_full ts ks) as [says ok]. cbn [fst snd] in A, B |- *. split; [|exact B].
    change (fst (required_says ts ks)) with ([] ++ fst (required_says ts ks)). apply adds_app; [|exact A].
    pose proof (store_adds ts k Hk) as S. unfold tensor_says in S at 1. rewrite E in S. exact S.
  - cbn [fst snd]. split; [apply store_adds; exact Hk|reflexivity].
Qed.

Lemma flat_adds ts : forall ks, Forall harmless ks -> adds (flat_map (store_says ts) ks) (flat_map (tensor_says ts) ks).
Proof.
  induction 1 as [|k ks Hk _ IH]; [apply adds_same; constructor|]. cbn [flat_map]. apply adds_app; [apply store_adds; exact Hk|exact IH].
Qed.

Lemma weights_adds f ts layers : adds (weights_full f ts layers) (weights_says f ts layers).
Proof.
  unfold weights_full, weights_says. destruct (required_adds ts (Says_load_model.keys layers) (keys_harmless layers)) as (A & B).
  destruct (required_full ts (Says_load_model.keys layers)) as [c ok]. destruct (required_says ts (Says_load_model.keys layers)) as [c' ok'].
  cbn [fst snd] in A, B. subst ok'. destruct ok; [|exact A]. cbv zeta.
  apply adds_app; [exact A|]. apply adds_app; [apply flat_adds, head_harmless|].
  apply adds_same, Forall_app; split; apply tame_listed.
Qed.

Context {V : Type} (value : gty -> list N -> nat -> V).

Lemma new_context_adds f s ts : adds_to (new_context_full value order f s ts) (new_context_logged value order f s ts).
Proof.
  unfold new_context_full, new_context_logged. pose proof (init_vocab_adds (se_arch s) f ts) as A.
  destruct (init_vocab_full order (se_arch s) f ts) as [[v t]| | |]; cbn [adds_to] in A; [destruct A as (tr' & -> & A)|rewrite A; reflexivity..].
  cbn [obind fst snd]. destruct v as [v|].
  - destruct (weights_init value ts _); (eexists; split; [reflexivity|]);
      (apply adds_app; [|apply adds_same; repeat constructor]); (apply adds_app; [exact A|]);
      (apply adds_app; [apply adds_same; repeat constructor|apply weights_adds]).
  - eexists. split; [reflexivity|]. apply adds_app; [exact A|apply adds_same; repeat constructor].
Qed.
End Load.
