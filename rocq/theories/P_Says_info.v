(** What the log at INFO shows about a file that is loaded. *)
From Verif Require Import Base Utf_model Bert_model Vocab_model Bpe_model Roberta_model Log_model Loader_model.
From Verif Require Import Says_model Says_eval_model Says_load_model.
From Verif Require Import Log_spec Vocab_spec Loader_spec Says_spec P_Log Says_proofs Says_eval_proofs Vocab_proofs.
From Verif Require Import Roberta_spec Roberta_proofs.
From Verif Require Import P_Says_vocab Says_load_spec Says_load_proofs Says_load_lines Loader_proofs P_Says_load.
From Verif Require P_Loader P_Eval Ggml_model Encoder_model Says_quantize_proofs.
Local Open Scope N_scope.

(** ** Specification *)

(** A title, and below it one line for each field. *)
Definition block (title : list N) (fields : list (list N * list N)) : list N :=
  title ++ concat (map (fun p => [10] ++ u "  " ++ fst p ++ u ": " ++ snd p) fields).

(** How a setting is shown: a text, empty if it is not there; a number of 32 bits read as
    signed, -1 if it is not there. *)
Definition text_shown (text : skey -> list N) (f : file) (k : skey) (v : list N) : Prop :=
  (f_set f k = Some SStr /\ v = text k) \/ (f_set f k = None /\ v = []).
Definition int_shown (f : file) (k : skey) (v : list N) : Prop :=
  (exists n z, f_set f k = Some (SU32 n) /\ as_int n z /\ v = signed z) \/ (f_set f k = None /\ v = u "-1").

(** The names of the file types 0 to 18. *)
Definition type_names : list (list N) :=
  u "ALL_F32" :: map (fun s => u "MOSTLY_" ++ s)
    [u "F16"; u "Q4_0"; u "Q4_1"; u "Q4_1_SOME_F16"; u "Q4_2"; u "Q4_3"; u "Q8_0"; u "Q5_0"; u "Q5_1"; u "Q2_K";
     u "Q3_K_S"; u "Q3_K_M"; u "Q3_K_L"; u "Q4_K_S"; u "Q4_K_M"; u "Q5_K_S"; u "Q5_K_M"; u "Q6_K"].

Inductive metadata_shown (text : skey -> list N) (f : file) : list N -> Prop :=
| the_metadata arch qv align name author url desc license n type :
    text_shown text f S_arch arch -> int_shown f S_quant_version qv -> int_shown f S_alignment align ->
    text_shown text f S_name name -> text_shown text f S_author author -> text_shown text f S_url url ->
    text_shown text f S_description desc -> text_shown text f S_license license ->
    f_set f S_file_type = Some (SU32 n) -> nth_error type_names (N.to_nat n) = Some type ->
    metadata_shown text f (block (u "model metadata")
      [(u "arch", arch); (u "quantization_version", qv); (u "alignment", align); (u "name", name); (u "author", author);
       (u "url", url); (u "description", desc); (u "license", license); (u "type", type)]).

(** The space for the tensors: each takes its data, up to a multiple of the alignment, a
    descriptor and the header of an object. *)
Definition takes (L : Ggml_model.lib) (t : tinfo) (n : N) : Prop :=
  exists k, n = Ggml_model.tensor_bytes L + k * Ggml_model.mem_align L + Ggml_model.object_bytes L /\
    nbytes t <= k * Ggml_model.mem_align L < nbytes t + Ggml_model.mem_align L.
Definition space (L : Ggml_model.lib) (f : file) (size : N) : Prop :=
  exists made sizes, copies f made /\ Forall2 (takes L) made sizes /\ size = fold_right N.add 0 sizes.

(** The initial range of the weights: the file's, or 0.02. *)
Definition range_is (f : file) (e : N) : Prop :=
  f_set f S_init_range = Some (SF64 e) \/ (f_set f S_init_range = None /\ nearest_double e 2 100).

Inductive settings_shown (double : N -> list N) (f : file) : list N -> Prop :=
| the_settings arch za vocab h layers heads max inter segs act ze e r :
    f_set f S_bert_type = Some (SU32 arch) -> as_int arch za -> f_set f S_vocab_size = Some (SU32 vocab) ->
    f_set f S_hidden_dim = Some (SU32 h) -> f_set f S_n_layers = Some (SU32 layers) ->
    f_set f S_attn_heads = Some (SU32 heads) -> f_set f S_max_tokens = Some (SU32 max) ->
    f_set f S_intermediate_dim = Some (SU32 inter) ->
    (f_set f S_segments = Some (SU32 segs) \/ f_set f S_segments = None /\ segs = 2) ->
    f_set f S_hidden_act = Some (SU32 act) -> as_int act ze -> eps_is f e -> range_is f r ->
    settings_shown double f (block (u "hparams")
      [(u "arch", signed za); (u "vocab_size", decimal vocab); (u "hidden_dim", decimal h); (u "n_layers", decimal layers);
       (u "attn_heads", decimal heads); (u "max_tokens", decimal max); (u "intermediate_dim", decimal inter);
       (u "segments", decimal segs); (u "hidden_act", signed ze); (u "eps", double e); (u "init_range", double r)]).

(** ** Proofs *)

Lemma text_text text f k : optional f (fun v => v = SStr) k -> text_shown text f k (str_text text f k).
Proof. unfold optional, text_shown, str_text. destruct (f_set f k) as [v|]; [intros ->; auto|auto]. Qed.

Lemma int_text f k : optional f is_u32 k -> int_shown f k (u32_text f k).
Proof.
  unfold optional, int_shown, u32_text, is_u32. destruct (f_set f k) as [v|]; [intros (n & ->)|auto].
  left. exists n, (as_i32 n). split; [reflexivity|]. split; [apply as_i32_int|reflexivity].
Qed.

Lemma metadata_text text n_kv f : general_ok f -> exists m, metadata_shown text f m /\
  map message_of (metadata_says text n_kv f) =
    [(1%Z, m); (1%Z, block (u "gguf info") [(u "n_tensors", decimal (N.of_nat (length (f_tensors f)))); (u "n_kv", decimal n_kv)])].
Proof.
  intros (HS & HQ & HA & t & Ht & Lt).
  assert (T : forall k, In k optional_str -> text_shown text f k (str_text text f k))
    by (intros k Hk; apply text_text; rewrite Forall_forall in HS; auto).
  assert (NE : nth_error type_names (N.to_nat t) = Some (type_text f)).
  { unfold type_text. rewrite Ht. unfold ftype. change (N.of_nat (length ftype_names)) with 19. replace (19 <=? t) with false by lia.
    change type_names with ftype_names. apply nth_error_nth'. change (length ftype_names) with (N.to_nat 19). lia. }
  eexists. split.
  - apply (the_metadata text f (str_text text f S_arch) (u32_text f S_quant_version) (u32_text f S_alignment) (str_text text f S_name)
      (str_text text f S_author) (str_text text f S_url) (str_text text f S_description) (str_text text f S_license) t (type_text f));
      try (apply T; simpl; tauto); try (apply int_text; assumption); assumption.
  - unfold metadata_says, block, number, nl. cbn [map message_of concat fst snd].
    rewrite ?app_nil_r, <- ?app_assoc. reflexivity.
Qed.

Lemma settings_text double f s : read_settings f = Ok s -> exists m, settings_shown double f m /\ message_of (hparams_says double f s) = (1%Z, m).
Proof.
  intros R. assert (R0 := R).
  apply read_settings_ok in R as ((_ & _ & OF) & arch & vocab & h & layers & heads & max & inter & segs & act & e & A1 & A2 & A3 & A4 & A5 & A6 & A7 & A8 & A9 & A10 & ->).
  assert (RR : range_is f (match opt_f64 f S_init_range default_range with Ok r => r | _ => 0 end)).
  { unfold range_is, opt_f64. rewrite Forall_forall in OF. specialize (OF S_init_range ltac:(simpl; tauto)). unfold optional, is_f64 in OF.
    destruct (f_set f S_init_range) as [v|]; [destruct OF as (b & ->); auto|]. right. split; [reflexivity|]. vm_compute. repeat split; discriminate. }
  remember (match opt_f64 f S_init_range default_range with Ok r => r | _ => 0 end) as r eqn:Er.
  eexists. split.
  - apply (the_settings double f arch (as_i32 arch) vocab h layers heads max inter segs act (as_i32 act) e r); try assumption; apply as_i32_int.
  - unfold hparams_says, block, number, nl. rewrite <- Er. cbn [map message_of concat fst snd se_hp se_arch se_act se_vocab_size Encoder_model.hidden_dim
      Encoder_model.n_layers Encoder_model.attn_heads Encoder_model.max_tokens Encoder_model.intermediate_dim Encoder_model.segment_count Encoder_model.ln_eps].
    rewrite !N2Nat.id. f_equal. rewrite ?app_nil_r, <- ?app_assoc. reflexivity.
Qed.

Lemma counted_takes L t : lib_ok L -> takes L t (counted L t).
Proof.
  intros [HA _]. unfold takes, counted, Ggml_model.pad_to.
  set (a := Ggml_model.mem_align L) in *. set (n := nbytes t).
  exists ((n + (a - 1)) / a). split; [lia|].
  pose proof (N.div_mod (n + (a - 1)) a ltac:(lia)) as D. pose proof (N.mod_lt (n + (a - 1)) a ltac:(lia)) as M.
  rewrite (N.mul_comm _ a). lia.
Qed.

Lemma counted_space L f made : lib_ok L -> copies f made -> space L f (total (counted L) made).
Proof.
  intros HL Hm. exists made, (map (counted L) made). split; [exact Hm|]. split.
  - clear Hm. induction made; constructor; [apply counted_takes, HL|assumption].
  - clear Hm. induction made; [reflexivity|]. cbn [map fold_right total]. unfold total in IHmade. rewrite IHmade. reflexivity.
Qed.

Lemma opening_text L path text n_kv f made : lib_ok L -> general_ok f -> copies f made -> exists m,
  metadata_shown text f m /\
  map message_of (opening path text n_kv f (total (counted L) made)) =
    [(1%Z, u "loading model: " ++ path); (1%Z, m);
     (1%Z, block (u "gguf info") [(u "n_tensors", decimal (N.of_nat (length (f_tensors f)))); (u "n_kv", decimal n_kv)]);
     (1%Z, u "  model_size: " ++ decimal (total (counted L) made) ++ u " (" ++ decimal (total (counted L) made / 2 ^ 20) ++ u " MiB)")].
Proof.
  intros HL G Hm. destruct (metadata_text text n_kv f G) as (m & M & E). exists m. split; [exact M|].
  unfold opening. rewrite !map_app, E. cbn [map app message_of]. unfold size_says.
  rewrite N.div_div by discriminate. reflexivity.
Qed.

(** The trace of a load that gets past the reading of the metadata. *)
Lemma load_start L junk V (value : gty -> list N -> nat -> V) order path text double n_kv f reopen r tr : lib_ok L ->
  load_logged L junk value order path text double n_kv (Some f) reopen = Ok (r, tr) ->
  exists made rest, general_ok f /\ copies f made /\ tr = opening path text n_kv f (total (counted L) made) ++ rest /\
    (reopen = true -> readable f -> exists s rest', read_settings f = Ok s /\ rest = hparams_says double f s :: rest').
Proof.
  intros HL H. cbn [load_logged] in H.
  destruct (read_metadata_cases f) as [E|E]; rewrite E in H; [|discriminate]. apply read_metadata_iff in E. cbn [obind] in H.
  destruct (short_dec f) as [Hs|Hs].
  2: { rewrite ctx_size_long in H; [discriminate|]. unfold short_names in Hs. rewrite <- Exists_Forall_neg in Hs.
       - apply Exists_exists in Hs as (t & Hin & Ht). exists t. split; [exact Hin|lia].
       - intros t. lia. }
  destruct (found_all f) as (made & Hm). destruct (pool_size L HL f made Hs Hm) as (EP & _). rewrite EP in H. cbn [obind] in H.
  change ([Formatted Info (u "loading model: " ++ path)] ++ metadata_says text n_kv f ++ [size_says (total (counted L) made)])
    with (opening path text n_kv f (total (counted L) made)) in H.
  exists made. assert (H0 := H). clear H. revert H0. generalize (opening path text n_kv f (total (counted L) made)). intros op H.
  destruct reopen; cbn [negb] in H.
  2: { apply Says_quantize_proofs.ok_pair in H as (_ & <-). eexists. split; [exact E|]. split; [exact Hm|]. split; [reflexivity|]. discriminate. }
  destruct (read_all L HL junk f made Hs Hm) as (RA1 & RA2).
  assert (RD : readable f \/ ~ readable f).
  { assert (RI := readable_iff junk f made Hm). destruct (forallb _ (removelast (combine (f_tensors f) made))).
    - left. apply RI. reflexivity.
    - right. intros R. apply RI in R. discriminate. }
  destruct RD as [R|R].
  2: { rewrite (RA2 R) in H. apply Says_quantize_proofs.ok_pair in H as (_ & <-). eexists. split; [exact E|]. split; [exact Hm|]. split; [reflexivity|]. intros _ K. contradiction. }
  rewrite (RA1 R) in H.
  destruct (read_settings f) as [s| | |] eqn:Es; try discriminate. cbn [obind] in H.
  assert (E0 := E). destruct E as (_ & _ & _ & t & Et & Ht). unfold need_u32, ftype in H. rewrite Et in H. cbn [obind] in H.
  change (N.of_nat (length ftype_names)) with 19 in H. replace (19 <=? t) with false in H by lia. cbn [obind] in H.
  destruct (negb (se_act s =? 0)).
  { apply Says_quantize_proofs.ok_pair in H as (_ & <-). eexists. split; [exact E0|]. split; [exact Hm|]. split; [rewrite <- app_assoc; reflexivity|]. intros _ _. eexists _, _. split; reflexivity. }
  destruct (negb _).
  { apply Says_quantize_proofs.ok_pair in H as (_ & <-). eexists. split; [exact E0|]. split; [exact Hm|]. split; [rewrite <- app_assoc; reflexivity|]. intros _ _. eexists _, _. split; reflexivity. }
  destruct (new_context_logged _ _ _ _ _) as [p| | |]; try discriminate. cbn [obind] in H. apply Says_quantize_proofs.ok_pair in H as (_ & <-).
  eexists. split; [exact E0|]. split; [exact Hm|]. split; [rewrite <- app_assoc; reflexivity|]. intros _ _. eexists _, _. split; reflexivity.
Qed.

(** C198: what INFO shows about a file: the path, the general information, the numbers of
    tensors and settings, the space for the tensors, and, if they can be read, the settings
    of the model. *)
Theorem C198_file_shown : forall L junk V (value : gty -> list N -> nat -> V) order path text double n_kv f reopen r o,
  lib_ok L ->
  logged (mkls 1 true) (load_logged L junk value order path text double n_kv (Some f) reopen) = Ok (r, o) ->
  exists meta size rest, metadata_shown text f meta /\ space L f size /\
    log_of 1 ([(1%Z, u "loading model: " ++ path); (1%Z, meta);
      (1%Z, block (u "gguf info") [(u "n_tensors", decimal (N.of_nat (length (f_tensors f)))); (u "n_kv", decimal n_kv)]);
      (1%Z, u "  model_size: " ++ decimal size ++ u " (" ++ decimal (size / 2 ^ 20) ++ u " MiB)")] ++ rest) o /\
    (reopen = true -> readable f -> exists set rest', settings_shown double f set /\ rest = (1%Z, set) :: rest').
Proof.
  intros L junk V value order path text double n_kv f reopen r o HL H.
  destruct (load_logged L junk value order path text double n_kv (Some f) reopen) as [[r' tr]| | |] eqn:E; try discriminate.
  assert (S := says_load _ _ _ _ _ _ _ _ _ _ _ _ E).
  assert (r = r') as -> by (eapply (proj1 (logged_says (mkls 1 true) r' tr S)); eauto).
  apply (logged_log 1 r' tr o S) in H.
  destruct (load_start _ _ _ _ _ _ _ _ _ _ _ _ _ HL E) as (made & rest & G & Hm & -> & Hset).
  destruct (opening_text L path text n_kv f made HL G Hm) as (m & M & EO).
  exists m, (total (counted L) made), (map message_of rest). split; [exact M|]. split; [apply counted_space; assumption|].
  rewrite map_app, EO in H. split; [exact H|].
  intros Hr R. destruct (Hset Hr R) as (s & rest' & Es & ->). destruct (settings_text double f s Es) as (set & SS & ES).
  exists set, (map message_of rest'). split; [exact SS|]. cbn [map]. rewrite ES. reflexivity.
Qed.
Print Assumptions C198_file_shown.

(** The demonstration file at INFO. *)
Definition x_start : list N :=
  line (u "loading model: m.gguf") ++
  line (block (u "model metadata")
    [(u "arch", []); (u "quantization_version", u "-1"); (u "alignment", u "-1"); (u "name", []); (u "author", []); (u "url", []);
     (u "description", []); (u "license", []); (u "type", u "ALL_F32")]) ++
  u "gguf info" ++ [10] ++ u "  n_tensors: " ++ decimal (N.of_nat (length (f_tensors P_Loader.d_file))) ++ [10] ++ line (u "  n_kv: 9").
Fixpoint starts_b (o e : list N) : bool :=
  match e, o with [], _ => true | x :: e', y :: o' => (x =? y) && starts_b o' e' | _, _ => false end.
Example C198_example :
  match x_out (x_log 1 (u "m.gguf") (Some P_Loader.d_file) true) with
  | Some (true, o) => starts_b o x_start
  | _ => false
  end = true.
Proof. vm_compute. reflexivity. Qed.

(** ** The vocabulary of a RoBERTa model *)

(** The lines about the special ids: first those that are none, then each id with the
    token as it is stored. *)
Definition r_story (ts : list (list N)) (ann : list (list message)) (sp : rspecial) : list message :=
  let ids := [r_bos sp; r_eos sp; r_cls sp; r_mask sp; r_pad sp; r_sep sp; r_unk sp] in
  let shown label id := (1%Z, u "  " ++ label ++ decimal id ++ u " (" ++ nth (N.to_nat id) ts [] ++ u ")") in
  [(1%Z, u "loading vocab")] ++ concat ann ++ id_lines (length ts) ids ++
  [shown (u "bos_id:  ") (r_bos sp); shown (u "eos_id:  ") (r_eos sp); shown (u "cls_id:  ") (r_cls sp);
   shown (u "mask_id: ") (r_mask sp); shown (u "pad_id:  ") (r_pad sp); shown (u "sep_id:  ") (r_sep sp);
   shown (u "unk_id:  ") (r_unk sp)] ++
  id_lines (length ts) [r_unk sp] ++ [(1%Z, u "finish loading vocab")].

Lemma id_lines_says ts ids : map message_of (flat_map (id_to_token_says ts) ids) = id_lines (length ts) ids.
Proof.
  induction ids as [|i ids IH]; [reflexivity|]. cbn [flat_map id_lines]. rewrite map_app, IH. unfold id_lines. f_equal.
  unfold id_to_token_says. destruct (_ <=? _); reflexivity.
Qed.

Lemma id_to_token_nth v id : id_to_token v id = nth (N.to_nat id) (i2t v) [].
Proof.
  unfold id_to_token. destruct (N.leb_spec (N.of_nat (length (i2t v))) id) as [H|H]; [|reflexivity].
  symmetry. apply nth_overflow. lia.
Qed.

Lemma load_merges_quiet : forall ms rank b, fst (load_merges rank ms b) = true -> load_merges_says rank ms b = [].
Proof.
  induction ms as [|[x y] ms IH]; intros rank b; [reflexivity|]. cbn [load_merges load_merges_says].
  destruct (bpe_id_to_token b x); [|discriminate]. destruct (bpe_id_to_token b y); [|discriminate].
  destruct (bpe_token_to_id b _); [apply IH|discriminate].
Qed.

Lemma r_ids_specials g v sp : roberta_specials g (r_find v) = Ok sp ->
  r_ids g v = [r_bos sp; r_eos sp; r_cls sp; r_mask sp; r_pad sp; r_sep sp; r_unk sp].
Proof.
  unfold roberta_specials, r_ids.
  destruct (get_token_id g (r_find v) K_bos [s_s]) as [bos| | |]; try discriminate. cbn [obind].
  destruct (get_token_id g (r_find v) K_eos [s_es]) as [eos| | |]; try discriminate. cbn [obind].
  destruct (get_token_id g (r_find v) K_cls [s_s]) as [cls| | |]; try discriminate. cbn [obind].
  destruct (get_token_id g (r_find v) K_mask [s_mask]) as [mask| | |]; try discriminate. cbn [obind].
  destruct (get_token_id g (r_find v) K_pad [s_pad]) as [pad| | |]; try discriminate. cbn [obind].
  destruct (get_token_id g (r_find v) K_sep [s_es]) as [sep| | |]; try discriminate. cbn [obind].
  destruct (get_token_id g (r_find v) K_unk [s_unk]) as [unk| | |]; try discriminate. cbn [obind].
  cbv zeta. destruct (_ || _ || _ || _ || _ || _ || _)%bool; [discriminate|]. intros E. injection E as <-. reflexivity.
Qed.

(** C199: for every level from INFO on the log of loading a RoBERTa vocabulary that is
    accepted. *)
Theorem C199_roberta_load_log : forall order g lens data ts m rv ann l, (1 <= l)%Z ->
  layout lens data ts -> NoDup ts -> N.of_nat (length ts) < 2 ^ 32 ->
  roberta_init_vocab order g (Some (mkt 1 T_I8 lens)) (Some (mkt 1 T_I8 data)) (option_map as_vocab m) = Ok rv ->
  Forall2 (id_story g ts) r_places ann ->
  forall o, logged (mkls l true) (r_vocab_logged order g lens data m) = Ok (Some rv, o) <-> log_of l (r_story ts ann (rv_sp rv)) o.
Proof.
  intros order g lens data ts m rv ann l Hl LY ND B H FA.
  destruct (read_vocab_layout lens data ts LY ND) as (v & R & V).
  assert (R' : exists p, read_tokens lens data 0 voc0 = Ok (p, v) /\ (p =? N.of_nat (length data)) = true).
  { unfold i8, read_vocab in R. cbn [t_dims t_type t_data] in R. change (negb (1 =? 1) || negb (1 =? 1))%bool with false in R. cbv iota in R.
    destruct (read_tokens lens data 0 voc0) as [[p v']| | |]; try discriminate. exists p.
    destruct (p =? N.of_nat (length data)); [|discriminate]. split; [congruence|reflexivity]. }
  destruct R' as (p & R1 & R2).
  unfold roberta_init_vocab in H. unfold i8 in R. rewrite R in H. cbn [obind] in H.
  pose proof (proj1 V) as I2.
  unfold r_vocab_logged. rewrite R1, R2, (read_tokens_quiet lens data 0 voc0 _ R1). cbn [negb]. rewrite H.
  assert (IM : map message_of (r_init_says order g m v) = concat ann ++
    id_lines (length ts) [r_bos (rv_sp rv); r_eos (rv_sp rv); r_cls (rv_sp rv); r_mask (rv_sp rv); r_pad (rv_sp rv); r_sep (rv_sp rv); r_unk (rv_sp rv)] ++
    map (fun q => (1%Z, u "  " ++ fst q ++ decimal (snd q) ++ u " (" ++ nth (N.to_nat (snd q)) ts [] ++ u ")"))
      [(u "bos_id:  ", r_bos (rv_sp rv)); (u "eos_id:  ", r_eos (rv_sp rv)); (u "cls_id:  ", r_cls (rv_sp rv));
       (u "mask_id: ", r_mask (rv_sp rv)); (u "pad_id:  ", r_pad (rv_sp rv)); (u "sep_id:  ", r_sep (rv_sp rv));
       (u "unk_id:  ", r_unk (rv_sp rv))] ++
    id_lines (length ts) [r_unk (rv_sp rv)]).
  { unfold r_init_says, roberta_vocab_init in *. unfold r_bpe_says.
    destruct (roberta_specials g (r_find v)) as [sp| | |] eqn:SP; try discriminate H. cbn [obind] in H.
    assert (TY : forall k, In k roberta_keys -> typed_u32 g k) by (apply (specials_typed g (r_find v)); rewrite SP; discriminate).
    rewrite (r_ids_specials g v sp SP).
    destruct (r_id_to_token v (r_unk sp)) as [unk| | |]; try discriminate H. cbn [obind] in H.
    destruct (dec8 unk) as [unk'|]; [|discriminate]. destruct (bpe_words v) as [words|]; [|discriminate].
    destruct (merges_cases m) as [(M1 & _ & ms & M3)|(e & _ & _ & M3)]; rewrite M3 in H; [|discriminate]. cbn [obind] in H.
    rewrite M1, M3. unfold load_vocab in H. cbv zeta in H |- *.
    destruct (load_merges (N.of_nat (length (b_merge (load_words (order words) (bpe_new unk' DZero true))))) ms
                (load_words (order words) (bpe_new unk' DZero true))) as [ok b'] eqn:LM.
    destruct ok; [|discriminate]. injection H as <-. cbn [rv_sp fst].
    assert (Q := load_merges_quiet ms _ _ (f_equal fst LM)). rewrite Q. cbn [app]. rewrite ?app_nil_r.
    rewrite !map_app, id_lines_says, I2. f_equal; [|f_equal; f_equal].
    - change r_wanted_ids with r_places.
      assert (T2 : Forall (fun w => typed_u32 g (fst (fst w))) r_places).
      { unfold r_places. repeat (apply Forall_cons; [apply TY; simpl; auto 10|]). constructor. }
      clear -FA T2 V B. revert T2. induction FA as [|w o ws os K F IH]; intros T2; [reflexivity|]. cbn [flat_map concat]. rewrite map_app.
      inversion T2; subst. f_equal; [eapply id_story_says; eauto|apply IH; assumption].
    - cbn [combine map message_of fst snd]. rewrite !id_to_token_nth, I2. reflexivity.
    - cbn [map]. rewrite <- id_lines_says. cbn [flat_map]. rewrite app_nil_r. reflexivity. }
  match goal with |- context [Ok (Some rv, ?t)] => set (tr := t) end.
  assert (M : map message_of tr = r_story ts ann (rv_sp rv)).
  { subst tr. rewrite !map_app, IM. unfold r_story. cbn [map]. rewrite <- !app_assoc. reflexivity. }
  assert (S : Forall says tr).
  { subst tr. apply Forall_app; split; [repeat constructor|]. apply Forall_app; split; [apply says_r_init|repeat constructor]. }
  intros o. rewrite <- M. apply logged_log, S.
Qed.
Print Assumptions C199_roberta_load_log.

Fixpoint within_b (o e : list N) : bool :=
  list_N_eqb (firstn (length e) o) e || match o with _ :: o' => within_b o' e | [] => false end.
Example C199_example :
  match x_out (x_log 1 (u "m.gguf") (Some (x_roberta true)) true) with
  | Some (true, o) =>
      within_b o (line (u "berts.unk_id is not defined; use <unk> instead") ++ line (u "  bos_id:  0 (<s>)") ++ line (u "  eos_id:  1 (</s>)") ++
                  line (u "  cls_id:  0 (<s>)") ++ line (u "  mask_id: 2 (<mask>)") ++ line (u "  pad_id:  3 (<pad>)") ++
                  line (u "  sep_id:  1 (</s>)") ++ line (u "  unk_id:  4 (<unk>)") ++ line (u "finish loading vocab"))
  | _ => false
  end = true.
Proof. vm_compute. reflexivity. Qed.
