(** Theorems about model files as bytes. *)
From Verif Require Import Base Bert_model Vocab_model Bpe_model Roberta_model Loader_model Loader_spec Loader_proofs
  Quantize_model Quantize_spec Quantize_proofs Gguf_model Gguf_spec Gguf_proofs P_Loader P_Quantize.
From Verif Require Ggml_model Encoder_model Encoder_spec Eval_model Eval_spec P_Eval.
Local Open Scope nat_scope.

(** ** For the examples: the file of P_Loader, byte by byte *)

Definition u32_kv (k : list N) (n : N) : kv := mkkv k (VScalar 4 (le 4 n)).
Definition g_kvs : list kv :=
  [mkkv (u "general.architecture") (VStr (u "BERT")); u32_kv (u "general.file_type") 0;
   u32_kv (u "berts.bert_type") 0; u32_kv (u "berts.vocab_size") 5; u32_kv (u "berts.hidden_dim") 2;
   u32_kv (u "berts.n_layers") 1; u32_kv (u "berts.attn_heads") 1; u32_kv (u "berts.max_token") 4;
   u32_kv (u "berts.intermediate_dim") 2; u32_kv (u "berts.hidden_act") 0;
   mkkv (u "berts.do_lower_case") (VScalar 7 [1%N]); mkkv (u "a.list") (VArr 2 3 [1; 2; 3; 4; 5; 6]%N);
   mkkv (u "names") (VStrs [u "one"; u "two"; []])].
Definition g_infos : list winfo :=
  map (fun t => mkwi (ti_name t) (ti_type t) (ti_dims t) (ti_ne0 t) (ti_ne1 t) (ti_ne2 t) (ti_ne3 t) (ti_offset t) (nbytes t))
    (f_tensors d_file).
Definition g_data : list N := skipn 64 (f_bytes d_file).
Definition g_with (kvs : list kv) : list N := meta (N.of_nat (length kvs)) (put_kvs kvs) g_infos ++ g_data.
Definition g_bytes : list N := Eval vm_compute in g_with g_kvs.
Definition g_load (bs : list N) : outcome (load_result (V := Z)) :=
  load_bytes P_Eval.lib64 d_junk d_value (fun l => l) (Some bs) true.
Definition g_quantize (bs : list N) (dev : nat -> nat) (qt : gty) : outcome (bool * option (list N)) :=
  quantize_bytes P_Eval.lib64 d_junk d_value (fun l => l) d_chunk d_widen bs true true dev qt.

(** ** C115: what is written can be read *)

Theorem C115_written_reads_back : forall kvs ws a tail,
  Forall wf_kv kvs -> Forall wf_info ws -> fits64 (N.of_nat (length kvs)) -> fits64 (N.of_nat (length ws)) -> aligned_to kvs a ->
  let bs := raw_meta (N.of_nat (length kvs)) (put_kvs kvs) ws ++ tail in
  exists f, read_gguf bs = Ok (kvs, f) /\
    f_tensors f = map seen ws /\ f_bytes f = bs /\
    (f_data f mod a = 0 /\ N.of_nat (length bs) - N.of_nat (length tail) <= f_data f < N.of_nat (length bs) - N.of_nat (length tail) + a)%N /\
    (forall k v s, first_pair kvs (setting_key k) v -> setting_of v s -> f_set f k = Some s) /\
    (forall k, no_pair kvs (setting_key k) -> f_set f k = None) /\
    (forall k v s, first_pair kvs (tok_key k) v -> tok_of v s -> f_tok f k = Some s) /\
    (forall k, no_pair kvs (tok_key k) -> f_tok f k = None).
Proof.
  intros kvs ws a tail Hk Hw Lk Lw Ha bs.
  assert (Hz : Forall (fun x => ~ In 0%N (k_key x)) kvs) by (eapply Forall_impl; [|exact Hk]; intros x (_ & Z & _); exact Z).
  eexists. split; [apply read_written; eassumption|]. cbn [f_tensors f_bytes f_data f_set f_tok].
  split; [reflexivity|]. split; [reflexivity|].
  assert (a0 : (0 < a)%N) by (destruct Ha as [(_ & ->)|(b & _ & _ & A)]; lia).
  split.
  { unfold data_start, bs. rewrite app_length.
    replace (N.of_nat (length (raw_meta (N.of_nat (length kvs)) (put_kvs kvs) ws) + length tail) - N.of_nat (length tail))%N
      with (N.of_nat (length (raw_meta (N.of_nat (length kvs)) (put_kvs kvs) ws))) by lia.
    generalize (N.of_nat (length (raw_meta (N.of_nat (length kvs)) (put_kvs kvs) ws))). intros n. apply pad_to_spec. exact a0. }
  split; [|split; [|split]].
  - intros k v s F S. rewrite (find_key_first _ _ _ Hz F). cbn [option_map]. f_equal. inversion S; subst; cbn [as_setting]; [| |reflexivity..].
    + change (4 =? 4)%N with true. cbn iota. rewrite unle4 by assumption. reflexivity.
    + change (12 =? 4)%N with false. change (12 =? 12)%N with true. cbn iota. rewrite unle8 by assumption. reflexivity.
  - intros k Nn. rewrite (find_key_none _ _ Hz Nn). reflexivity.
  - intros k v s F S. rewrite (find_key_first _ _ _ Hz F). cbn [option_map]. f_equal. inversion S; subst; cbn [as_tok]; [|reflexivity..].
    change (4 =? 4)%N with true. cbn iota. rewrite unle4 by assumption. reflexivity.
  - intros k Nn. rewrite (find_key_none _ _ Hz Nn). reflexivity.
Qed.
Print Assumptions C115_written_reads_back.

Definition wf_infob (w : winfo) : bool :=
  (length (w_name w) <? 64) && negb (existsb (N.eqb 0) (w_name w)) && trimmedb (seen w) &&
  (N.of_nat (w_ne0 w) <? 1000000)%N && (N.of_nat (w_ne1 w) <? 1000000)%N && (N.of_nat (w_ne2 w) <? 1000000)%N && (N.of_nat (w_ne3 w) <? 1000000)%N &&
  (w_offset w <? 1000000)%N && (N.of_nat (w_ne0 w * w_ne1 w * w_ne2 w * w_ne3 w) mod blck_size (w_type w) =? 0)%N.
Lemma wf_infob_ok w : wf_infob w = true -> wf_info w.
Proof.
  unfold wf_infob. intros H. repeat (apply andb_true_iff in H as (H & ?)).
  assert (T : trimmed (seen w)) by (unfold trimmedb, trimmed in *; lia).
  apply Nat.ltb_lt in H. constructor; try exact T; try (unfold short, fits64; lia); try (apply N.eqb_eq; assumption).
  apply zeroless_lit. apply negb_true_iff. assumption.
Qed.

Definition wf_kvb (x : kv) : bool :=
  (length (k_key x) <? 64) && negb (existsb (N.eqb 0) (k_key x)) &&
  match k_val x with
  | VScalar t bs => existsb (fun p => (fst p =? t)%N && (snd p =? N.of_nat (length bs))%N) fixed_types
  | VStr s => length s <? 1000
  | VArr t n bs => (n <? 1000)%N && existsb (fun p => (fst p =? t)%N && (n * snd p =? N.of_nat (length bs))%N) fixed_types
  | VStrs l => (length l <? 1000) && forallb (fun s => length s <? 1000) l
  end.
Lemma wf_kvb_ok x : wf_kvb x = true -> wf_kv x.
Proof.
  unfold wf_kvb, wf_kv. intros H. apply andb_true_iff in H as (H & Hv). apply andb_true_iff in H as (Hl & Hz).
  apply Nat.ltb_lt in Hl. split; [unfold short, fits64; lia|]. split; [apply zeroless_lit, negb_true_iff, Hz|].
  destruct (k_val x) as [t b|s|t n b|l]; cbn [wf_val].
  - apply existsb_exists in Hv as ((a, c) & Hin & E). apply andb_true_iff in E as (E1 & E2). cbn [fst snd] in *.
    apply N.eqb_eq in E1, E2. subst. exact Hin.
  - apply Nat.ltb_lt in Hv. unfold short, fits64. lia.
  - apply andb_true_iff in Hv as (Hn & Hv). apply N.ltb_lt in Hn. split; [unfold fits64; lia|].
    apply existsb_exists in Hv as ((a, c) & Hin & E). apply andb_true_iff in E as (E1 & E2). cbn [fst snd] in *.
    apply N.eqb_eq in E1, E2. subst. exists c. auto.
  - apply andb_true_iff in Hv as (Hn & Hv). apply Nat.ltb_lt in Hn. split; [unfold fits64; lia|].
    apply forallb_Forall in Hv. eapply Forall_impl; [|exact Hv]. intros s Hs. cbv beta in Hs. apply Nat.ltb_lt in Hs. unfold short, fits64. lia.
Qed.

Definition firstb (kvs : list kv) (n : nat) (k : list N) : bool :=
  forallb (fun x => negb (list_N_eqb (k_key x) k)) (firstn n kvs) &&
  match skipn n kvs with x :: _ => list_N_eqb (k_key x) k | [] => false end.
Lemma firstb_ok kvs n k x r : firstb kvs n k = true -> skipn n kvs = x :: r -> first_pair kvs k (k_val x).
Proof.
  unfold firstb. intros H E. rewrite E in H. apply andb_true_iff in H as (H1 & H2). apply list_N_eqb_eq in H2.
  exists (firstn n kvs), x, r. rewrite <- E, firstn_skipn. split; [reflexivity|]. split; [exact H2|]. split; [reflexivity|].
  intros Hin. apply in_map_iff in Hin as (y & Ey & Hy). rewrite forallb_forall in H1. specialize (H1 y Hy).
  rewrite Ey, list_N_eqb_refl in H1. discriminate.
Qed.
Lemma no_pairb kvs k : forallb (fun x => negb (list_N_eqb (k_key x) k)) kvs = true -> no_pair kvs k.
Proof.
  intros H Hin. apply in_map_iff in Hin as (y & Ey & Hy). rewrite forallb_forall in H. specialize (H y Hy).
  rewrite Ey, list_N_eqb_refl in H. discriminate.
Qed.

Example C115_example :
  Forall wf_kv g_kvs /\ Forall wf_info g_infos /\ aligned_to g_kvs 32 /\ length g_infos = 31 /\
  first_pair g_kvs (u "berts.vocab_size") (VScalar 4 (le 4 5)) /\ setting_of (VScalar 4 (le 4 5)) (SU32 5) /\
  first_pair g_kvs (u "berts.do_lower_case") (VScalar 7 [1%N]) /\ tok_of (VScalar 7 [1%N]) (KBool true) /\
  (exists tail, g_bytes = raw_meta (N.of_nat (length g_kvs)) (put_kvs g_kvs) g_infos ++ tail).
Proof.
  split. { eapply Forall_impl; [exact wf_kvb_ok|]. apply forallb_Forall. vm_compute. reflexivity. }
  split. { eapply Forall_impl; [exact wf_infob_ok|]. apply forallb_Forall. vm_compute. reflexivity. }
  split. { left. split; [apply no_pairb; vm_compute; reflexivity|reflexivity]. }
  split; [vm_compute; reflexivity|].
  split. { apply (firstb_ok g_kvs 3 _ (u32_kv (u "berts.vocab_size") 5) (skipn 4 g_kvs)); [vm_compute; reflexivity|reflexivity]. }
  split; [constructor; reflexivity|].
  split. { apply (firstb_ok g_kvs 10 _ (mkkv (u "berts.do_lower_case") (VScalar 7 [1%N])) (skipn 11 g_kvs)); [vm_compute; reflexivity|reflexivity]. }
  split; [constructor|].
  exists (repeat 0%N (N.to_nat (pad32 (N.of_nat (length (raw_meta (N.of_nat (length g_kvs)) (put_kvs g_kvs) g_infos)))) -
                       length (raw_meta (N.of_nat (length g_kvs)) (put_kvs g_kvs) g_infos)) ++ g_data).
  vm_compute. reflexivity.
Qed.

(** ** C116: files cut short *)

(** A file cut anywhere before the end of the descriptions is refused; what follows them is
    not looked at before the data are read. *)
Theorem C116_cut_refused : forall L junk V (value : gty -> list N -> nat -> V) order bs kvs f reopen,
  read_gguf bs = Ok (kvs, f) ->
  exists head rest, bs = head ++ rest /\ (N.of_nat (length head) <= f_data f)%N /\
    (forall n, n < length head -> load_bytes L junk value order (Some (firstn n bs)) reopen = Ok (Null false)) /\
    (forall rest', exists f', read_gguf (head ++ rest') = Ok (kvs, f') /\ f_tensors f' = f_tensors f /\ f_data f' = f_data f).
Proof.
  intros L junk V value order bs kvs f reopen H. destruct (read_prefix _ _ _ H) as (head & rest & a & E & Ed & Ha & Hc & Hr).
  exists head, rest. split; [exact E|]. split; [rewrite Ed; apply pad_to_spec, Ha|]. split.
  - intros n Hn. unfold load_bytes. rewrite (Hc n Hn). reflexivity.
  - intros rest'. destruct (Hr rest') as (f' & E1 & E2 & E3 & _). exists f'. auto.
Qed.
Print Assumptions C116_cut_refused.

(** Other files are refused, too. *)
Theorem C116_not_a_model : forall L junk V (value : gty -> list N -> nat -> V) order bs reopen,
  ~ has_magic bs -> load_bytes L junk value order (Some bs) reopen = Ok (Null false).
Proof. intros L junk V value order bs reopen H. unfold load_bytes. rewrite (no_magic_refused bs H). reflexivity. Qed.
Print Assumptions C116_not_a_model.

Definition read_ok (bs : list N) : bool := match read_gguf bs with Ok _ => true | _ => false end.
Lemma read_ex bs : read_ok bs = true -> exists kvs f, read_gguf bs = Ok (kvs, f).
Proof. unfold read_ok. destruct (read_gguf bs) as [[kvs f]| | |]; try discriminate. eauto. Qed.

Example C116_example :
  (exists kvs f, read_gguf g_bytes = Ok (kvs, f)) /\ is_loaded (g_load g_bytes) = true /\
  g_load (firstn 1000 g_bytes) = Ok (Null false) /\ ~ has_magic (0%N :: g_bytes).
Proof.
  split; [apply read_ex; vm_compute; reflexivity|]. split; [vm_compute; reflexivity|]. split; [vm_compute; reflexivity|].
  intros (r & E). discriminate E.
Qed.

(** ** C117: from file to file *)

Section T.
Context (L : Ggml_model.lib) (HL : lib_ok L) (junk : nat -> N) {V : Type} (value : gty -> list N -> nat -> V).
Context (order : list (ustring * N) -> list (ustring * N)).
Context (chunk : gty -> list N -> nat -> list N) (widen : list N -> list N).
Context (bs : list N) (kvs : list kv) (f : file) (m : loaded (V := V)) (qt : gty).
Hypothesis Hb : byte_string bs.
Hypothesis Hread : read_gguf bs = Ok (kvs, f).
Hypothesis Hload : load_bytes L junk value order (Some bs) true = Ok (Loaded m).
Hypothesis Hdk : agreeing kvs.
Hypothesis Hkt : known_types kvs.
Hypothesis Hdn : distinct_names f.
Hypothesis Hal : align_of f = 32%N.
Hypothesis Hc : chunk_ok chunk.
Hypothesis Hq : convertible qt = true.
Hypothesis Hf : forall s, In s (tensors_of junk f) -> wanted s ->
  float_type (ti_type (st_info s)) /\ (N.of_nat (ti_ne0 (st_info s)) mod blck_size qt = 0)%N.

Lemma load_read : load_from_file L junk value order (Some f) true = Ok (Loaded m).
Proof. unfold load_bytes in Hload. rewrite Hread in Hload. exact Hload. Qed.
Lemma read_trimmed : Forall trimmed (f_tensors f).
Proof.
  destruct (read_wf _ _ _ Hb Hread) as (_ & Ht & _). eapply Forall_impl; [|exact Ht]. intros t (_ & _ & T & _). exact T.
Qed.

Definition result (ws : list winfo) (outs : list (gty * list N)) : list N :=
  meta (N.of_nat (length (new_kvs kvs qt))) (put_kvs (new_kvs kvs qt)) ws ++ data_section outs.
Definition reread_result (ws : list winfo) (outs : list (gty * list N)) : file :=
  reread f qt (N.of_nat (length (new_kvs kvs qt))) (put_kvs (new_kvs kvs qt)) ws (result ws outs).

Lemma quantized : exists outs ws, written chunk widen qt (tensors_of junk f) outs ws /\
  forall dev, (forall i, length (result ws outs) <= dev i) ->
    quantize_bytes L junk value order chunk widen bs true true dev qt = Ok (true, Some (result ws outs)).
Proof.
  destruct (C63_selection L junk V value order chunk widen f m (N.of_nat (length (new_kvs kvs qt))) (put_kvs (new_kvs kvs qt)) qt
    HL load_read Hdn read_trimmed (fun s Hs Hw => proj1 (Hf s Hs Hw))) as (outs & ws & file & Hw & -> & Hqu).
  exists outs, ws. split; [exact Hw|]. intros dev Hdev. unfold quantize_bytes. rewrite Hread. cbn [fst snd]. apply Hqu, Hdev.
Qed.

Lemma result_read outs ws : written chunk widen qt (tensors_of junk f) outs ws -> fits64 (N.of_nat (length (result ws outs))) ->
  exists f', read_gguf (result ws outs) = Ok (new_kvs kvs qt, f') /\ same_file f' (reread_result ws outs).
Proof.
  intros Hw Hfit.
  exact (read_copy junk chunk widen qt bs kvs f Hb Hread (agreeing_find _ _ Hdk) Hkt Hal (fun s Hs Hw => proj2 (Hf s Hs Hw)) outs ws Hw Hfit Hdk).
Qed.

Lemma result_loads outs ws : written chunk widen qt (tensors_of junk f) outs ws -> fits64 (N.of_nat (length (result ws outs))) ->
  exists m', load_bytes L junk value order (Some (result ws outs)) true = Ok (Loaded m') /\
    load_from_file L junk value order (Some (reread_result ws outs)) true = Ok (Loaded m') /\
    lo_settings m' = lo_settings m /\ lo_vocab m' = lo_vocab m.
Proof.
  intros Hw Hfit. destruct (result_read outs ws Hw Hfit) as (f' & Er & Sf).
  destruct (new_loads junk chunk widen f qt (N.of_nat (length (new_kvs kvs qt))) (put_kvs (new_kvs kvs qt)) ws outs Hdn Hal Hc Hq
    (fun s Hs Hw => proj2 (Hf s Hs Hw)) Hw L HL value order m load_read) as (m' & Hm' & Es & Ev).
  exists m'. split; [|split; [exact Hm'|auto]]. unfold load_bytes. rewrite Er. cbn [snd].
  rewrite (same_load L junk value order f' (reread_result ws outs) true Sf). exact Hm'.
Qed.
End T.

(** The file that quantization writes loads, with the settings and vocabulary of the
    source. *)
Theorem C117_quantized_file_loads : forall L junk V (value : gty -> list N -> nat -> V) order chunk widen bs kvs f m qt,
  lib_ok L -> byte_string bs -> read_gguf bs = Ok (kvs, f) -> load_bytes L junk value order (Some bs) true = Ok (Loaded m) ->
  agreeing kvs -> known_types kvs -> distinct_names f -> align_of f = 32%N -> chunk_ok chunk -> convertible qt = true ->
  (forall s, In s (tensors_of junk f) -> wanted s ->
     float_type (ti_type (st_info s)) /\ (N.of_nat (ti_ne0 (st_info s)) mod blck_size qt = 0)%N) ->
  exists out,
    (forall dev, (forall i, length out <= dev i) ->
       quantize_bytes L junk value order chunk widen bs true true dev qt = Ok (true, Some out)) /\
    (fits64 (N.of_nat (length out)) ->
       exists m', load_bytes L junk value order (Some out) true = Ok (Loaded m') /\
         lo_settings m' = lo_settings m /\ lo_vocab m' = lo_vocab m).
Proof.
  intros L junk V value order chunk widen bs kvs f m qt HL Hb Hr H Hdk Hkt Hdn Ha Hc Hq Hf.
  destruct (quantized L HL junk value order chunk widen bs kvs f m qt Hb Hr H Hdn Hf) as (outs & ws & Hw & Hqu).
  exists (result kvs qt ws outs). split; [exact Hqu|]. intros Hfit.
  destruct (result_loads L HL junk value order chunk widen bs kvs f m qt Hb Hr H Hdk Hkt Hdn Ha Hc Hq Hf outs ws Hw Hfit)
    as (m' & E & _ & Es & Ev). exists m'. auto.
Qed.
Print Assumptions C117_quantized_file_loads.

(** Every pair is kept, but for the two that are set. *)
Theorem C117_pairs_kept : forall L junk V (value : gty -> list N -> nat -> V) order chunk widen bs kvs f m qt,
  lib_ok L -> byte_string bs -> read_gguf bs = Ok (kvs, f) -> load_bytes L junk value order (Some bs) true = Ok (Loaded m) ->
  distinct_keys kvs -> known_types kvs -> distinct_names f -> align_of f = 32%N -> chunk_ok chunk -> convertible qt = true ->
  (forall s, In s (tensors_of junk f) -> wanted s ->
     float_type (ti_type (st_info s)) /\ (N.of_nat (ti_ne0 (st_info s)) mod blck_size qt = 0)%N) ->
  exists out,
    (forall dev, (forall i, length out <= dev i) ->
       quantize_bytes L junk value order chunk widen bs true true dev qt = Ok (true, Some out)) /\
    (fits64 (N.of_nat (length out)) ->
       exists kvs' f', read_gguf out = Ok (kvs', f') /\
         (forall x, In x kvs -> ~ (exists k, In k touched /\ cut_at_zero (k_key x) k) -> exists y, In y kvs' /\ pair_kept x y) /\
         (forall y, In y kvs' -> ~ In (k_key y) touched -> exists x, In x kvs /\ pair_kept x y) /\
         f_set f' S_file_type = Some (SU32 (code qt)) /\ f_set f' S_quant_version = Some (SU32 2)).
Proof.
  intros L junk V value order chunk widen bs kvs f m qt HL Hb Hr H Hdk Hkt Hdn Ha Hc Hq Hf.
  destruct (quantized L HL junk value order chunk widen bs kvs f m qt Hb Hr H Hdn Hf) as (outs & ws & Hw & Hqu).
  exists (result kvs qt ws outs). split; [exact Hqu|]. intros Hfit.
  destruct (result_read junk chunk widen bs kvs f qt Hb Hr (distinct_agreeing _ Hdk) Hkt Ha Hf outs ws Hw Hfit) as (f' & E & Sf).
  exists (new_kvs kvs qt), f'. split; [exact E|].
  destruct (new_pairs kvs qt Hdk Hkt) as (_ & _ & N1 & N2). split; [|split; [|split]].
  - intros x Hx Hn. exists (copy_kv x). split; [|apply copy_kept]. apply N1; [exact Hx|]. intros Hin. apply Hn.
    exists (cstr (k_key x)). split; [exact Hin|apply cstr_cut].
  - intros y Hy Hn. destruct (N2 y Hy) as [Q|(x & Hx & ->)]; [contradiction|]. exists x. split; [exact Hx|apply copy_kept].
  - rewrite (proj1 Sf). reflexivity.
  - rewrite (proj1 Sf). reflexivity.
Qed.
Print Assumptions C117_pairs_kept.

(** Evaluating the file that was written: the reference computation on its parameters,
    weights converted and everything else as in the source. *)
Lemma same_params {V} (value : gty -> list N -> nat -> V) f g layers : same_file f g -> file_params value f layers = file_params value g layers.
Proof. destruct f as [s1 t1 a1 b1 c1], g as [s2 t2 a2 b2 c2]. unfold same_file. cbn [f_set f_tok f_tensors f_data f_bytes]. intros (_ & _ & -> & -> & ->). reflexivity. Qed.
Lemma same_rows {V} (value : gty -> list N -> nat -> V) f g n : same_file f g -> rows_of value f n = rows_of value g n.
Proof. destruct f as [s1 t1 a1 b1 c1], g as [s2 t2 a2 b2 c2]. unfold same_file. cbn [f_set f_tok f_tensors f_data f_bytes]. intros (_ & _ & -> & -> & ->). reflexivity. Qed.

Theorem C117_quantized_file_evaluates : forall L junk V (value : gty -> list N -> nat -> V) P order chunk widen bs kvs f m qt words rows,
  lib_ok L -> byte_string bs -> read_gguf bs = Ok (kvs, f) -> load_bytes L junk value order (Some bs) true = Ok (Loaded m) ->
  agreeing kvs -> known_types kvs -> distinct_names f -> align_of f = 32%N -> chunk_ok chunk -> convertible qt = true ->
  (forall s, In s (tensors_of junk f) -> wanted s ->
     float_type (ti_type (st_info s)) /\ (N.of_nat (ti_ne0 (st_info s)) mod blck_size qt = 0)%N) ->
  norms_flat f ->
  let hp := Eval_model.em_hp (evaluator m) in
  let h := Encoder_model.hidden_dim hp in
  well_shaped f h (Encoder_model.intermediate_dim hp) (Encoder_model.n_layers hp) (Encoder_model.segment_count hp) words rows ->
  h = h / Encoder_model.attn_heads hp * Encoder_model.attn_heads hp -> 0 < h -> 0 < Encoder_model.intermediate_dim hp ->
  Encoder_spec.row_ops_ok P ->
  (N.of_nat h < 4294967296)%N -> (N.of_nat (Encoder_model.max_tokens hp) < 2147483648)%N ->
  (N.of_nat (Encoder_model.segment_count hp) < 2147483648)%N ->
  (N.of_nat words <= 2147483648)%N -> (N.of_nat rows <= 2147483648)%N ->
  (match Eval_model.em_kind (evaluator m) with
   | Encoder_model.Bert => True
   | Encoder_model.Roberta pad => (pad + N.of_nat (Encoder_model.max_tokens hp) < 2147483648)%N
   end) ->
  exists out,
    (forall dev, (forall i, length out <= dev i) ->
       quantize_bytes L junk value order chunk widen bs true true dev qt = Ok (true, Some out)) /\
    (fits64 (N.of_nat (length out)) ->
       exists kvs' f' m', read_gguf out = Ok (kvs', f') /\ load_bytes L junk value order (Some out) true = Ok (Loaded m') /\
         Eval_spec.sound P (evaluator m') words rows (file_params value f' (Encoder_model.n_layers hp)) /\
         (forall n t, named f n = Some t -> contained f t ->
            let s := mkst t (ti_name t) (region f t) in
            (wanted s -> rows_of value f' n = converted_rows value chunk widen qt f t) /\
            (~ wanted s -> rows_of value f' n = rows_of value f n))).
Proof.
  intros L junk V value P order chunk widen bs kvs f m qt words rows HL Hb Hr H Hdk Hkt Hdn Ha Hc Hq Hf Hn hp h Hws B0 B1 B2 HP B3 B4 B5 B6 B7 Hpad.
  destruct (quantized L HL junk value order chunk widen bs kvs f m qt Hb Hr H Hdn Hf) as (outs & ws & Hw & Hqu).
  exists (result kvs qt ws outs). split; [exact Hqu|]. intros Hfit.
  destruct (result_loads L HL junk value order chunk widen bs kvs f m qt Hb Hr H Hdk Hkt Hdn Ha Hc Hq Hf outs ws Hw Hfit)
    as (m' & E & E' & Es & Ev).
  destruct (result_read junk chunk widen bs kvs f qt Hb Hr Hdk Hkt Ha Hf outs ws Hw Hfit) as (f' & Er & Sf).
  exists (new_kvs kvs qt), f', m'. split; [exact Er|]. split; [exact E|]. split.
  - rewrite (same_params value f' _ _ Sf).
    assert (Ehp : Eval_model.em_hp (evaluator m') = hp).
    { unfold hp, evaluator. rewrite Ev, Es. destruct (lo_vocab m); reflexivity. }
    assert (Ek : Eval_model.em_kind (evaluator m') = Eval_model.em_kind (evaluator m)).
    { unfold evaluator. rewrite Ev. destruct (lo_vocab m); reflexivity. }
    rewrite <- Ehp. eapply (C102_sound L junk V value P order _ true m' words rows HL E'); rewrite ?Ehp, ?Ek; try assumption.
    unfold reread_result, result.
    apply (C106_shapes junk chunk widen f qt _ _ ws outs h (Encoder_model.intermediate_dim hp) (Encoder_model.n_layers hp) (Encoder_model.segment_count hp)
             words rows Hdn Ha Hc Hq (fun s Hs Hw => proj2 (Hf s Hs Hw)) Hw Hn). exact Hws.
  - intros n t Ht Hct. rewrite (same_rows value f' _ n Sf). unfold reread_result, result.
    apply (C106_rows junk V value chunk widen f qt _ _ ws outs Hdn Ha Hc Hq (fun s Hs Hw => proj2 (Hf s Hs Hw)) Hw n t Ht Hct).
Qed.
Print Assumptions C117_quantized_file_evaluates.

(** Used by the examples. *)
Definition g_file : file := Eval vm_compute in match read_gguf g_bytes with Ok r => snd r | _ => d_file end.

Lemma g_read : read_gguf g_bytes = Ok (g_kvs, g_file).
Proof. vm_compute. reflexivity. Qed.
Lemma g_tensors : f_tensors g_file = f_tensors d_file.
Proof. vm_compute. reflexivity. Qed.
Lemma g_distinct : distinct_names g_file.
Proof. unfold distinct_names. rewrite g_tensors. exact d_distinct. Qed.
Lemma g_norms : norms_flat g_file.
Proof. unfold norms_flat. rewrite g_tensors. exact d_norms. Qed.
Lemma g_floats s : In s (tensors_of d_junk g_file) -> wanted s -> float_type (ti_type (st_info s)).
Proof.
  intros Hs Hw. apply wanted_iff in Hw.
  assert (X : forallb (fun s => negb (is_weight (st_name s) && (ti_dims (st_info s) =? 2)%N) || floatb (ti_type (st_info s)))
     (tensors_of d_junk g_file) = true) by (vm_compute; reflexivity).
  rewrite forallb_forall in X. specialize (X s Hs). cbv beta in X. rewrite Hw in X. unfold float_type.
  destruct (ti_type (st_info s)); try discriminate; auto.
Qed.
Lemma g_matrix n r c t : named g_file n = Some t -> ti_ne0 t = c /\ ti_ne1 t = r /\ ti_ne2 t = 1 /\ ti_ne3 t = 1 ->
  (f_data g_file + ti_offset t + nbytes t <=? N.of_nat (length (f_bytes g_file)))%N = true -> matrix_at g_file r c n.
Proof. intros H1 (H2 & H3 & H4 & H5) H6. exists t. unfold contained. apply N.leb_le in H6. auto 10. Qed.
Lemma g_vector n c t : named g_file n = Some t -> ti_type t = TF32 -> ti_ne0 t = c /\ ti_ne1 t = 1 /\ ti_ne2 t = 1 /\ ti_ne3 t = 1 ->
  (f_data g_file + ti_offset t + nbytes t <=? N.of_nat (length (f_bytes g_file)))%N = true -> vector_at g_file c n.
Proof. intros H1 H0 (H2 & H3 & H4 & H5) H6. exists t. unfold contained. apply N.leb_le in H6. auto 10. Qed.
Ltac g_mat := eapply g_matrix; [vm_compute; reflexivity|vm_compute; repeat split|vm_compute; reflexivity].
Ltac g_vec := eapply g_vector; [vm_compute; reflexivity|reflexivity|vm_compute; repeat split|vm_compute; reflexivity].
Lemma g_shaped : well_shaped g_file 2 2 1 2 5 4.
Proof.
  constructor; try g_mat; try g_vec; [repeat constructor; g_vec|].
  intros n Hn. replace n with 0 by lia. constructor; try g_mat; try g_vec; repeat constructor; first [g_mat|g_vec].
Qed.
Definition distinct_keysb (kvs : list kv) : bool :=
  (fix nd (l : list (list N)) := match l with [] => true | x :: l' => negb (existsb (list_N_eqb x) l') && nd l' end)
    (map (fun x => cstr (k_key x)) kvs).
Lemma distinct_keysb_ok kvs : distinct_keysb kvs = true -> distinct_keys kvs.
Proof.
  unfold distinct_keysb, distinct_keys. generalize (map (fun x => cstr (k_key x)) kvs). induction l as [|x l IH]; [constructor|].
  intros E. apply andb_true_iff in E as (E1 & E2). constructor; [|apply IH, E2].
  intros Hin. apply negb_true_iff in E1. assert (existsb (list_N_eqb x) l = true); [|congruence].
  apply existsb_exists. exists x. split; [exact Hin|]. apply list_N_eqb_refl.
Qed.
Definition g_out : list N := Eval vm_compute in match g_quantize g_bytes plenty TF16 with Ok (true, Some b) => b | _ => [] end.
Definition g_settings (bs : list N) : option (N * list (option N)) :=
  match g_load bs with
  | Ok (Loaded m) => match lo_vocab m with LBert v => Some (se_arch (lo_settings m), map Some [v_cls v; v_mask v; v_pad v; v_sep v; v_unk v]) | _ => None end
  | _ => None
  end.

(** The example file, byte by byte: it meets all conditions, converts, and the new file
    loads with the same ids; the list and the names are kept. *)
Example C117_example :
  forallb (fun b => (b <? 256)%N) g_bytes = true /\ read_gguf g_bytes = Ok (g_kvs, g_file) /\ is_loaded (g_load g_bytes) = true /\
  distinct_keys g_kvs /\ known_types g_kvs /\ distinct_names g_file /\ align_of g_file = 32%N /\ chunk_ok d_chunk /\
  (forall s, In s (tensors_of d_junk g_file) -> wanted s ->
     float_type (ti_type (st_info s)) /\ (N.of_nat (ti_ne0 (st_info s)) mod blck_size TF16 = 0)%N) /\
  norms_flat g_file /\ well_shaped g_file 2 2 1 2 5 4 /\
  g_quantize g_bytes plenty TF16 = Ok (true, Some g_out) /\ (N.of_nat (length g_out) <= N.of_nat room)%N /\
  g_settings g_out = g_settings g_bytes /\ g_settings g_out <> None /\
  (exists f', read_gguf g_out = Ok (set_key (u "general.file_type") (VScalar 4 (le 4 1))
                                (g_kvs ++ [u32_kv (u "general.quantization_version") 2]), f')).
Proof.
  split; [vm_compute; reflexivity|]. split; [exact g_read|]. split; [vm_compute; reflexivity|].
  split; [apply distinct_keysb_ok; vm_compute; reflexivity|].
  split; [unfold known_types; apply forallb_Forall; vm_compute; reflexivity|].
  split; [exact g_distinct|]. split; [vm_compute; reflexivity|]. split; [exact d_chunk_ok|].
  split; [intros s Hs Hw; split; [exact (g_floats s Hs Hw)|apply N.mod_1_r]|].
  split; [exact g_norms|]. split; [exact g_shaped|]. split; [vm_compute; reflexivity|]. split; [vm_compute; discriminate|].
  split; [vm_compute; reflexivity|]. split; [intros Q; vm_compute in Q; discriminate Q|].
  exists (match read_gguf g_out with Ok r => snd r | _ => g_file end). vm_compute. reflexivity.
Qed.

(** ** C118: a run that does not finish *)

Theorem C118_failure_leaves_no_model : forall L junk V (value : gty -> list N -> nat -> V) order chunk widen bs reopen opens dev qt out again,
  quantize_bytes L junk value order chunk widen bs reopen opens dev qt = Ok (false, Some out) ->
  load_bytes L junk value order (Some out) again = Ok (Null false).
Proof.
  intros L junk V value order chunk widen bs reopen opens dev qt out again H. apply C116_not_a_model.
  unfold quantize_bytes in H. destruct (read_gguf bs) as [[kvs f]| | |]; try discriminate H;
    exact (C65_failure_no_magic _ _ _ _ _ _ _ _ _ _ _ _ _ _ _ H).
Qed.
Print Assumptions C118_failure_leaves_no_model.

Theorem C118_interrupted_leaves_no_model : forall L junk V (value : gty -> list N -> nat -> V) order chunk widen n_kv kv ts names qt
    os ended before after dev again,
  program chunk widen n_kv kv ts names qt = Ok (os, ended) -> os = before ++ after -> (ended = true -> after <> []) ->
  load_bytes L junk value order (Some (s_bytes (do_ops stream0 0 dev before))) again = Ok (Null false).
Proof.
  intros L junk V value order chunk widen n_kv kv ts names qt os ended before after dev again H E Ha. apply C116_not_a_model.
  exact (C65_no_magic_before_end chunk widen n_kv kv ts names qt os ended before after dev H E Ha).
Qed.
Print Assumptions C118_interrupted_leaves_no_model.

(** But if the last write stops after eight bytes, opening the result stops the process:
    it looks like a model without settings. *)
Theorem C118_interrupted_safe_refuted : exists chunk widen n_kv kv ts names qt os dev,
  program chunk widen n_kv kv ts names qt = Ok (os, true) /\
  forall L junk V (value : gty -> list N -> nat -> V) order again,
  load_bytes L junk value order (Some (s_bytes (do_ops stream0 0 dev os))) again = Abort.
Proof.
  destruct (program d_chunk d_widen 1 d_kv (tensors_of d_junk d_file) (map ti_name (f_tensors d_file)) TF16) as [[os b]| | |] eqn:E.
  - assert (b = true).
    { assert (X : match program d_chunk d_widen 1 d_kv (tensors_of d_junk d_file) (map ti_name (f_tensors d_file)) TF16 with
                  | Ok (_, b) => b | _ => true end = true) by (vm_compute; reflexivity). rewrite E in X. exact X. }
    subst b. destruct (torn_header _ _ _ _ _ _ _ _ E) as (dev & rest & Es & _).
    exists d_chunk, d_widen, 1%N, d_kv, (tensors_of d_junk d_file), (map ti_name (f_tensors d_file)), TF16, os, dev. split; [exact E|].
    intros L junk V value order again. rewrite Es. destruct (header_only rest) as (f & Er & Hn).
    unfold load_bytes. rewrite Er. cbn [snd]. apply torn_aborts. exact Hn.
  - exfalso. assert (X : match program d_chunk d_widen 1 d_kv (tensors_of d_junk d_file) (map ti_name (f_tensors d_file)) TF16 with
                  | Ok _ => true | _ => false end = true) by (vm_compute; reflexivity). rewrite E in X. discriminate X.
  - exfalso. assert (X : match program d_chunk d_widen 1 d_kv (tensors_of d_junk d_file) (map ti_name (f_tensors d_file)) TF16 with
                  | Ok _ => true | _ => false end = true) by (vm_compute; reflexivity). rewrite E in X. discriminate X.
  - exfalso. assert (X : match program d_chunk d_widen 1 d_kv (tensors_of d_junk d_file) (map ti_name (f_tensors d_file)) TF16 with
                  | Ok _ => true | _ => false end = true) by (vm_compute; reflexivity). rewrite E in X. discriminate X.
Qed.
Print Assumptions C118_interrupted_safe_refuted.

(** It can happen to every run. *)
Theorem C118_torn_header_aborts : forall L junk V (value : gty -> list N -> nat -> V) order chunk widen n_kv kv ts names qt os again,
  program chunk widen n_kv kv ts names qt = Ok (os, true) ->
  exists dev, load_bytes L junk value order (Some (s_bytes (do_ops stream0 0 dev os))) again = Abort.
Proof.
  intros L junk V value order chunk widen n_kv kv ts names qt os again H.
  destruct (torn_header _ _ _ _ _ _ _ _ H) as (dev & rest & Es & _). exists dev. rewrite Es.
  destruct (header_only rest) as (f & Er & Hn). unfold load_bytes. rewrite Er. cbn [snd]. apply torn_aborts. exact Hn.
Qed.
Print Assumptions C118_torn_header_aborts.

(** ** C119: settings given twice *)

(** The loader takes the first of two values of one key, the copy has the last one. *)
Definition twice_kvs : list kv := g_kvs ++ [u32_kv (u "berts.cls_id") 0; u32_kv (u "berts.cls_id") 2].
Definition twice_bytes : list N := Eval vm_compute in g_with twice_kvs.
Definition twice_out : list N := Eval vm_compute in match g_quantize twice_bytes plenty TF16 with Ok (true, Some b) => b | _ => [] end.

Definition cls_are (o o' : outcome (load_result (V := Z))) (a b : N) : bool :=
  match o, o' with
  | Ok (Loaded m), Ok (Loaded m') =>
      match lo_vocab m, lo_vocab m' with LBert v, LBert v' => ((v_cls v =? a) && (v_cls v' =? b))%N | _, _ => false end
  | _, _ => false
  end.
Lemma cls_are_ex o o' a b : cls_are o o' a b = true -> exists m m' v v',
  o = Ok (Loaded m) /\ o' = Ok (Loaded m') /\ lo_vocab m = LBert v /\ lo_vocab m' = LBert v' /\ v_cls v = a /\ v_cls v' = b.
Proof.
  unfold cls_are. destruct o as [[m|]| | |]; try discriminate. destruct o' as [[m'|]| | |]; try discriminate.
  destruct (lo_vocab m) as [v|] eqn:E; try discriminate. destruct (lo_vocab m') as [v'|] eqn:E'; try discriminate.
  intros X. apply andb_true_iff in X as (X1 & X2). apply N.eqb_eq in X1, X2. exists m, m', v, v'. auto 10.
Qed.

Theorem C119_duplicate_settings_refuted : exists bs out m m' v v',
  g_quantize bs plenty TF16 = Ok (true, Some out) /\ (N.of_nat (length out) <= N.of_nat room)%N /\
  g_load bs = Ok (Loaded m) /\ g_load out = Ok (Loaded m') /\
  lo_vocab m = LBert v /\ lo_vocab m' = LBert v' /\ v_cls v = 0%N /\ v_cls v' = 2%N.
Proof.
  exists twice_bytes, twice_out.
  destruct (cls_are_ex (g_load twice_bytes) (g_load twice_out) 0 2 ltac:(vm_compute; reflexivity)) as (m & m' & v & v' & H).
  exists m, m', v, v'. split; [vm_compute; reflexivity|]. split; [vm_compute; intros Q; discriminate Q|]. exact H.
Qed.
Print Assumptions C119_duplicate_settings_refuted.

(** In general: of several pairs of a key, the file read has the value of the first and
    the file written has the value of the last, once. *)
Theorem C119_first_read_last_written : forall L junk V (value : gty -> list N -> nat -> V) order chunk widen bs kvs f m qt,
  lib_ok L -> byte_string bs -> read_gguf bs = Ok (kvs, f) -> load_bytes L junk value order (Some bs) true = Ok (Loaded m) ->
  (forall v w, first_of kvs (u "general.alignment") v -> last_of kvs (u "general.alignment") w -> v = w) ->
  known_types kvs -> distinct_names f -> align_of f = 32%N ->
  (forall s, In s (tensors_of junk f) -> wanted s ->
     float_type (ti_type (st_info s)) /\ (N.of_nat (ti_ne0 (st_info s)) mod blck_size qt = 0)%N) ->
  exists out,
    (forall dev, (forall i, length out <= dev i) ->
       quantize_bytes L junk value order chunk widen bs true true dev qt = Ok (true, Some out)) /\
    (fits64 (N.of_nat (length out)) ->
       exists kvs' f', read_gguf out = Ok (kvs', f') /\
         (forall k, ~ In k touched ->
            (forall v, last_of kvs k v -> exists w, first_of kvs' k w /\ value_kept v w) /\
            (forall w, first_of kvs' k w -> exists v, last_of kvs k v /\ value_kept v w)) /\
         (forall k v s, first_of kvs (setting_key k) v -> setting_of v s -> f_set f k = Some s) /\
         (forall k v s, ~ In (setting_key k) touched -> last_of kvs (setting_key k) v -> setting_of v s -> f_set f' k = Some s)).
Proof.
  intros L junk V value order chunk widen bs kvs f m qt HL Hb Hr H Hal2 Hkt Hdn Ha Hf.
  destruct (quantized L HL junk value order chunk widen bs kvs f m qt Hb Hr H Hdn Hf) as (outs & ws & Hw & Hqu).
  exists (result kvs qt ws outs). split; [exact Hqu|]. intros Hfit.
  assert (Hk : find_key (rev kvs) (u "general.alignment") = find_key kvs (u "general.alignment")) by (apply agree_at, Hal2).
  destruct (read_copy_any junk chunk widen qt bs kvs f Hb Hr Hk Hkt Ha (fun s Hs Hw => proj2 (Hf s Hs Hw)) outs ws Hw Hfit) as (f' & E).
  exists (new_kvs kvs qt), f'. split; [exact E|].
  assert (T : forall k, ~ In k touched -> find_key (new_kvs kvs qt) k = option_map copy_val (find_key (rev kvs) k)).
  { intros k Hn. rewrite find_new by exact Hkt. unfold touched in Hn. cbn [In] in Hn.
    destruct (list_N_eqb (u "general.file_type") k) eqn:E1; [apply list_N_eqb_eq in E1; tauto|].
    destruct (list_N_eqb (u "general.quantization_version") k) eqn:E2; [apply list_N_eqb_eq in E2; tauto|]. reflexivity. }
  assert (R : forall bs kvs f, read_gguf bs = Ok (kvs, f) -> forall k v s, find_key kvs (setting_key k) = Some v -> setting_of v s -> f_set f k = Some s).
  { clear. intros bs kvs f H k v s Hv Hs. destruct (read_inv _ _ _ H) as (infos & a' & ts & head & rest & _ & _ & _ & _ & ->).
    unfold file_of. cbn [f_set]. rewrite Hv. cbn [option_map]. f_equal. inversion Hs; subst; cbn [as_setting]; [| |reflexivity].
    + change (4 =? 4)%N with true. cbn iota. rewrite unle4 by assumption. reflexivity.
    + change (12 =? 4)%N with false. change (12 =? 12)%N with true. cbn iota. rewrite unle8 by assumption. reflexivity. }
  split; [|split].
  - intros k Hn. split.
    + intros v Hv. apply find_last in Hv. exists (copy_val v). split; [|apply value_copy]. apply find_first. rewrite T by exact Hn. rewrite Hv. reflexivity.
    + intros w Hv. apply find_first in Hv. rewrite T in Hv by exact Hn. destruct (find_key (rev kvs) k) as [v|] eqn:E'; [|discriminate Hv].
      injection Hv as <-. exists v. split; [apply find_last, E'|apply value_copy].
  - intros k v s Hv. apply find_first in Hv. exact (R _ _ _ Hr k v s Hv).
  - intros k v s Hn Hv Hs. apply find_last in Hv. refine (R _ _ _ E k (copy_val v) s _ _); [rewrite T by exact Hn; rewrite Hv; reflexivity|].
    destruct Hs; constructor; assumption.
Qed.
Print Assumptions C119_first_read_last_written.

Lemma agreeing_keys kvs :
  map (fun x => find_key (rev kvs) (cstr (k_key x))) kvs = map (fun x => find_key kvs (cstr (k_key x))) kvs -> agreeing kvs.
Proof.
  intros H0. assert (H : Forall (fun x => find_key (rev kvs) (cstr (k_key x)) = find_key kvs (cstr (k_key x))) kvs).
  { apply Forall_forall. intros x Hx. apply (In_nth _ _ x) in Hx as (i & Hi & <-).
    apply (f_equal (fun l => nth_error l i)) in H0. rewrite !nth_error_map in H0.
    rewrite (nth_error_nth' _ x Hi) in H0. cbn [option_map] in H0. congruence. }
  clear H0. intros k v w Hv Hw. apply find_first in Hv. apply find_last in Hw.
  assert (X : exists v, find_key kvs k = Some v) by eauto. apply find_some_in in X as (x & Hx & C). apply cut_cstr in C.
  rewrite Forall_forall in H. specialize (H x Hx). rewrite C in H. congruence.
Qed.

(** The file above meets the conditions, and its pairs of [berts.cls_id] do not agree; a
    file with one more pair of a key that agrees meets those of C117 with the two equal. *)
Example C119_example :
  (exists f, read_gguf twice_bytes = Ok (twice_kvs, f)) /\ is_loaded (g_load twice_bytes) = true /\
  known_types twice_kvs /\
  first_of twice_kvs (u "berts.cls_id") (VScalar 4 (le 4 0)) /\ last_of twice_kvs (u "berts.cls_id") (VScalar 4 (le 4 2)) /\
  ~ agreeing twice_kvs /\
  agreeing (g_kvs ++ [u32_kv (u "berts.cls_id") 0; u32_kv (u "berts.cls_id") 0]) /\
  ~ distinct_keys (g_kvs ++ [u32_kv (u "berts.cls_id") 0; u32_kv (u "berts.cls_id") 0]).
Proof.
  assert (F : first_of twice_kvs (u "berts.cls_id") (VScalar 4 (le 4 0))) by (apply find_first; vm_compute; reflexivity).
  assert (La : last_of twice_kvs (u "berts.cls_id") (VScalar 4 (le 4 2))) by (apply find_last; vm_compute; reflexivity).
  split; [|split; [vm_compute; reflexivity|split; [unfold known_types; apply forallb_Forall; vm_compute; reflexivity|]]].
  { destruct (read_gguf twice_bytes) as [[k f]| | |] eqn:E.
    - exists f. assert (X : match read_gguf twice_bytes with Ok (k, _) => Some k | _ => None end = Some twice_kvs) by (vm_compute; reflexivity).
      rewrite E in X. injection X as ->. reflexivity.
    - exfalso. assert (X : match read_gguf twice_bytes with Ok _ => true | _ => false end = true) by (vm_compute; reflexivity). rewrite E in X. discriminate X.
    - exfalso. assert (X : match read_gguf twice_bytes with Ok _ => true | _ => false end = true) by (vm_compute; reflexivity). rewrite E in X. discriminate X.
    - exfalso. assert (X : match read_gguf twice_bytes with Ok _ => true | _ => false end = true) by (vm_compute; reflexivity). rewrite E in X. discriminate X. }
  split; [exact F|]. split; [exact La|]. split; [|split].
  - intros A. assert (X := A _ _ _ F La). discriminate X.
  - apply agreeing_keys. vm_compute. reflexivity.
  - intros D. unfold distinct_keys in D. rewrite map_app in D. cbn [map] in D. apply NoDup_remove_2 in D. apply D.
    apply in_app_iff. right. left. reflexivity.
Qed.
