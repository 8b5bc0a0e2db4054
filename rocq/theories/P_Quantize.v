(** Theorems about quantization. *)
From Verif Require Import Base Bert_model Vocab_model Bpe_model Roberta_model Loader_model Loader_spec Loader_proofs
  Quantize_model Quantize_spec Quantize_proofs P_Loader.
From Verif Require Ggml_model Encoder_model Encoder_spec Eval_model Eval_spec P_Eval.
Local Open Scope nat_scope.

(** ** For the examples *)

(** A conversion that keeps the first byte of every block of the data. *)
Definition d_chunk (t : gty) (data : list N) (n : nat) : list N :=
  map (fun i => nth i data 7%N) (seq 0 (N.to_nat (N.of_nat n / blck_size t * type_size t))).
Definition d_widen (data : list N) : list N := data.
Definition d_kv : list N := [1; 2; 3]%N.
Definition q_with (kv : list N) (f : file) (dev : nat -> nat) (qt : gty) : outcome (bool * option (list N)) :=
  berts_model_quantize d_chunk d_widen P_Eval.lib64 d_junk d_value (fun l => l) (Some f) true true 1 kv dev qt.
Definition d_quantize (f : file) (dev : nat -> nat) (qt : gty) : outcome (bool * option (list N)) :=
  berts_model_quantize d_chunk d_widen P_Eval.lib64 d_junk d_value (fun l => l) (Some f) true true 1 d_kv dev qt.
Definition room : nat := N.to_nat 8000.
Definition plenty (i : nat) : nat := room.

Lemma d_chunk_ok : chunk_ok d_chunk.
Proof. intros t data n _. unfold d_chunk. rewrite map_length, seq_length, N2Nat.id. reflexivity. Qed.

Definition distinctb (f : file) : bool :=
  (fix nd (l : list (list N)) := match l with [] => true | x :: l' => negb (existsb (list_N_eqb x) l') && nd l' end)
    (map ti_name (f_tensors f)).
Lemma distinctb_ok f : distinctb f = true -> distinct_names f.
Proof.
  unfold distinctb, distinct_names. generalize (map ti_name (f_tensors f)). induction l as [|x l IH]; [constructor|].
  intros E. apply andb_true_iff in E as (E1 & E2). constructor; [|apply IH, E2].
  intros Hin. apply negb_true_iff in E1. assert (existsb (list_N_eqb x) l = true); [|congruence].
  apply existsb_exists. exists x. split; [exact Hin|]. apply list_N_eqb_refl.
Qed.

Definition trimmedb (t : tinfo) : bool :=
  (ti_dims t <=? 4)%N && ((0 <? ti_dims t)%N || (ti_ne0 t =? 1)) && ((1 <? ti_dims t)%N || (ti_ne1 t =? 1)) &&
  ((2 <? ti_dims t)%N || (ti_ne2 t =? 1)) && ((3 <? ti_dims t)%N || (ti_ne3 t =? 1)).
Lemma trimmedb_ok f : forallb trimmedb (f_tensors f) = true -> Forall trimmed (f_tensors f).
Proof.
  intros H. apply forallb_Forall in H. eapply Forall_impl; [|exact H]. intros t Ht. unfold trimmedb, trimmed in *. lia.
Qed.

Lemma d_distinct : distinct_names d_file.
Proof. apply distinctb_ok. vm_compute. reflexivity. Qed.
Lemma d_trimmed : Forall trimmed (f_tensors d_file).
Proof. apply trimmedb_ok. vm_compute. reflexivity. Qed.

Section T.
Context (L : Ggml_model.lib) (HL : lib_ok L) (junk : nat -> N).
Context {V : Type} (value : gty -> list N -> nat -> V).
Context (order : list (ustring * N) -> list (ustring * N)).
Context (chunk : gty -> list N -> nat -> list N) (widen : list N -> list N).

Lemma loaded_pool f m : load_from_file L junk value order (Some f) true = Ok (Loaded m) -> distinct_names f ->
  Forall trimmed (f_tensors f) -> pool_ok (tensors_of junk f).
Proof.
  intros H Hd Ht. destruct (loaded_inv L HL junk value order f true m H) as (_ & made & arch & layers & Hm & HLd & _).
  apply pool_of_file; [exact (l_names _ _ _ _ _ HLd)|exact Hd|exact Ht].
Qed.

Lemma outs_exist f qt : (forall s, In s (tensors_of junk f) -> wanted s -> float_type (ti_type (st_info s))) ->
  exists outs, outs_of chunk widen qt (tensors_of junk f) = Some outs.
Proof.
  intros H. destruct (outs_of chunk widen qt (tensors_of junk f)) as [outs|] eqn:E; [eauto|].
  apply outs_none in E as (s & Hs & Hw & Hf). exfalso. apply Hf. auto.
Qed.
End T.

(** ** C63: which tensors are converted *)

(** Exactly the two-dimensional weights change type and bytes; names, extents, order and
    number stay. *)
Theorem C63_selection : forall L junk V (value : gty -> list N -> nat -> V) order chunk widen f m n_kv kv qt,
  lib_ok L -> load_from_file L junk value order (Some f) true = Ok (Loaded m) ->
  distinct_names f -> Forall trimmed (f_tensors f) ->
  (forall s, In s (tensors_of junk f) -> wanted s -> float_type (ti_type (st_info s))) ->
  exists outs ws file,
    written chunk widen qt (tensors_of junk f) outs ws /\ file = meta n_kv kv ws ++ data_section outs /\
    forall dev, (forall i, length file <= dev i) ->
      berts_model_quantize chunk widen L junk value order (Some f) true true n_kv kv dev qt = Ok (true, Some file).
Proof.
  intros L junk V value order chunk widen f m n_kv kv qt HL H Hd Ht Hf.
  destruct (outs_exist junk chunk widen f qt Hf) as (outs & Ho).
  destruct (quantize_pool chunk widen (tensors_of junk f) outs n_kv kv qt
              (loaded_pool L HL junk value order f m H Hd Ht) Ho) as (ws & Hw & _ & _ & Hq).
  exists outs, ws, (meta n_kv kv ws ++ data_section outs). split; [exact Hw|]. split; [reflexivity|].
  intros dev Hdev. rewrite (quantize_loaded L HL junk value order chunk widen f m true n_kv kv dev qt H Hd). apply Hq, Hdev.
Qed.
Print Assumptions C63_selection.

(** A two-dimensional weight that is neither F32 nor F16 makes it fail. *)
Theorem C63_refuses : forall L junk V (value : gty -> list N -> nat -> V) order chunk widen f m n_kv kv qt dev s,
  lib_ok L -> load_from_file L junk value order (Some f) true = Ok (Loaded m) ->
  distinct_names f -> Forall trimmed (f_tensors f) ->
  In s (tensors_of junk f) -> wanted s -> ~ float_type (ti_type (st_info s)) ->
  exists bytes, berts_model_quantize chunk widen L junk value order (Some f) true true n_kv kv dev qt = Ok (false, Some bytes).
Proof.
  intros L junk V value order chunk widen f m n_kv kv qt dev s HL H Hd Ht Hs Hw Hf.
  rewrite (quantize_loaded L HL junk value order chunk widen f m true n_kv kv dev qt H Hd).
  apply quantize_pool_fails; [exact (loaded_pool L HL junk value order f m H Hd Ht)|].
  apply outs_none. eauto.
Qed.
Print Assumptions C63_refuses.

(** Of two tensors with one name, the second is not copied. *)
Definition twice : file := a_file 0 0 (d_pieces ++ [vec (u "extra.bias") [1; 2]%N; vec (u "extra.bias") [200; 4]%N]).
Definition second : tinfo := Eval vm_compute in last (f_tensors twice) (mkti [] TF32 0 0 0 0 0 0).
Lemma loaded_ex {V} (o : outcome (load_result (V := V))) : is_loaded o = true -> exists m, o = Ok (Loaded m).
Proof. destruct o as [[m|]| | |]; try discriminate. eauto. Qed.

Theorem C63_duplicates_refuted : exists f m t bytes,
  d_load f = Ok (Loaded m) /\ In t (f_tensors f) /\ contained f t /\
  ~ wanted (mkst t (ti_name t) (region f t)) /\ d_quantize f plenty TF16 = Ok (true, Some bytes) /\
  In 200%N (region f t) /\ ~ In 200%N bytes.
Proof.
  assert (E : is_loaded (d_load twice) = true) by (vm_compute; reflexivity).
  assert (Q : match d_quantize twice plenty TF16 with Ok (true, Some b) => negb (existsb (N.eqb 200) b) | _ => false end = true)
    by (vm_compute; reflexivity).
  assert (I : existsb (fun t => list_N_eqb (ti_name t) (ti_name second) && (ti_offset t =? ti_offset second)%N &&
                                (ti_dims t =? 1)%N && existsb (N.eqb 200) (region twice t) &&
                                (f_data twice + ti_offset t + nbytes t <=? N.of_nat (length (f_bytes twice)))%N)
                (f_tensors twice) = true) by (vm_compute; reflexivity).
  destruct (loaded_ex _ E) as (m & Em). exists twice, m.
  apply existsb_exists in I as (t & Ht & I). apply andb_true_iff in I as (I & I4). apply andb_true_iff in I as (I & I3).
  apply andb_true_iff in I as (I & I2). exists t.
  destruct (d_quantize twice plenty TF16) as [[[] [bytes|]]| | |]; try discriminate Q.
  exists bytes. split; [exact Em|]. split; [exact Ht|]. split; [apply N.leb_le; exact I4|]. split.
  { intros (Hdim & _). cbn [st_info] in Hdim. rewrite Hdim in I2. discriminate I2. }
  split; [reflexivity|]. split.
  { apply existsb_exists in I3 as (x & Hx & Ex). apply N.eqb_eq in Ex. subst x. exact Hx. }
  intros Hin. apply negb_true_iff in Q.
  assert (Z : existsb (N.eqb 200) bytes = true) by (apply existsb_exists; exists 200%N; split; [exact Hin|reflexivity]).
  congruence.
Qed.
Print Assumptions C63_duplicates_refuted.

Definition floatb (t : gty) : bool := match t with TF32 | TF16 => true | _ => false end.
Lemma d_floats s : In s (tensors_of d_junk d_file) -> wanted s -> float_type (ti_type (st_info s)).
Proof.
  intros Hs Hw. apply wanted_iff in Hw.
  assert (X : forallb (fun s => negb (is_weight (st_name s) && (ti_dims (st_info s) =? 2)%N) || floatb (ti_type (st_info s)))
     (tensors_of d_junk d_file) = true) by (vm_compute; reflexivity).
  rewrite forallb_forall in X. specialize (X s Hs). cbv beta in X. rewrite Hw in X. unfold float_type.
  destruct (ti_type (st_info s)); try discriminate; auto.
Qed.

(** The example file: twelve matrices become F16, and nothing else. *)
Example C63_example :
  is_loaded (d_load d_file) = true /\ distinct_names d_file /\ Forall trimmed (f_tensors d_file) /\
  (forall s, In s (tensors_of d_junk d_file) -> wanted s -> float_type (ti_type (st_info s))) /\
  (forall outs ws, written d_chunk d_widen TF16 (tensors_of d_junk d_file) outs ws ->
     length (filter (fun o => match fst o with TF16 => true | _ => false end) outs) = 12 /\ length outs = 31).
Proof.
  split; [vm_compute; reflexivity|]. split; [exact d_distinct|]. split; [exact d_trimmed|]. split; [exact d_floats|].
  intros outs ws H. assert (Ho := wr_becomes _ _ _ _ _ _ H). apply outs_some in Ho.
  assert (X : match outs_of d_chunk d_widen TF16 (tensors_of d_junk d_file) with
              | Some outs => length (filter (fun o => match fst o with TF16 => true | _ => false end) outs) = 12 /\ length outs = 31
              | None => False end) by (vm_compute; split; reflexivity).
  rewrite Ho in X. exact X.
Qed.

(** ** C64: the layout of the new file *)

(** Positions are aligned, do not overlap, and hold what was written; the room left for the
    metadata is what they take. *)
Theorem C64_layout : forall L junk V (value : gty -> list N -> nat -> V) order chunk widen f m n_kv kv qt,
  lib_ok L -> load_from_file L junk value order (Some f) true = Ok (Loaded m) ->
  distinct_names f -> Forall trimmed (f_tensors f) ->
  (forall s, In s (tensors_of junk f) -> wanted s -> float_type (ti_type (st_info s))) ->
  exists outs ws file,
    written chunk widen qt (tensors_of junk f) outs ws /\
    (forall dev, (forall i, length file <= dev i) ->
       berts_model_quantize chunk widen L junk value order (Some f) true true n_kv kv dev qt = Ok (true, Some file)) /\
    let start := data_start 32 n_kv kv ws in
    firstn (length (raw_meta n_kv kv ws)) file = raw_meta n_kv kv ws /\
    (start mod 32 = 0 /\ N.of_nat (length (raw_meta n_kv kv ws)) <= start)%N /\
    Forall (fun w => (w_offset w mod 32 = 0)%N) ws /\
    ForallOrdPairs (fun w w' => (w_offset w + w_size w <= w_offset w')%N) ws /\
    Forall2 (fun o w => slice file (start + w_offset w) (w_size w) = snd o /\
                        (start + w_offset w + w_size w <= N.of_nat (length file))%N) outs ws.
Proof.
  intros L junk V value order chunk widen f m n_kv kv qt HL H Hd Ht Hf.
  destruct (C63_selection L junk V value order chunk widen f m n_kv kv qt HL H Hd Ht Hf) as (outs & ws & file & Hw & -> & Hq).
  exists outs, ws, (meta n_kv kv ws ++ data_section outs). split; [exact Hw|]. split; [exact Hq|]. cbv zeta.
  assert (Ho := wr_offsets _ _ _ _ _ _ Hw).
  split; [|split; [|split; [|split]]].
  - unfold meta. cbv zeta. rewrite <- app_assoc, firstn_app, firstn_all, Nat.sub_diag. cbn [firstn]. apply app_nil_r.
  - split; [apply data_start_mod|]. apply pad32_ge.
  - apply (offsets_aligned 0); [exact Ho|reflexivity].
  - apply (offsets_apart 0). exact Ho.
  - rewrite <- meta_length. apply (data_at _ 0); [exact Ho|exact (wr_size _ _ _ _ _ _ Hw)|lia].
Qed.
Print Assumptions C64_layout.

(** Read back, every tensor has the data written for it, if the rows of the weights are
    whole blocks and the file does not name another alignment. *)
Theorem C64_reread_partial : forall junk chunk widen f qt n_kv kv ws outs,
  distinct_names f -> align_of f = 32%N -> chunk_ok chunk -> convertible qt = true ->
  (forall s, In s (tensors_of junk f) -> wanted s -> (N.of_nat (ti_ne0 (st_info s)) mod blck_size qt = 0)%N) ->
  written chunk widen qt (tensors_of junk f) outs ws ->
  let f' := reread f qt n_kv kv ws (meta n_kv kv ws ++ data_section outs) in
  forall t, In t (f_tensors f) ->
  exists t' bs, named f' (ti_name t) = Some t' /\
    becomes chunk widen qt (mkst t (ti_name t) (memory_of junk f t)) (ti_type t') bs /\
    contained f' t' /\ region f' t' = bs /\
    ti_dims t' = ti_dims t /\ ti_ne0 t' = ti_ne0 t /\ ti_ne1 t' = ti_ne1 t /\ ti_ne2 t' = ti_ne2 t /\ ti_ne3 t' = ti_ne3 t.
Proof.
  intros junk chunk widen f qt n_kv kv ws outs Hd Ha Hc Hq Hr Hw f' t Hin.
  destruct (reread_tensor junk chunk widen f qt n_kv kv ws outs t Hd Ha Hc Hq Hr Hw Hin)
    as (w & o & Hn & (_ & S1 & S2 & S3 & S4 & S5) & Ht & Hb & Hct & Hrg).
  exists (seen w), (snd o). cbn [seen ti_type ti_dims ti_ne0 ti_ne1 ti_ne2 ti_ne3]. rewrite Ht.
  cbn [st_info] in *. auto 12.
Qed.
Print Assumptions C64_reread_partial.

(** The new file loads, with the same settings and vocabulary. *)
Theorem C64_loads_partial : forall L junk V (value : gty -> list N -> nat -> V) order chunk widen f m n_kv kv qt,
  lib_ok L -> load_from_file L junk value order (Some f) true = Ok (Loaded m) ->
  distinct_names f -> Forall trimmed (f_tensors f) -> align_of f = 32%N -> chunk_ok chunk -> convertible qt = true ->
  (forall s, In s (tensors_of junk f) -> wanted s ->
     float_type (ti_type (st_info s)) /\ (N.of_nat (ti_ne0 (st_info s)) mod blck_size qt = 0)%N) ->
  exists outs ws file m', written chunk widen qt (tensors_of junk f) outs ws /\
    (forall dev, (forall i, length file <= dev i) ->
       berts_model_quantize chunk widen L junk value order (Some f) true true n_kv kv dev qt = Ok (true, Some file)) /\
    load_from_file L junk value order (Some (reread f qt n_kv kv ws file)) true = Ok (Loaded m') /\
    lo_settings m' = lo_settings m /\ lo_vocab m' = lo_vocab m.
Proof.
  intros L junk V value order chunk widen f m n_kv kv qt HL H Hd Ht Ha Hc Hq Hf.
  destruct (C63_selection L junk V value order chunk widen f m n_kv kv qt HL H Hd Ht (fun s Hs Hw => proj1 (Hf s Hs Hw)))
    as (outs & ws & file & Hw & -> & Hqu).
  destruct (new_loads junk chunk widen f qt n_kv kv ws outs Hd Ha Hc Hq (fun s Hs Hw => proj2 (Hf s Hs Hw)) Hw L HL value order m H)
    as (m' & Hm' & Es & Ev).
  exists outs, ws, (meta n_kv kv ws ++ data_section outs), m'. auto 10.
Qed.
Print Assumptions C64_loads_partial.

(** ** C106: the parameters of the quantized model *)

(** Weights are the converted rows, all else is as in the source. *)
Theorem C106_rows : forall junk V (value : gty -> list N -> nat -> V) chunk widen f qt n_kv kv ws outs,
  distinct_names f -> align_of f = 32%N -> chunk_ok chunk -> convertible qt = true ->
  (forall s, In s (tensors_of junk f) -> wanted s -> (N.of_nat (ti_ne0 (st_info s)) mod blck_size qt = 0)%N) ->
  written chunk widen qt (tensors_of junk f) outs ws ->
  let f' := reread f qt n_kv kv ws (meta n_kv kv ws ++ data_section outs) in
  forall n t, named f n = Some t -> contained f t ->
  let s := mkst t (ti_name t) (region f t) in
  (wanted s -> rows_of value f' n = converted_rows value chunk widen qt f t) /\
  (~ wanted s -> rows_of value f' n = rows_of value f n).
Proof.
  intros junk V value chunk widen f qt n_kv kv ws outs Hd Ha Hc Hq Hr Hw f' n t Hn Hct s. split; intros Hs.
  - apply (new_rows_converted junk chunk widen f qt n_kv kv ws outs Hd Ha Hc Hq Hr Hw value n t Hn Hs Hct).
  - apply (new_rows_same junk chunk widen f qt n_kv kv ws outs Hd Ha Hc Hq Hr Hw value n t Hn Hs Hct).
Qed.
Print Assumptions C106_rows.

(** A well-shaped file stays well-shaped, so that C102 applies to the quantized model. *)
Theorem C106_shapes : forall junk chunk widen f qt n_kv kv ws outs h m layers segs words rows,
  distinct_names f -> align_of f = 32%N -> chunk_ok chunk -> convertible qt = true ->
  (forall s, In s (tensors_of junk f) -> wanted s -> (N.of_nat (ti_ne0 (st_info s)) mod blck_size qt = 0)%N) ->
  written chunk widen qt (tensors_of junk f) outs ws -> norms_flat f ->
  let f' := reread f qt n_kv kv ws (meta n_kv kv ws ++ data_section outs) in
  (well_shaped f h m layers segs words rows -> well_shaped f' h m layers segs words rows) /\
  (head_shaped f h words -> head_shaped f' h words).
Proof.
  intros junk chunk widen f qt n_kv kv ws outs h m layers segs words rows Hd Ha Hc Hq Hr Hw Hf f'. split.
  - apply (new_shaped junk chunk widen f qt n_kv kv ws outs Hd Ha Hc Hq Hr Hw Hf).
  - apply (new_head_shaped junk chunk widen f qt n_kv kv ws outs Hd Ha Hc Hq Hr Hw Hf).
Qed.
Print Assumptions C106_shapes.

(** Evaluating a quantized model. *)
Theorem C106_sound : forall L junk V (value : gty -> list N -> nat -> V) P order chunk widen f m n_kv kv qt words rows,
  lib_ok L -> load_from_file L junk value order (Some f) true = Ok (Loaded m) ->
  distinct_names f -> Forall trimmed (f_tensors f) -> align_of f = 32%N -> chunk_ok chunk -> convertible qt = true ->
  (forall s, In s (tensors_of junk f) -> wanted s ->
     float_type (ti_type (st_info s)) /\ (N.of_nat (ti_ne0 (st_info s)) mod blck_size qt = 0)%N) ->
  norms_flat f ->
  let hp := Eval_model.em_hp (evaluator m) in
  let h := Encoder_model.hidden_dim hp in
  well_shaped f h (Encoder_model.intermediate_dim hp) (Encoder_model.n_layers hp) (Encoder_model.segment_count hp) words rows ->
  h = h / Encoder_model.attn_heads hp * Encoder_model.attn_heads hp -> 0 < h -> 0 < Encoder_model.intermediate_dim hp ->
  Encoder_spec.row_ops_ok P ->
  (N.of_nat h < 4294967296)%N -> (N.of_nat (Encoder_model.max_tokens hp) < 2147483648)%N ->
  (N.of_nat (Encoder_model.segment_count hp) < 2147483648)%N ->
  (N.of_nat words <= 2147483648)%N -> (N.of_nat rows <= 2147483648)%N ->
  (match Eval_model.em_kind (evaluator m) with
   | Encoder_model.Bert => True
   | Encoder_model.Roberta pad => (pad + N.of_nat (Encoder_model.max_tokens hp) < 2147483648)%N
   end) ->
  exists outs ws file m',
    (forall dev, (forall i, length file <= dev i) ->
       berts_model_quantize chunk widen L junk value order (Some f) true true n_kv kv dev qt = Ok (true, Some file)) /\
    let f' := reread f qt n_kv kv ws file in
    written chunk widen qt (tensors_of junk f) outs ws /\
    load_from_file L junk value order (Some f') true = Ok (Loaded m') /\
    Eval_spec.sound P (evaluator m') words rows (file_params value f' (Encoder_model.n_layers hp)).
Proof.
  intros L junk V value P order chunk widen f m n_kv kv qt words rows HL H Hd Ht Ha Hc Hq Hf Hn hp h Hws B0 B1 B2 HP B3 B4 B5 B6 B7 Hpad.
  destruct (C63_selection L junk V value order chunk widen f m n_kv kv qt HL H Hd Ht (fun s Hs Hw => proj1 (Hf s Hs Hw)))
    as (outs & ws & file & Hw & -> & Hqu).
  destruct (new_loads junk chunk widen f qt n_kv kv ws outs Hd Ha Hc Hq (fun s Hs Hw => proj2 (Hf s Hs Hw)) Hw L HL value order m H)
    as (m' & Hm' & Es & Ev).
  exists outs, ws, (meta n_kv kv ws ++ data_section outs), m'. split; [exact Hqu|]. cbv zeta. split; [exact Hw|]. split; [exact Hm'|].
  assert (Ehp : Eval_model.em_hp (evaluator m') = hp).
  { unfold hp, evaluator. rewrite Ev, Es. destruct (lo_vocab m); reflexivity. }
  assert (Ek : Eval_model.em_kind (evaluator m') = Eval_model.em_kind (evaluator m)).
  { unfold evaluator. rewrite Ev. destruct (lo_vocab m); reflexivity. }
  rewrite <- Ehp. eapply (C102_sound L junk V value P order _ true m' words rows HL Hm'); rewrite ?Ehp, ?Ek; try assumption.
  apply (C106_shapes junk chunk widen f qt n_kv kv ws outs h (Encoder_model.intermediate_dim hp) (Encoder_model.n_layers hp) (Encoder_model.segment_count hp)
           words rows Hd Ha Hc Hq (fun s Hs Hw => proj2 (Hf s Hs Hw)) Hw Hn). exact Hws.
Qed.
Print Assumptions C106_sound.

(** ** Where C64 fails *)

Definition same_all (f : file) (outs : list (gty * list N)) (ws : list winfo) : bool :=
  forallb (fun p => list_N_eqb (region f (seen (snd p))) (snd (fst p))) (combine outs ws).
Lemma same_all_ok f outs ws : Forall2 (fun o w => region f (seen w) = snd o) outs ws -> same_all f outs ws = true.
Proof.
  unfold same_all. induction 1 as [|o w outs ws H HF IH]; [reflexivity|]. cbn [combine forallb fst snd]. rewrite H, IH, list_N_eqb_refl.
  reflexivity.
Qed.

(** The result for a given file, computed. *)
Definition q_outs (f : file) (qt : gty) : list (gty * list N) :=
  match outs_of d_chunk d_widen qt (tensors_of d_junk f) with Some o => o | None => [] end.
Definition q_infos (f : file) (qt : gty) : list winfo := layout 0 (combine (tensors_of d_junk f) (map sized (q_outs f qt))).
Definition q_file (kv : list N) (f : file) (qt : gty) : list N := meta 1 kv (q_infos f qt) ++ data_section (q_outs f qt).

Lemma q_result kv f qt : is_loaded (d_load f) = true -> distinct_names f -> Forall trimmed (f_tensors f) ->
  (forall s, In s (tensors_of d_junk f) -> wanted s -> float_type (ti_type (st_info s))) ->
  written d_chunk d_widen qt (tensors_of d_junk f) (q_outs f qt) (q_infos f qt) /\
  forall dev, (forall i, length (q_file kv f qt) <= dev i) -> q_with kv f dev qt = Ok (true, Some (q_file kv f qt)).
Proof.
  intros H Hd Ht Hf. destruct (loaded_ex _ H) as (m & Hm).
  destruct (C63_selection P_Eval.lib64 d_junk Z d_value (fun l => l) d_chunk d_widen f m 1 kv qt lib64_ok Hm Hd Ht Hf)
    as (outs & ws & file & Hw & -> & Hq).
  destruct (written_unique _ _ _ _ _ _ Hw) as (Eo & Ew).
  assert (E1 : outs = q_outs f qt) by (unfold q_outs; rewrite Eo; reflexivity). subst outs.
  assert (E2 : ws = q_infos f qt) by exact Ew. subst ws. split; [exact Hw|exact Hq].
Qed.

(** The tool writes for an alignment of 32, but copies the setting that names another. *)
Definition with_alignment (a : N) (f : file) : file :=
  mkfile (fun k => match k with S_alignment => Some (SU32 a) | _ => f_set f k end) (f_tok f) (f_tensors f) (f_data f) (f_bytes f).
Definition f64 : file := with_alignment 64 d_file.
Definition a_kv : list N := repeat 0%N 20.

Theorem C64_alignment_refuted : exists f m kv outs ws file,
  d_load f = Ok (Loaded m) /\ distinct_names f /\ Forall trimmed (f_tensors f) /\
  f_set f S_alignment = Some (SU32 64) /\
  written d_chunk d_widen TF32 (tensors_of d_junk f) outs ws /\
  (forall dev, (forall i, length file <= dev i) -> q_with kv f dev TF32 = Ok (true, Some file)) /\
  ~ Forall2 (fun o w => region (reread f TF32 1 kv ws file) (seen w) = snd o) outs ws.
Proof.
  assert (E : is_loaded (d_load f64) = true) by (vm_compute; reflexivity).
  destruct (loaded_ex _ E) as (m & Hm).
  destruct (q_result a_kv f64 TF32 E d_distinct d_trimmed d_floats) as (Hw & Hq).
  exists f64, m, a_kv, (q_outs f64 TF32), (q_infos f64 TF32), (q_file a_kv f64 TF32).
  split; [exact Hm|]. split; [exact d_distinct|]. split; [exact d_trimmed|]. split; [reflexivity|]. split; [exact Hw|].
  split; [exact Hq|]. intros HF. apply same_all_ok in HF.
  assert (X : same_all (reread f64 TF32 1 a_kv (q_infos f64 TF32) (q_file a_kv f64 TF32)) (q_outs f64 TF32) (q_infos f64 TF32) = false)
    by (vm_compute; reflexivity).
  congruence.
Qed.
Print Assumptions C64_alignment_refuted.

(** Rows that are not whole blocks are cut. *)
Theorem C64_rows_refuted : exists f m kv outs ws file,
  d_load f = Ok (Loaded m) /\ distinct_names f /\ Forall trimmed (f_tensors f) /\ align_of f = 32%N /\
  written d_chunk d_widen TQ4_0 (tensors_of d_junk f) outs ws /\
  (forall dev, (forall i, length file <= dev i) -> q_with kv f dev TQ4_0 = Ok (true, Some file)) /\
  ~ Forall2 (fun o w => region (reread f TQ4_0 1 kv ws file) (seen w) = snd o) outs ws.
Proof.
  assert (E : is_loaded (d_load d_file) = true) by (vm_compute; reflexivity).
  destruct (loaded_ex _ E) as (m & Hm).
  destruct (q_result d_kv d_file TQ4_0 E d_distinct d_trimmed d_floats) as (Hw & Hq).
  exists d_file, m, d_kv, (q_outs d_file TQ4_0), (q_infos d_file TQ4_0), (q_file d_kv d_file TQ4_0).
  split; [exact Hm|]. split; [exact d_distinct|]. split; [exact d_trimmed|]. split; [reflexivity|]. split; [exact Hw|].
  split; [exact Hq|]. intros HF. apply same_all_ok in HF.
  assert (X : same_all (reread d_file TQ4_0 1 d_kv (q_infos d_file TQ4_0) (q_file d_kv d_file TQ4_0)) (q_outs d_file TQ4_0) (q_infos d_file TQ4_0) = false)
    by (vm_compute; reflexivity).
  congruence.
Qed.
Print Assumptions C64_rows_refuted.

Lemma d_norms : norms_flat d_file.
Proof.
  intros t p Hin En.
  assert (X : forallb (fun t => negb (list_N_eqb (skipn (length (ti_name t) - 16) (ti_name t)) (u "LayerNorm.weight")) || negb (ti_dims t =? 2)%N)
                (f_tensors d_file) = true) by (vm_compute; reflexivity).
  rewrite forallb_forall in X. specialize (X t Hin). cbv beta in X. rewrite En in X.
  rewrite app_length, skipn_app in X. change (length (u "LayerNorm.weight")) with 16 in X.
  replace (length p + 16 - 16) with (length p) in X by lia. rewrite skipn_all, Nat.sub_diag in X. cbn [skipn app] in X.
  rewrite list_N_eqb_refl in X. cbn [negb orb] in X. apply negb_true_iff, N.eqb_neq in X. exact X.
Qed.

(** The example file converted to F16 meets all conditions, loads, and its word
    embeddings are those of the source, at half the width. *)
Example C64_example :
  is_loaded (d_load d_file) = true /\ distinct_names d_file /\ Forall trimmed (f_tensors d_file) /\ align_of d_file = 32%N /\
  chunk_ok d_chunk /\ convertible TF16 = true /\
  (forall s, In s (tensors_of d_junk d_file) -> wanted s ->
     float_type (ti_type (st_info s)) /\ (N.of_nat (ti_ne0 (st_info s)) mod blck_size TF16 = 0)%N) /\
  norms_flat d_file /\ well_shaped d_file 2 2 1 2 5 4 /\
  let f' := reread d_file TF16 1 d_kv (q_infos d_file TF16) (q_file d_kv d_file TF16) in
  is_loaded (d_load f') = true /\
  map ti_type (filter (fun t => (ti_dims t =? 2)%N) (f_tensors f')) = repeat TF16 12 /\
  rows_of d_value f' (u "berts.bert.pooler.dense.bias") = [[7; 8]]%Z /\
  rows_of d_value f' (u "berts.bert.embeddings.word_embeddings.weight") = [[1; 2]; [3; 4]; [5; 0]; [0; 0]; [0; 0]]%Z.
Proof.
  split; [vm_compute; reflexivity|]. split; [exact d_distinct|]. split; [exact d_trimmed|]. split; [reflexivity|].
  split; [exact d_chunk_ok|]. split; [reflexivity|]. split.
  { intros s Hs Hw. split; [exact (d_floats s Hs Hw)|]. apply N.mod_1_r. }
  split; [exact d_norms|]. split; [exact d_shaped|]. cbv zeta. repeat split; vm_compute; reflexivity.
Qed.

(** ** C65: an interrupted run *)

(** Whatever the tensors: as long as the last write has not begun, however much of the last
    operation was done, the file does not look like a model. *)
Theorem C65_no_magic_before_end : forall chunk widen n_kv kv ts names qt os ended before after dev,
  program chunk widen n_kv kv ts names qt = Ok (os, ended) ->
  os = before ++ after -> (ended = true -> after <> []) ->
  ~ has_magic (s_bytes (do_ops stream0 0 dev before)).
Proof. intros. eapply no_magic; eassumption. Qed.
Print Assumptions C65_no_magic_before_end.

(** A run that gives up does not leave a model. *)
Theorem C65_failure_no_magic : forall L junk V (value : gty -> list N -> nat -> V) order chunk widen input reopen opens n_kv kv dev qt bytes,
  berts_model_quantize chunk widen L junk value order input reopen opens n_kv kv dev qt = Ok (false, Some bytes) ->
  ~ has_magic bytes.
Proof.
  intros L junk V value order chunk widen input reopen opens n_kv kv dev qt bytes H. unfold berts_model_quantize in H.
  destruct (type_to_str qt); try discriminate H. cbn [obind] in H.
  destruct (load_from_file L junk value order input reopen) as [[m|b]| | |]; try discriminate H; cbn [obind] in H.
  destruct input as [f|]; [|discriminate H].
  destruct (ctx_size L (f_tensors f) (f_tensors f)); try discriminate H. cbn [obind] in H.
  destruct (read_tensors L junk f _ 0 false (f_tensors f)) as [ts| | |]; try discriminate H. cbn [obind] in H.
  unfold quantize_to in H. destruct opens; [|discriminate H]. cbn [negb] in H.
  destruct (program chunk widen n_kv kv ts (map ti_name (f_tensors f)) qt) as [[os b]| | |] eqn:E; try discriminate H.
  cbn [obind fst snd] in H. injection H as -> <-.
  apply (no_magic chunk widen n_kv kv ts _ qt os false os [] dev E); [rewrite app_nil_r; reflexivity|discriminate].
Qed.
Print Assumptions C65_failure_no_magic.

(** But a last write that is cut short can leave the magic without the rest. *)
Theorem C65_torn_metadata : forall chunk widen n_kv kv ts names qt os,
  program chunk widen n_kv kv ts names qt = Ok (os, true) ->
  exists dev, has_magic (s_bytes (do_ops stream0 0 dev os)) /\ s_bad (do_ops stream0 0 dev os) = true.
Proof. intros. eapply torn_magic; eassumption. Qed.
Print Assumptions C65_torn_metadata.

Example C65_example :
  exists os, program d_chunk d_widen 1 d_kv (tensors_of d_junk d_file) (map ti_name (f_tensors d_file)) TF16 = Ok (os, true) /\
    length os = N.to_nat 3246 /\ has_magic (s_bytes (do_ops stream0 0 plenty os)).
Proof.
  assert (X : match program d_chunk d_widen 1 d_kv (tensors_of d_junk d_file) (map ti_name (f_tensors d_file)) TF16 with
              | Ok (os, true) => (length os =? N.to_nat 3246) && list_N_eqb (firstn 4 (s_bytes (do_ops stream0 0 plenty os))) (u "GGUF")
              | _ => false end = true) by (vm_compute; reflexivity).
  destruct (program d_chunk d_widen 1 d_kv (tensors_of d_junk d_file) (map ti_name (f_tensors d_file)) TF16) as [[os []]| | |];
    try discriminate X.
  exists os. split; [reflexivity|]. apply andb_true_iff in X as (X1 & X2). split; [apply Nat.eqb_eq; exact X1|].
  apply list_N_eqb_eq in X2. exists (skipn 4 (s_bytes (do_ops stream0 0 plenty os))). rewrite <- X2. symmetry. apply firstn_skipn.
Qed.

(** ** C66: success and complete files *)

(** Success is reported even when nothing could be written. *)
Theorem C66_success_means_complete_refuted : exists f m qt file,
  d_load f = Ok (Loaded m) /\ distinct_names f /\
  (forall dev, (forall i, length file <= dev i) -> q_with d_kv f dev qt = Ok (true, Some file)) /\
  q_with d_kv f (fun _ => 0) qt = Ok (true, Some []) /\ file <> [].
Proof.
  assert (E : is_loaded (d_load d_file) = true) by (vm_compute; reflexivity).
  destruct (loaded_ex _ E) as (m & Hm).
  destruct (q_result d_kv d_file TF16 E d_distinct d_trimmed d_floats) as (Hw & Hq).
  exists d_file, m, TF16, (q_file d_kv d_file TF16). split; [exact Hm|]. split; [exact d_distinct|]. split; [exact Hq|].
  split; [vm_compute; reflexivity|]. unfold q_file. intros H. apply app_eq_nil in H as (H & _).
  assert (P := meta_pos 1 d_kv (q_infos d_file TF16)). rewrite H in P. inversion P.
Qed.
Print Assumptions C66_success_means_complete_refuted.

(** In general no write failure changes the result. *)
Theorem C66_failures_ignored : forall L junk V (value : gty -> list N -> nat -> V) order chunk widen input reopen opens n_kv kv dev dev' qt b bytes,
  berts_model_quantize chunk widen L junk value order input reopen opens n_kv kv dev qt = Ok (b, Some bytes) ->
  exists bytes', berts_model_quantize chunk widen L junk value order input reopen opens n_kv kv dev' qt = Ok (b, Some bytes').
Proof.
  intros L junk V value order chunk widen input reopen opens n_kv kv dev dev' qt b bytes H. unfold berts_model_quantize in *.
  destruct (type_to_str qt); try discriminate H. cbn [obind] in *.
  destruct (load_from_file L junk value order input reopen) as [[m|r]| | |]; try discriminate H; cbn [obind] in *.
  destruct input as [f|]; [|discriminate H].
  destruct (ctx_size L (f_tensors f) (f_tensors f)); try discriminate H. cbn [obind] in *.
  destruct (read_tensors L junk f _ 0 false (f_tensors f)) as [ts| | |]; try discriminate H. cbn [obind] in *.
  unfold quantize_to in *. destruct opens; [|discriminate H]. cbn [negb] in *.
  destruct (program chunk widen n_kv kv ts (map ti_name (f_tensors f)) qt) as [[os b']| | |]; try discriminate H.
  cbn [obind fst snd] in *. injection H as -> _. eauto.
Qed.
Print Assumptions C66_failures_ignored.

(** If the stream is good at the end, everything is in the file. *)
Theorem C66_complete_partial : forall chunk widen n_kv kv ts qt os dev, pool_ok ts ->
  program chunk widen n_kv kv ts (map st_name ts) qt = Ok (os, true) ->
  s_bad (do_ops stream0 0 dev os) = false ->
  exists outs ws, written chunk widen qt ts outs ws /\
    s_bytes (do_ops stream0 0 dev os) = meta n_kv kv ws ++ data_section outs.
Proof.
  intros chunk widen n_kv kv ts qt os dev Hp Hpr Hb.
  assert (P := program_ok chunk widen qt n_kv kv ts (po_short _ Hp) (po_distinct _ Hp) (po_trimmed _ Hp)).
  rewrite Hpr in P. cbv zeta in P. destruct (outs_of chunk widen qt ts) as [outs|] eqn:Ho; [|discriminate].
  apply (f_equal (fun o => match o with Ok (x, _) => x | _ => [] end)) in P. cbv beta iota in P. exists outs, (layout 0 (combine ts (map sized outs))). split; [apply layout_written, Ho|].
  rewrite (outs_before_all _ _ _ _ _ Ho) in P.
  assert (El : length ts = length (map sized outs)).
  { rewrite map_length. apply outs_some in Ho. eapply Forall2_len. exact Ho. }
  assert (Em : meta_size n_kv kv (layout 0 (map original ts)) = meta_size n_kv kv (layout 0 (combine ts (map sized outs)))).
  { apply meta_same. rewrite map_fst_combine by exact El. rewrite map_map. apply map_id. }
  rewrite Em in P. subst os. apply final_file; [unfold meta_size; rewrite Nat2N.id; reflexivity|exact Hb].
Qed.
Print Assumptions C66_complete_partial.

(** ** C99: the label of the file *)

(** general.file_type is written as the number of the ggml type, but read as a number of the
    list of file types. *)
Theorem C99_label_refuted : exists qt label, In qt offered /\ type_to_str qt = Ok label /\ ~ mentions label (type_name qt) /\
  qt = TQ8_0 /\ label = u "MOSTLY_Q5_0".
Proof.
  exists TQ8_0, (u "MOSTLY_Q5_0"). split; [cbn; tauto|]. split; [reflexivity|]. split; [|split; reflexivity].
  intros (a & b & E). assert (Hin : In 56%N (u "MOSTLY_Q5_0")).
  { rewrite E. apply in_app_iff. right. apply in_app_iff. left. cbn. tauto. }
  vm_compute in Hin. intuition discriminate.
Qed.
Print Assumptions C99_label_refuted.

(** Which labels are right. *)
Definition mentionsb (whole part : list N) : bool :=
  existsb (fun i => list_N_eqb (firstn (length part) (skipn i whole)) part) (seq 0 (S (length whole))).
Lemma mentionsb_ok whole part : mentionsb whole part = true <-> mentions whole part.
Proof.
  unfold mentionsb, mentions. rewrite existsb_exists. split.
  - intros (i & _ & E). apply list_N_eqb_eq in E. exists (firstn i whole), (skipn (length part) (skipn i whole)).
    rewrite <- E at 1. rewrite firstn_skipn, firstn_skipn. reflexivity.
  - intros (a & b & ->). exists (length a). split.
    + apply in_seq. rewrite !app_length. lia.
    + rewrite skipn_app, skipn_all, Nat.sub_diag. cbn [skipn app].
      rewrite firstn_app, firstn_all, Nat.sub_diag. cbn [firstn]. rewrite app_nil_r. apply list_N_eqb_refl.
Qed.

Theorem C99_label_iff : forall qt, In qt offered ->
  ((exists label, type_to_str qt = Ok label /\ mentions label (type_name qt)) <->
   In qt [TF32; TF16; TQ4_0; TQ4_1; TQ2_K; TQ3_K]).
Proof.
  intros qt Hq. split.
  - intros (label & E & M). apply mentionsb_ok in M. cbn [offered In] in Hq.
    intuition subst; vm_compute in E; injection E as <-; vm_compute in M; try discriminate M; cbn; tauto.
  - cbn [In]. intros H. intuition subst; eexists; (split; [reflexivity|apply mentionsb_ok; vm_compute; reflexivity]).
Qed.
Print Assumptions C99_label_iff.

(** ** C103: the conversion buffer *)

(** quantize.cpp:22-28 gives it four bytes per element; no conversion needs more. *)
Theorem C103_buffer_enough : forall chunk t data n, chunk_ok chunk -> convertible t = true ->
  length (chunk t data n) <= 4 * n.
Proof.
  intros chunk t data n Hc Ht. specialize (Hc t data n Ht).
  assert (D : (N.of_nat n / blck_size t * blck_size t <= N.of_nat n)%N).
  { rewrite N.mul_comm. apply N.mul_div_le. assert (B := blck_pos t). lia. }
  assert (S : (type_size t <= 4 * blck_size t)%N) by (destruct t; vm_compute; discriminate).
  nia.
Qed.
Print Assumptions C103_buffer_enough.

(** F32 uses all of it. *)
Example C103_example : chunk_ok d_chunk /\ length (d_chunk TF32 [] 10) = 4 * 10 /\ length (d_chunk TQ4_0 [] 64) = 36.
Proof. split; [exact d_chunk_ok|]. split; reflexivity. Qed.

(** ** C104: every type offered *)

(** Q8_1 is offered, success is reported, but no weight is in the file and it does not load.
    The example is the usual one with the embeddings at the end. *)
Definition w_file : file :=
  a_file 0 0 (d_vocab ++ skipn 2 d_rest ++ d_layer ++ d_pooler ++ d_head ++ d_words :: firstn 2 d_rest).
Lemma w_distinct : distinct_names w_file.
Proof. apply distinctb_ok. vm_compute. reflexivity. Qed.
Lemma w_trimmed : Forall trimmed (f_tensors w_file).
Proof. apply trimmedb_ok. vm_compute. reflexivity. Qed.
Lemma w_floats s : In s (tensors_of d_junk w_file) -> wanted s -> float_type (ti_type (st_info s)).
Proof.
  intros Hs Hw. apply wanted_iff in Hw.
  assert (X : forallb (fun s => negb (is_weight (st_name s) && (ti_dims (st_info s) =? 2)%N) || floatb (ti_type (st_info s)))
     (tensors_of d_junk w_file) = true) by (vm_compute; reflexivity).
  rewrite forallb_forall in X. specialize (X s Hs). cbv beta in X. rewrite Hw in X. unfold float_type.
  destruct (ti_type (st_info s)); try discriminate; auto.
Qed.

Theorem C104_all_types_load_refuted : exists f m qt outs ws file,
  In qt offered /\ d_load f = Ok (Loaded m) /\ distinct_names f /\ Forall trimmed (f_tensors f) /\ align_of f = 32%N /\
  written d_chunk d_widen qt (tensors_of d_junk f) outs ws /\
  (forall dev, (forall i, length file <= dev i) -> q_with d_kv f dev qt = Ok (true, Some file)) /\
  d_load (reread f qt 1 d_kv ws file) = Ok (Null false).
Proof.
  assert (E : is_loaded (d_load w_file) = true) by (vm_compute; reflexivity).
  destruct (loaded_ex _ E) as (m & Hm).
  destruct (q_result d_kv w_file TQ8_1 E w_distinct w_trimmed w_floats) as (Hw & Hq).
  exists w_file, m, TQ8_1, (q_outs w_file TQ8_1), (q_infos w_file TQ8_1), (q_file d_kv w_file TQ8_1).
  split; [cbn; tauto|]. split; [exact Hm|]. split; [exact w_distinct|]. split; [exact w_trimmed|]. split; [reflexivity|].
  split; [exact Hw|]. split; [exact Hq|]. vm_compute. reflexivity.
Qed.
Print Assumptions C104_all_types_load_refuted.

(** Whatever the model: a two-dimensional weight converted to Q8_1 has no bytes. *)
Theorem C104_q8_1_loses_weights : forall chunk widen ts outs ws s o,
  written chunk widen TQ8_1 ts outs ws -> In (s, o) (combine ts outs) -> wanted s -> o = (TQ8_1, []).
Proof.
  intros chunk widen ts outs ws s o Hw Hin Hs.
  assert (Hb : becomes chunk widen TQ8_1 s (fst o) (snd o)).
  { assert (HF := wr_becomes _ _ _ _ _ _ Hw). clear - HF Hin. induction HF; [destruct Hin|].
    destruct Hin as [E|Hin]; [injection E as -> ->; assumption|auto]. }
  destruct o as [t bs]. cbn [fst snd] in Hb. inversion Hb; subst; try contradiction; try discriminate. reflexivity.
Qed.
Print Assumptions C104_q8_1_loses_weights.

(** All the other types give a file that loads, if the weights are floats, their rows whole
    blocks and the alignment is 32. *)
Theorem C104_types_partial : forall qt, In qt offered -> qt <> TQ8_1 ->
  forall L junk V (value : gty -> list N -> nat -> V) order chunk widen f m n_kv kv,
  lib_ok L -> load_from_file L junk value order (Some f) true = Ok (Loaded m) ->
  distinct_names f -> Forall trimmed (f_tensors f) -> align_of f = 32%N -> chunk_ok chunk ->
  (forall s, In s (tensors_of junk f) -> wanted s ->
     float_type (ti_type (st_info s)) /\ (N.of_nat (ti_ne0 (st_info s)) mod blck_size qt = 0)%N) ->
  exists ws file m',
    (forall dev, (forall i, length file <= dev i) ->
       berts_model_quantize chunk widen L junk value order (Some f) true true n_kv kv dev qt = Ok (true, Some file)) /\
    load_from_file L junk value order (Some (reread f qt n_kv kv ws file)) true = Ok (Loaded m').
Proof.
  intros qt Hin Hq L junk V value order chunk widen f m n_kv kv HL H Hd Ht Ha Hc Hf.
  assert (Hcv : convertible qt = true) by (cbn [offered In] in Hin; intuition subst; try reflexivity; congruence).
  destruct (C64_loads_partial L junk V value order chunk widen f m n_kv kv qt HL H Hd Ht Ha Hc Hcv Hf)
    as (outs & ws & file & m' & _ & Hqu & Hl & _). eauto.
Qed.
Print Assumptions C104_types_partial.

(** ** C105: nothing is touched without a model *)

(** The output is opened only after the model was loaded; without it, or if it cannot be
    opened, the result is false. *)
Theorem C105_not_touched : forall L junk V (value : gty -> list N -> nat -> V) order chunk widen input reopen opens n_kv kv dev qt,
  (forall h, load_from_file L junk value order input reopen = Ok (Null h) ->
     berts_model_quantize chunk widen L junk value order input reopen opens n_kv kv dev qt = Ok (false, None)) /\
  (forall b file, berts_model_quantize chunk widen L junk value order input reopen opens n_kv kv dev qt = Ok (b, file) ->
     (b = true -> file <> None) /\
     (file <> None -> opens = true /\ exists m, load_from_file L junk value order input reopen = Ok (Loaded m))).
Proof.
  intros L junk V value order chunk widen input reopen opens n_kv kv dev qt. split.
  - intros h H. unfold berts_model_quantize. destruct (code_ok qt) as (s & ->). cbn [obind]. rewrite H. reflexivity.
  - intros b file H. unfold berts_model_quantize in H. destruct (code_ok qt) as (s & E). rewrite E in H. cbn [obind] in H.
    destruct (load_from_file L junk value order input reopen) as [[m|h]| | |]; try discriminate H; cbn [obind] in H.
    2:{ injection H as <- <-. split; [discriminate|congruence]. }
    destruct input as [f|]; [|injection H as <- <-; split; [discriminate|congruence]].
    destruct (ctx_size L (f_tensors f) (f_tensors f)); try discriminate H. cbn [obind] in H.
    destruct (read_tensors L junk f _ 0 false (f_tensors f)) as [ts| | |]; try discriminate H. cbn [obind] in H.
    unfold quantize_to in H. destruct opens; cbn [negb] in H; [|injection H as <- <-; split; [discriminate|congruence]].
    destruct (program chunk widen n_kv kv ts (map ti_name (f_tensors f)) qt) as [[os b']| | |]; try discriminate H.
    cbn [obind fst snd] in H. injection H as <- <-. split; [discriminate|]. intros _. split; [reflexivity|eauto].
Qed.
Print Assumptions C105_not_touched.

(** It is defined whenever loading is and no name is used twice. *)
Theorem C105_defined : forall L junk V (value : gty -> list N -> nat -> V) order chunk widen f m opens n_kv kv dev qt,
  lib_ok L -> load_from_file L junk value order (Some f) true = Ok (Loaded m) -> distinct_names f -> Forall trimmed (f_tensors f) ->
  exists r, berts_model_quantize chunk widen L junk value order (Some f) true opens n_kv kv dev qt = Ok r.
Proof.
  intros L junk V value order chunk widen f m opens n_kv kv dev qt HL H Hd Ht.
  rewrite (quantize_loaded L HL junk value order chunk widen f m opens n_kv kv dev qt H Hd).
  destruct opens; [|unfold quantize_to; cbn [negb]; eauto].
  assert (Hp := loaded_pool L HL junk value order f m H Hd Ht).
  destruct (outs_of chunk widen qt (tensors_of junk f)) as [outs|] eqn:Eo.
  - destruct (quantize_pool chunk widen (tensors_of junk f) outs n_kv kv qt Hp Eo) as (ws & _ & _ & Hq & _).
    destruct (Hq dev) as (bytes & ->). eauto.
  - destruct (quantize_pool_fails chunk widen (tensors_of junk f) n_kv kv qt dev Hp Eo) as (bytes & ->). eauto.
Qed.
Print Assumptions C105_defined.

Example C105_example :
  d_load (a_file 1 0 d_pieces) = Ok (Null false) /\
  q_with d_kv (a_file 1 0 d_pieces) plenty TF16 = Ok (false, None) /\
  match q_with d_kv d_file plenty TF16 with Ok (true, Some b) => (N.of_nat (length b) =? 3520)%N = true | _ => False end.
Proof.
  split; [vm_compute; reflexivity|]. split; [vm_compute; reflexivity|]. vm_compute. reflexivity.
Qed.
