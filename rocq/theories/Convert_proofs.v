(** Lemmas about the converter. *)
From Verif Require Import Base Assoc Bert_model Vocab_model Vocab_spec Vocab_proofs Bpe_model Roberta_model Utf_spec Loader_model
  Loader_spec Loader_proofs Quantize_model Quantize_spec Quantize_proofs Gguf_model Gguf_spec Gguf_proofs Convert_model Convert_spec.
From Verif Require Ggml_model Encoder_model Encoder_spec Eval_model.
Local Open Scope nat_scope.

(** ** The writer *)

Definition prod (l : list nat) : nat := fold_right Nat.mul 1 l.

Record array_ok (t : wtensor) : Prop := {
  ao_zero : ~ In 0%N (o_name t); ao_name : length (o_name t) < 64;
  ao_dims : length (o_shape t) <= 4; ao_block : blck_size (o_type t) = 1%N;
  ao_size : N.of_nat (length (o_bytes t)) = (N.of_nat (prod (o_shape t)) * type_size (o_type t))%N;
  ao_extents : Forall (fun n => n <= length (o_bytes t)) (o_shape t)
}.

Fixpoint infos_from (off : N) (ts : list wtensor) : list winfo :=
  match ts with
  | [] => []
  | t :: ts' =>
      let e k := nth k (rev (o_shape t)) 1 in
      mkwi (o_name t) (o_type t) (N.of_nat (length (o_shape t))) (e 0) (e 1) (e 2) (e 3) off (N.of_nat (length (o_bytes t))) ::
      infos_from (off + ggml_pad (N.of_nat (length (o_bytes t))))%N ts'
  end.
Definition outs_of_arrays (ts : list wtensor) : list (gty * list N) := map (fun t => (o_type t, o_bytes t)) ts.

Lemma pad_same n : ggml_pad n = pad32 n.
Proof. reflexivity. Qed.

Lemma four_extents (l : list nat) : length l <= 4 -> firstn (length l) [nth 0 l 1; nth 1 l 1; nth 2 l 1; nth 3 l 1] = l.
Proof. intros H. destruct l as [|a [|b [|c [|d [|e l]]]]]; cbn in H |- *; try lia; reflexivity. Qed.

Lemma put_infos_eq ts : Forall array_ok ts -> forall off, put_infos off ts = concat (map write_info (infos_from off ts)).
Proof.
  induction 1 as [|t ts Ht H IH]; intros off; [reflexivity|]. cbn [put_infos infos_from map concat]. rewrite <- IH.
  f_equal. unfold put_info, write_info. cbn [w_name w_dims w_ne0 w_ne1 w_ne2 w_ne3 w_type w_offset].
  rewrite Nat2N.id, <- (rev_length (o_shape t)), four_extents by (rewrite rev_length; apply Ht). reflexivity.
Qed.

Lemma infos_count ts : forall off, length (infos_from off ts) = length ts.
Proof. induction ts as [|t ts IH]; intros off; cbn [infos_from length]; [reflexivity|rewrite IH; reflexivity]. Qed.

Lemma data_eq ts : concat (map (fun t => fill_up (o_bytes t)) ts) = data_section (outs_of_arrays ts).
Proof.
  unfold data_section, outs_of_arrays. rewrite map_map. f_equal. apply map_ext. intros t. cbn [snd]. unfold fill_up, padding.
  f_equal. f_equal. rewrite pad_same. lia.
Qed.

Lemma put_file_eq kvs ts : Forall array_ok ts ->
  put_file kvs ts = meta (N.of_nat (length kvs)) (put_kvs kvs) (infos_from 0 ts) ++ data_section (outs_of_arrays ts).
Proof.
  intros H. unfold put_file. rewrite data_eq. f_equal. unfold meta, fill_up. cbv zeta. rewrite pad_same.
  unfold raw_meta, GGUF. rewrite infos_count, put_infos_eq by exact H. reflexivity.
Qed.

Lemma infos_offsets ts : forall off, offsets_from off (infos_from off ts).
Proof. induction ts as [|t ts IH]; intros off; cbn [infos_from]; constructor; [reflexivity|]. cbn [w_size]. rewrite <- pad_same. apply IH. Qed.

Lemma infos_sizes ts : forall off, Forall2 (fun o w => w_size w = N.of_nat (length (snd o))) (outs_of_arrays ts) (infos_from off ts).
Proof. induction ts as [|t ts IH]; intros off; cbn [infos_from outs_of_arrays map]; constructor; [reflexivity|apply IH]. Qed.

Definition is_info (t : wtensor) (w : winfo) : Prop :=
  w_name w = o_name t /\ w_type w = o_type t /\ w_dims w = N.of_nat (length (o_shape t)) /\
  w_ne0 w = nth 0 (rev (o_shape t)) 1 /\ w_ne1 w = nth 1 (rev (o_shape t)) 1 /\
  w_ne2 w = nth 2 (rev (o_shape t)) 1 /\ w_ne3 w = nth 3 (rev (o_shape t)) 1 /\ w_size w = N.of_nat (length (o_bytes t)).

Lemma infos_are ts : forall off, Forall2 is_info ts (infos_from off ts).
Proof. induction ts as [|t ts IH]; intros off; cbn [infos_from]; constructor; [repeat split|apply IH]. Qed.

Lemma prod_rev l : prod (rev l) = prod l.
Proof.
  assert (C : forall x m, prod (x :: m) = x * prod m) by reflexivity.
  assert (P : forall a b, prod (a ++ b) = prod a * prod b).
  { induction a as [|x a IH]; intros b; cbn [app]; [change (prod []) with 1; ring|]. rewrite !C, IH. ring. }
  induction l as [|x l IH]; [reflexivity|]. cbn [rev]. rewrite P, IH, !C. change (prod []) with 1. ring.
Qed.

Lemma prod_four (l : list nat) : length l <= 4 -> nth 0 l 1 * nth 1 l 1 * nth 2 l 1 * nth 3 l 1 = prod l.
Proof. intros H. destruct l as [|a [|b [|c [|d [|e l]]]]]; cbn in H |- *; [ring..|lia]. Qed.

Lemma size_info t w : array_ok t -> is_info t w -> nbytes (seen w) = w_size w.
Proof.
  intros A (E1 & E2 & E3 & E4 & E5 & E6 & E7 & E8). rewrite whole_size.
  2:{ unfold whole_rows, seen. cbn [ti_type ti_ne0]. rewrite E2, (ao_block _ A). apply N.mod_1_r. }
  unfold seen at 2 3. cbn [ti_type]. rewrite E2, (ao_block _ A), N.div_1_r, E8, (ao_size _ A). f_equal. f_equal.
  unfold elements, seen. cbn [ti_ne0 ti_ne1 ti_ne2 ti_ne3]. rewrite E4, E5, E6, E7, prod_four, prod_rev; [reflexivity|].
  rewrite rev_length. apply A.
Qed.

Lemma zip_mapped {A B C} (g : A -> B) (R : B -> C -> Prop) (Q : A -> C -> Prop) l l' :
  Forall2 R (map g l) l' -> Forall2 Q l l' -> Forall2 (fun a c => Q a c /\ R (g a) c) l l'.
Proof.
  intros H1 H2. induction H2 as [|a c l l' Ha H2 IH]; constructor; inversion H1; subst; auto.
Qed.

Section Read.
Variables (kvs : list kv) (ts : list wtensor).
Hypothesis (Hk : Forall wf_kv kvs) (Ha : alignment kvs = Ok 32%N) (Hts : Forall array_ok ts) (Hd : NoDup (map o_name ts)).
Let bytes := put_file kvs ts.
Hypothesis (Hf : fits64 (N.of_nat (length bytes))).
Let ws := infos_from 0 ts.
Let n_kv := N.of_nat (length kvs).

Definition file_read : file :=
  mkfile (fun k => option_map as_setting (find_key kvs (setting_key k)))
    (fun k => option_map as_tok (find_key kvs (tok_key k))) (map seen ws) (data_start 32 n_kv (put_kvs kvs) ws) bytes.

Lemma all_placed : Forall2 (fun t w => is_info t w /\
    slice bytes (data_start 32 n_kv (put_kvs kvs) ws + w_offset w) (w_size w) = o_bytes t /\
    (data_start 32 n_kv (put_kvs kvs) ws + w_offset w + w_size w <= N.of_nat (length bytes))%N) ts ws.
Proof.
  assert (D := data_at (data_start 32 n_kv (put_kvs kvs) ws) 0 ws (outs_of_arrays ts) (infos_offsets ts 0) (infos_sizes ts 0)
    (meta n_kv (put_kvs kvs) ws) ltac:(rewrite meta_length; lia)).
  unfold n_kv, ws in D. rewrite <- put_file_eq in D by exact Hts. fold bytes ws n_kv in D.
  exact (zip_mapped _ _ _ _ _ D (infos_are ts 0)).
Qed.

Lemma all_infos : Forall wf_info ws.
Proof.
  assert (P := all_placed). unfold fits64 in Hf. apply Forall_forall. intros x Hx.
  assert (X : exists t, array_ok t /\ is_info t x /\ (w_offset x + w_size x <= N.of_nat (length bytes))%N).
  { revert P Hts Hx. generalize (data_start 32 n_kv (put_kvs kvs) ws). generalize bytes. generalize ws. clear.
    intros ws bytes base P. induction P as [|t w ts ws Hw P IH]; intros Hts Hx; [destruct Hx|].
    apply Forall_cons_iff in Hts as (H1 & H2). destruct Hx as [->|Hx]; [|apply IH; assumption].
    exists t. destruct Hw as (W1 & _ & W3). split; [exact H1|]. split; [exact W1|]. lia. }
  destruct X as (t & Ht & X).
  destruct X as ((E1 & E2 & E3 & E4 & E5 & E6 & E7 & E8) & L). rewrite E8 in L.
  assert (Q : forall k, (N.of_nat (nth k (rev (o_shape t)) 1%nat) < 18446744073709551616)%N).
  { intros k. destruct (Nat.lt_ge_cases k (length (rev (o_shape t)))) as [Hl|Hl].
    - assert (Hin := nth_In (rev (o_shape t)) 1 Hl). apply in_rev in Hin.
      assert (X := ao_extents _ Ht). rewrite Forall_forall in X. specialize (X _ Hin). cbv beta in X. lia.
    - rewrite nth_overflow by exact Hl. reflexivity. }
  constructor.
  - unfold short, fits64. rewrite E1. assert (X := ao_name _ Ht). lia.
  - rewrite E1. apply Ht.
  - unfold trimmed, seen. cbn [ti_dims ti_ne0 ti_ne1 ti_ne2 ti_ne3]. rewrite E3, E4, E5, E6, E7. assert (X := ao_dims _ Ht).
    repeat split; try lia; intros; apply nth_overflow; rewrite rev_length; lia.
  - unfold fits64. rewrite E4. apply Q.
  - unfold fits64. rewrite E5. apply Q.
  - unfold fits64. rewrite E6. apply Q.
  - unfold fits64. rewrite E7. apply Q.
  - unfold fits64. lia.
  - rewrite E2, (ao_block _ Ht). apply N.mod_1_r.
Qed.

Lemma read_converted : read_gguf bytes = Ok (kvs, file_read).
Proof.
  assert (E : exists tail, bytes = raw_meta n_kv (put_kvs kvs) ws ++ tail).
  { unfold bytes. rewrite put_file_eq by exact Hts. unfold meta. cbv zeta. rewrite <- app_assoc. eexists. reflexivity. }
  destruct E as (tail & E).
  assert (F1 : (N.of_nat (length kvs) <= N.of_nat (length bytes))%N /\ (N.of_nat (length ws) <= N.of_nat (length bytes))%N).
  { rewrite E, app_length. unfold raw_meta. rewrite !app_length, !le_length.
    assert (P := put_kvs_length kvs). assert (Q := Gguf_proofs.infos_length ws). lia. }
  unfold fits64 in Hf. unfold file_read. rewrite E.
  apply read_written_at; try assumption; try exact all_infos; unfold fits64; lia.
Qed.

Lemma names_read : map ti_name (f_tensors file_read) = map o_name ts.
Proof.
  cbn [file_read f_tensors]. assert (P := infos_are ts 0). fold ws in P. revert P. generalize ws. clear.
  induction ts as [|t l IH]; intros w P; inversion P as [|? x ? w' Hx Hw]; subst; [reflexivity|]. cbn [map]. rewrite (IH _ Hw).
  f_equal. apply Hx.
Qed.

Lemma distinct_read : distinct_names file_read.
Proof. unfold distinct_names. rewrite names_read. exact Hd. Qed.

Lemma short_read : short_names file_read.
Proof.
  unfold short_names. apply Forall_forall. intros t Ht. apply (in_map ti_name) in Ht. rewrite names_read in Ht.
  apply in_map_iff in Ht as (x & <- & Hx). rewrite Forall_forall in Hts. apply Hts, Hx.
Qed.

Lemma tensor_stored t : In t ts -> exists i, named file_read (o_name t) = Some i /\ contained file_read i /\ ti_type i = o_type t /\
  ti_dims i = N.of_nat (length (o_shape t)) /\
  [ti_ne0 i; ti_ne1 i; ti_ne2 i; ti_ne3 i] = firstn 4 (rev (o_shape t) ++ [1; 1; 1; 1]) /\ region file_read i = o_bytes t.
Proof.
  intros Ht. assert (P := all_placed).
  assert (X : exists w, In w ws /\ is_info t w /\
    slice bytes (data_start 32 n_kv (put_kvs kvs) ws + w_offset w) (w_size w) = o_bytes t /\
    (data_start 32 n_kv (put_kvs kvs) ws + w_offset w + w_size w <= N.of_nat (length bytes))%N).
  { destruct (Forall2_pick _ _ _ t P Ht) as (w & Hw & H). exists w. split; [exact Hw|exact H]. }
  destruct X as (w & Hw & I & S & C). rewrite Forall_forall in Hts. assert (A := Hts t Ht).
  assert (Z := size_info t w A I). destruct I as (E1 & E2 & E3 & E4 & E5 & E6 & E7 & E8).
  exists (seen w). split; [|split; [|split; [|split; [|split]]]].
  - rewrite <- E1. apply (named_in file_read (seen w)); [apply distinct_read|]. cbn [file_read f_tensors]. apply in_map, Hw.
  - unfold contained, file_read. cbn [f_data f_bytes]. rewrite Z. cbn [ti_offset seen]. exact C.
  - exact E2.
  - exact E3.
  - cbn [seen ti_ne0 ti_ne1 ti_ne2 ti_ne3]. rewrite E4, E5, E6, E7. assert (D := ao_dims _ A). rewrite <- rev_length in D.
    destruct (rev (o_shape t)) as [|a [|b [|c [|d [|e l]]]]]; cbn in D |- *; try lia; reflexivity.
  - unfold region, file_read. cbn [f_data f_bytes]. rewrite Z. exact S.
Qed.

Lemma contained_read : Forall (contained file_read) (f_tensors file_read).
Proof.
  apply Forall_forall. intros i Hi. assert (Hn := in_map ti_name _ _ Hi). rewrite names_read in Hn.
  apply in_map_iff in Hn as (t & En & Ht). destruct (tensor_stored t Ht) as (j & Hj & C & _).
  rewrite En, (named_in file_read i distinct_read Hi) in Hj. injection Hj as <-. exact C.
Qed.

Lemma has_read n : has file_read n <-> In n (map o_name ts).
Proof.
  unfold has. rewrite <- names_read. rewrite in_map_iff. split; intros (t & A & B); exists t; auto.
Qed.

Lemma readable_read : readable file_read.
Proof.
  intros made Hm. rewrite (copies_distinct _ _ distinct_read Hm). apply Forall_forall. intros p Hp. left.
  assert (Q : In p (combine (f_tensors file_read) (f_tensors file_read))).
  { revert Hp. generalize (combine (f_tensors file_read) (f_tensors file_read)). intros l. induction l as [|x l IH]; [intros []|].
    cbn [removelast]. destruct l as [|y l]; [intros []|]. intros [->|H]; [left; reflexivity|right; apply IH, H]. }
  assert (R : fst p = snd p /\ In (snd p) (f_tensors file_read)).
  { revert Q. generalize (f_tensors file_read). clear. intros l. induction l as [|x l IH]; [intros []|]. cbn [combine].
    intros [<-|H]; [split; [reflexivity|left; reflexivity]|]. destruct (IH H) as (A & B). split; [exact A|right; exact B]. }
  destruct R as (-> & R). assert (C := contained_read). rewrite Forall_forall in C. apply C, R.
Qed.
End Read.

(** ** Pairs *)

Definition piece (p : list N * option kval) : list kv := match snd p with Some v => [mkkv (fst p) v] | None => [] end.
Definition pieces {E} (c : checkpoint E) (f32 : bool) (a : N) : list (list N * option kval) :=
  let num n := Some (VScalar 4 (le 4 n)) in
  let id k := option_map (fun n => VScalar 4 (le 4 n)) (ck_ids c k) in
  let more k := match ck_class c with BertModel => None | _ => id k end in
  let flag k := match ck_class c with
                | BertModel => option_map (fun b : bool => VScalar 7 [if b then 1%N else 0%N]) (ck_flags c k)
                | _ => None end in
  [(u "general.architecture", Some (VStr (match ck_class c with BertModel => u "BERT" | _ => u "RoBERTa" end)));
   (u "general.name", match ck_repo c with [] => None | s => Some (VStr s) end);
   (u "general.alignment", num 32%N);
   (u "berts.bert_type", num (match ck_class c with BertModel => 0%N | _ => 1%N end));
   (u "berts.vocab_size", num (ck_vocab_size c)); (u "berts.hidden_dim", num (ck_hidden c));
   (u "berts.n_layers", num (ck_layers c)); (u "berts.attn_heads", num (ck_heads c));
   (u "berts.max_token", num (ck_positions c)); (u "berts.intermediate_dim", num (ck_inter c));
   (u "berts.hidden_act", num a); (u "berts.layer_norm_eps", Some (VScalar 12 (le 8 (ck_eps c))));
   (u "berts.segments", num (ck_segments c)); (u "berts.initializer_range", Some (VScalar 12 (le 8 (ck_range c))));
   (u "berts.cls_id", id K_cls); (u "berts.mask_id", id K_mask); (u "berts.pad_id", id K_pad); (u "berts.sep_id", id K_sep);
   (u "berts.unk_id", id K_unk); (u "berts.bos_id", more K_bos); (u "berts.eos_id", more K_eos);
   (u "berts.do_lower_case", flag K_lower); (u "berts.do_basic_tokenize", flag K_basic);
   (u "berts.tokenize_chinese_chars", flag K_cjk); (u "berts.strip_accent", flag K_accent);
   (u "general.file_type", num (if f32 then 0 else 1)%N)].

Lemma all_some_iff {A} (l : list (option A)) r : all_some l = Some r <-> l = map Some r.
Proof.
  revert r. induction l as [|[x|] l IH]; intros r; cbn [all_some].
  - destruct r; split; intros H; try discriminate H; reflexivity.
  - destruct (all_some l) as [s|] eqn:F; cbn [option_map].
    + split; intros H; [injection H as <-; cbn [map]; f_equal; apply IH; reflexivity|].
      destruct r as [|y r]; [discriminate H|]. cbn [map] in H. injection H as -> H. apply IH in H. congruence.
    + split; intros H; [discriminate H|]. destruct r as [|y r]; [discriminate H|]. injection H as -> H. apply IH in H. discriminate H.
  - split; intros H; [discriminate H|]. destruct r; discriminate H.
Qed.

Definition strip {A} (o : option A) : list A := match o with Some x => [x] | None => [] end.
Lemma strip_somes {A} (r : list A) : flat_map strip (map Some r) = r.
Proof. induction r as [|x r IH]; [reflexivity|]. cbn. rewrite IH. reflexivity. Qed.

Lemma all_some_strip {A} (l : list (option A)) : (Forall (fun o => o <> None) l <-> exists r, all_some l = Some r) /\
  forall r, all_some l = Some r -> r = flat_map strip l.
Proof.
  split.
  - split.
    + induction 1 as [|[x|] l Hx H IH]; [exists []; reflexivity| |contradiction]. destruct IH as (r & Hr). exists (x :: r).
      cbn [all_some]. rewrite Hr. reflexivity.
    + intros (r & H). apply all_some_iff in H. subst l. induction r as [|x r IH]; constructor; [discriminate|exact IH].
  - intros r H. apply all_some_iff in H. subst l. symmetry. apply strip_somes.
Qed.

Lemma strip_u32 k n : add_u32 k n <> None -> (n < 4294967296)%N /\ strip (add_u32 k n) = [mkkv k (VScalar 4 (le 4 n))].
Proof. unfold add_u32. destruct (N.ltb_spec n 4294967296); [auto|contradiction]. Qed.

Lemma strip_ids {A} (ids : A -> option N) l : Forall (fun o => o <> None) (opt_u32s ids l) ->
  flat_map strip (opt_u32s ids l) = flat_map (fun x => piece (snd x, option_map (fun n => VScalar 4 (le 4 n)) (ids (fst x)))) l /\
  Forall (fun x => forall n, ids (fst x) = Some n -> (n < 4294967296)%N) l.
Proof.
  unfold opt_u32s. induction l as [|x l IH]; intros H; [split; [reflexivity|constructor]|]. cbn [flat_map] in *.
  apply Forall_app in H as (H1 & H2). destruct (IH H2) as (E1 & E2). rewrite flat_map_app, E1.
  destruct (ids (fst x)) as [n|] eqn:F.
  - apply Forall_cons_iff in H1 as (H1 & _). apply strip_u32 in H1 as (Hn & Es).
    split; [|constructor; [intros m Hm; rewrite F in Hm; injection Hm as <-; exact Hn|exact E2]].
    unfold piece at 2. cbn [fst snd option_map flat_map]. rewrite Es. reflexivity.
  - split; [reflexivity|]. constructor; [intros m Hm; rewrite F in Hm; discriminate Hm|exact E2].
Qed.

Lemma strip_flags {A} (flags : A -> option bool) l :
  flat_map strip (opt_bools flags l) =
  flat_map (fun x => piece (snd x, option_map (fun b : bool => VScalar 7 [if b then 1%N else 0%N]) (flags (fst x)))) l /\
  Forall (fun o => o <> None) (opt_bools flags l).
Proof.
  unfold opt_bools. induction l as [|x l (E1 & E2)]; [split; [reflexivity|constructor]|]. cbn [flat_map].
  rewrite flat_map_app, E1. destruct (flags (fst x)); (split; [reflexivity|]).
  - apply Forall_app. split; [constructor; [discriminate|constructor]|exact E2].
  - exact E2.
Qed.

Record pairs_facts {E} (c : checkpoint E) (a : N) : Prop := {
  pf_act : act_code c = Some a;
  pf_numbers : Forall (fun n => (n < 4294967296)%N)
    [ck_vocab_size c; ck_hidden c; ck_layers c; ck_heads c; ck_positions c; ck_inter c; ck_segments c];
  pf_ids : forall k n, In k [K_cls; K_mask; K_pad; K_sep; K_unk] -> ck_ids c k = Some n -> (n < 4294967296)%N;
  pf_more : ck_class c <> BertModel -> forall k n, In k [K_bos; K_eos] -> ck_ids c k = Some n -> (n < 4294967296)%N;
  pf_split : ck_class c = BertModel -> ck_never_split c = 0
}.

Lemma pairs_inv {E} (c : checkpoint E) f32 kvs : pairs c f32 = Some kvs ->
  exists a, pairs_facts c a /\ kvs = flat_map piece (pieces c f32 a).
Proof.
  unfold pairs. intros H.
  assert (Hn := proj2 (proj1 (all_some_strip _)) (ex_intro _ _ H)). apply (proj2 (all_some_strip _)) in H.
  repeat rewrite flat_map_app in H. apply Forall_app in Hn as (_ & Hn). apply Forall_app in Hn as (_ & Hn).
  apply Forall_app in Hn as (_ & Hn). apply Forall_app in Hn as (Hc & Hn). apply Forall_app in Hn as (Hi & Hn).
  apply Forall_app in Hn as (Hf & _).
  unfold config_pairs in Hc. destruct (act_code c) as [a|] eqn:Ea.
  2:{ repeat (apply Forall_cons_iff in Hc as (? & Hc)). exfalso. auto. }
  do 8 (apply Forall_cons_iff in Hc as (? & Hc)). apply Forall_cons_iff in Hc as (_ & Hc). apply Forall_cons_iff in Hc as (? & _).
  repeat match goal with X : add_u32 _ _ <> None |- _ => apply strip_u32 in X; destruct X as (? & X) end.
  unfold id_pairs in H, Hi. destruct (strip_ids _ _ Hi) as (Ei & Bi). rewrite Ei in H.
  exists a. split.
  - constructor; [exact Ea|repeat constructor; assumption| | |].
    + intros k n Hk Hv. rewrite Forall_forall in Bi. cbn [In] in Hk.
      assert (Q : exists s, In (k, s) [(K_cls, u "berts.cls_id"); (K_mask, u "berts.mask_id"); (K_pad, u "berts.pad_id"); (K_sep, u "berts.sep_id");
        (K_unk, u "berts.unk_id")]) by (intuition subst; eexists; cbn [In]; tauto).
      destruct Q as (s & Q). apply (Bi (k, s)); [apply in_or_app; left; exact Q|exact Hv].
    + intros Hcl k n Hk Hv. rewrite Forall_forall in Bi. cbn [In] in Hk.
      assert (Q : exists s, In (k, s) [(K_bos, u "berts.bos_id"); (K_eos, u "berts.eos_id")]) by (intuition subst; eexists; cbn [In]; tauto).
      destruct Q as (s & Q). apply (Bi (k, s)); [apply in_or_app; right; destruct (ck_class c); [contradiction|exact Q|exact Q]|exact Hv].
    + intros Hcl. unfold flag_pairs in Hf. rewrite Hcl in Hf. apply Forall_app in Hf as (_ & Hf). apply Forall_app in Hf as (Hf & _).
      destruct (Nat.eqb_spec (ck_never_split c) 0); [assumption|]. apply Forall_cons_iff in Hf as (Hf & _). contradiction.
  - rewrite H. clear H Ei Bi.
    assert (Ef : flat_map strip (flag_pairs c) = flat_map piece
      (let flag k := match ck_class c with
                | BertModel => option_map (fun b : bool => VScalar 7 [if b then 1%N else 0%N]) (ck_flags c k)
                | _ => None end in
       [(u "berts.do_lower_case", flag K_lower); (u "berts.do_basic_tokenize", flag K_basic);
        (u "berts.tokenize_chinese_chars", flag K_cjk); (u "berts.strip_accent", flag K_accent)])).
    { unfold flag_pairs in *. destruct (ck_class c); [|reflexivity|reflexivity]. apply Forall_app in Hf as (_ & Hf). apply Forall_app in Hf as (Hf & _).
      rewrite !flat_map_app. rewrite (proj1 (strip_flags _ _)), (proj1 (strip_flags _ _)).
      destruct (ck_never_split c =? 0); [|apply Forall_cons_iff in Hf as (Hf & _); contradiction].
      cbn [flat_map app fst snd]. rewrite !app_nil_r, <- !app_assoc. reflexivity. }
    rewrite Ef. unfold config_pairs. rewrite Ea. unfold add_f64.
    assert (Ew : flat_map strip (add_string (u "general.name") (ck_repo c)) =
      piece (u "general.name", match ck_repo c with [] => None | s => Some (VStr s) end)) by (destruct (ck_repo c); reflexivity).
    assert (Ex : flat_map strip (add_string (u "general.architecture") (match ck_class c with BertModel => u "BERT" | _ => u "RoBERTa" end)) =
      piece (u "general.architecture", Some (VStr (match ck_class c with BertModel => u "BERT" | _ => u "RoBERTa" end)))).
    { destruct (ck_class c); reflexivity. }
    rewrite Ew, Ex. unfold pieces. cbv zeta. cbn [flat_map].
    repeat match goal with X : strip (add_u32 _ _) = _ |- _ => rewrite X; clear X end.
    rewrite ?app_nil_r, <- ?app_assoc.
    replace (strip (add_u32 (u "general.file_type") (if f32 then 0%N else 1%N))) with (piece (u "general.file_type", Some (VScalar 4 (le 4 (if f32 then 0 else 1)%N))))
      by (destruct f32; reflexivity).
    replace (strip (add_u32 (u "general.alignment") 32)) with (piece (u "general.alignment", Some (VScalar 4 (le 4 32)))) by reflexivity.
    destruct (ck_class c); cbn [app flat_map fst snd]; rewrite ?app_nil_r, <- ?app_assoc; reflexivity.
Qed.

Lemma pairs_accepted {E} (c : checkpoint E) f32 a : pairs_facts c a -> exists kvs, pairs c f32 = Some kvs.
Proof.
  intros [Ha Hn Hi Hm Hs]. unfold pairs. apply (proj1 (all_some_strip _)).
  assert (U : forall k n, (n < 4294967296)%N -> add_u32 k n <> None).
  { intros k n H. unfold add_u32. destruct (N.ltb_spec n 4294967296); [discriminate|lia]. }
  assert (W : forall k s, Forall (fun o : option kv => o <> None) (add_string k s)).
  { intros k [|x s]; constructor; [discriminate|constructor]. }
  assert (Ua : (a < 4294967296)%N).
  { revert Ha. unfold act_code. cbv zeta. destruct (ck_class c); repeat match goal with |- context [if ?b then _ else _] => destruct b end;
      intros Q; try discriminate Q; injection Q as <-; reflexivity. }
  apply Forall_app; split; [apply W|]. apply Forall_app; split; [apply W|]. apply Forall_app; split; [constructor; [apply U; reflexivity|constructor]|].
  apply Forall_app; split; [|apply Forall_app; split; [|apply Forall_app; split]].
  - unfold config_pairs. rewrite Ha. do 7 (apply Forall_cons_iff in Hn as (? & Hn)).
    repeat (apply Forall_cons; [first [apply U; assumption | discriminate | idtac]|]); try constructor.
    destruct (ck_class c); apply U; reflexivity.
  - assert (Q : forall l, Forall (fun x => forall n, ck_ids c (fst x) = Some n -> (n < 4294967296)%N) l ->
      Forall (fun o => o <> None) (opt_u32s (ck_ids c) l)).
    { intros l H. unfold opt_u32s. induction H as [|x l Hx H IH]; [constructor|]. cbn [flat_map]. apply Forall_app. split; [|exact IH].
      destruct (ck_ids c (fst x)) as [n|]; [|constructor]. constructor; [apply U, Hx; reflexivity|constructor]. }
    unfold id_pairs. apply Q. apply Forall_app. split.
    + repeat constructor; cbn [fst]; intros n; apply Hi; cbn [In]; tauto.
    + destruct (ck_class c); [constructor| |]; repeat constructor; cbn [fst]; intros n; apply Hm; try discriminate; cbn [In]; tauto.
  - unfold flag_pairs. destruct (ck_class c); [|constructor|constructor]. apply Forall_app. split; [apply strip_flags|].
    apply Forall_app. split; [|apply strip_flags]. rewrite (Hs eq_refl). constructor.
  - constructor; [apply U; destruct f32; reflexivity|constructor].
Qed.

Lemma find_app a b k : find_key (a ++ b) k = match find_key a k with Some v => Some v | None => find_key b k end.
Proof.
  unfold find_key. induction a as [|x a IH]; [reflexivity|]. cbn [app find]. destruct (list_N_eqb (cstr (k_key x)) k); [reflexivity|exact IH].
Qed.
Lemma find_piece p k : find_key (piece p) k = if list_N_eqb (cstr (fst p)) k then snd p else None.
Proof. unfold find_key, piece. destruct p as [s [v|]]; cbn; destruct (list_N_eqb (cstr s) k); reflexivity. Qed.

Lemma find_absent ps k : ~ In k (map (fun p : list N * option kval => cstr (fst p)) ps) -> find_key (flat_map piece ps) k = None.
Proof.
  induction ps as [|p ps IH]; intros H; [reflexivity|]. cbn [flat_map map In] in *. rewrite find_app, find_piece.
  rewrite (proj2 (list_N_eqb_neq (cstr (fst p)) k)) by tauto. apply IH. tauto.
Qed.

Lemma find_pieces ps p : NoDup (map (fun p : list N * option kval => cstr (fst p)) ps) -> In p ps ->
  find_key (flat_map piece ps) (cstr (fst p)) = snd p.
Proof.
  induction ps as [|q ps IH]; intros ND Hin; [destruct Hin|]. cbn [map] in ND. inversion ND as [|? ? N1 N2]; subst.
  cbn [flat_map]. rewrite find_app, find_piece. destruct Hin as [->|Hin].
  - rewrite list_N_eqb_refl. destruct (snd p) as [v|]; [reflexivity|]. apply find_absent, N1.
  - rewrite (proj2 (list_N_eqb_neq (cstr (fst q)) (cstr (fst p)))).
    + apply IH; assumption.
    + intros Q. apply N1. rewrite Q. apply (in_map (fun p => cstr (fst p))), Hin.
Qed.

Definition piece_keys : list (list N) :=
  [u "general.architecture"; u "general.name"; u "general.alignment"; u "berts.bert_type"; u "berts.vocab_size"; u "berts.hidden_dim";
   u "berts.n_layers"; u "berts.attn_heads"; u "berts.max_token"; u "berts.intermediate_dim"; u "berts.hidden_act"; u "berts.layer_norm_eps";
   u "berts.segments"; u "berts.initializer_range"; u "berts.cls_id"; u "berts.mask_id"; u "berts.pad_id"; u "berts.sep_id"; u "berts.unk_id";
   u "berts.bos_id"; u "berts.eos_id"; u "berts.do_lower_case"; u "berts.do_basic_tokenize"; u "berts.tokenize_chinese_chars";
   u "berts.strip_accent"; u "general.file_type"].
Lemma pieces_keys {E} (c : checkpoint E) f32 a : map fst (pieces c f32 a) = piece_keys.
Proof. reflexivity. Qed.
Lemma piece_keys_zero : Forall (fun k => ~ In 0%N k /\ short k) piece_keys.
Proof.
  apply Forall_forall. intros k Hk.
  assert (B : forallb (fun k => negb (existsb (N.eqb 0) k) && (N.of_nat (length k) <? 100)%N) piece_keys = true) by (vm_compute; reflexivity).
  rewrite forallb_forall in B. specialize (B k Hk). apply andb_true_iff in B as (B1 & B2). apply negb_true_iff in B1. apply N.ltb_lt in B2.
  split; [apply zeroless_lit, B1|]. unfold short, fits64. lia.
Qed.
Fixpoint nodupb (l : list (list N)) : bool :=
  match l with [] => true | x :: l' => negb (existsb (list_N_eqb x) l') && nodupb l' end.
Lemma nodupb_ok l : nodupb l = true -> NoDup l.
Proof.
  induction l as [|x l IH]; intros H; constructor; cbn [nodupb] in H; apply andb_true_iff in H as (H1 & H2); [|apply IH, H2].
  apply negb_true_iff in H1. intros Hin. assert (Q : existsb (list_N_eqb x) l = true) by (apply existsb_exists; exists x; split; [exact Hin|apply list_N_eqb_refl]).
  congruence.
Qed.
Lemma pieces_nodup {E} (c : checkpoint E) f32 a : NoDup (map (fun p => cstr (fst p)) (pieces c f32 a)).
Proof. rewrite <- (map_map fst cstr), pieces_keys. apply nodupb_ok. vm_compute. reflexivity. Qed.

(** The value of a pair. *)
Lemma find_set_piece {E} (c : checkpoint E) f32 a k v : In (k, v) (pieces c f32 a) -> find_key (flat_map piece (pieces c f32 a)) k = v.
Proof.
  intros H. assert (Hk : In k (map fst (pieces c f32 a))) by (apply (in_map fst) in H; exact H). rewrite pieces_keys in Hk.
  assert (Z := piece_keys_zero). rewrite Forall_forall in Z. destruct (Z _ Hk) as (Z1 & _).
  assert (F := find_pieces _ (k, v) (pieces_nodup c f32 a) H). cbn [fst snd] in F. rewrite cstr_id in F by exact Z1. exact F.
Qed.
Lemma find_no_piece {E} (c : checkpoint E) f32 a k : existsb (list_N_eqb k) piece_keys = false -> find_key (flat_map piece (pieces c f32 a)) k = None.
Proof.
  intros H. apply find_absent. rewrite <- (map_map fst cstr), pieces_keys. intros Hin. apply in_map_iff in Hin as (s & Es & Hs).
  assert (Z := piece_keys_zero). rewrite Forall_forall in Z. destruct (Z _ Hs) as (Z1 & _). rewrite cstr_id in Es by exact Z1. subst s.
  assert (Q : existsb (list_N_eqb k) piece_keys = true) by (apply existsb_exists; exists k; split; [exact Hs|apply list_N_eqb_refl]). congruence.
Qed.

Lemma act_spec {E} (c : checkpoint E) a : act_code c = Some a <-> act_number c a.
Proof.
  assert (SL : forall s t, Forall2 same_letter s t <-> lower s = t).
  { induction s as [|x s IH]; intros t; cbn [lower map].
    - split; intros H; [inversion H; reflexivity|subst; constructor].
    - fold (lower s). split.
      + intros H. inversion H as [|? y ? t' Hy Ht]; subst. f_equal; [|apply IH; exact Ht].
        destruct Hy as [(-> & Hn)|(Hr & ->)].
        * destruct (N.leb_spec 65 y), (N.leb_spec y 90); cbn [andb]; try reflexivity. exfalso. apply Hn. lia.
        * rewrite (proj2 (N.leb_le 65 x)), (proj2 (N.leb_le x 90)) by lia. reflexivity.
      + intros <-. constructor; [|apply IH; reflexivity]. unfold same_letter.
        destruct (N.leb_spec 65 x), (N.leb_spec x 90); cbn [andb]; [right|left|left|left]; split; try reflexivity; lia. }
  assert (G : forall s a, (if list_N_eqb (lower s) (u "gelu") then Some 0%N else if list_N_eqb (lower s) (u "relu") then Some 1%N
      else if list_N_eqb (lower s) (u "silu") then Some 2%N else if list_N_eqb (lower s) (u "gelu_new") then Some 3%N else None) = Some a <->
      exists x, In (x, a) act_numbers /\ Forall2 same_letter s x).
  { clear c a. intros s a. split.
    - repeat match goal with |- context [if list_N_eqb ?x ?y then _ else _] => let Q := fresh in destruct (list_N_eqb x y) eqn:Q; [apply list_N_eqb_eq in Q|clear Q] end.
      all: intros J; first [discriminate J | injection J as <-; exists (lower s); split; [|apply SL; reflexivity]].
      all: match goal with X : lower _ = _ |- _ => rewrite X end; cbn [act_numbers In]; tauto.
    - intros (x & Hin & HF). apply SL in HF. rewrite HF. cbn [act_numbers In] in Hin.
      destruct Hin as [Q|[Q|[Q|[Q|[]]]]]; injection Q as <- <-; vm_compute; reflexivity. }
  unfold act_code, act_number. cbv zeta. destruct (ck_class c).
  - destruct (list_N_eqb (ck_act c) (u "gelu")) eqn:F.
    + apply list_N_eqb_eq in F. split; [intros H; injection H as <-; auto|]. intros (_ & ->). reflexivity.
    + apply list_N_eqb_neq in F. split; [intros H; discriminate H|]. intros (H & _). contradiction.
  - apply G.
  - apply G.
Qed.

Lemma wf_pieces ps : Forall (fun p : list N * option kval => (~ In 0%N (fst p) /\ short (fst p)) /\ forall v, snd p = Some v -> wf_val v) ps ->
  Forall wf_kv (flat_map piece ps).
Proof.
  induction 1 as [|p ps ((H0 & H1) & H2) H IH]; [constructor|]. cbn [flat_map]. apply Forall_app. split; [|exact IH].
  unfold piece. destruct (snd p) as [v|]; constructor; [|constructor]. split; [exact H1|]. split; [exact H0|apply H2; reflexivity].
Qed.

Lemma wf_pairs {E} (c : checkpoint E) f32 a : short (ck_repo c) ->
  Forall wf_kv (flat_map piece (pieces c f32 a)).
Proof.
  intros Hr. apply wf_pieces. apply Forall_forall. intros p Hp. split.
  - assert (Z := piece_keys_zero). rewrite Forall_forall in Z. apply Z. rewrite <- (pieces_keys c f32 a). apply in_map, Hp.
  - assert (N4 : forall n v, Some (VScalar 4 (le 4 n)) = Some v -> wf_val v).
    { intros n v Q. injection Q as <-. do 4 right; left; reflexivity. }
    assert (O4 : forall o v, option_map (fun n => VScalar 4 (le 4 n)) o = Some v -> wf_val v).
    { intros [n|] v Q; [exact (N4 n v Q)|discriminate Q]. }
    assert (B1 : forall o v, option_map (fun b : bool => VScalar 7 [if b then 1%N else 0%N]) o = Some v -> wf_val v).
    { intros [n|] v Q; [|discriminate Q]. injection Q as <-. cbn [wf_val fixed_types In length N.of_nat]. cbn. tauto. }
    assert (F8 : forall n v, Some (VScalar 12 (le 8 n)) = Some v -> wf_val v).
    { intros n v Q. injection Q as <-. cbn [wf_val]. cbn [fixed_types In]. cbn. tauto. }
    intros v. unfold pieces in Hp. cbv zeta in Hp. cbn [In] in Hp.
    repeat match type of Hp with _ \/ _ => destruct Hp as [<-|Hp] end; try contradiction; cbn [snd];
      try exact (N4 _ _); try exact (O4 _ _); try exact (F8 _ _).
    all: try (destruct (ck_class c); first [exact (O4 _ _) | exact (B1 _ _) | intros Q; discriminate Q]).
    + destruct (ck_class c); intros Q; injection Q as <-; unfold wf_val, short, fits64; cbn; lia.
    + destruct (ck_repo c) as [|x s]; [intros Q; discriminate Q|]. intros Q; injection Q as <-. exact Hr.
Qed.

Lemma aligned_pairs {E} (c : checkpoint E) f32 a : alignment (flat_map piece (pieces c f32 a)) = Ok 32%N.
Proof.
  unfold alignment. rewrite (find_set_piece c f32 a _ (Some (VScalar 4 (le 4 32)))); [reflexivity|].
  unfold pieces. cbv zeta. do 2 right. left. reflexivity.
Qed.

Lemma settings_read {E} (c : checkpoint E) f32 a ts : pairs_facts c a -> (ck_eps c < 18446744073709551616)%N -> (ck_range c < 18446744073709551616)%N ->
  settings_of c f32 (file_read (flat_map piece (pieces c f32 a)) ts).
Proof.
  intros [Ha Hn Hi Hm Hs] Be Br. apply act_spec in Ha as Ha'.
  assert (U : forall n, (n < 4294967296)%N -> as_setting (VScalar 4 (le 4 n)) = SU32 n) by (intros n H; cbn [as_setting N.eqb Pos.eqb]; rewrite unle4 by exact H; reflexivity).
  assert (V : forall n, (n < 4294967296)%N -> as_tok (VScalar 4 (le 4 n)) = KU32 n) by (intros n H; cbn [as_tok N.eqb Pos.eqb]; rewrite unle4 by exact H; reflexivity).
  assert (Ua : (a < 4294967296)%N).
  { revert Ha. unfold act_code. cbv zeta. destruct (ck_class c); repeat match goal with |- context [if ?b then _ else _] => destruct b end;
      intros Q; try discriminate Q; injection Q as <-; reflexivity. }
  do 7 (apply Forall_cons_iff in Hn as (? & Hn)). clear Hn.
  assert (F := fun k v => find_set_piece c f32 a k v).
  assert (G := fun k => find_no_piece c f32 a k).
  unfold pieces in F at 1. cbv zeta in F.
  set (kvs := flat_map piece (pieces c f32 a)) in *.
  assert (L1 : forall k n, (n < 4294967296)%N -> find_key kvs (setting_key k) = Some (VScalar 4 (le 4 n)) ->
    f_set (file_read kvs ts) k = Some (SU32 n)).
  { intros k n Bn Q. cbn [f_set file_read]. rewrite Q. cbn [option_map]. rewrite U by exact Bn. reflexivity. }
  assert (L2 : forall k, find_key kvs (setting_key k) = None -> f_set (file_read kvs ts) k = None).
  { intros k Q. cbn [f_set file_read]. rewrite Q. reflexivity. }
  assert (L3 : forall k n, (n < 18446744073709551616)%N -> find_key kvs (setting_key k) = Some (VScalar 12 (le 8 n)) -> f_set (file_read kvs ts) k = Some (SF64 n)).
  { intros k n Bn Q. cbn [f_set file_read]. rewrite Q. cbn [option_map as_setting N.eqb Pos.eqb]. rewrite unle8 by exact Bn. reflexivity. }
  assert (L4 : forall k bs, find_key kvs (setting_key k) = Some (VStr bs) -> f_set (file_read kvs ts) k = Some SStr).
  { intros k bs Q. cbn [f_set file_read]. rewrite Q. reflexivity. }
  assert (T1 : forall k, (forall n, ck_ids c k = Some n -> (n < 4294967296)%N) ->
    find_key kvs (tok_key k) = option_map (fun n => VScalar 4 (le 4 n)) (ck_ids c k) -> f_tok (file_read kvs ts) k = option_map KU32 (ck_ids c k)).
  { intros k Bn Q. cbn [f_tok file_read]. rewrite Q. destruct (ck_ids c k) as [n|]; [|reflexivity]. cbn [option_map]. rewrite V by (apply Bn; reflexivity). reflexivity. }
  assert (T2 : forall k, find_key kvs (tok_key k) = option_map (fun b : bool => VScalar 7 [if b then 1%N else 0%N]) (ck_flags c k) ->
    f_tok (file_read kvs ts) k = option_map KBool (ck_flags c k)).
  { intros k Q. cbn [f_tok file_read]. rewrite Q. destruct (ck_flags c k) as [[|]|]; reflexivity. }
  assert (T3 : forall k, find_key kvs (tok_key k) = None -> f_tok (file_read kvs ts) k = None).
  { intros k Q. cbn [f_tok file_read]. rewrite Q. reflexivity. }
  Ltac here := cbn [setting_key tok_key]; repeat first [left; reflexivity | right].
  constructor.
  - apply L1; [destruct (ck_class c); reflexivity|apply F; here].
  - apply L1; [assumption|apply F; here].
  - apply L1; [assumption|apply F; here].
  - apply L1; [assumption|apply F; here].
  - apply L1; [assumption|apply F; here].
  - apply L1; [assumption|apply F; here].
  - apply L1; [assumption|apply F; here].
  - exists a. split; [exact Ha'|]. apply L1; [assumption|apply F; here].
  - apply L1; [assumption|apply F; here].
  - split; apply L3; try assumption; apply F; here.
  - apply L1; [destruct f32; reflexivity|apply F; here].
  - split; [eapply L4; apply F; here|]. split; [apply L1; [reflexivity|apply F; here]|].
    assert (Q : find_key kvs (setting_key S_name) = match ck_repo c with [] => None | s => Some (VStr s) end) by (apply F; here).
    destruct (ck_repo c) as [|x s]; [apply L2, Q|apply (L4 _ _ Q)].
  - repeat constructor; apply L2, G; vm_compute; reflexivity.
  - intros k Hk. apply T1; [intros n; apply Hi, Hk|]. apply F. cbn [In] in Hk.
    destruct Hk as [<-|[<-|[<-|[<-|[<-|[]]]]]]; here.
  - intros k Hk. destruct (ck_class c) eqn:Ec.
    + apply T3. apply F. cbn [In] in Hk. destruct Hk as [<-|[<-|[]]]; here.
    + apply T1; [intros n; apply Hm; [discriminate|exact Hk]|]. apply F. cbn [In] in Hk. destruct Hk as [<-|[<-|[]]]; here.
    + apply T1; [intros n; apply Hm; [discriminate|exact Hk]|]. apply F. cbn [In] in Hk. destruct Hk as [<-|[<-|[]]]; here.
  - intros k Hk. destruct (ck_class c) eqn:Ec.
    + apply T2. apply F. cbn [In] in Hk. destruct Hk as [<-|[<-|[<-|[<-|[]]]]]; here.
    + apply T3. apply F. cbn [In] in Hk. destruct Hk as [<-|[<-|[<-|[<-|[]]]]]; here.
    + apply T3. apply F. cbn [In] in Hk. destruct Hk as [<-|[<-|[<-|[<-|[]]]]]; here.
Qed.
