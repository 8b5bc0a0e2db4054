(** Lemmas about the loader. *)
From Verif Require Import Base Bert_model Vocab_model Vocab_proofs Bpe_model Roberta_model Loader_model Loader_spec.
From Coq Require Import Permutation.
From Verif Require Ggml_model Encoder_model Encoder_spec Eval_model.
Local Open Scope nat_scope.

(** ** Sizes *)

Lemma blck_pos t : (0 < blck_size t)%N.
Proof. destruct t; reflexivity. Qed.
Lemma type_pos t : (0 < type_size t)%N.
Proof. destruct t; reflexivity. Qed.

(** Bytes ggml allocates for the data. *)
Definition data_size (t : tinfo) : N :=
  (type_size (ti_type t) * (N.of_nat (ti_ne0 t) / blck_size (ti_type t)) *
   N.of_nat (ti_ne1 t) * N.of_nat (ti_ne2 t) * N.of_nat (ti_ne3 t))%N.

(** The part of a row that is no whole block. *)
Definition excess (t : tinfo) : N :=
  (type_size (ti_type t) * (N.of_nat (ti_ne0 t) mod blck_size (ti_type t)) / blck_size (ti_type t))%N.

Lemma nbytes_data t : nbytes t = (data_size t + excess t)%N.
Proof.
  unfold nbytes, data_size, excess. cbv zeta.
  assert (Hb := blck_pos (ti_type t)). set (b := blck_size (ti_type t)) in *. set (s := type_size (ti_type t)).
  generalize (ti_ne0 t) (ti_ne1 t) (ti_ne2 t) (ti_ne3 t). intros n0 n1 n2 n3. clearbody b s.
  assert (D : (N.of_nat n0 = b * (N.of_nat n0 / b) + N.of_nat n0 mod b)%N) by (apply N.div_mod; lia).
  set (q := (N.of_nat n0 / b)%N) in *. set (r := (N.of_nat n0 mod b)%N) in *.
  assert (Hr : (r < b)%N) by (apply N.mod_lt; lia).
  assert (Q : (Z.of_nat n0 / Z.of_N b = Z.of_N q)%Z).
  { unfold q. rewrite N2Z.inj_div, nat_N_Z. reflexivity. }
  rewrite Q. apply N2Z.inj.
  assert (E : forall x : Z, (Z.of_N s * Z.of_N q + x + (Z.of_nat n1 - 1) * (Z.of_N s * Z.of_N q) +
      (Z.of_nat n2 - 1) * (Z.of_N s * Z.of_N q * Z.of_nat n1) +
      (Z.of_nat n3 - 1) * (Z.of_N s * Z.of_N q * Z.of_nat n1 * Z.of_nat n2) =
      Z.of_N s * Z.of_N q * Z.of_nat n1 * Z.of_nat n2 * Z.of_nat n3 + x)%Z) by (intros; ring).
  rewrite N2Z.inj_add, N2Z.inj_div, !N2Z.inj_mul, !nat_N_Z.
  destruct (Z.of_N b =? 1)%Z eqn:Eb.
  - assert (b = 1%N) by lia. assert (r = 0%N) by lia.
    replace (Z.of_N s + (Z.of_nat n0 - 1) * Z.of_N s)%Z with (Z.of_N s * Z.of_N q + 0)%Z by nia.
    rewrite E. replace (Z.of_N r) with 0%Z by lia. rewrite Z.mul_0_r, Z.div_0_l by lia.
    apply Z2N.id. nia.
  - assert (X : (Z.of_nat n0 * Z.of_N s / Z.of_N b = Z.of_N s * Z.of_N q + Z.of_N s * Z.of_N r / Z.of_N b)%Z).
    { replace (Z.of_nat n0 * Z.of_N s)%Z with (Z.of_N s * Z.of_N r + (Z.of_N s * Z.of_N q) * Z.of_N b)%Z by nia.
      rewrite Z.div_add by lia. lia. }
    rewrite X, E. apply Z2N.id.
    assert (0 <= Z.of_N s * Z.of_N r / Z.of_N b)%Z by (apply Z.div_pos; nia). nia.
Qed.

Lemma excess_whole t : whole_rows t -> excess t = 0%N.
Proof.
  unfold whole_rows, excess. intros ->. rewrite N.mul_0_r. apply N.div_0_l.
  pose proof (blck_pos (ti_type t)). lia.
Qed.

Lemma pad_mono a x y : (0 < a)%N -> (x <= y)%N -> (Ggml_model.pad_to a x <= Ggml_model.pad_to a y)%N.
Proof.
  intros Ha H. unfold Ggml_model.pad_to. apply N.mul_le_mono_r. apply N.div_le_mono; lia.
Qed.

Lemma pad_shift a x y : (0 < a)%N -> (x mod a = 0)%N ->
  Ggml_model.pad_to a (x + y) = (x + Ggml_model.pad_to a y)%N.
Proof.
  intros Ha H. unfold Ggml_model.pad_to.
  assert (D : (x = a * (x / a) + 0)%N) by (rewrite <- H; apply N.div_mod; lia).
  replace (x + y + (a - 1))%N with (y + (a - 1) + (x / a) * a)%N by lia.
  rewrite N.div_add by lia. lia.
Qed.

Section L.
Context (L : Ggml_model.lib) (HL : lib_ok L).

Lemma dup_cost_eq t : dup_cost L t =
  (Ggml_model.object_bytes L + (Ggml_model.tensor_bytes L + Ggml_model.pad_to (Ggml_model.mem_align L) (data_size t)))%N.
Proof.
  unfold dup_cost, Ggml_model.tensor_cost, Ggml_model.object_cost. destruct HL as [H1 H2].
  rewrite pad_shift by assumption. reflexivity.
Qed.

(** What the loader counts for a tensor. *)
Definition counted (t : tinfo) : N :=
  (Ggml_model.tensor_bytes L + Ggml_model.pad_to (Ggml_model.mem_align L) (nbytes t) + Ggml_model.object_bytes L)%N.

Lemma counted_enough t : (dup_cost L t <= counted t)%N.
Proof.
  rewrite dup_cost_eq. unfold counted. rewrite nbytes_data.
  assert (P := pad_mono (Ggml_model.mem_align L) (data_size t) (data_size t + excess t) (lib_align L HL)). lia.
Qed.

Lemma counted_exact t : whole_rows t -> dup_cost L t = counted t.
Proof.
  intros H. rewrite dup_cost_eq. unfold counted. rewrite nbytes_data, (excess_whole t H), N.add_0_r. lia.
Qed.
End L.

(** ** Names *)

Lemma firstn_short {A} (l : list A) n : length l <= n -> firstn n l = l.
Proof. apply firstn_all2. Qed.

Lemma get_first {A} (name : A -> list N) ts n :
  Forall (fun t => length (name t) < 64) ts ->
  get_tensor name ts n = find (fun t => list_N_eqb (name t) n) ts.
Proof.
  intros H. unfold get_tensor. induction H as [|t ts Ht H IH]; [reflexivity|]. cbn [find].
  rewrite firstn_short by (unfold MAX_NAME; lia). rewrite IH. reflexivity.
Qed.

Lemma find_first ts n t : find (fun t => list_N_eqb (ti_name t) n) ts = Some t <-> first_named n ts t.
Proof.
  split.
  - induction ts as [|x ts IH]; [discriminate|]. cbn [find]. destruct (list_N_eqb (ti_name x) n) eqn:E.
    + intros H. injection H as <-. constructor. apply list_N_eqb_eq. exact E.
    + intros H. apply first_later; [apply list_N_eqb_neq; exact E|]. apply IH, H.
  - induction 1 as [t ts H|x t ts H H' IH]; cbn [find].
    + rewrite (proj2 (list_N_eqb_eq _ _) H). reflexivity.
    + rewrite (proj2 (list_N_eqb_neq _ _) H). exact IH.
Qed.

Lemma first_in n ts t : first_named n ts t -> In t ts /\ ti_name t = n.
Proof. induction 1; simpl; intuition. Qed.

Lemma first_exists ts n : (exists t, In t ts /\ ti_name t = n) -> exists t, first_named n ts t.
Proof.
  intros (t & Hin & Hn). induction ts as [|x ts IH]; [destruct Hin|].
  destruct (list_N_eqb (ti_name x) n) eqn:E.
  - exists x. constructor. apply list_N_eqb_eq. exact E.
  - apply list_N_eqb_neq in E. destruct Hin as [->|Hin]; [congruence|].
    destruct (IH Hin) as (y & Hy). exists y. apply first_later; assumption.
Qed.

Lemma first_unique n ts t t' : first_named n ts t -> first_named n ts t' -> t = t'.
Proof. intros H H'. apply find_first in H, H'. congruence. Qed.

(** A name of 64 bytes or more is not found. *)
Lemma get_long {A} (name : A -> list N) ts n : 64 <= length n -> get_tensor name ts n = None.
Proof.
  intros H. unfold get_tensor. induction ts as [|t ts IH]; [reflexivity|]. cbn [find].
  destruct (list_N_eqb (firstn (MAX_NAME - 1) (name t)) n) eqn:E; [|exact IH].
  apply list_N_eqb_eq in E. exfalso. rewrite <- E, firstn_length in H. unfold MAX_NAME in H. lia.
Qed.

(** ** The size of the pool *)

Lemma ctx_size_sum L meta todo :
  Forall (fun t => length (ti_name t) < 64) meta -> (forall t, In t todo -> In t meta) ->
  exists s, ctx_size L meta todo = Ok s /\
    forall found, Forall2 (fun ti t => first_named (ti_name ti) meta t) todo found ->
      s = fold_right (fun t a => (counted L t + a)%N) 0%N found.
Proof.
  intros Hm. induction todo as [|ti rest IH]; intros Hin.
  - exists 0%N. split; [reflexivity|]. intros found H. inversion H. reflexivity.
  - destruct (IH (fun t H => Hin t (or_intror H))) as (s & E & Hs).
    cbn [ctx_size]. rewrite get_first by exact Hm.
    destruct (first_exists meta (ti_name ti)) as (t & Ht); [exists ti; split; [apply Hin; left; reflexivity|reflexivity]|].
    rewrite (proj2 (find_first _ _ _) Ht), E. cbn [obind]. eexists. split; [reflexivity|].
    intros found H. inversion H; subst. cbn [fold_right]. rewrite (first_unique _ _ _ _ H2 Ht).
    rewrite (Hs _ H4). set (r := fold_right _ _ _). unfold counted. lia.
Qed.

Lemma ctx_size_long L meta todo :
  (exists t, In t todo /\ 64 <= length (ti_name t)) -> ctx_size L meta todo = UB.
Proof.
  intros (t & Hin & Hl). induction todo as [|ti rest IH]; [destruct Hin|]. cbn [ctx_size].
  destruct Hin as [->|Hin].
  - rewrite get_long by exact Hl. reflexivity.
  - destruct (get_tensor ti_name meta (ti_name ti)); [|reflexivity]. rewrite (IH Hin). reflexivity.
Qed.

(** The tensor found for each description. *)
Lemma found_all f : exists found, Forall2 (fun ti t => first_named (ti_name ti) (f_tensors f) t) (f_tensors f) found.
Proof.
  assert (H : forall todo, (forall t, In t todo -> In t (f_tensors f)) ->
    exists found, Forall2 (fun ti t => first_named (ti_name ti) (f_tensors f) t) todo found).
  { induction todo as [|ti rest IH]; intros Hin; [exists []; constructor|].
    destruct (IH (fun t H => Hin t (or_intror H))) as (found & Hf).
    destruct (first_exists (f_tensors f) (ti_name ti)) as (t & Ht); [exists ti; split; [apply Hin; left; reflexivity|reflexivity]|].
    exists (t :: found). constructor; assumption. }
  apply H. auto.
Qed.

(** ** Reading the tensors *)

(** Bytes of a region read into fresh memory; [t] has the extents, [ti] the offset. *)
Definition read_as (junk : nat -> N) (f : file) (ti t : tinfo) : list N :=
  fst (read_bytes junk f (ti_offset ti) (nbytes t)).

Lemma read_state junk f off want :
  snd (read_bytes junk f off want) = false <-> (f_data f + off + want <= N.of_nat (length (f_bytes f)))%N \/ want = 0%N.
Proof.
  unfold read_bytes. cbn [snd]. rewrite Nat.ltb_ge, firstn_length, skipn_length. lia.
Qed.

Lemma read_inside junk f off want :
  snd (read_bytes junk f off want) = false ->
  fst (read_bytes junk f off want) = firstn (N.to_nat want) (skipn (N.to_nat (f_data f + off)) (f_bytes f)).
Proof.
  unfold read_bytes. cbn [fst snd]. intros H. apply Nat.ltb_ge in H.
  set (got := firstn _ _) in *. replace (N.to_nat want - length got) with 0 by lia. apply app_nil_r.
Qed.

Lemma read_tensors_spec L junk f : forall todo found size used failed,
  Forall (fun t => length (ti_name t) < 64) (f_tensors f) ->
  Forall2 (fun ti t => first_named (ti_name ti) (f_tensors f) t) todo found ->
  (used + total (dup_cost L) found <= size)%N ->
  read_tensors L junk f size used failed todo =
    (if (failed && (0 <? length todo)) || negb (forallb (fun p => negb (snd (read_bytes junk f (ti_offset (fst p)) (nbytes (snd p)))))
                                          (removelast (combine todo found)))
     then Fail
     else Ok (map (fun p => mkst (snd p) (ti_name (fst p)) (read_as junk f (fst p) (snd p))) (combine todo found))).
Proof.
  intros todo. induction todo as [|ti rest IH]; intros found size used failed Hm HF Hs.
  - inversion HF; subst. cbn. rewrite andb_false_r. reflexivity.
  - inversion HF as [|? t ? found' Ht HF']; subst. cbn [read_tensors].
    rewrite get_first by exact Hm. rewrite (proj2 (find_first _ _ _) Ht).
    cbn [total fold_right] in Hs. fold (total (dup_cost L) found') in Hs.
    replace (size <? used + dup_cost L t)%N with false by lia.
    destruct failed; [reflexivity|]. cbn [andb orb].
    destruct (read_bytes junk f (ti_offset ti) (nbytes t)) as [bytes fl] eqn:Er.
    rewrite (IH found' size (used + dup_cost L t)%N fl Hm HF') by lia.
    cbn [combine map fst snd].
    replace bytes with (read_as junk f ti t) by (unfold read_as; rewrite Er; reflexivity).
    destruct rest as [|ti' rest'].
    + inversion HF'; subst. cbn [length combine removelast map forallb Nat.ltb Nat.leb negb].
      rewrite andb_false_r. reflexivity.
    + inversion HF' as [|? t' ? found'' Ht' HF'']; subst.
      change (removelast ((ti, t) :: combine (ti' :: rest') (t' :: found'')))
        with ((ti, t) :: removelast (combine (ti' :: rest') (t' :: found''))).
      cbn [forallb fst snd]. rewrite Er. cbn [snd].
      replace (0 <? length (ti' :: rest')) with true by reflexivity. rewrite andb_true_r.
      destruct fl; cbn [negb orb andb]; [reflexivity|].
      destruct (forallb _ (removelast (combine (ti' :: rest') (t' :: found'')))); reflexivity.
Qed.

Lemma Forall2_len {A B} (R : A -> B -> Prop) l l' : Forall2 R l l' -> length l = length l'.
Proof. induction 1; simpl; congruence. Qed.

(** Looking up what was read. *)
Lemma stored_find junk f (todo found : list tinfo) n :
  Forall (fun t => length (ti_name t) < 64) todo -> length todo = length found ->
  get_tensor st_name (map (fun p => mkst (snd p) (ti_name (fst p)) (read_as junk f (fst p) (snd p))) (combine todo found)) n =
  option_map (fun p => mkst (snd p) (ti_name (fst p)) (read_as junk f (fst p) (snd p)))
    (find (fun p => list_N_eqb (ti_name (fst p)) n) (combine todo found)).
Proof.
  intros H. revert found. induction H as [|ti todo Hti H IH]; intros found HLen; [reflexivity|].
  destruct found as [|t found]; [discriminate|]. cbn [combine map].
  unfold get_tensor in *. cbn [find st_name fst]. rewrite firstn_short by (unfold MAX_NAME; lia).
  destruct (list_N_eqb (ti_name ti) n); [reflexivity|]. apply IH. simpl in HLen. lia.
Qed.

(** When the descriptions are the whole file, the first of a name has its own extents. *)
Lemma find_combined (all todo found : list tinfo) n :
  Forall2 (fun ti t => first_named (ti_name ti) all t) todo found ->
  find (fun p => list_N_eqb (ti_name (fst p)) n) (combine todo found) =
  match find (fun t => list_N_eqb (ti_name t) n) todo, find (fun t => list_N_eqb (ti_name t) n) all with
  | Some a, Some b => Some (a, b) | _, _ => None end.
Proof.
  induction 1 as [|ti t todo found Ht HF IH]; [reflexivity|]. cbn [combine find fst].
  destruct (list_N_eqb (ti_name ti) n) eqn:E; [|exact IH].
  apply list_N_eqb_eq in E. rewrite <- E, (proj2 (find_first _ _ _) Ht). reflexivity.
Qed.

(** The tensors in memory, by name: what the file holds there. *)
Lemma read_as_memory junk f t : read_as junk f t t = memory_of junk f t.
Proof. reflexivity. Qed.

Definition in_memory (junk : nat -> N) (f : file) (n : list N) : option stored :=
  option_map (fun t => mkst t n (memory_of junk f t)) (named f n).

Lemma lookup_stored junk f found n :
  short_names f -> copies f found ->
  get_tensor st_name (map (fun p => mkst (snd p) (ti_name (fst p)) (read_as junk f (fst p) (snd p))) (combine (f_tensors f) found)) n =
  in_memory junk f n.
Proof.
  intros Hs HF. rewrite stored_find; [|exact Hs|eapply Forall2_len; exact HF].
  rewrite (find_combined _ _ _ n HF). unfold in_memory, named.
  destruct (find _ (f_tensors f)) as [t|] eqn:E; [|reflexivity]. cbn [option_map fst snd].
  apply find_some in E as (_ & E). apply list_N_eqb_eq in E. rewrite E, read_as_memory. reflexivity.
Qed.

(** ** Settings *)

Lemma read_metadata_iff f : read_metadata f = Ok tt <-> general_ok f.
Proof.
  unfold read_metadata, general_ok, opt_str, opt_u32, need_u32, ftype, optional, optional_str, is_u32.
  split.
  - intros H.
    assert (A : exists t, f_set f S_file_type = Some (SU32 t) /\ (t < 19)%N /\
      (forall k, In k [S_arch; S_name; S_author; S_url; S_description; S_license] -> match f_set f k with None => True | Some v => v = SStr end) /\
      (forall k, In k [S_quant_version; S_alignment] -> match f_set f k with None => True | Some v => exists n, v = SU32 n end)).
    { destruct (f_set f S_arch) as [[| | |]|] eqn:E1; try discriminate; cbn [obind] in H;
      (destruct (f_set f S_quant_version) as [[| | |]|] eqn:E2; try discriminate; cbn [obind] in H);
      (destruct (f_set f S_alignment) as [[| | |]|] eqn:E3; try discriminate; cbn [obind] in H);
      (destruct (f_set f S_name) as [[| | |]|] eqn:E4; try discriminate; cbn [obind] in H);
      (destruct (f_set f S_author) as [[| | |]|] eqn:E5; try discriminate; cbn [obind] in H);
      (destruct (f_set f S_url) as [[| | |]|] eqn:E6; try discriminate; cbn [obind] in H);
      (destruct (f_set f S_description) as [[| | |]|] eqn:E7; try discriminate; cbn [obind] in H);
      (destruct (f_set f S_license) as [[| | |]|] eqn:E8; try discriminate; cbn [obind] in H);
      (destruct (f_set f S_file_type) as [[t| | |]|] eqn:E9; try discriminate; cbn [obind] in H);
      (exists t; split; [reflexivity|]; destruct (N.of_nat (length ftype_names) <=? t)%N eqn:E10; [discriminate|];
       split; [change (N.of_nat (length ftype_names)) with 19%N in E10; lia|]; split;
       intros k Hk; simpl in Hk; intuition subst;
       rewrite ?E1, ?E2, ?E3, ?E4, ?E5, ?E6, ?E7, ?E8; eauto). }
    destruct A as (t & Et & Ht & As & Au). split; [apply Forall_forall; exact As|].
    split; [apply (Au S_quant_version); simpl; tauto|]. split; [apply (Au S_alignment); simpl; tauto|]. eauto.
  - intros (Hs & H2 & H3 & t & Et & Ht). rewrite Forall_forall in Hs.
    assert (S : forall k, In k [S_arch; S_name; S_author; S_url; S_description; S_license] ->
      match f_set f k with None => Ok tt | Some SStr => Ok tt | Some _ => @Abort unit end = Ok tt).
    { intros k Hk. specialize (Hs k Hk). destruct (f_set f k); [subst|]; reflexivity. }
    rewrite (S S_arch), (S S_name), (S S_author), (S S_url), (S S_description), (S S_license) by (simpl; tauto). cbn [obind].
    destruct (f_set f S_quant_version); [destruct H2 as (? & ->)|]; cbn [obind];
      (destruct (f_set f S_alignment); [destruct H3 as (? & ->)|]); cbn [obind]; rewrite Et; cbn [obind];
      change (N.of_nat (length ftype_names)) with 19%N; replace (19 <=? t)%N with false by lia; reflexivity.
Qed.

Lemma read_metadata_cases f : read_metadata f = Ok tt \/ read_metadata f = Abort.
Proof.
  unfold read_metadata, opt_str, opt_u32, need_u32, ftype.
  repeat (match goal with |- context [f_set f ?k] => destruct (f_set f k) as [[| | |]|] end; cbn [obind]; auto).
  all: match goal with |- context [if ?c then _ else _] => destruct c end; cbn [obind]; auto.
Qed.

Lemma default_is_nearest : nearest_double default_eps 1 (10 ^ 12).
Proof. vm_compute. repeat split; discriminate. Qed.

Lemma read_settings_ok f s : read_settings f = Ok s -> settings_ok f /\
  exists arch vocab h layers heads max inter segs act e,
    f_set f S_bert_type = Some (SU32 arch) /\ f_set f S_vocab_size = Some (SU32 vocab) /\
    f_set f S_hidden_dim = Some (SU32 h) /\ f_set f S_n_layers = Some (SU32 layers) /\
    f_set f S_attn_heads = Some (SU32 heads) /\ f_set f S_max_tokens = Some (SU32 max) /\
    f_set f S_intermediate_dim = Some (SU32 inter) /\
    (f_set f S_segments = Some (SU32 segs) \/ f_set f S_segments = None /\ segs = 2%N) /\
    f_set f S_hidden_act = Some (SU32 act) /\ eps_is f e /\
    s = mkset arch act vocab
      (Encoder_model.mkhp (N.to_nat h) (N.to_nat layers) (N.to_nat heads) (N.to_nat max) (N.to_nat inter) (N.to_nat segs)
       (if (act =? 0)%N then Encoder_model.Gelu else if (act =? 1)%N then Encoder_model.Relu
        else if (act =? 2)%N then Encoder_model.Silu else Encoder_model.GeluNew) e).
Proof.
  unfold read_settings, need_u32, opt_u32, opt_f64, settings_ok, optional, is_u32, is_f64, eps_is, optional_f64.
  destruct (f_set f S_bert_type) as [[arch| | |]|] eqn:E1; try discriminate; cbn [obind].
  destruct (f_set f S_vocab_size) as [[vocab| | |]|] eqn:E2; try discriminate; cbn [obind].
  destruct (f_set f S_hidden_dim) as [[h| | |]|] eqn:E3; try discriminate; cbn [obind].
  destruct (f_set f S_n_layers) as [[layers| | |]|] eqn:E4; try discriminate; cbn [obind].
  destruct (f_set f S_attn_heads) as [[heads| | |]|] eqn:E5; try discriminate; cbn [obind].
  destruct (f_set f S_max_tokens) as [[max| | |]|] eqn:E6; try discriminate; cbn [obind].
  destruct (f_set f S_intermediate_dim) as [[inter| | |]|] eqn:E7; try discriminate; cbn [obind].
  destruct (f_set f S_hidden_act) as [[act| | |]|] eqn:E9;
    destruct (f_set f S_segments) as [[segs| | |]|] eqn:E8; try discriminate; cbn [obind]; try discriminate;
    destruct (f_set f S_eps) as [[|eps| |]|] eqn:E10; try discriminate; cbn [obind];
    destruct (f_set f S_init_range) as [[| | |]|] eqn:E11; try discriminate; cbn [obind]; intros H;
    assert (H' := f_equal (fun o => match o with Ok x => x | _ => s end) H); cbv beta iota in H'; clear H; subst s;
    (split; [split; [intros k Hk; simpl in Hk; intuition subst; eauto|
              split; [eauto|repeat constructor; rewrite ?E10, ?E11; eauto]]|]).
  all: first [exists arch, vocab, h, layers, heads, max, inter, segs, act, eps
             | exists arch, vocab, h, layers, heads, max, inter, segs, act, default_eps
             | exists arch, vocab, h, layers, heads, max, inter, 2%N, act, eps
             | exists arch, vocab, h, layers, heads, max, inter, 2%N, act, default_eps];
    repeat apply conj; auto.
  all: right; split; [reflexivity|exact default_is_nearest].
Qed.

Lemma read_settings_iff f : settings_ok f -> exists s, read_settings f = Ok s.
Proof.
  unfold read_settings, need_u32, opt_u32, opt_f64, settings_ok, optional, is_u32, is_f64, optional_f64.
  intros (HR & HS & HF).
  assert (R : forall k, In k required_keys -> exists n, match f_set f k with Some (SU32 n) => Ok n | _ => Abort end = Ok n).
  { intros k Hk. destruct (HR k Hk) as (n & ->). eauto. }
  assert (F : forall k d, In k [S_eps; S_init_range] -> exists n, match f_set f k with None => Ok d | Some (SF64 n) => Ok n | Some _ => @Abort N end = Ok n).
  { intros k d Hk. rewrite Forall_forall in HF. specialize (HF k Hk). destruct (f_set f k); [destruct HF as (? & ->)|]; eauto. }
  assert (HS' : exists n, match f_set f S_segments with None => Ok 2%N | Some (SU32 n) => Ok n | Some _ => Abort end = Ok n).
  { destruct (f_set f S_segments); [destruct HS as (n & ->)|]; eauto. }
  destruct (F S_eps default_eps ltac:(simpl; tauto)) as (? & ->). destruct (F S_init_range default_range ltac:(simpl; tauto)) as (? & ->).
  destruct HS' as (sg & ->).
  destruct (R S_bert_type ltac:(simpl; tauto)) as (? & ->). destruct (R S_vocab_size ltac:(simpl; tauto)) as (? & ->).
  destruct (R S_hidden_dim ltac:(simpl; tauto)) as (? & ->). destruct (R S_n_layers ltac:(simpl; tauto)) as (? & ->).
  destruct (R S_attn_heads ltac:(simpl; tauto)) as (? & ->). destruct (R S_max_tokens ltac:(simpl; tauto)) as (? & ->).
  destruct (R S_intermediate_dim ltac:(simpl; tauto)) as (? & ->). destruct (R S_hidden_act ltac:(simpl; tauto)) as (? & ->).
  cbn [obind]. eauto.
Qed.

Lemma read_settings_cases f : (exists s, read_settings f = Ok s) \/ read_settings f = Abort.
Proof.
  unfold read_settings, need_u32, opt_u32, opt_f64.
  repeat (match goal with |- context [f_set f ?k] => destruct (f_set f k) as [[| | |]|] end; cbn [obind]; eauto).
Qed.

(** ** Weights *)
Section W.
Context {V : Type} (value : gty -> list N -> nat -> V) (ts : list stored).

Lemma bind_some {A B} (x : option A) (f : A -> option B) b : bind x f = Some b <-> exists a, x = Some a /\ f a = Some b.
Proof. destruct x; simpl; split; [eauto|intros (? & E & ?); injection E as <-; auto|discriminate|intros (? & ? & ?); discriminate]. Qed.

Lemma layer_init_inv n y : layer_init value ts n = Some y ->
  let get s := weight value ts (key_n n s) in
  get (u "attention.self.query.weight") = Some (Encoder_model.q_w y) /\
  get (u "attention.self.query.bias") = Some (Encoder_model.q_b y) /\
  get (u "attention.self.key.weight") = Some (Encoder_model.k_w y) /\
  get (u "attention.self.key.bias") = Some (Encoder_model.k_b y) /\
  get (u "attention.self.value.weight") = Some (Encoder_model.v_w y) /\
  get (u "attention.self.value.bias") = Some (Encoder_model.v_b y) /\
  get (u "attention.output.dense.weight") = Some (Encoder_model.ff_w y) /\
  get (u "attention.output.dense.bias") = Some (Encoder_model.ff_b y) /\
  get (u "attention.output.LayerNorm.weight") = Some (Encoder_model.ln_ff_w y) /\
  get (u "attention.output.LayerNorm.bias") = Some (Encoder_model.ln_ff_b y) /\
  get (u "intermediate.dense.weight") = Some (Encoder_model.i_w y) /\
  get (u "intermediate.dense.bias") = Some (Encoder_model.i_b y) /\
  get (u "output.dense.weight") = Some (Encoder_model.o_w y) /\
  get (u "output.dense.bias") = Some (Encoder_model.o_b y) /\
  get (u "output.LayerNorm.weight") = Some (Encoder_model.ln_out_w y) /\
  get (u "output.LayerNorm.bias") = Some (Encoder_model.ln_out_b y).
Proof.
  intros H get. unfold layer_init in H.
  repeat (apply bind_some in H; destruct H as (? & ? & H)). unfold get. injection H as <-. repeat split; assumption.
Qed.

Lemma layer_init_all n : (forall s, In s layer_parts -> weight value ts (key_n n s) <> None) ->
  exists y, layer_init value ts n = Some y.
Proof.
  intros H. unfold layer_init.
  assert (G : forall s, In s layer_parts -> exists t, weight value ts (key_n n s) = Some t).
  { intros s Hs. specialize (H s Hs). destruct (weight value ts (key_n n s)); [eauto|congruence]. }
  unfold layer_parts in G.
  repeat match goal with |- exists y, bind (weight value ts (key_n n ?s)) _ = _ =>
    let t := fresh "t" in let E := fresh "E" in destruct (G s) as (t & E); [simpl; tauto|]; rewrite E; clear E; cbn [bind] end.
  eauto.
Qed.

Lemma layers_init_inv l ys : layers_init value ts l = Some ys -> Forall2 (fun n y => layer_init value ts n = Some y) l ys.
Proof.
  revert ys. induction l as [|n l IH]; intros ys H.
  - injection H as <-. constructor.
  - cbn [layers_init] in H. apply bind_some in H as (y & Hy & H). apply bind_some in H as (ys' & Hys & H).
    injection H as <-. constructor; auto.
Qed.

Lemma layers_init_all l : (forall n, In n l -> exists y, layer_init value ts n = Some y) ->
  exists ys, layers_init value ts l = Some ys.
Proof.
  induction l as [|n l IH]; intros H; [exists []; reflexivity|]. cbn [layers_init].
  destruct (H n (or_introl eq_refl)) as (y & ->). cbn [bind].
  destruct IH as (ys & ->); [intros; apply H; right; assumption|]. cbn [bind]. eauto.
Qed.

Lemma head_init_inv hd : head_init value ts = Some hd ->
  let get s := weight value ts (key s) in
  get (u "predictions.transform.dense.weight") = Some (Encoder_model.lm_dense_w hd) /\
  get (u "predictions.transform.dense.bias") = Some (Encoder_model.lm_dense_b hd) /\
  get (u "predictions.transform.LayerNorm.weight") = Some (Encoder_model.lm_ln_w hd) /\
  get (u "predictions.transform.LayerNorm.bias") = Some (Encoder_model.lm_ln_b hd) /\
  get (u "predictions.decoder.weight") = Some (Encoder_model.lm_decoder_w hd) /\
  get (u "predictions.decoder.bias") = Some (Encoder_model.lm_decoder_b hd).
Proof.
  intros H get. unfold head_init in H.
  repeat (apply bind_some in H; destruct H as (? & ? & H)). unfold get. injection H as <-. repeat split; assumption.
Qed.

Lemma head_init_all : (forall n, In n head_names -> weight value ts n <> None) -> exists hd, head_init value ts = Some hd.
Proof.
  intros H. unfold head_init.
  assert (G : forall n, In n head_names -> exists t, weight value ts n = Some t).
  { intros n Hn. specialize (H n Hn). destruct (weight value ts n); [eauto|congruence]. }
  repeat match goal with |- exists y, bind (weight value ts (key ?s)) _ = _ =>
    let t := fresh "t" in let E := fresh "E" in
    destruct (G (key s)) as (t & E); [unfold head_names, key; cbn; tauto|]; rewrite E; clear E; cbn [bind] end.
  eauto.
Qed.

Lemma weights_init_inv n w : weights_init value ts n = Some w ->
  let get s := weight value ts (key s) in
  get (u "embeddings.word_embeddings.weight") = Some (Encoder_model.token_embedding w) /\
  get (u "embeddings.token_type_embeddings.weight") = Some (Encoder_model.segment_embedding w) /\
  get (u "embeddings.position_embeddings.weight") = Some (Encoder_model.position_embedding w) /\
  get (u "embeddings.LayerNorm.weight") = Some (Encoder_model.ln_w w) /\
  get (u "embeddings.LayerNorm.bias") = Some (Encoder_model.ln_b w) /\
  layers_init value ts (seq 0 n) = Some (Encoder_model.layers w) /\
  get (u "pooler.dense.weight") = Some (Encoder_model.pool_w w) /\
  get (u "pooler.dense.bias") = Some (Encoder_model.pool_b w) /\
  Encoder_model.lm w = head_init value ts.
Proof.
  intros H get. unfold weights_init in H.
  repeat (apply bind_some in H; destruct H as (? & ? & H)). unfold get. injection H as <-. repeat split; assumption.
Qed.

Lemma weights_init_all n : (forall x, In x (required_names n) -> weight value ts x <> None) ->
  exists w, weights_init value ts n = Some w.
Proof.
  intros H. unfold weights_init.
  assert (G : forall x, In x (embedding_names ++ pooler_names) -> exists t, weight value ts x = Some t).
  { intros x Hx. assert (Hx' : In x (required_names n)).
    { unfold required_names. rewrite !in_app_iff. apply in_app_iff in Hx. tauto. }
    specialize (H x Hx'). destruct (weight value ts x); [eauto|congruence]. }
  destruct (layers_init_all (seq 0 n)) as (ys & Ey).
  { intros k Hk. apply layer_init_all. intros s Hs. apply H. unfold required_names. rewrite !in_app_iff. right. left.
    apply in_flat_map. exists k. split; [exact Hk|]. unfold layer_names, key_n.
    apply (in_map (fun p => u "berts.bert.encoder.layer." ++ decimal (N.of_nat k) ++ u "." ++ p)). exact Hs. }
  rewrite Ey.
  repeat match goal with
  | |- exists y, bind (weight value ts (key ?s)) _ = _ =>
    let t := fresh "t" in let E := fresh "E" in
    destruct (G (key s)) as (t & E); [unfold embedding_names, pooler_names, key; cbn; tauto|]; rewrite E; clear E; cbn [bind]
  | |- exists y, bind (Some ?z) _ = _ => cbn [bind] end.
  eauto.
Qed.

(** Each required tensor is used. *)
Lemma weights_init_required n w x : weights_init value ts n = Some w -> In x (required_names n) -> weight value ts x <> None.
Proof.
  intros H Hx. apply weights_init_inv in H. cbv zeta in H.
  destruct H as (H1 & H2 & H3 & H4 & H5 & HL & H6 & H7 & _).
  unfold required_names in Hx. rewrite !in_app_iff in Hx. destruct Hx as [Hx|[Hx|Hx]].
  - cbn [embedding_names In] in Hx. unfold key in *. cbn [app u] in *. intuition subst; congruence.
  - apply in_flat_map in Hx as (k & Hk & Hx). unfold layer_names in Hx. apply in_map_iff in Hx as (s & <- & Hs).
    apply layers_init_inv in HL.
    assert (E : exists y, layer_init value ts k = Some y).
    { clear - HL Hk. induction HL; [destruct Hk|]. destruct Hk as [->|Hk]; eauto. }
    destruct E as (y & E). apply layer_init_inv in E. cbv zeta in E. unfold key_n in E.
    cbn [layer_parts In] in Hs. intuition subst; congruence.
  - cbn [pooler_names In] in Hx. unfold key in *. cbn [app u] in *. intuition subst; congruence.
Qed.
End W.

(** ** The whole loader *)
Section Whole.
Context (L : Ggml_model.lib) (HL : lib_ok L) (junk : nat -> N).
Context {V : Type} (value : gty -> list N -> nat -> V).
Context (order : list (ustring * N) -> list (ustring * N)).

Lemma pool_size f made : short_names f -> copies f made ->
  ctx_size L (f_tensors f) (f_tensors f) = Ok (total (counted L) made) /\
  (total (dup_cost L) made <= total (counted L) made)%N.
Proof.
  intros Hs Hm. destruct (ctx_size_sum L (f_tensors f) (f_tensors f) Hs (fun t H => H)) as (s & E & Hsum).
  rewrite E, (Hsum made Hm). split; [reflexivity|].
  clear - HL. induction made as [|t made IH]; cbn [total fold_right]; [lia|].
  fold (total (dup_cost L) made) (total (counted L) made).
  assert (C := counted_enough L HL t). lia.
Qed.

Definition kept (f : file) (made : list tinfo) : list stored :=
  map (fun p => mkst (snd p) (ti_name (fst p)) (read_as junk f (fst p) (snd p))) (combine (f_tensors f) made).

Lemma readable_iff f made : copies f made ->
  (readable f <->
   forallb (fun p => negb (snd (read_bytes junk f (ti_offset (fst p)) (nbytes (snd p)))))
     (removelast (combine (f_tensors f) made)) = true).
Proof.
  intros Hm. rewrite forallb_forall. unfold readable. split.
  - intros H p Hp. specialize (H made Hm). rewrite Forall_forall in H.
    rewrite (proj2 (read_state junk f _ _) (H p Hp)). reflexivity.
  - intros H made' Hm'. assert (made' = made).
    { unfold copies in *. revert Hm Hm'. generalize (f_tensors f) at 2 4. intros ts. clear H. revert made made'.
      induction ts as [|t ts IH]; intros made made' H H'; inversion H; inversion H'; subst; [reflexivity|].
      f_equal; [eapply first_unique; eassumption|apply IH; assumption]. }
    subst made'. apply Forall_forall. intros p Hp. specialize (H p Hp). apply (read_state junk f).
    destruct (snd (read_bytes junk f (ti_offset (fst p)) (nbytes (snd p)))); [discriminate|reflexivity].
Qed.

Lemma read_all f made : short_names f -> copies f made ->
  (readable f -> read_tensors L junk f (total (counted L) made) 0 false (f_tensors f) = Ok (kept f made)) /\
  (~ readable f -> read_tensors L junk f (total (counted L) made) 0 false (f_tensors f) = Fail).
Proof.
  intros Hs Hm. destruct (pool_size f made Hs Hm) as (_ & HP).
  assert (HS := read_tensors_spec L junk f (f_tensors f) made (total (counted L) made) 0 false Hs Hm ltac:(lia)).
  rewrite HS. cbn [andb orb].
  assert (R := readable_iff f made Hm).
  destruct (forallb _ (removelast (combine (f_tensors f) made))) eqn:E; split; intros H.
  - reflexivity.
  - exfalso. tauto.
  - apply R in H. discriminate.
  - reflexivity.
Qed.

Lemma vocab_kept f made n : short_names f -> copies f made -> vocab_tensor (kept f made) n = vocab_at junk f n.
Proof.
  intros Hs Hm. unfold vocab_tensor, vocab_at, kept. rewrite (lookup_stored junk f made n Hs Hm).
  unfold in_memory. destruct (named f n) as [t|]; [|reflexivity]. cbn [option_map]. unfold as_vocab. cbn [st_info st_bytes].
  reflexivity.
Qed.

(** The tensor a weight of that name becomes. *)
Definition weight_at (f : file) (n : list N) : option (Ggml_model.tensor V) :=
  option_map (fun t => Ggml_model.packed (gtype_of (ti_type t)) (ti_ne0 t) (ti_ne1 t) (ti_ne2 t) (ti_ne3 t)
                         (fun i j k l => value (ti_type t) (memory_of junk f t) (i + ti_ne0 t * (j + ti_ne1 t * (k + ti_ne2 t * l))))) (named f n).

Lemma weight_kept f made n : short_names f -> copies f made -> weight value (kept f made) n = weight_at f n.
Proof.
  intros Hs Hm. unfold weight, weight_at, kept. rewrite (lookup_stored junk f made n Hs Hm).
  unfold in_memory. destruct (named f n) as [t|]; reflexivity.
Qed.

Lemma has_named f n : has f n <-> named f n <> None.
Proof.
  unfold has, named. split.
  - intros H. apply first_exists in H as (t & Ht). apply find_first in Ht. rewrite Ht. discriminate.
  - intros H. destruct (find _ (f_tensors f)) as [t|] eqn:E; [|congruence].
    apply find_first in E. apply first_in in E. eauto.
Qed.

Lemma weight_has f made n : short_names f -> copies f made -> (weight value (kept f made) n <> None <-> has f n).
Proof.
  intros Hs Hm. rewrite weight_kept by assumption. rewrite has_named. unfold weight_at.
  destruct (named f n); simpl; split; congruence.
Qed.

Lemma vocabulary_kept f made arch : short_names f -> copies f made -> supported_arch arch ->
  init_vocab order arch f (kept f made) = vocabulary junk order f arch.
Proof.
  intros Hs Hm Ha. unfold init_vocab, vocabulary, key_vocab_size, key_vocab_data, key_merge_data.
  rewrite !(vocab_kept f made) by assumption. destruct Ha as [->| ->]; cbn [N.eqb].
  - destruct (bert_init_vocab _ _ _); reflexivity.
  - destruct (roberta_init_vocab _ _ _ _); reflexivity.
Qed.

(** Loading, step by step. *)
Lemma load_general f reopen : ~ general_ok f -> load_from_file L junk value order (Some f) reopen = Abort.
Proof.
  intros H. cbn [load_from_file]. destruct (read_metadata_cases f) as [E|E]; rewrite E; [|reflexivity].
  apply read_metadata_iff in E. contradiction.
Qed.

Lemma load_steps f made : general_ok f -> short_names f -> copies f made ->
  load_from_file L junk value order (Some f) true =
    match read_tensors L junk f (total (counted L) made) 0 false (f_tensors f) with
    | Ok ts =>
        obind (read_settings f) (fun s =>
            if negb (se_act s =? 0)%N then Ok (Null false)
            else if negb ((se_arch s =? 0) || (se_arch s =? 1))%N then Ok (Null false)
            else new_context value order f s ts)
    | Fail => Ok (Null false)
    | UB => UB
    | Abort => Abort
    end.
Proof.
  intros Hg Hs Hm. cbn [load_from_file]. rewrite (proj2 (read_metadata_iff f) Hg). cbn [obind].
  destruct (pool_size f made Hs Hm) as (E & _). rewrite E. cbn [obind negb].
  destruct (read_tensors L junk f _ 0 false (f_tensors f)) as [ts| | |]; try reflexivity.
  destruct Hg as (_ & _ & _ & t & Et & Ht). unfold need_u32. rewrite Et. cbn [obind]. unfold ftype.
  change (N.of_nat (length ftype_names)) with 19%N. replace (19 <=? t)%N with false by lia. reflexivity.
Qed.

Lemma load_unreadable f : general_ok f -> short_names f -> ~ readable f ->
  load_from_file L junk value order (Some f) true = Ok (Null false).
Proof.
  intros Hg Hs Hr. destruct (found_all f) as (made & Hm). rewrite (load_steps f made Hg Hs Hm).
  rewrite (proj2 (read_all f made Hs Hm) Hr). reflexivity.
Qed.

Lemma load_readable f made : general_ok f -> short_names f -> readable f -> copies f made ->
  load_from_file L junk value order (Some f) true =
    obind (read_settings f) (fun s =>
            if negb (se_act s =? 0)%N then Ok (Null false)
            else if negb ((se_arch s =? 0) || (se_arch s =? 1))%N then Ok (Null false)
            else new_context value order f s (kept f made)).
Proof.
  intros Hg Hs Hr Hm. rewrite (load_steps f made Hg Hs Hm). rewrite (proj1 (read_all f made Hs Hm) Hr). reflexivity.
Qed.

Lemma load_long f reopen : general_ok f -> ~ short_names f -> load_from_file L junk value order (Some f) reopen = UB.
Proof.
  intros Hg Hs. cbn [load_from_file]. rewrite (proj2 (read_metadata_iff f) Hg). cbn [obind].
  rewrite ctx_size_long; [reflexivity|].
  unfold short_names in Hs. rewrite <- Exists_Forall_neg in Hs.
  - apply Exists_exists in Hs as (t & Hin & Ht). exists t. split; [exact Hin|lia].
  - intros t. lia.
Qed.

Lemma short_dec f : short_names f \/ ~ short_names f.
Proof.
  unfold short_names. destruct (Forall_dec (fun t => length (ti_name t) < 64) (fun t => lt_dec _ _) (f_tensors f)); tauto.
Qed.

(** What a loaded context holds. *)
Lemma loaded_inv f reopen m : load_from_file L junk value order (Some f) reopen = Ok (Loaded m) ->
  reopen = true /\ exists made arch layers, copies f made /\ loadable junk order f arch layers /\
    read_settings f = Ok (lo_settings m) /\ se_act (lo_settings m) = 0%N /\
    vocabulary junk order f arch = Ok (lo_vocab m) /\
    weights_init value (kept f made) (N.to_nat layers) = Some (lo_weights m).
Proof.
  intros H. assert (Hr : reopen = true).
  { destruct reopen; [reflexivity|]. cbn [load_from_file] in H.
    destruct (read_metadata f); try discriminate. cbn [obind] in H.
    destruct (ctx_size L (f_tensors f) (f_tensors f)); discriminate. }
  subst reopen. split; [reflexivity|].
  destruct (read_metadata_cases f) as [Hg|Hg]; [apply read_metadata_iff in Hg|cbn [load_from_file] in H; rewrite Hg in H; discriminate].
  destruct (short_dec f) as [Hs|Hs]; [|rewrite (load_long f true Hg Hs) in H; discriminate].
  destruct (found_all f) as (made & Hm).
  assert (HR : readable f).
  { apply (readable_iff f made Hm).
    destruct (forallb _ (removelast (combine (f_tensors f) made))) eqn:E; [reflexivity|].
    rewrite (load_unreadable f Hg Hs) in H; [discriminate|]. intros R. apply (readable_iff f made Hm) in R. congruence. }
  rewrite (load_readable f made Hg Hs HR Hm) in H.
  destruct (read_settings f) as [s| | |] eqn:Es; try discriminate. cbn [obind] in H.
  destruct (se_act s =? 0)%N eqn:Ea; [|discriminate]. cbn [negb] in H.
  destruct ((se_arch s =? 0) || (se_arch s =? 1))%N eqn:Er; [|discriminate]. cbn [negb] in H.
  assert (Hsup : supported_arch (se_arch s)) by (unfold supported_arch; lia).
  unfold new_context in H. rewrite (vocabulary_kept f made _ Hs Hm Hsup) in H.
  destruct (vocabulary junk order f (se_arch s)) as [v| | |] eqn:Ev; try discriminate.
  destruct (weights_init value (kept f made) _) as [w|] eqn:Ew; [|discriminate].
  injection H as <-. cbn [lo_settings lo_vocab lo_weights].
  destruct (read_settings_ok f s Es) as (Hset & arch & vocab & h & layers & heads & max & inter & segs & act & eps &
    E1 & E2 & E3 & E4 & E5 & E6 & E7 & E8 & E9 & Ee & E10).
  exists made, arch, layers.
  assert (se_arch s = arch) by (rewrite E10; reflexivity).
  assert (se_act s = act) by (rewrite E10; reflexivity).
  assert (Encoder_model.n_layers (se_hp s) = N.to_nat layers) by (rewrite E10; reflexivity).
  assert (act = 0%N) by lia. subst act. rewrite H in *. rewrite H1 in *.
  split; [exact Hm|]. split; [|split; [reflexivity|split; [assumption|split; assumption]]].
  constructor; try assumption.
  - rewrite E9, H2. reflexivity.
  - eauto.
  - apply Forall_forall. intros x Hx. apply (weight_has f made x Hs Hm). eapply weights_init_required; eassumption.
Qed.

Lemma loadable_loads f arch layers : loadable junk order f arch layers ->
  exists m, load_from_file L junk value order (Some f) true = Ok (Loaded m).
Proof.
  intros [Hg Hset Hs HR Ha Har Hsup Hl (v & Hv) Hw].
  destruct (found_all f) as (made & Hm). rewrite (load_readable f made Hg Hs HR Hm).
  destruct (read_settings_iff f Hset) as (s & Es). rewrite Es. cbn [obind].
  destruct (read_settings_ok f s Es) as (_ & arch' & vocab & h & layers' & heads & max & inter & segs & act & eps &
    E1 & E2 & E3 & E4 & E5 & E6 & E7 & E8 & E9 & Ee & E10).
  rewrite Har in E1. injection E1 as <-. rewrite Ha in E9. injection E9 as <-. rewrite Hl in E4. injection E4 as <-.
  subst s. cbn [se_act se_arch se_hp]. cbn [N.eqb negb].
  replace ((arch =? 0) || (arch =? 1))%N with true by (destruct Hsup; subst; reflexivity). cbn [negb].
  unfold new_context. cbn [se_arch se_hp Encoder_model.n_layers].
  rewrite (vocabulary_kept f made _ Hs Hm Hsup), Hv.
  destruct (weights_init_all value (kept f made) (N.to_nat layers)) as (w & Ew).
  { intros x Hx. apply (weight_has f made x Hs Hm). rewrite Forall_forall in Hw. auto. }
  rewrite Ew. eauto.
Qed.
End Whole.

(** ** The names *)

Lemma digits_ascii fuel : forall n, Forall (fun x => 48 <= x < 58)%N (digits fuel n).
Proof.
  induction fuel as [|k IH]; intros n; cbn [digits]; [constructor|].
  destruct (N.ltb_spec n 10).
  - repeat constructor; lia.
  - apply Forall_app. split; [apply IH|]. repeat constructor; [lia|].
    assert (n mod 10 < 10)%N by (apply N.mod_lt; lia). lia.
Qed.

Lemma split_dot (a b x y : list N) : Forall (fun c => 48 <= c < 58)%N a -> Forall (fun c => 48 <= c < 58)%N b ->
  a ++ 46%N :: x = b ++ 46%N :: y -> a = b /\ x = y.
Proof.
  intros Ha. revert b. induction Ha as [|c a Hc Ha IH]; intros b Hb E; inversion Hb as [|c' b' Hc' Hb']; subst; cbn [app] in E.
  - injection E as E. auto.
  - injection E as E1 E2. subst. lia.
  - injection E as E1 E2. subst. lia.
  - injection E as E1 E2. destruct (IH b' Hb' E2). subst. auto.
Qed.

Lemma layer_name_inj n n' s s' : layer_name n s = layer_name n' s' -> n = n' /\ s = s'.
Proof.
  unfold layer_name. intros H. apply app_inv_head in H.
  change (u ".") with [46%N] in H. cbn [app] in H.
  apply split_dot in H as (H1 & H2); [|apply digits_ascii|apply digits_ascii].
  apply decimal_inj in H1. split; [lia|exact H2].
Qed.

Lemma NoDup_flat {A B} (g : A -> list B) l : NoDup l -> (forall x, In x l -> NoDup (g x)) ->
  (forall x y z, In x l -> In y l -> In z (g x) -> In z (g y) -> x = y) -> NoDup (flat_map g l).
Proof.
  induction 1 as [|x l Hx Hl IH]; intros Hg Hd; [constructor|]. cbn [flat_map].
  assert (G : NoDup (flat_map g l)).
  { apply IH; [intros; apply Hg; right; assumption|]. intros y z t ? ? ? ?. apply (Hd y z t); simpl; auto. }
  specialize (Hg x (or_introl eq_refl)).
  assert (D : forall z, In z (g x) -> ~ In z (flat_map g l)).
  { intros z Hz Hin. apply in_flat_map in Hin as (y & Hy & Hz'). apply Hx.
    rewrite (Hd x y z); simpl; auto. }
  clear IH Hd. induction Hg as [|z zs Hz Hzs IH]; [exact G|]. cbn [app]. constructor.
  - rewrite in_app_iff. intros [|]; [contradiction|]. apply (D z); simpl; auto.
  - apply IH. intros y Hy. apply D. right. exact Hy.
Qed.

Lemma layer_parts_nodup : NoDup layer_parts.
Proof.
  assert (H : forall l, (fix nd (l : list (list N)) := match l with [] => true | x :: l' => negb (existsb (list_N_eqb x) l') && nd l' end) l = true -> NoDup l).
  { induction l as [|x l IH]; [constructor|]. intros E. apply andb_true_iff in E as (E1 & E2). constructor; [|apply IH, E2].
    intros Hin. apply negb_true_iff in E1. assert (existsb (list_N_eqb x) l = true); [|congruence].
    apply existsb_exists. exists x. split; [exact Hin|]. apply list_N_eqb_eq. reflexivity. }
  apply H. vm_compute. reflexivity.
Qed.

Lemma layer_names_nodup n : NoDup (layer_names n).
Proof.
  unfold layer_names. apply FinFun.Injective_map_NoDup; [|apply layer_parts_nodup].
  intros s s' H. apply (layer_name_inj n n) in H. apply H.
Qed.

Lemma required_nodup layers : NoDup (required_names layers).
Proof.
  unfold required_names.
  assert (NL : NoDup (flat_map layer_names (seq 0 layers))).
  { apply NoDup_flat; [apply seq_NoDup|intros; apply layer_names_nodup|].
    intros x y z _ _ Hx Hy. unfold layer_names in *. apply in_map_iff in Hx as (p & <- & _). apply in_map_iff in Hy as (q & E & _).
    symmetry in E. apply layer_name_inj in E. apply E. }
  assert (P : forall z, In z (flat_map layer_names (seq 0 layers)) -> firstn 13 z = u "berts.bert.en").
  { intros z Hz. apply in_flat_map in Hz as (k & _ & Hz). unfold layer_names in Hz. apply in_map_iff in Hz as (p & <- & _). reflexivity. }
  assert (N1 : NoDup (embedding_names ++ pooler_names)).
  { vm_compute. repeat constructor; simpl; intuition discriminate. }
  assert (D : forall z, In z (embedding_names ++ pooler_names) -> ~ In z (flat_map layer_names (seq 0 layers))).
  { intros z Hz Hin. apply P in Hin. cbn [embedding_names pooler_names app In] in Hz.
    intuition subst; revert Hin; vm_compute; discriminate. }
  apply (Permutation_NoDup (l := (embedding_names ++ pooler_names) ++ flat_map layer_names (seq 0 layers))).
  - rewrite <- app_assoc. apply Permutation_app_head, Permutation_app_comm.
  - generalize D N1. generalize (embedding_names ++ pooler_names). intros l D' N'. induction N' as [|z zs Hz Hzs IH]; [exact NL|].
    cbn [app]. constructor; [|apply IH; intros y Hy; apply D'; right; exact Hy].
    rewrite in_app_iff. intros [|]; [contradiction|]. apply (D' z); simpl; auto.
Qed.

(** ** Shapes and values *)

Lemma memory_inside junk f t : contained f t -> memory_of junk f t = region f t.
Proof.
  intros H. unfold memory_of.
  assert (E : length (region f t) = N.to_nat (nbytes t)).
  { unfold region, contained in *. rewrite firstn_length, skipn_length. lia. }
  rewrite E, Nat.sub_diag. apply app_nil_r.
Qed.

Lemma nth_map_seq {A} (g : nat -> A) n i d : i < n -> nth i (map g (seq 0 n)) d = g i.
Proof.
  intros H. rewrite (nth_indep _ d (g 0)) by (rewrite map_length, seq_length; exact H).
  rewrite map_nth, seq_nth by exact H. reflexivity.
Qed.

Section Shapes.
Context (junk : nat -> N) {V : Type} (value : gty -> list N -> nat -> V) (P : Ggml_model.prim V).

Lemma matrix_ok f r c n t : 0 < c -> matrix_at f r c n -> weight_at junk value f n = Some t ->
  Encoder_spec.is_matrix P t r c (rows_of value f n).
Proof.
  intros Hc (ti & Hn & Hin & E0 & E1 & E2 & E3). unfold weight_at, rows_of. rewrite Hn. cbn [option_map].
  intros H. injection H as <-. rewrite (memory_inside junk f ti Hin).
  unfold Encoder_spec.is_matrix. cbn [Ggml_model.packed Ggml_model.ne0 Ggml_model.ne1 Ggml_model.ne2 Ggml_model.ne3 Ggml_model.el].
  rewrite E0, E1, E2, E3. repeat (split; [reflexivity|]).
  split; [rewrite map_length, seq_length; reflexivity|].
  split; [apply Forall_forall; intros x Hx; apply in_map_iff in Hx as (j & <- & _); rewrite map_length, seq_length; reflexivity|].
  split; [unfold Ggml_model.transposed, Ggml_model.packed; cbn; apply Nat.leb_gt; lia|].
  intros i j Hi Hj. rewrite nth_map_seq by exact Hj. rewrite nth_map_seq by exact Hi. f_equal. lia.
Qed.

Lemma vector_ok f c n t : vector_at f c n -> weight_at junk value f n = Some t ->
  Encoder_spec.is_vector P t c (row_of value f n).
Proof.
  intros (ti & Hn & Hin & ET & E0 & E1 & E2 & E3). unfold weight_at, row_of, rows_of. rewrite Hn. cbn [option_map].
  intros H. injection H as <-. rewrite (memory_inside junk f ti Hin).
  unfold Encoder_spec.is_vector. cbn [Ggml_model.packed Ggml_model.ne0 Ggml_model.ne1 Ggml_model.ne2 Ggml_model.ne3 Ggml_model.el Ggml_model.ty].
  rewrite E0, E1, E2, E3, ET. cbn [gtype_of]. repeat (split; [reflexivity|]). cbn [seq map nth].
  split; [rewrite map_length, seq_length; reflexivity|].
  intros i Hi. rewrite nth_map_seq by exact Hi. f_equal; lia.
Qed.

Context (L : Ggml_model.lib) (HL : lib_ok L) (f : file) (made : list tinfo) (Hs : short_names f) (Hm : copies f made).

Lemma block_ok h m n y : 0 < h -> 0 < m -> layer_shaped f h m n ->
  layer_init value (kept junk f made) n = Some y -> Encoder_spec.block_is P h m y (file_block value f n).
Proof.
  intros Hh Hmm [S1 S2 S3 S4 S5] H. apply layer_init_inv in H. cbv zeta in H.
  repeat rewrite (weight_kept junk value f made _ Hs Hm) in H.
  rewrite Forall_forall in S1, S5.
  assert (M : forall s, In s [u "attention.self.query.weight"; u "attention.self.key.weight"; u "attention.self.value.weight";
     u "attention.output.dense.weight"] -> forall t, weight_at junk value f (key_n n s) = Some t ->
     Encoder_spec.is_matrix P t h h (rows_of value f (layer_name n s))).
  { intros s Hin t. apply matrix_ok; [exact Hh|]. apply S1, Hin. }
  assert (W : forall s, In s [u "attention.self.query.bias"; u "attention.self.key.bias"; u "attention.self.value.bias";
     u "attention.output.dense.bias"; u "attention.output.LayerNorm.weight"; u "attention.output.LayerNorm.bias";
     u "output.dense.bias"; u "output.LayerNorm.weight"; u "output.LayerNorm.bias"] ->
     forall t, weight_at junk value f (key_n n s) = Some t ->
     Encoder_spec.is_vector P t h (row_of value f (layer_name n s))).
  { intros s Hin t. apply vector_ok. apply S5, Hin. }
  destruct H as (H1 & H2 & H3 & H4 & H5 & H6 & H7 & H8 & H9 & H10 & H11 & H12 & H13 & H14 & H15 & H16).
  unfold file_block. constructor; cbn [Encoder_spec.sq_w Encoder_spec.sq_b Encoder_spec.sk_w Encoder_spec.sk_b
    Encoder_spec.sv_w Encoder_spec.sv_b Encoder_spec.sff_w Encoder_spec.sff_b Encoder_spec.sln_ff_w Encoder_spec.sln_ff_b
    Encoder_spec.si_w Encoder_spec.si_b Encoder_spec.so_w Encoder_spec.so_b Encoder_spec.sln_out_w Encoder_spec.sln_out_b].
  - apply M; [left; reflexivity|exact H1].
  - apply W; [left; reflexivity|exact H2].
  - apply M; [right; left; reflexivity|exact H3].
  - apply W; [right; left; reflexivity|exact H4].
  - apply M; [do 2 right; left; reflexivity|exact H5].
  - apply W; [do 2 right; left; reflexivity|exact H6].
  - apply M; [do 3 right; left; reflexivity|exact H7].
  - apply W; [do 3 right; left; reflexivity|exact H8].
  - apply W; [do 4 right; left; reflexivity|exact H9].
  - apply W; [do 5 right; left; reflexivity|exact H10].
  - eapply matrix_ok; [exact Hh|exact S2|exact H11].
  - eapply vector_ok; [exact S3|exact H12].
  - eapply matrix_ok; [exact Hmm|exact S4|exact H13].
  - apply W; [do 6 right; left; reflexivity|exact H14].
  - apply W; [do 7 right; left; reflexivity|exact H15].
  - apply W; [do 8 right; left; reflexivity|exact H16].
Qed.

Lemma params_ok hp w words rows :
  0 < Encoder_model.hidden_dim hp -> 0 < Encoder_model.intermediate_dim hp ->
  well_shaped f (Encoder_model.hidden_dim hp) (Encoder_model.intermediate_dim hp) (Encoder_model.n_layers hp)
    (Encoder_model.segment_count hp) words rows ->
  weights_init value (kept junk f made) (Encoder_model.n_layers hp) = Some w ->
  Encoder_spec.weights_are P hp words rows w (file_params value f (Encoder_model.n_layers hp)).
Proof.
  intros Hh Hi [S1 S2 S3 S4 S5 S6 S7] H. apply weights_init_inv in H. cbv zeta in H.
  repeat rewrite (weight_kept junk value f made _ Hs Hm) in H. rewrite Forall_forall in S4.
  destruct H as (H1 & H2 & H3 & H4 & H5 & H6 & H7 & H8 & _).
  apply layers_init_inv in H6.
  assert (HF : forall (l : list nat) ys, (forall n, In n l -> n < Encoder_model.n_layers hp) ->
    Forall2 (fun n y => layer_init value (kept junk f made) n = Some y) l ys ->
    Forall2 (Encoder_spec.block_is P (Encoder_model.hidden_dim hp) (Encoder_model.intermediate_dim hp)) ys (map (file_block value f) l)).
  { intros l ys Hl HF. induction HF as [|n y l ys Hy HF IH]; [constructor|]. cbn [map]. constructor.
    - apply block_ok; auto. apply S5, Hl. left. reflexivity.
    - apply IH. intros; apply Hl; right; assumption. }
  unfold file_params. constructor; cbn [Encoder_spec.sm_words Encoder_spec.sm_segments Encoder_spec.sm_positions Encoder_spec.sm_lw
    Encoder_spec.sm_lb Encoder_spec.sm_blocks Encoder_spec.sm_pw Encoder_spec.sm_pb].
  - eapply matrix_ok; [exact Hh|exact S1|exact H1].
  - eapply matrix_ok; [exact Hh|exact S3|exact H2].
  - eapply matrix_ok; [exact Hh|exact S2|exact H3].
  - eapply vector_ok; [|exact H4]. apply S4. left. reflexivity.
  - eapply vector_ok; [|exact H5]. apply S4. right. left. reflexivity.
  - apply HF; [|exact H6]. intros n Hn. apply in_seq in Hn. lia.
  - apply Forall2_len in H6. rewrite seq_length in H6. symmetry. exact H6.
  - eapply matrix_ok; [exact Hh|exact S6|exact H7].
  - eapply vector_ok; [exact S7|exact H8].
Qed.

Lemma head_ok h words w n : 0 < h -> head_shaped f h words ->
  weights_init value (kept junk f made) n = Some w ->
  exists hd, Encoder_model.lm w = Some hd /\ Encoder_spec.head_is P h words hd (file_head value f).
Proof.
  intros Hh [S1 S2 S3 S4] H. apply weights_init_inv in H. cbv zeta in H.
  destruct H as (_ & _ & _ & _ & _ & _ & _ & _ & H). rewrite H. rewrite Forall_forall in S3.
  destruct (head_init_all value (kept junk f made)) as (hd & E).
  { intros x Hx. apply (weight_has junk value f made x Hs Hm). apply has_named.
    assert (A : forall s r c, matrix_at f r c (bert_name s) -> named f (bert_name s) <> None).
    { intros s r c (t & E & _). rewrite E. discriminate. }
    assert (B : forall s c, vector_at f c (bert_name s) -> named f (bert_name s) <> None).
    { intros s c (t & E & _). rewrite E. discriminate. }
    unfold head_names in Hx. cbn [In] in Hx. destruct Hx as [<-|[<-|[<-|[<-|[<-|[<-|[]]]]]]].
    - apply (A _ _ _ S1).
    - apply (B _ h). apply S3. left. reflexivity.
    - apply (B _ h). apply S3. right. left. reflexivity.
    - apply (B _ h). apply S3. do 2 right. left. reflexivity.
    - apply (A _ _ _ S2).
    - apply (B _ _ S4). }
  exists hd. split; [exact E|]. apply head_init_inv in E. cbv zeta in E.
  repeat rewrite (weight_kept junk value f made _ Hs Hm) in E.
  destruct E as (H1 & H2 & H3 & H4 & H5 & H6).
  unfold file_head. constructor; cbn [Encoder_spec.sl_dw Encoder_spec.sl_db Encoder_spec.sl_lw Encoder_spec.sl_lb Encoder_spec.sl_cw Encoder_spec.sl_cb].
  - eapply matrix_ok; [exact Hh|exact S1|exact H1].
  - eapply vector_ok; [|exact H2]. apply S3. left. reflexivity.
  - eapply vector_ok; [|exact H3]. apply S3. right. left. reflexivity.
  - eapply vector_ok; [|exact H4]. apply S3. do 2 right. left. reflexivity.
  - eapply matrix_ok; [exact Hh|exact S2|exact H5].
  - eapply vector_ok; [exact S4|exact H6].
Qed.
End Shapes.
