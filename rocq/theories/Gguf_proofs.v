(** Proofs about the file format. *)
From Verif Require Import Base Bert_model Vocab_model Bpe_model Roberta_model Loader_model Loader_spec Loader_proofs
  Quantize_model Quantize_spec Quantize_proofs Gguf_model Gguf_spec.
From Verif Require Ggml_model.
Local Open Scope nat_scope.

(** ** Numbers *)

Lemma unle_le k n : unle (le k n) = (n mod 256 ^ N.of_nat k)%N.
Proof.
  revert n; induction k as [|k IH]; intros n.
  - cbn [le]. unfold unle. cbn [fold_right]. change (256 ^ N.of_nat 0)%N with 1%N. rewrite N.mod_1_r. reflexivity.
  - cbn [le]. change (unle (n mod 256 :: le k (n / 256))%N) with (n mod 256 + 256 * unle (le k (n / 256)))%N.
    rewrite IH, Nat2N.inj_succ, N.pow_succ_r'.
    assert (Hp : (256 ^ N.of_nat k <> 0)%N) by (apply N.pow_nonzero; discriminate).
    rewrite N.mod_mul_r by (exact Hp || discriminate). reflexivity.
Qed.

Lemma unle_bound bs : byte_string bs -> (unle bs < 256 ^ N.of_nat (length bs))%N.
Proof.
  unfold byte_string. induction 1 as [|b bs Hb HF IH]; [cbn; lia|].
  change (unle (b :: bs)) with (b + 256 * unle bs)%N. cbn [length]. rewrite Nat2N.inj_succ, N.pow_succ_r'. lia.
Qed.

Lemma le_unle bs : byte_string bs -> le (length bs) (unle bs) = bs.
Proof.
  unfold byte_string. induction 1 as [|b bs Hb HF IH]; [reflexivity|]. cbn [length le].
  change (unle (b :: bs)) with (b + 256 * unle bs)%N.
  assert (E1 : ((b + 256 * unle bs) mod 256 = b)%N).
  { rewrite N.add_comm, N.mul_comm. rewrite N.add_mod, N.mod_mul, N.add_0_l, N.mod_mod by discriminate. apply N.mod_small, Hb. }
  assert (E2 : ((b + 256 * unle bs) / 256 = unle bs)%N).
  { rewrite N.add_comm, N.mul_comm. rewrite N.div_add_l by discriminate. rewrite N.div_small by exact Hb. lia. }
  rewrite E1, E2, IH. reflexivity.
Qed.

Lemma le_bytes k n : byte_string (le k n).
Proof.
  revert n; induction k as [|k IH]; intros n; cbn [le]; [constructor|]. constructor; [apply N.mod_lt; discriminate|apply IH].
Qed.

Lemma unle4 n : (n < 4294967296)%N -> unle (le 4 n) = n.
Proof. intros H. rewrite unle_le. apply N.mod_small. exact H. Qed.
Lemma unle8 n : fits64 n -> unle (le 8 n) = n.
Proof. intros H. rewrite unle_le. apply N.mod_small. exact H. Qed.

(** ** Parts *)

Lemma take_app a r : take (N.of_nat (length a)) (a ++ r) = Ok (a, r).
Proof.
  unfold take. destruct (N.ltb_spec (N.of_nat (length (a ++ r))) (N.of_nat (length a))) as [H|H].
  { rewrite app_length in H. lia. }
  rewrite Nat2N.id, firstn_app, Nat.sub_diag, firstn_all, skipn_app, Nat.sub_diag, skipn_all. cbn [firstn skipn].
  rewrite app_nil_r. reflexivity.
Qed.
Lemma take_app' n a r : n = N.of_nat (length a) -> take n (a ++ r) = Ok (a, r).
Proof. intros ->. apply take_app. Qed.

Lemma num_app k n r : (n < 256 ^ k)%N -> take_num k (le (N.to_nat k) n ++ r) = Ok (n, r).
Proof.
  intros H. unfold take_num. rewrite (take_app' k (le (N.to_nat k) n) r) by (rewrite le_length, N2Nat.id; reflexivity).
  cbn [obind fst snd]. rewrite unle_le, N2Nat.id, N.mod_small by exact H. reflexivity.
Qed.
Lemma num4 n r : (n < 4294967296)%N -> take_num 4 (le 4 n ++ r) = Ok (n, r).
Proof. intros H. apply (num_app 4 n r). exact H. Qed.
Lemma num8 n r : fits64 n -> take_num 8 (le 8 n ++ r) = Ok (n, r).
Proof. intros H. apply (num_app 8 n r). exact H. Qed.

Lemma str_app s r : short s -> take_str (put_str s ++ r) = Ok (s, r).
Proof.
  intros H. unfold take_str, put_str. rewrite <- app_assoc, num8 by exact H. cbn [obind fst snd]. apply take_app.
Qed.

Lemma many_app {A} (p : list N -> outcome (A * list N)) (w : A -> list N) l r :
  Forall (fun x => forall r, p (w x ++ r) = Ok (x, r)) l ->
  take_many p (length l) (concat (map w l) ++ r) = Ok (l, r).
Proof.
  intros H. induction H as [|x l Hx HF IH]; [reflexivity|]. cbn [length map concat take_many].
  rewrite <- app_assoc, Hx. cbn [obind fst snd]. rewrite IH. reflexivity.
Qed.

Lemma fixed_scalar t k : In (t, k) fixed_types -> scalar_size t = k /\ t <> 8%N /\ t <> 9%N /\ (t < 13)%N.
Proof.
  unfold fixed_types. cbn [In]. intros H.
  repeat (destruct H as [H|H]; [injection H as <- <-; repeat split; (reflexivity || discriminate || lia)|]). destruct H.
Qed.


Definition type_code (v : kval) : N := match v with VScalar t _ => t | VStr _ => 8 | _ => 9 end.
Definition body (v : kval) : list N :=
  match v with
  | VScalar t bs => bs
  | VStr s => put_str s
  | VArr t n bs => le 4 t ++ le 8 n ++ bs
  | VStrs l => le 4 8 ++ le 8 (N.of_nat (length l)) ++ concat (map put_str l)
  end.
Lemma put_val_eq v : put_val v = le 4 (type_code v) ++ body v.
Proof. destruct v; reflexivity. Qed.

Lemma val_app v r : wf_val v -> take_val (type_code v) (body v ++ r) = Ok (v, r) /\ (type_code v < 13)%N.
Proof.
  destruct v as [t bs|s|t n bs|l]; cbn [wf_val type_code body]; intros H.
  - destruct (fixed_scalar _ _ H) as (E & N8 & N9 & L13). split; [|exact L13]. unfold take_val.
    destruct (N.eqb_spec t 8); [contradiction|]. destruct (N.eqb_spec t 9); [contradiction|].
    destruct (N.eqb_spec t 13); [lia|]. rewrite E, take_app. reflexivity.
  - split; [|reflexivity]. unfold take_val. change (8 =? 8)%N with true. cbn iota. rewrite str_app by exact H. reflexivity.
  - destruct H as (Hn & k & Hk & El). destruct (fixed_scalar _ _ Hk) as (E & N8 & N9 & L13). split; [|reflexivity].
    unfold take_val. change (9 =? 8)%N with false. change (9 =? 9)%N with true. cbn iota.
    rewrite <- !app_assoc, num4 by lia. cbn [obind fst snd]. rewrite num8 by exact Hn. cbn [obind fst snd].
    destruct (N.eqb_spec t 8); [contradiction|]. destruct (N.eqb_spec t 9); [contradiction|]. destruct (N.eqb_spec t 13); [lia|].
    cbn [orb]. destruct (N.ltb_spec 13 t); [lia|]. rewrite E, (take_app' (n * k)%N bs r) by congruence. reflexivity.
  - destruct H as (Hn & Hl). split; [|reflexivity].
    unfold take_val. change (9 =? 8)%N with false. change (9 =? 9)%N with true. cbn iota.
    rewrite <- !app_assoc, num4 by lia. cbn [obind fst snd]. rewrite num8 by exact Hn. cbn [obind fst snd].
    change (8 =? 8)%N with true. cbn iota. rewrite Nat2N.id, many_app; [reflexivity|].
    eapply Forall_impl; [|exact Hl]. intros s Hs r'. apply str_app, Hs.
Qed.

Lemma kv_app x r : wf_kv x -> take_kv (put_kv x ++ r) = Ok (x, r).
Proof.
  intros (Hs & _ & Hv). destruct (val_app (k_val x) r Hv) as (E & Ht). unfold take_kv, put_kv.
  rewrite <- app_assoc, str_app by exact Hs. cbn [obind fst snd]. rewrite put_val_eq, <- app_assoc, num4 by lia.
  cbn [obind fst snd]. rewrite E. destruct x; reflexivity.
Qed.

(** ** Descriptions *)

Definition raw_of (w : winfo) : rinfo :=
  mkri (w_name w) (map N.of_nat (firstn (N.to_nat (w_dims w)) [w_ne0 w; w_ne1 w; w_ne2 w; w_ne3 w])) (code (w_type w)) (w_offset w).

Lemma code_small t : (code t < 4294967296)%N.
Proof. destruct t; reflexivity. Qed.

Lemma dims_length w : (w_dims w <= 4)%N -> length (firstn (N.to_nat (w_dims w)) [w_ne0 w; w_ne1 w; w_ne2 w; w_ne3 w]) = N.to_nat (w_dims w).
Proof. intros H. rewrite firstn_length. cbn [length]. lia. Qed.

Lemma info_app w r : wf_info w -> take_info (write_info w ++ r) = Ok (raw_of w, r).
Proof.
  intros H. destruct H as [Hn _ (Hd & _) H0 H1 H2 H3 Ho _]. cbn [seen ti_dims] in Hd.
  unfold take_info, write_info. rewrite <- !app_assoc, (app_assoc (le 8 _) (w_name w)).
  change (le 8 (N.of_nat (length (w_name w))) ++ w_name w) with (put_str (w_name w)).
  rewrite str_app by exact Hn. cbn [obind fst snd]. rewrite num4 by lia. cbn [obind fst snd].
  destruct (N.ltb_spec 4 (w_dims w)) as [L|_]; [lia|].
  set (ne := firstn (N.to_nat (w_dims w)) _).
  assert (En : N.to_nat (w_dims w) = length (map N.of_nat ne)) by (rewrite map_length; unfold ne; rewrite dims_length by exact Hd; reflexivity).
  rewrite En. replace (map (fun n => le 8 (N.of_nat n)) ne) with (map (le 8) (map N.of_nat ne)) by apply map_map.
  rewrite many_app.
  - cbn [obind fst snd]. rewrite num4 by apply code_small. cbn [obind fst snd]. rewrite num8 by exact Ho. reflexivity.
  - apply Forall_forall. intros x Hx r'. apply num8. apply in_map_iff in Hx as (n & <- & Hx).
    assert (Hx' : In n [w_ne0 w; w_ne1 w; w_ne2 w; w_ne3 w]).
    { rewrite <- (firstn_skipn (N.to_nat (w_dims w))). apply in_app_iff. left. exact Hx. }
    cbn [In] in Hx'. intuition (subst; assumption).
Qed.

Lemma cstr_id s : ~ In 0%N s -> cstr s = s.
Proof.
  induction s as [|c s IH]; [reflexivity|]. cbn [cstr In]. intros H. destruct (N.eqb_spec c 0) as [->|_]; [tauto|].
  rewrite IH by tauto. reflexivity.
Qed.

Lemma gty_code t : gty_of (code t) = Some t.
Proof. destruct t; reflexivity. Qed.

Lemma describe_raw w : wf_info w -> describe_info (raw_of w) = Ok (seen w).
Proof.
  intros H. destruct H as [_ Hz Ht _ _ _ _ _ Hb]. unfold describe_info, raw_of. cbn [ri_code ri_ne ri_name ri_offset].
  rewrite gty_code. cbv zeta. rewrite (cstr_id _ Hz). set (i := mkti _ _ _ _ _ _ _ _).
  assert (Ei : i = seen w).
  { unfold i, seen. destruct Ht as (Hd & T0 & T1 & T2 & T3). cbn [seen ti_dims ti_ne0 ti_ne1 ti_ne2 ti_ne3] in *.
    rewrite map_length, dims_length by exact Hd. rewrite N2Nat.id.
    assert (D : w_dims w = 0%N \/ w_dims w = 1%N \/ w_dims w = 2%N \/ w_dims w = 3%N \/ w_dims w = 4%N) by lia.
    destruct D as [D|[D|[D|[D|D]]]]; rewrite D in *;
      [change (N.to_nat 0) with 0|change (N.to_nat 1) with 1|change (N.to_nat 2) with 2|change (N.to_nat 3) with 3|change (N.to_nat 4) with 4];
      cbn [firstn map nth];
      rewrite ?Nat2N.id, ?T0, ?T1, ?T2, ?T3 by lia; reflexivity. }
  rewrite Ei. unfold elements. cbn [seen ti_ne0 ti_ne1 ti_ne2 ti_ne3]. rewrite Hb. reflexivity.
Qed.

Lemma describe_raws ws : Forall wf_info ws -> describe_all (map raw_of ws) = Ok (map seen ws).
Proof.
  induction 1 as [|w ws Hw HF IH]; [reflexivity|]. cbn [map describe_all]. rewrite describe_raw by exact Hw. cbn [obind].
  rewrite IH. reflexivity.
Qed.

(** ** Lookup *)

Lemma find_key_spec kvs k : Forall (fun x => ~ In 0%N (k_key x)) kvs -> forall A (g : kval -> A),
  looks_up g kvs k (option_map g (find_key kvs k)).
Proof.
  intros H A g. unfold find_key, looks_up, first_pair, no_pair. induction H as [|x l Hx HF IH].
  - right. split; [cbn; tauto|reflexivity].
  - cbn [find]. rewrite (cstr_id _ Hx). destruct (list_N_eqb (k_key x) k) eqn:E.
    + apply list_N_eqb_eq in E. left. exists (k_val x). split; [|reflexivity]. exists [], x, l. cbn. auto.
    + apply list_N_eqb_neq in E. destruct IH as [(v & (a & y & b & -> & K & <- & Na) & Er)|(Nl & Er)].
      * left. exists (k_val y). split; [|exact Er]. exists (x :: a), y, b. split; [reflexivity|]. split; [exact K|]. split; [reflexivity|].
        cbn [map In]. intros [?|?]; auto.
      * right. split; [|exact Er]. cbn [map In]. intros [?|?]; auto.
Qed.

Lemma first_pair_unique kvs k v v' : first_pair kvs k v -> first_pair kvs k v' -> v = v'.
Proof.
  intros (a & x & b & -> & K & <- & Na). intros (a' & x' & b' & E & K' & <- & Na'). revert a' E Na'.
  induction a as [|y a IH]; intros a' E Na'.
  - destruct a' as [|y' a']; [injection E as -> _; reflexivity|]. exfalso. cbn in E. injection E as -> _. apply Na'. left. exact K.
  - destruct a' as [|y' a'].
    + cbn in E. injection E as -> _. exfalso. apply Na. left. exact K'.
    + cbn in E. injection E as <- E. apply (IH ltac:(intros Hi; apply Na; right; exact Hi) a' E). intros Hi. apply Na'. right. exact Hi.
Qed.

Lemma first_not_none kvs k v : first_pair kvs k v -> ~ no_pair kvs k.
Proof.
  intros (a & x & b & -> & K & _) Hn. apply Hn. rewrite map_app, in_app_iff. right. left. exact K.
Qed.

Lemma find_key_first kvs k v : Forall (fun x => ~ In 0%N (k_key x)) kvs -> first_pair kvs k v -> find_key kvs k = Some v.
Proof.
  intros H Hf. assert (G := find_key_spec kvs k H _ (fun v => v)). replace (option_map (fun v => v) (find_key kvs k)) with (find_key kvs k) in G
    by (destruct (find_key kvs k); reflexivity).
  destruct G as [(v' & F & ->)|(Nn & _)]; [|exfalso; exact (first_not_none _ _ _ Hf Nn)].
  rewrite (first_pair_unique _ _ _ _ F Hf). reflexivity.
Qed.
Lemma find_key_none kvs k : Forall (fun x => ~ In 0%N (k_key x)) kvs -> no_pair kvs k -> find_key kvs k = None.
Proof.
  intros H Hf. assert (G := find_key_spec kvs k H _ (fun v => v)). replace (option_map (fun v => v) (find_key kvs k)) with (find_key kvs k) in G
    by (destruct (find_key kvs k); reflexivity).
  destruct G as [(v' & F & _)|(_ & ->)]; [exfalso; exact (first_not_none _ _ _ F Hf)|reflexivity].
Qed.

Lemma alignment_ok kvs a : Forall (fun x => ~ In 0%N (k_key x)) kvs -> aligned_to kvs a -> alignment kvs = Ok a.
Proof.
  intros H [(Nn & ->)|(bs & F & -> & Ha)]; unfold alignment.
  - rewrite (find_key_none _ _ H Nn). reflexivity.
  - rewrite (find_key_first _ _ _ H F). change (4 =? 4)%N with true. cbn iota. rewrite unle4 by lia.
    destruct (N.eqb_spec a 0); [lia|reflexivity].
Qed.

(** ** The whole file *)

Lemma raw_parts n_kv kv ws : raw_meta n_kv kv ws =
  GGUF ++ le 4 3 ++ le 8 (N.of_nat (length ws)) ++ le 8 n_kv ++ kv ++ concat (map write_info ws).
Proof. reflexivity. Qed.

Lemma read_written_at kvs ws a tail : Forall wf_kv kvs -> Forall wf_info ws ->
  fits64 (N.of_nat (length kvs)) -> fits64 (N.of_nat (length ws)) -> alignment kvs = Ok a ->
  read_gguf (raw_meta (N.of_nat (length kvs)) (put_kvs kvs) ws ++ tail) =
  Ok (kvs, mkfile (fun k => option_map as_setting (find_key kvs (setting_key k)))
             (fun k => option_map as_tok (find_key kvs (tok_key k))) (map seen ws)
             (data_start a (N.of_nat (length kvs)) (put_kvs kvs) ws)
             (raw_meta (N.of_nat (length kvs)) (put_kvs kvs) ws ++ tail)).
Proof.
  intros Hk Hw Lk Lw Ha.
  set (whole := raw_meta (N.of_nat (length kvs)) (put_kvs kvs) ws ++ tail).
  assert (E : whole = GGUF ++ le 4 3 ++ le 8 (N.of_nat (length ws)) ++ le 8 (N.of_nat (length kvs)) ++
                put_kvs kvs ++ concat (map write_info ws) ++ tail).
  { unfold whole. rewrite raw_parts, <- !app_assoc. reflexivity. }
  assert (Eraw : (N.of_nat (length whole) - N.of_nat (length tail))%N = N.of_nat (length (raw_meta (N.of_nat (length kvs)) (put_kvs kvs) ws))).
  { unfold whole. rewrite app_length. lia. }
  unfold read_gguf.
  replace (take 4 whole) with (Ok (GGUF, le 4 3 ++ le 8 (N.of_nat (length ws)) ++ le 8 (N.of_nat (length kvs)) ++
                put_kvs kvs ++ concat (map write_info ws) ++ tail))
    by (rewrite E; symmetry; apply (take_app GGUF)).
  cbn [obind fst snd]. rewrite list_N_eqb_refl. cbn [negb].
  rewrite num4 by lia. cbn [obind fst snd]. rewrite num8 by exact Lw. cbn [obind fst snd]. rewrite num8 by exact Lk. cbn [obind fst snd].
  change (3 =? 1)%N with false. cbn iota. rewrite Nat2N.id. unfold put_kvs at 1. rewrite many_app.
  2:{ eapply Forall_impl; [|exact Hk]. intros x Hx r. apply kv_app, Hx. }
  cbn [obind fst snd]. rewrite Nat2N.id.
  assert (Hi : take_many take_info (length ws) (concat (map write_info ws) ++ tail) = Ok (map raw_of ws, tail)).
  { clear - Hw. induction Hw as [|w ws Hw HF IH]; [reflexivity|]. cbn [length map concat take_many].
    rewrite <- app_assoc, info_app by exact Hw. cbn [obind fst snd]. rewrite IH. reflexivity. }
  rewrite Hi. cbn [obind fst snd]. rewrite Ha. cbn [obind]. rewrite describe_raws by exact Hw. cbn [obind].
  rewrite Eraw. reflexivity.
Qed.

Lemma read_written kvs ws a tail : Forall wf_kv kvs -> Forall wf_info ws ->
  fits64 (N.of_nat (length kvs)) -> fits64 (N.of_nat (length ws)) -> aligned_to kvs a ->
  read_gguf (raw_meta (N.of_nat (length kvs)) (put_kvs kvs) ws ++ tail) =
  Ok (kvs, mkfile (fun k => option_map as_setting (find_key kvs (setting_key k)))
             (fun k => option_map as_tok (find_key kvs (tok_key k))) (map seen ws)
             (data_start a (N.of_nat (length kvs)) (put_kvs kvs) ws)
             (raw_meta (N.of_nat (length kvs)) (put_kvs kvs) ws ++ tail)).
Proof.
  intros Hk Hw Lk Lw Ha. apply read_written_at; try assumption. apply alignment_ok; [|exact Ha].
  eapply Forall_impl; [|exact Hk]. intros x (_ & Z & _). exact Z.
Qed.

(** ** Reading uses up what it needs *)

Definition consumes {A} (p : list N -> outcome (A * list N)) : Prop :=
  forall bs v r, p bs = Ok (v, r) -> exists c, bs = c ++ r /\ (forall r', p (c ++ r') = Ok (v, r')) /\
    (forall c1 c2, c = c1 ++ c2 -> c2 <> [] -> p c1 = Fail).

Lemma consumes_take n : consumes (take n).
Proof.
  intros bs v r H. unfold take in *. destruct (N.ltb_spec (N.of_nat (length bs)) n) as [|Hl]; [discriminate|].
  injection H as <- <-. exists (firstn (N.to_nat n) bs). split; [symmetry; apply firstn_skipn|].
  assert (El : N.of_nat (length (firstn (N.to_nat n) bs)) = n) by (rewrite firstn_length; lia).
  split.
  - intros r'. assert (T := take_app (firstn (N.to_nat n) bs) r'). rewrite El in T. exact T.
  - intros c1 c2 E Hne. destruct (N.ltb_spec (N.of_nat (length c1)) n) as [|Hc]; [reflexivity|].
    exfalso. rewrite E, app_length in El. destruct c2; [congruence|]. cbn [length] in El. lia.
Qed.

Lemma consumes_ret {A} (v : A) : consumes (fun bs => Ok (v, bs)).
Proof.
  intros bs v' r H. injection H as <- <-. exists []. split; [reflexivity|]. split; [reflexivity|].
  intros c1 c2 E Hne. symmetry in E. apply app_eq_nil in E as (_ & E). contradiction.
Qed.
Lemma consumes_stop {A} (o : outcome (A * list N)) : (forall x, o <> Ok x) -> consumes (fun _ => o).
Proof. intros H bs v r E. exfalso. exact (H _ E). Qed.

Lemma split_prefix {A} (a b c1 c2 : list A) : a ++ b = c1 ++ c2 -> c2 <> [] ->
  (exists d, a = c1 ++ d /\ d <> []) \/ (exists d, c1 = a ++ d /\ b = d ++ c2).
Proof.
  revert c1. induction a as [|x a IH]; intros c1 E Hne; [right; exists c1; auto|].
  destruct c1 as [|y c1]; [left; exists (x :: a); split; [reflexivity|discriminate]|].
  cbn [app] in E. injection E as -> E. destruct (IH c1 E Hne) as [(d & -> & Hd)|(d & -> & ->)]; [left|right]; exists d; auto.
Qed.

Lemma consumes_bind {A B} (p : list N -> outcome (A * list N)) (q : A -> list N -> outcome (B * list N)) :
  consumes p -> (forall v, consumes (q v)) -> consumes (fun bs => obind (p bs) (fun r => q (fst r) (snd r))).
Proof.
  intros Hp Hq bs v r H. destruct (p bs) as [[a r1]| | |] eqn:E; try discriminate H. cbn [obind fst snd] in H.
  destruct (Hp _ _ _ E) as (c & -> & Ex & Sh). destruct (Hq a _ _ _ H) as (d & -> & Ex' & Sh').
  exists (c ++ d). split; [rewrite app_assoc; reflexivity|]. split.
  - intros r'. rewrite <- app_assoc, Ex. cbn [obind fst snd]. apply Ex'.
  - intros c1 c2 Ec Hne. destruct (split_prefix _ _ _ _ Ec Hne) as [(e & Ee & He)|(e & -> & Ee)].
    + rewrite (Sh _ _ Ee He). reflexivity.
    + rewrite Ex. cbn [obind fst snd]. apply (Sh' _ _ Ee Hne).
Qed.

Lemma consumes_ext {A} (p q : list N -> outcome (A * list N)) : (forall bs, p bs = q bs) -> consumes p -> consumes q.
Proof.
  intros H Hp bs v r E. rewrite <- H in E. destruct (Hp _ _ _ E) as (c & Eb & Ex & Sh). exists c. split; [exact Eb|]. split.
  - intros r'. rewrite <- H. apply Ex.
  - intros c1 c2 Ec Hne. rewrite <- H. apply (Sh c1 c2 Ec Hne).
Qed.

Lemma consumes_num k : consumes (take_num k).
Proof. apply (consumes_bind (take k) (fun a bs => Ok (unle a, bs)) (consumes_take k)). intros v. apply consumes_ret. Qed.
Lemma consumes_str : consumes take_str.
Proof. apply (consumes_bind (take_num 8) take (consumes_num 8)). intros v. apply consumes_take. Qed.
Lemma consumes_many {A} (p : list N -> outcome (A * list N)) n : consumes p -> consumes (take_many p n).
Proof.
  intros Hp. induction n as [|n IH]; cbn [take_many]; [apply consumes_ret|].
  apply (consumes_bind p (fun v bs => obind (take_many p n bs) (fun r' => Ok (v :: fst r', snd r'))) Hp).
  intros v. apply (consumes_bind (take_many p n) (fun l bs => Ok (v :: l, bs)) IH). intros l. apply consumes_ret.
Qed.

Lemma consumes_if {A} (b : bool) (p q : list N -> outcome (A * list N)) : consumes p -> consumes q -> consumes (fun bs => if b then p bs else q bs).
Proof. intros Hp Hq. destruct b; assumption. Qed.

Lemma consumes_val t : consumes (take_val t).
Proof.
  unfold take_val. apply consumes_if.
  { apply (consumes_bind take_str (fun s bs => Ok (VStr s, bs)) consumes_str). intros s. apply consumes_ret. }
  apply consumes_if.
  { refine (consumes_bind (take_num 4) (fun e bs => obind (take_num 8 bs) (fun n =>
      if (e =? 8)%N then obind (take_many take_str (N.to_nat (fst n)) (snd n)) (fun r => Ok (VStrs (fst r), snd r))
      else if (e =? 9)%N || (e =? 13)%N then Abort
      else if (13 <? e)%N then UB
      else obind (take (fst n * scalar_size e) (snd n)) (fun r => Ok (VArr e (fst n) (fst r), snd r)))) (consumes_num 4) _). intros e.
    refine (consumes_bind (take_num 8) (fun n bs => if (e =? 8)%N then obind (take_many take_str (N.to_nat n) bs) (fun r => Ok (VStrs (fst r), snd r))
      else if (e =? 9)%N || (e =? 13)%N then Abort
      else if (13 <? e)%N then UB
      else obind (take (n * scalar_size e) bs) (fun r => Ok (VArr e n (fst r), snd r))) (consumes_num 8) _).
    intros n. apply consumes_if.
    { apply (consumes_bind (take_many take_str (N.to_nat n)) (fun l bs => Ok (VStrs l, bs)) (consumes_many _ _ consumes_str)).
      intros l. apply consumes_ret. }
    apply consumes_if; [apply consumes_stop; discriminate|]. apply consumes_if; [apply consumes_stop; discriminate|].
    apply (consumes_bind (take (n * scalar_size e)) (fun b bs => Ok (VArr e n b, bs)) (consumes_take _)). intros b. apply consumes_ret. }
  apply consumes_if; [apply consumes_stop; discriminate|].
  apply (consumes_bind (take (scalar_size t)) (fun b bs => Ok (VScalar t b, bs)) (consumes_take _)). intros b. apply consumes_ret.
Qed.

Lemma consumes_kv : consumes take_kv.
Proof.
  unfold take_kv.
  refine (consumes_bind take_str (fun k bs => obind (take_num 4 bs) (fun t => obind (take_val (fst t) (snd t)) (fun v => Ok (mkkv k (fst v), snd v)))) consumes_str _).
  intros k.
  refine (consumes_bind (take_num 4) (fun t bs => obind (take_val t bs) (fun v => Ok (mkkv k (fst v), snd v))) (consumes_num 4) _).
  intros t. apply (consumes_bind (take_val t) (fun v bs => Ok (mkkv k v, bs)) (consumes_val t)). intros v. apply consumes_ret.
Qed.

Lemma consumes_info : consumes take_info.
Proof.
  unfold take_info.
  refine (consumes_bind take_str (fun k bs => obind (take_num 4 bs) (fun d =>
    if (4 <? fst d)%N then UB
    else obind (take_many (take_num 8) (N.to_nat (fst d)) (snd d)) (fun ne =>
         obind (take_num 4 (snd ne)) (fun t => obind (take_num 8 (snd t)) (fun o =>
           Ok (mkri k (fst ne) (fst t) (fst o), snd o)))))) consumes_str _).
  intros k.
  refine (consumes_bind (take_num 4) (fun d bs =>
    if (4 <? d)%N then UB
    else obind (take_many (take_num 8) (N.to_nat d) bs) (fun ne =>
         obind (take_num 4 (snd ne)) (fun t => obind (take_num 8 (snd t)) (fun o =>
           Ok (mkri k (fst ne) (fst t) (fst o), snd o))))) (consumes_num 4) _).
  intros d. apply consumes_if; [apply consumes_stop; discriminate|].
  refine (consumes_bind (take_many (take_num 8) (N.to_nat d)) (fun ne bs =>
         obind (take_num 4 bs) (fun t => obind (take_num 8 (snd t)) (fun o =>
           Ok (mkri k ne (fst t) (fst o), snd o)))) (consumes_many _ _ (consumes_num 8)) _).
  intros ne.
  refine (consumes_bind (take_num 4) (fun t bs => obind (take_num 8 bs) (fun o =>
           Ok (mkri k ne t (fst o), snd o))) (consumes_num 4) _).
  intros t. apply (consumes_bind (take_num 8) (fun o bs => Ok (mkri k ne t o, bs)) (consumes_num 8)). intros o. apply consumes_ret.
Qed.

(** The descriptive part of a file *)
Definition take_head (bs : list N) : outcome ((list kv * list rinfo) * list N) :=
  obind (take 4 bs) (fun magic =>
  if negb (list_N_eqb (fst magic) GGUF) then Fail
  else
    obind (take_num 4 (snd magic)) (fun version =>
    obind (take_num 8 (snd version)) (fun n_tensors =>
    obind (take_num 8 (snd n_tensors)) (fun n_kv =>
    if (fst version =? 1)%N then Fail
    else
      obind (take_many take_kv (N.to_nat (fst n_kv)) (snd n_kv)) (fun kvs =>
      obind (take_many take_info (N.to_nat (fst n_tensors)) (snd kvs)) (fun infos =>
      Ok ((fst kvs, fst infos), snd infos))))))).

Lemma consumes_head : consumes take_head.
Proof.
  unfold take_head.
  refine (consumes_bind (take 4) (fun m bs => if negb (list_N_eqb m GGUF) then Fail else
    obind (take_num 4 bs) (fun version =>
    obind (take_num 8 (snd version)) (fun n_tensors =>
    obind (take_num 8 (snd n_tensors)) (fun n_kv =>
    if (fst version =? 1)%N then Fail
    else
      obind (take_many take_kv (N.to_nat (fst n_kv)) (snd n_kv)) (fun kvs =>
      obind (take_many take_info (N.to_nat (fst n_tensors)) (snd kvs)) (fun infos =>
      Ok ((fst kvs, fst infos), snd infos))))))) (consumes_take 4) _).
  intros m. apply consumes_if; [apply consumes_stop; discriminate|].
  refine (consumes_bind (take_num 4) (fun v bs =>
    obind (take_num 8 bs) (fun n_tensors =>
    obind (take_num 8 (snd n_tensors)) (fun n_kv =>
    if (v =? 1)%N then Fail
    else
      obind (take_many take_kv (N.to_nat (fst n_kv)) (snd n_kv)) (fun kvs =>
      obind (take_many take_info (N.to_nat (fst n_tensors)) (snd kvs)) (fun infos =>
      Ok ((fst kvs, fst infos), snd infos)))))) (consumes_num 4) _).
  intros v.
  refine (consumes_bind (take_num 8) (fun nt bs =>
    obind (take_num 8 bs) (fun n_kv =>
    if (v =? 1)%N then Fail
    else
      obind (take_many take_kv (N.to_nat (fst n_kv)) (snd n_kv)) (fun kvs =>
      obind (take_many take_info (N.to_nat nt) (snd kvs)) (fun infos =>
      Ok ((fst kvs, fst infos), snd infos))))) (consumes_num 8) _).
  intros nt.
  refine (consumes_bind (take_num 8) (fun nk bs =>
    if (v =? 1)%N then Fail
    else
      obind (take_many take_kv (N.to_nat nk) bs) (fun kvs =>
      obind (take_many take_info (N.to_nat nt) (snd kvs)) (fun infos =>
      Ok ((fst kvs, fst infos), snd infos)))) (consumes_num 8) _).
  intros nk. apply consumes_if; [apply consumes_stop; discriminate|].
  refine (consumes_bind (take_many take_kv (N.to_nat nk)) (fun kvs bs =>
      obind (take_many take_info (N.to_nat nt) bs) (fun infos =>
      Ok ((kvs, fst infos), snd infos))) (consumes_many _ _ consumes_kv) _).
  intros kvs.
  apply (consumes_bind (take_many take_info (N.to_nat nt)) (fun infos bs => Ok ((kvs, infos), bs)) (consumes_many _ _ consumes_info)).
  intros infos. apply consumes_ret.
Qed.

(** What is made of it *)
Definition file_of (kvs : list kv) (ts : list tinfo) (a used : N) (bs : list N) : file :=
  mkfile (fun k => option_map as_setting (find_key kvs (setting_key k)))
    (fun k => option_map as_tok (find_key kvs (tok_key k))) ts (Ggml_model.pad_to a used) bs.

Lemma read_head bs : read_gguf bs =
  obind (take_head bs) (fun h => obind (alignment (fst (fst h))) (fun a => obind (describe_all (snd (fst h))) (fun ts =>
    Ok (fst (fst h), file_of (fst (fst h)) ts a (N.of_nat (length bs) - N.of_nat (length (snd h))) bs)))).
Proof.
  unfold read_gguf, take_head, file_of. destruct (take 4 bs) as [[m r]| | |]; try reflexivity. cbn [obind fst snd].
  destruct (negb _); [reflexivity|]. destruct (take_num 4 r) as [[v r1]| | |]; try reflexivity. cbn [obind fst snd].
  destruct (take_num 8 r1) as [[nt r2]| | |]; try reflexivity. cbn [obind fst snd].
  destruct (take_num 8 r2) as [[nk r3]| | |]; try reflexivity. cbn [obind fst snd].
  destruct (v =? 1)%N; [reflexivity|]. destruct (take_many take_kv (N.to_nat nk) r3) as [[kvs r4]| | |]; try reflexivity. cbn [obind fst snd].
  destruct (take_many take_info (N.to_nat nt) r4) as [[is r5]| | |]; reflexivity.
Qed.

Lemma read_inv bs kvs f : read_gguf bs = Ok (kvs, f) ->
  exists infos a ts head rest, bs = head ++ rest /\ take_head bs = Ok ((kvs, infos), rest) /\
    alignment kvs = Ok a /\ describe_all infos = Ok ts /\ f = file_of kvs ts a (N.of_nat (length head)) bs.
Proof.
  rewrite read_head. intros H. destruct (take_head bs) as [[[k infos] rest]| | |] eqn:E; try discriminate H. cbn [obind fst snd] in H.
  destruct (alignment k) as [a| | |] eqn:Ea; try discriminate H. cbn [obind] in H.
  destruct (describe_all infos) as [ts| | |] eqn:Et; try discriminate H. cbn [obind] in H.
  injection H as <- <-. destruct (consumes_head _ _ _ E) as (c & -> & _). exists infos, a, ts, c, rest.
  repeat (split; [first [reflexivity|assumption]|]). f_equal. rewrite app_length. lia.
Qed.

Lemma read_prefix bs kvs f : read_gguf bs = Ok (kvs, f) ->
  exists head rest a, bs = head ++ rest /\ f_data f = Ggml_model.pad_to a (N.of_nat (length head)) /\ (0 < a)%N /\
    (forall n, n < length head -> read_gguf (firstn n bs) = Fail) /\
    (forall rest', exists f', read_gguf (head ++ rest') = Ok (kvs, f') /\ f_tensors f' = f_tensors f /\ f_data f' = f_data f /\
       f_bytes f' = head ++ rest' /\ (forall k, f_set f' k = f_set f k) /\ (forall k, f_tok f' k = f_tok f k)).
Proof.
  intros H. destruct (read_inv _ _ _ H) as (infos & a & ts & head & rest & E & Hh & Ha & Ht & ->).
  destruct (consumes_head _ _ _ Hh) as (c & E' & Ex & Sh).
  assert (head = c) by (rewrite E in E'; apply app_inv_tail in E'; exact E'). subst c.
  exists head, rest, a. split; [exact E|]. split; [reflexivity|]. split.
  { unfold alignment in Ha. destruct (find_key kvs _) as [[t bs'|s|t n b|l]|]; try discriminate Ha.
    - destruct (t =? 4)%N; [|discriminate Ha]. destruct (N.eqb_spec (unle bs') 0); [discriminate Ha|]. injection Ha as <-. lia.
    - injection Ha as <-. lia. }
  split.
  - intros n Hn. rewrite read_head. rewrite (Sh (firstn n bs) (skipn n head)).
    + reflexivity.
    + rewrite E, firstn_app. replace (n - length head) with 0 by lia. cbn [firstn]. rewrite app_nil_r. symmetry. apply firstn_skipn.
    + intros Z. apply (f_equal (@length N)) in Z. rewrite skipn_length in Z. cbn [length] in Z. lia.
  - intros rest'. exists (file_of kvs ts a (N.of_nat (length head)) (head ++ rest')). split.
    + rewrite read_head, Ex. cbn [obind fst snd]. rewrite Ha. cbn [obind]. rewrite Ht. cbn [obind]. repeat f_equal. rewrite app_length. lia.
    + repeat split.
Qed.

(** ** What was read can be written *)

Lemma bytes_app a b : byte_string (a ++ b) <-> byte_string a /\ byte_string b.
Proof. apply Forall_app. Qed.

Lemma take_inv n bs a r : byte_string bs -> take n bs = Ok (a, r) -> N.of_nat (length a) = n /\ byte_string a /\ byte_string r.
Proof.
  intros Hb H. unfold take in H. destruct (N.ltb_spec (N.of_nat (length bs)) n); [discriminate|]. injection H as <- <-.
  split; [rewrite firstn_length; lia|]. rewrite <- (firstn_skipn (N.to_nat n) bs) in Hb. apply bytes_app in Hb. exact Hb.
Qed.
Lemma num_inv k bs n r : byte_string bs -> take_num k bs = Ok (n, r) -> (n < 256 ^ k)%N /\ byte_string r.
Proof.
  intros Hb H. unfold take_num in H. destruct (take k bs) as [[a r']| | |] eqn:E; try discriminate H. cbn [obind fst snd] in H.
  injection H as <- <-. destruct (take_inv _ _ _ _ Hb E) as (El & Ha & Hr). split; [|exact Hr]. rewrite <- El. apply unle_bound, Ha.
Qed.
Lemma str_inv bs s r : byte_string bs -> take_str bs = Ok (s, r) -> short s /\ byte_string s /\ byte_string r.
Proof.
  intros Hb H. unfold take_str in H. destruct (take_num 8 bs) as [[n r']| | |] eqn:E; try discriminate H. cbn [obind fst snd] in H.
  destruct (num_inv _ _ _ _ Hb E) as (Hn & Hr'). destruct (take_inv _ _ _ _ Hr' H) as (El & Hs & Hr). split; [|auto].
  unfold short. rewrite El. exact Hn.
Qed.
Lemma many_inv {A} (p : list N -> outcome (A * list N)) (Q : A -> Prop) :
  (forall bs v r, byte_string bs -> p bs = Ok (v, r) -> Q v /\ byte_string r) ->
  forall n bs l r, byte_string bs -> take_many p n bs = Ok (l, r) -> length l = n /\ Forall Q l /\ byte_string r.
Proof.
  intros Hp. induction n as [|n IH]; intros bs l r Hb H; cbn [take_many] in H.
  - injection H as <- <-. auto.
  - destruct (p bs) as [[v r1]| | |] eqn:E; try discriminate H. cbn [obind fst snd] in H.
    destruct (take_many p n r1) as [[l' r2]| | |] eqn:E'; try discriminate H. cbn [obind fst snd] in H. injection H as <- <-.
    destruct (Hp _ _ _ Hb E) as (Hv & Hr1). destruct (IH _ _ _ Hr1 E') as (El & Hl & Hr). cbn [length]. rewrite El. auto.
Qed.

Lemma fixed_known t : t <> 8%N -> t <> 9%N -> (t < 13)%N -> In (t, scalar_size t) fixed_types.
Proof.
  intros H8 H9 H. assert (D : t = 0%N \/ t = 1%N \/ t = 2%N \/ t = 3%N \/ t = 4%N \/ t = 5%N \/ t = 6%N \/ t = 7%N \/ t = 10%N \/ t = 11%N \/ t = 12%N) by lia.
  repeat (destruct D as [->|D]; [cbn; tauto|]). subst t. cbn. tauto.
Qed.

Definition val_read (v : kval) : Prop := known v = true -> wf_val v.
Lemma val_inv t bs v r : byte_string bs -> take_val t bs = Ok (v, r) -> val_read v /\ byte_string r.
Proof.
  intros Hb H. unfold take_val in H. destruct (N.eqb_spec t 8) as [->|H8].
  { destruct (take_str bs) as [[s r']| | |] eqn:E; try discriminate H. cbn [obind fst snd] in H. injection H as <- <-.
    destruct (str_inv _ _ _ Hb E) as (Hs & _ & Hr). split; [intros _; exact Hs|exact Hr]. }
  destruct (N.eqb_spec t 9) as [->|H9].
  { destruct (take_num 4 bs) as [[e r1]| | |] eqn:E1; try discriminate H. cbn [obind fst snd] in H.
    destruct (num_inv _ _ _ _ Hb E1) as (_ & Hr1).
    destruct (take_num 8 r1) as [[n r2]| | |] eqn:E2; try discriminate H. cbn [obind fst snd] in H.
    destruct (num_inv _ _ _ _ Hr1 E2) as (Hn & Hr2).
    destruct (N.eqb_spec e 8) as [->|He8].
    - destruct (take_many take_str (N.to_nat n) r2) as [[l r3]| | |] eqn:E3; try discriminate H. cbn [obind fst snd] in H. injection H as <- <-.
      destruct (many_inv take_str short (fun bs v r Hb H => let I := str_inv bs v r Hb H in conj (proj1 I) (proj2 (proj2 I))) _ _ _ _ Hr2 E3) as (El & Hl & Hr).
      split; [|exact Hr]. intros _. split; [|exact Hl]. rewrite El, N2Nat.id. exact Hn.
    - destruct (N.eqb_spec e 9) as [->|He9]; [discriminate H|]. destruct (N.eqb_spec e 13) as [->|He13]; [discriminate H|]. cbn [orb] in H.
      destruct (N.ltb_spec 13 e); [discriminate H|].
      destruct (take (n * scalar_size e) r2) as [[b r3]| | |] eqn:E3; try discriminate H. cbn [obind fst snd] in H. injection H as <- <-.
      destruct (take_inv _ _ _ _ Hr2 E3) as (El & _ & Hr). split; [|exact Hr]. intros _. split; [exact Hn|]. exists (scalar_size e).
      split; [apply fixed_known; [assumption|assumption|lia]|exact El]. }
  destruct (N.eqb_spec t 13) as [->|H13]; [discriminate H|].
  destruct (take (scalar_size t) bs) as [[b r1]| | |] eqn:E; try discriminate H. cbn [obind fst snd] in H. injection H as <- <-.
  destruct (take_inv _ _ _ _ Hb E) as (El & _ & Hr). split; [|exact Hr]. intros Hk. unfold known in Hk. apply N.ltb_lt in Hk.
  cbn [wf_val]. rewrite El. apply fixed_known; assumption.
Qed.

(** Pairs as they are read: fixed-size values are bytes too *)
Definition val_bytes (v : kval) : Prop := match v with VScalar _ bs => byte_string bs | _ => True end.
Lemma val_inv_bytes t bs v r : byte_string bs -> take_val t bs = Ok (v, r) -> val_bytes v.
Proof.
  intros Hb H. unfold take_val in H. destruct (t =? 8)%N.
  { destruct (take_str bs) as [[s r']| | |]; try discriminate H. injection H as <- <-. exact I. }
  destruct (t =? 9)%N.
  { destruct (take_num 4 bs) as [[e r1]| | |]; try discriminate H. cbn [obind fst snd] in H.
    destruct (take_num 8 r1) as [[n r2]| | |]; try discriminate H. cbn [obind fst snd] in H. destruct (e =? 8)%N.
    - destruct (take_many take_str (N.to_nat n) r2) as [[l r3]| | |]; try discriminate H. injection H as <- <-. exact I.
    - destruct ((e =? 9)%N || (e =? 13)%N); [discriminate H|]. destruct (13 <? e)%N; [discriminate H|].
      destruct (take (n * scalar_size e) r2) as [[b r3]| | |]; try discriminate H. injection H as <- <-. exact I. }
  destruct (t =? 13)%N; [discriminate H|].
  destruct (take (scalar_size t) bs) as [[b r1]| | |] eqn:E; try discriminate H. cbn [obind fst snd] in H. injection H as <- <-.
  apply (take_inv _ _ _ _ Hb E).
Qed.

Definition kv_read (x : kv) : Prop := short (k_key x) /\ val_read (k_val x) /\ val_bytes (k_val x).
Lemma kv_inv bs x r : byte_string bs -> take_kv bs = Ok (x, r) -> kv_read x /\ byte_string r.
Proof.
  intros Hb H. unfold take_kv in H. destruct (take_str bs) as [[k r1]| | |] eqn:E1; try discriminate H. cbn [obind fst snd] in H.
  destruct (str_inv _ _ _ Hb E1) as (Hk & _ & Hr1).
  destruct (take_num 4 r1) as [[t r2]| | |] eqn:E2; try discriminate H. cbn [obind fst snd] in H.
  destruct (num_inv _ _ _ _ Hr1 E2) as (_ & Hr2).
  destruct (take_val t r2) as [[v r3]| | |] eqn:E3; try discriminate H. cbn [obind fst snd] in H. injection H as <- <-.
  destruct (val_inv _ _ _ _ Hr2 E3) as (Hv & Hr3). split; [|exact Hr3]. split; [exact Hk|]. split; [exact Hv|].
  exact (val_inv_bytes _ _ _ _ Hr2 E3).
Qed.

Definition info_read (i : rinfo) : Prop :=
  short (ri_name i) /\ length (ri_ne i) <= 4 /\ Forall fits64 (ri_ne i) /\ fits64 (ri_offset i).
Lemma info_inv bs x r : byte_string bs -> take_info bs = Ok (x, r) -> info_read x /\ byte_string r.
Proof.
  intros Hb H. unfold take_info in H. destruct (take_str bs) as [[k r1]| | |] eqn:E1; try discriminate H. cbn [obind fst snd] in H.
  destruct (str_inv _ _ _ Hb E1) as (Hk & _ & Hr1).
  destruct (take_num 4 r1) as [[d r2]| | |] eqn:E2; try discriminate H. cbn [obind fst snd] in H.
  destruct (num_inv _ _ _ _ Hr1 E2) as (_ & Hr2). destruct (N.ltb_spec 4 d); [discriminate H|].
  destruct (take_many (take_num 8) (N.to_nat d) r2) as [[ne r3]| | |] eqn:E3; try discriminate H. cbn [obind fst snd] in H.
  destruct (many_inv (take_num 8) fits64 (num_inv 8) _ _ _ _ Hr2 E3) as (El & Hne & Hr3).
  destruct (take_num 4 r3) as [[t r4]| | |] eqn:E4; try discriminate H. cbn [obind fst snd] in H.
  destruct (num_inv _ _ _ _ Hr3 E4) as (_ & Hr4).
  destruct (take_num 8 r4) as [[o r5]| | |] eqn:E5; try discriminate H. cbn [obind fst snd] in H. injection H as <- <-.
  destruct (num_inv _ _ _ _ Hr4 E5) as (Ho & Hr5). split; [|exact Hr5]. unfold info_read. cbn [ri_name ri_ne ri_offset].
  split; [exact Hk|]. split; [lia|]. split; [exact Hne|exact Ho].
Qed.

Lemma head_inv bs kvs infos r : byte_string bs -> take_head bs = Ok ((kvs, infos), r) ->
  Forall kv_read kvs /\ Forall info_read infos.
Proof.
  intros Hb H. unfold take_head in H. destruct (take 4 bs) as [[m r0]| | |] eqn:E0; try discriminate H. cbn [obind fst snd] in H.
  destruct (take_inv _ _ _ _ Hb E0) as (_ & _ & Hr0). destruct (negb _); [discriminate H|].
  destruct (take_num 4 r0) as [[v r1]| | |] eqn:E1; try discriminate H. cbn [obind fst snd] in H. destruct (num_inv _ _ _ _ Hr0 E1) as (_ & Hr1).
  destruct (take_num 8 r1) as [[nt r2]| | |] eqn:E2; try discriminate H. cbn [obind fst snd] in H. destruct (num_inv _ _ _ _ Hr1 E2) as (_ & Hr2).
  destruct (take_num 8 r2) as [[nk r3]| | |] eqn:E3; try discriminate H. cbn [obind fst snd] in H. destruct (num_inv _ _ _ _ Hr2 E3) as (_ & Hr3).
  destruct (v =? 1)%N; [discriminate H|].
  destruct (take_many take_kv (N.to_nat nk) r3) as [[k r4]| | |] eqn:E4; try discriminate H. cbn [obind fst snd] in H.
  destruct (many_inv take_kv kv_read kv_inv _ _ _ _ Hr3 E4) as (_ & Hk & Hr4).
  destruct (take_many take_info (N.to_nat nt) r4) as [[is r5]| | |] eqn:E5; try discriminate H. cbn [obind fst snd] in H.
  destruct (many_inv take_info info_read info_inv _ _ _ _ Hr4 E5) as (_ & Hi & _). injection H as <- <- _. auto.
Qed.

Lemma cstr_zero s : ~ In 0%N (cstr s).
Proof.
  induction s as [|c s IH]; cbn [cstr]; [tauto|]. destruct (N.eqb_spec c 0); [cbn; tauto|]. cbn [In]. intros [H|H]; auto.
Qed.
Lemma cstr_cut s : cut_at_zero s (cstr s).
Proof.
  split; [apply cstr_zero|]. induction s as [|c s IH]; [left; reflexivity|]. cbn [cstr].
  destruct (N.eqb_spec c 0) as [->|_]; [right; exists s; reflexivity|].
  destruct IH as [IH|(r & IH)]; [left; congruence|right; exists r; cbn [app]; congruence].
Qed.
Lemma cstr_length s : length (cstr s) <= length s.
Proof. induction s as [|c s IH]; [reflexivity|]. cbn [cstr]. destruct (c =? 0)%N; cbn [length]; lia. Qed.
Lemma cstr_short s : short s -> short (cstr s).
Proof. unfold short, fits64. assert (L := cstr_length s). lia. Qed.

(** Descriptions that were read *)
Definition tensor_read (t : tinfo) : Prop :=
  short (ti_name t) /\ ~ In 0%N (ti_name t) /\ trimmed t /\
  fits64 (N.of_nat (ti_ne0 t)) /\ fits64 (N.of_nat (ti_ne1 t)) /\ fits64 (N.of_nat (ti_ne2 t)) /\ fits64 (N.of_nat (ti_ne3 t)) /\
  (N.of_nat (elements t) mod blck_size (ti_type t) = 0)%N.

Lemma describe_inv i t : info_read i -> describe_info i = Ok t -> tensor_read t.
Proof.
  intros (Hs & Hl & Hne & Ho) H. unfold describe_info in H. destruct (gty_of (ri_code i)) as [ty|]; [|discriminate H].
  destruct (negb _) eqn:E; [discriminate H|]. injection H as <-. apply negb_false_iff, N.eqb_eq in E.
  unfold tensor_read. cbn [ti_name ti_ne0 ti_ne1 ti_ne2 ti_ne3 ti_type]. 
  assert (F : forall k, fits64 (N.of_nat (N.to_nat (nth k (ri_ne i) 1%N)))).
  { intros k. rewrite N2Nat.id. destruct (Nat.lt_ge_cases k (length (ri_ne i))) as [L|L].
    - rewrite Forall_forall in Hne. apply Hne, nth_In, L.
    - rewrite nth_overflow by exact L. reflexivity. }
  split; [apply cstr_short, Hs|]. split; [apply cstr_zero|]. split.
  { unfold trimmed. cbn [ti_dims ti_ne0 ti_ne1 ti_ne2 ti_ne3]. split; [lia|].
    repeat split; intros L; rewrite nth_overflow by lia; reflexivity. }
  repeat (split; [apply F|]). exact E.
Qed.
Lemma describes_inv is ts : Forall info_read is -> describe_all is = Ok ts -> Forall tensor_read ts.
Proof.
  intros H. revert ts. induction H as [|i is Hi HF IH]; intros ts E; cbn [describe_all] in E.
  - injection E as <-. constructor.
  - destruct (describe_info i) as [t| | |] eqn:Ei; try discriminate E. cbn [obind] in E.
    destruct (describe_all is) as [ts'| | |]; try discriminate E. cbn [obind] in E. injection E as <-.
    constructor; [exact (describe_inv _ _ Hi Ei)|apply IH; reflexivity].
Qed.

Lemma read_wf bs kvs f : byte_string bs -> read_gguf bs = Ok (kvs, f) ->
  Forall kv_read kvs /\ Forall tensor_read (f_tensors f) /\ f_bytes f = bs /\ exists a, alignment kvs = Ok a.
Proof.
  intros Hb H. destruct (read_inv _ _ _ H) as (infos & a & ts & head & rest & E & Hh & Ha & Ht & ->).
  destruct (head_inv _ _ _ _ Hb Hh) as (Hk & Hi). split; [exact Hk|]. cbn [file_of f_tensors f_bytes].
  split; [exact (describes_inv _ _ Hi Ht)|]. split; [reflexivity|eauto].
Qed.

(** ** Copying the settings *)

Definition copy_kv (x : kv) : kv := mkkv (cstr (k_key x)) (copy_val (k_val x)).

Lemma set_key_new k v l : ~ In k (map k_key l) -> set_key k v l = l ++ [mkkv k v].
Proof.
  induction l as [|x l IH]; [reflexivity|]. cbn [map In set_key app]. intros H.
  destruct (list_N_eqb (k_key x) k) eqn:E; [apply list_N_eqb_eq in E; tauto|]. rewrite IH by tauto. reflexivity.
Qed.

Lemma set_kv_copy kvs : distinct_keys kvs -> known_types kvs -> set_kv kvs = map copy_kv kvs.
Proof.
  unfold distinct_keys, known_types, set_kv.
  assert (G : forall kvs d, NoDup (map k_key d ++ map (fun x => cstr (k_key x)) kvs) -> Forall (fun x => known (k_val x) = true) kvs ->
    fold_left (fun d x => if known (k_val x) then set_key (cstr (k_key x)) (copy_val (k_val x)) d else d) kvs d = d ++ map copy_kv kvs).
  { clear. induction kvs as [|x l IH]; intros d Hn Hk; [symmetry; apply app_nil_r|]. cbn [fold_left map].
    apply Forall_cons_iff in Hk as (Hx & Hk). rewrite Hx. rewrite set_key_new.
    - rewrite IH; [rewrite <- app_assoc; reflexivity| |exact Hk]. rewrite map_app, <- app_assoc. exact Hn.
    - cbn [map] in Hn. apply NoDup_remove_2 in Hn. rewrite in_app_iff in Hn. tauto. }
  intros Hd Hk. apply (G kvs []); assumption.
Qed.

Lemma find_set k v l k' : Forall (fun x => ~ In 0%N (k_key x)) l -> ~ In 0%N k ->
  find_key (set_key k v l) k' = if list_N_eqb k k' then Some v else find_key l k'.
Proof.
  intros H Hk. unfold find_key. induction H as [|x l Hx HF IH].
  - cbn [set_key find k_key k_val]. rewrite (cstr_id _ Hk). destruct (list_N_eqb k k'); reflexivity.
  - cbn [set_key]. destruct (list_N_eqb (k_key x) k) eqn:E.
    + apply list_N_eqb_eq in E. cbn [find k_key k_val]. rewrite (cstr_id _ Hx), E. destruct (list_N_eqb k k'); reflexivity.
    + cbn [find]. rewrite (cstr_id _ Hx). destruct (list_N_eqb (k_key x) k') eqn:E'.
      * apply list_N_eqb_eq in E'. subst k'. destruct (list_N_eqb k (k_key x)) eqn:E''; [|reflexivity].
        apply list_N_eqb_eq in E''. apply list_N_eqb_neq in E. congruence.
      * exact IH.
Qed.
Lemma set_key_zero k v l : Forall (fun x => ~ In 0%N (k_key x)) l -> ~ In 0%N k -> Forall (fun x => ~ In 0%N (k_key x)) (set_key k v l).
Proof.
  intros H Hk. induction H as [|x l Hx HF IH]; cbn [set_key]; [constructor; [exact Hk|constructor]|].
  destruct (list_N_eqb (k_key x) k); constructor; assumption.
Qed.
Lemma set_key_wf k v l : Forall wf_kv l -> wf_kv (mkkv k v) -> Forall wf_kv (set_key k v l).
Proof.
  intros H Hk. induction H as [|x l Hx HF IH]; cbn [set_key]; [constructor; [exact Hk|constructor]|].
  destruct (list_N_eqb (k_key x) k) eqn:E; constructor; try assumption. apply list_N_eqb_eq in E. rewrite E. exact Hk.
Qed.

Lemma copy_wf x : kv_read x -> known (k_val x) = true -> wf_kv (copy_kv x).
Proof.
  intros (Hs & Hv & _) Hk. specialize (Hv Hk). split; [apply cstr_short, Hs|]. split; [apply cstr_zero|]. unfold copy_kv. cbn [k_val].
  destruct (k_val x) as [t b|s|t n b|l]; cbn [copy_val wf_val] in *; [exact Hv|apply cstr_short, Hv|exact Hv|].
  destruct Hv as (Hn & Hl). rewrite map_length. split; [exact Hn|]. apply Forall_forall. intros y Hy. apply in_map_iff in Hy as (z & <- & Hz).
  rewrite Forall_forall in Hl. apply cstr_short, Hl, Hz.
Qed.

Lemma zeroless_lit s : existsb (N.eqb 0) s = false -> ~ In 0%N s.
Proof. intros H Hin. assert (existsb (N.eqb 0) s = true) by (apply existsb_exists; exists 0%N; split; [exact Hin|reflexivity]). congruence. Qed.

Lemma new_wf kvs qt : Forall kv_read kvs -> Forall wf_kv (new_kvs kvs qt).
Proof.
  intros Hr. unfold new_kvs. apply set_key_wf; [apply set_key_wf|].
  - unfold set_kv. assert (D : Forall wf_kv []) by constructor. revert D. generalize (@nil kv).
    induction Hr as [|x l Hx HF IH]; intros d D; [exact D|]. cbn [fold_left]. apply IH.
    destruct (known (k_val x)) eqn:E; [|exact D]. apply set_key_wf; [exact D|]. exact (copy_wf x Hx E).
  - split; [vm_compute; reflexivity|]. split; [apply zeroless_lit; reflexivity|]. cbn; tauto.
  - split; [vm_compute; reflexivity|]. split; [apply zeroless_lit; reflexivity|]. cbn [k_val wf_val]. rewrite le_length. cbn; tauto.
Qed.

Lemma cut_cstr s k : cut_at_zero s k -> cstr s = k.
Proof.
  intros (Hz & [->|(r & ->)]); [apply cstr_id, Hz|]. induction k as [|c k IH]; [reflexivity|].
  cbn [app cstr]. destruct (N.eqb_spec c 0) as [->|_]; [exfalso; apply Hz; left; reflexivity|]. rewrite IH; [reflexivity|].
  intros H. apply Hz. right. exact H.
Qed.
Lemma cut_eqb s k : cut_at_zero s k <-> list_N_eqb (cstr s) k = true.
Proof.
  rewrite list_N_eqb_eq. split; [apply cut_cstr|intros <-; apply cstr_cut].
Qed.
Lemma find_first kvs k v : find_key kvs k = Some v <-> first_of kvs k v.
Proof.
  unfold find_key. split.
  - induction kvs as [|x l IH]; [discriminate|]. cbn [find]. destruct (list_N_eqb (cstr (k_key x)) k) eqn:E.
    + intros H. injection H as <-. exists [], x, l. split; [reflexivity|]. split; [apply cut_eqb, E|]. split; [reflexivity|intros y []].
    + intros H. destruct (IH H) as (a & y & b & -> & C & Ev & N). exists (x :: a), y, b. split; [reflexivity|]. split; [exact C|].
      split; [exact Ev|]. intros z [<-|Hz]; [rewrite cut_eqb, E; discriminate|apply N, Hz].
  - intros (a & x & b & -> & C & <- & N). induction a as [|y a IH]; cbn [app find].
    + apply cut_eqb in C. rewrite C. reflexivity.
    + destruct (list_N_eqb (cstr (k_key y)) k) eqn:E; [apply cut_eqb in E; exfalso; apply (N y); [left; reflexivity|exact E]|].
      apply IH. intros z Hz. apply N. right. exact Hz.
Qed.
Lemma find_last kvs k v : find_key (rev kvs) k = Some v <-> last_of kvs k v.
Proof.
  rewrite find_first. split; intros (a & x & b & E & C & Ev & N).
  - exists (rev b), x, (rev a). split; [|split; [exact C|split; [exact Ev|]]].
    + rewrite <- (rev_involutive kvs), E, rev_app_distr. cbn [rev]. rewrite <- app_assoc. reflexivity.
    + intros y Hy. apply N. apply in_rev, Hy.
  - exists (rev b), x, (rev a). split; [|split; [exact C|split; [exact Ev|]]].
    + rewrite E, rev_app_distr. cbn [rev]. rewrite <- app_assoc. reflexivity.
    + intros y Hy. apply N. apply in_rev, Hy.
Qed.
Lemma find_some_in kvs k : (exists v, find_key kvs k = Some v) <-> exists x, In x kvs /\ cut_at_zero (k_key x) k.
Proof.
  split.
  - intros (v & H). apply find_first in H as (a & x & b & -> & C & _). exists x. split; [apply in_elt|exact C].
  - intros (x & Hx & C). unfold find_key. destruct (find (fun x => list_N_eqb (cstr (k_key x)) k) kvs) as [y|] eqn:E; [exists (k_val y); reflexivity|].
    exfalso. apply (find_none _ _ E) in Hx. apply cut_eqb in C. congruence.
Qed.
Lemma agree_at kvs k : (forall v w, first_of kvs k v -> last_of kvs k w -> v = w) -> find_key (rev kvs) k = find_key kvs k.
Proof.
  intros H. destruct (find_key (rev kvs) k) as [w|] eqn:E.
  - destruct (find_key kvs k) as [v|] eqn:E'.
    + apply find_last in E. apply find_first in E'. f_equal. symmetry. exact (H _ _ E' E).
    + assert (X : exists v, find_key (rev kvs) k = Some v) by eauto. apply find_some_in in X as (x & Hx & C).
      assert (Y : exists v, find_key kvs k = Some v) by (apply find_some_in; exists x; split; [apply in_rev, Hx|exact C]).
      destruct Y. congruence.
  - destruct (find_key kvs k) as [v|] eqn:E'; [|reflexivity].
    assert (X : exists v, find_key kvs k = Some v) by eauto. apply find_some_in in X as (x & Hx & C).
    assert (Y : exists v, find_key (rev kvs) k = Some v) by (apply find_some_in; exists x; split; [apply in_rev; rewrite rev_involutive; exact Hx|exact C]).
    destruct Y. congruence.
Qed.
Lemma agreeing_find kvs k : agreeing kvs -> find_key (rev kvs) k = find_key kvs k.
Proof. intros H. apply agree_at, H. Qed.
Lemma distinct_agreeing kvs : distinct_keys kvs -> agreeing kvs.
Proof.
  unfold distinct_keys. intros H k v w (a & x & b & -> & C & <- & N) (a' & y & b' & E & C' & <- & N').
  assert (Hy : In y (a ++ x :: b)) by (rewrite E; apply in_elt). apply in_app_iff in Hy as [Hy|Hy]; [exfalso; exact (N y Hy C')|].
  destruct Hy as [->|Hy]; [reflexivity|]. exfalso. rewrite map_app in H. cbn [map] in H. apply NoDup_remove_2 in H. apply H.
  rewrite in_app_iff. right. apply cut_cstr in C, C'. rewrite C, <- C'. apply (in_map (fun x => cstr (k_key x))), Hy.
Qed.

(** Without any assumption on the keys: the last known pair of a key. *)
Lemma set_kv_zero kvs : Forall (fun x => ~ In 0%N (k_key x)) (set_kv kvs).
Proof.
  unfold set_kv. assert (D : Forall (fun x : kv => ~ In 0%N (k_key x)) []) by constructor. revert D. generalize (@nil kv).
  induction kvs as [|x l IH]; intros d D; [exact D|]. cbn [fold_left]. apply IH.
  destruct (known (k_val x)); [|exact D]. apply set_key_zero; [exact D|apply cstr_zero].
Qed.
Lemma find_set_kv kvs k : known_types kvs -> find_key (set_kv kvs) k = option_map copy_val (find_key (rev kvs) k).
Proof.
  unfold set_kv.
  assert (G : forall kvs d, known_types kvs -> Forall (fun x : kv => ~ In 0%N (k_key x)) d ->
    find_key (fold_left (fun d x => if known (k_val x) then set_key (cstr (k_key x)) (copy_val (k_val x)) d else d) kvs d) k =
    match find_key (rev kvs) k with Some v => Some (copy_val v) | None => find_key d k end).
  { clear. induction kvs as [|x l IH]; intros d Hk Hd; [reflexivity|]. apply Forall_cons_iff in Hk as (Hx & Hk). cbn [fold_left].
    rewrite IH; [|exact Hk|rewrite Hx; apply set_key_zero; [exact Hd|apply cstr_zero]]. rewrite Hx, find_set; [|exact Hd|apply cstr_zero].
    assert (A : forall a b, find_key (a ++ b) k = match find_key a k with Some v => Some v | None => find_key b k end).
    { clear. intros a b. unfold find_key. induction a as [|y a IH]; [reflexivity|]. cbn [app find].
      destruct (list_N_eqb (cstr (k_key y)) k); [reflexivity|exact IH]. }
    cbn [rev]. rewrite A. destruct (find_key (rev l) k) as [v|]; [reflexivity|]. unfold find_key at 2. cbn [find].
    destruct (list_N_eqb (cstr (k_key x)) k); reflexivity. }
  intros Hk. rewrite G; [|exact Hk|constructor]. destruct (find_key (rev kvs) k); reflexivity.
Qed.

Lemma find_new kvs qt k : known_types kvs ->
  find_key (new_kvs kvs qt) k =
    if list_N_eqb (u "general.file_type") k then Some (VScalar 4 (le 4 (code qt)))
    else if list_N_eqb (u "general.quantization_version") k then Some (VScalar 4 (le 4 2))
    else option_map copy_val (find_key (rev kvs) k).
Proof.
  intros Hk. unfold new_kvs. assert (Z := set_kv_zero kvs).
  rewrite find_set; [|apply set_key_zero; [exact Z|apply zeroless_lit; reflexivity]|apply zeroless_lit; reflexivity].
  destruct (list_N_eqb (u "general.file_type") k); [reflexivity|].
  rewrite find_set; [|exact Z|apply zeroless_lit; reflexivity].
  destruct (list_N_eqb (u "general.quantization_version") k); [reflexivity|]. apply find_set_kv, Hk.
Qed.

Lemma value_copy v : value_kept v (copy_val v).
Proof.
  destruct v as [t b|s|t n b|l]; cbn [copy_val value_kept]; try reflexivity; [apply cstr_cut|].
  induction l as [|s l IH]; constructor; [apply cstr_cut|exact IH].
Qed.

Lemma setting_copy v : as_setting (copy_val v) = as_setting v.
Proof. destruct v; reflexivity. Qed.
Lemma tok_copy v : as_tok (copy_val v) = as_tok v.
Proof. destruct v; reflexivity. Qed.

(** ** The loader depends on what the file says only *)

Definition same_file (f g : file) : Prop :=
  (forall k, f_set f k = f_set g k) /\ (forall k, f_tok f k = f_tok g k) /\
  f_tensors f = f_tensors g /\ f_data f = f_data g /\ f_bytes f = f_bytes g.

Section Same.
Context (L : Ggml_model.lib) (junk : nat -> N) {V : Type} (value : gty -> list N -> nat -> V).
Context (order : list (ustring * N) -> list (ustring * N)).

Lemma same_token_id (g g' : gguf) find k alts : (forall k, g k = g' k) -> get_token_id g find k alts = get_token_id g' find k alts.
Proof. intros H. unfold get_token_id, gguf_u32. rewrite H. reflexivity. Qed.
Lemma same_bool (g g' : gguf) k d : (forall k, g k = g' k) -> gguf_bool g k d = gguf_bool g' k d.
Proof. intros H. unfold gguf_bool. rewrite H. reflexivity. Qed.
Lemma obind_ext {A B} (x : outcome A) (f g : A -> outcome B) : (forall a, f a = g a) -> obind x f = obind x g.
Proof. intros H. destruct x; cbn [obind]; [apply H|reflexivity..]. Qed.

Lemma same_bert (g g' : gguf) a b : (forall k, g k = g' k) -> bert_init_vocab g a b = bert_init_vocab g' a b.
Proof.
  intros H. unfold bert_init_vocab. apply obind_ext. intros v. unfold bert_vocab_init.
  rewrite !(same_token_id g g') by exact H. repeat (apply obind_ext; intros ?).
  destruct (_ || _); [reflexivity|]. rewrite !(same_bool g g') by exact H.
  repeat (apply obind_ext; intros ?). rewrite (same_bool g g') by exact H. reflexivity.
Qed.
Lemma same_specials (g g' : gguf) find : (forall k, g k = g' k) -> roberta_specials g find = roberta_specials g' find.
Proof.
  intros H. unfold roberta_specials. rewrite !(same_token_id g g') by exact H. reflexivity.
Qed.

Lemma same_read_tensors f g : f_tensors f = f_tensors g -> f_data f = f_data g -> f_bytes f = f_bytes g ->
  forall todo size used failed, read_tensors L junk f size used failed todo = read_tensors L junk g size used failed todo.
Proof.
  intros Et Ed Eb. induction todo as [|t todo IH]; intros size used failed; [reflexivity|]. cbn [read_tensors]. rewrite Et.
  destruct (get_tensor ti_name (f_tensors g) (ti_name t)); [|reflexivity]. destruct (_ <? _)%N; [reflexivity|]. destruct failed; [reflexivity|].
  unfold read_bytes. rewrite Ed, Eb. apply obind_ext || idtac. rewrite IH. reflexivity.
Qed.
Lemma same_metadata f g : (forall k, f_set f k = f_set g k) -> read_metadata f = read_metadata g.
Proof. intros H. unfold read_metadata, opt_str, opt_u32, need_u32. rewrite !H. reflexivity. Qed.
Lemma same_settings f g : (forall k, f_set f k = f_set g k) -> read_settings f = read_settings g.
Proof. intros H. unfold read_settings, opt_f64, opt_u32, need_u32. rewrite !H. reflexivity. Qed.

Lemma same_vocab arch f g ts : (forall k, f_tok f k = f_tok g k) -> init_vocab order arch f ts = init_vocab order arch g ts.
Proof.
  intros H. unfold init_vocab. destruct (arch =? 0)%N; [rewrite (same_bert (f_tok f) (f_tok g)) by exact H; reflexivity|].
  unfold roberta_init_vocab. f_equal. apply obind_ext. intros v. unfold roberta_vocab_init.
  rewrite (same_specials (f_tok f) (f_tok g)) by exact H. reflexivity.
Qed.

Lemma same_load f g reopen : same_file f g ->
  load_from_file L junk value order (Some f) reopen = load_from_file L junk value order (Some g) reopen.
Proof.
  intros (Hs & Ht & Et & Ed & Eb). unfold load_from_file. rewrite (same_metadata f g) by exact Hs. apply obind_ext. intros _.
  rewrite Et. apply obind_ext. intros size. destruct (negb reopen); [reflexivity|].
  rewrite (same_read_tensors f g Et Ed Eb). destruct (read_tensors L junk g size 0 false (f_tensors g)); try reflexivity.
  rewrite (same_settings f g) by exact Hs. apply obind_ext. intros s. unfold need_u32. rewrite Hs. apply obind_ext. intros t.
  apply obind_ext. intros _. destruct (negb _); [reflexivity|]. destruct (negb _); [reflexivity|].
  unfold new_context. rewrite (same_vocab (se_arch s) f g) by exact Ht. reflexivity.
Qed.
End Same.

(** ** Quantizing a file and reading the result *)

Lemma put_kvs_length l : length l <= length (put_kvs l).
Proof.
  unfold put_kvs. induction l as [|x l IH]; [reflexivity|]. cbn [map concat length]. rewrite app_length.
  assert (1 <= length (put_kv x)) by (unfold put_kv, put_str; rewrite !app_length, le_length; lia). lia.
Qed.
Lemma infos_length ws : length ws <= length (concat (map write_info ws)).
Proof.
  induction ws as [|w ws IH]; [reflexivity|]. cbn [map concat length]. rewrite app_length.
  assert (1 <= length (write_info w)) by (unfold write_info; rewrite !app_length, le_length; lia). lia.
Qed.

Section Copy.
Context (junk : nat -> N) (chunk : gty -> list N -> nat -> list N) (widen : list N -> list N) (qt : gty).
Context (bs : list N) (kvs : list kv) (f : file).
Hypothesis Hb : byte_string bs.
Hypothesis Hread : read_gguf bs = Ok (kvs, f).
Hypothesis Hdk : find_key (rev kvs) (u "general.alignment") = find_key kvs (u "general.alignment").
Hypothesis Hkt : known_types kvs.
Hypothesis Hal : align_of f = 32%N.
Hypothesis Hblocks : forall s, In s (tensors_of junk f) -> wanted s -> (N.of_nat (ti_ne0 (st_info s)) mod blck_size qt = 0)%N.
Context (outs : list (gty * list N)) (ws : list winfo).
Hypothesis Hw : written chunk widen qt (tensors_of junk f) outs ws.
Let kvs' := new_kvs kvs qt.
Let n_kv := N.of_nat (length kvs').
Let kvb := put_kvs kvs'.
Let out := meta n_kv kvb ws ++ data_section outs.
Hypothesis Hfit : fits64 (N.of_nat (length out)).

Lemma copy_alignment : alignment kvs' = Ok 32%N.
Proof.
  destruct (read_wf _ _ _ Hb Hread) as (_ & _ & _ & a & Ha).
  destruct (read_inv _ _ _ Hread) as (infos & a' & ts & head & rest & _ & _ & Ha' & _ & Ef).
  unfold alignment in *. unfold kvs'. rewrite find_new by assumption. 
  replace (list_N_eqb (u "general.file_type") (u "general.alignment")) with false by reflexivity.
  replace (list_N_eqb (u "general.quantization_version") (u "general.alignment")) with false by reflexivity.
  assert (G := Hal). rewrite Ef in G. unfold align_of, file_of in G. cbn [f_set] in G.
  change (setting_key S_alignment) with (u "general.alignment") in G.
  rewrite Hdk. destruct (find_key kvs (u "general.alignment")) as [[t b|s|t n b|l]|]; cbn [option_map copy_val as_setting] in *; try discriminate Ha; [|reflexivity].
  destruct (t =? 4)%N; [|discriminate Ha]. rewrite G. reflexivity.
Qed.

Lemma out_raw : exists tail, out = raw_meta n_kv kvb ws ++ tail.
Proof. unfold out, meta. cbv zeta. rewrite <- app_assoc. eauto. Qed.

Lemma raw_fits : (N.of_nat (length kvs') <= N.of_nat (length out))%N /\ (N.of_nat (length ws) <= N.of_nat (length out))%N.
Proof.
  destruct out_raw as (tail & ->). rewrite app_length. unfold raw_meta. rewrite !app_length, !le_length.
  assert (P := put_kvs_length kvs'). assert (Q := infos_length ws). fold kvb in P. lia.
Qed.

Lemma offsets_inside : Forall (fun w => (w_offset w <= N.of_nat (length out))%N) ws.
Proof.
  assert (D := data_at (data_start 32 n_kv kvb ws) 0 ws outs (wr_offsets _ _ _ _ _ _ Hw) (wr_size _ _ _ _ _ _ Hw)
    (meta n_kv kvb ws) ltac:(rewrite meta_length; lia)). fold out in D.
  revert D. generalize (length out) (data_start 32 n_kv kvb ws). generalize out. clear. intros bytes k b D.
  induction D as [|o w os ws' (_ & H) HF IH]; constructor; [lia|exact IH].
Qed.

Lemma mod_factor a b k : k <> 0%N -> (a mod k = 0)%N -> (a * b mod k = 0)%N.
Proof. intros Hk H. apply N.mod_divides in H as (c & ->); [|exact Hk]. rewrite <- N.mul_assoc, N.mul_comm. apply N.mod_mul, Hk. Qed.

Lemma blck_nonzero t : blck_size t <> 0%N.
Proof. destruct t; vm_compute; intros Q; discriminate Q. Qed.

Lemma written_infos : Forall wf_info ws.
Proof.
  destruct (read_wf _ _ _ Hb Hread) as (_ & Ht & _ & _).
  assert (Hbk := wr_becomes _ _ _ _ _ _ Hw). assert (Hsh := wr_shape _ _ _ _ _ _ Hw). assert (Hty := wr_type _ _ _ _ _ _ Hw).
  assert (Hoff := offsets_inside). assert (Hf := Hfit). unfold fits64 in Hf.
  assert (Hbl := Hblocks).
  assert (Hts : Forall (fun s => tensor_read (st_info s) /\ st_name s = ti_name (st_info s)) (tensors_of junk f)).
  { unfold tensors_of. apply Forall_forall. intros s Hs. apply in_map_iff in Hs as (t & <- & Hin). rewrite Forall_forall in Ht.
    split; [apply Ht, Hin|reflexivity]. }
  revert Hbl Hts Hbk Hsh Hty Hoff Hf. generalize (length out). generalize (tensors_of junk f). clear.
  intros ts k Hbl Hts Hbk. revert ws. induction Hbk as [|s o ts os Hb HF IH]; intros ws Hsh Hty Hoff Hf.
  { inversion Hsh; subst. constructor. }
  inversion Hsh as [|? w ? ws' S1 S2]; subst. inversion Hty as [|? ? ? ? T1 T2]; subst.
  apply Forall_cons_iff in Hts as ((R & En) & Hts). apply Forall_cons_iff in Hoff as (O1 & O2).
  constructor; [|apply IH; try assumption; intros s' Hs'; apply Hbl; right; exact Hs'].
  destruct R as (R1 & R2 & R3 & R4 & R5 & R6 & R7 & R8). destruct S1 as (E1 & E2 & E3 & E4 & E5 & E6).
  constructor; try (unfold fits64; lia).
  - rewrite E1, En. exact R1.
  - rewrite E1, En. exact R2.
  - unfold trimmed, seen in *. cbn [ti_dims ti_ne0 ti_ne1 ti_ne2 ti_ne3]. rewrite E2, E3, E4, E5, E6. exact R3.
  - rewrite E3. exact R4.
  - rewrite E4. exact R5.
  - rewrite E5. exact R6.
  - rewrite E6. exact R7.
  - rewrite E3, E4, E5, E6. rewrite T1. unfold elements in R8.
    inversion Hb as [Hn Eq1|Hn _ _ Eq1|Hn _ _ Eq1|Hn _ _ Eq1]; try exact R8;
      rewrite !Nat2N.inj_mul, <- !N.mul_assoc; (apply mod_factor; [apply blck_nonzero|]); rewrite <- Eq1; apply Hbl; try exact Hn; left; reflexivity.
Qed.

Lemma read_copy : agreeing kvs -> exists f', read_gguf out = Ok (kvs', f') /\ same_file f' (reread f qt n_kv kvb ws out).
Proof.
  intros Hagr.
  destruct (read_wf _ _ _ Hb Hread) as (Hkr & _ & _ & _). destruct raw_fits as (F1 & F2). unfold fits64 in Hfit.
  assert (R := fun tail => read_written_at kvs' ws 32 tail (new_wf kvs qt Hkr) written_infos
    ltac:(unfold fits64; lia) ltac:(unfold fits64; lia) copy_alignment). fold n_kv kvb in R.
  destruct out_raw as (tail & Eo). specialize (R tail). rewrite <- Eo in R. eexists. split; [exact R|].
  destruct (read_inv _ _ _ Hread) as (infos & a' & ts & head & rest & _ & _ & Ha' & _ & Ef).
  unfold same_file, reread. cbn [f_set f_tok f_tensors f_data f_bytes]. rewrite Hal.
  split; [|split; [|auto]]; intros k.
  - unfold kvs'. rewrite find_new by assumption. rewrite agreeing_find by exact Hagr. rewrite Ef. unfold file_of. cbn [f_set].
    assert (Q : forall v : option kval, option_map as_setting (option_map copy_val v) = option_map as_setting v).
    { intros [v|]; [cbn [option_map]; rewrite setting_copy|]; reflexivity. }
    destruct k; try (match goal with |- context [list_N_eqb ?a ?b] => replace (list_N_eqb a b) with false by reflexivity end;
      match goal with |- context [list_N_eqb ?a ?b] => replace (list_N_eqb a b) with false by reflexivity end; apply Q).
    + cbn [setting_key]. replace (list_N_eqb (u "general.file_type") (u "general.quantization_version")) with false by reflexivity.
      rewrite list_N_eqb_refl. reflexivity.
    + cbn [setting_key]. rewrite list_N_eqb_refl. cbn [option_map as_setting]. change (4 =? 4)%N with true. cbn iota.
      rewrite unle4 by (destruct qt; reflexivity). reflexivity.
  - unfold kvs'. rewrite find_new by assumption. rewrite agreeing_find by exact Hagr. rewrite Ef. unfold file_of. cbn [f_tok].
    assert (Q : forall v : option kval, option_map as_tok (option_map copy_val v) = option_map as_tok v).
    { intros [v|]; [cbn [option_map]; rewrite tok_copy|]; reflexivity. }
    destruct k; (match goal with |- context [list_N_eqb ?a ?b] => replace (list_N_eqb a b) with false by reflexivity end;
      match goal with |- context [list_N_eqb ?a ?b] => replace (list_N_eqb a b) with false by reflexivity end; apply Q).
Qed.

Lemma read_copy_any : exists f', read_gguf out = Ok (kvs', f').
Proof.
  destruct (read_wf _ _ _ Hb Hread) as (Hkr & _ & _ & _). destruct raw_fits as (F1 & F2). unfold fits64 in Hfit.
  assert (R := fun tail => read_written_at kvs' ws 32 tail (new_wf kvs qt Hkr) written_infos
    ltac:(unfold fits64; lia) ltac:(unfold fits64; lia) copy_alignment). fold n_kv kvb in R.
  destruct out_raw as (tail & Eo). specialize (R tail). rewrite <- Eo in R. eexists. exact R.
Qed.
End Copy.

(** ** Interrupted writing *)

Lemma no_magic_refused bs : ~ has_magic bs -> read_gguf bs = Fail.
Proof.
  intros H. unfold read_gguf, take at 1. destruct (N.ltb_spec (N.of_nat (length bs)) 4) as [|Hl]; [reflexivity|].
  cbn [obind fst snd]. change (N.to_nat 4) with 4. destruct (list_N_eqb (firstn 4 bs) GGUF) eqn:E; [|reflexivity].
  apply list_N_eqb_eq in E. exfalso. apply H. exists (skipn 4 bs). change (u "GGUF") with GGUF. rewrite <- E. symmetry. apply firstn_skipn.
Qed.

Lemma header_only rest : exists f, read_gguf (GGUF ++ le 4 3 ++ repeat 0%N 16 ++ rest) = Ok ([], f) /\ (forall k, f_set f k = None).
Proof.
  eexists. split.
  - unfold read_gguf. rewrite (take_app GGUF). cbn [obind fst snd]. rewrite list_N_eqb_refl. cbn [negb].
    rewrite num4 by lia. cbn [obind fst snd].
    change (repeat 0%N 16 ++ rest) with (le 8 0 ++ le 8 0 ++ rest). rewrite num8 by reflexivity. cbn [obind fst snd]. rewrite num8 by reflexivity. cbn [obind fst snd].
    change (3 =? 1)%N with false. cbn iota. cbn [N.to_nat take_many obind fst snd describe_all]. unfold alignment. cbn [find_key find option_map obind].
    reflexivity.
  - intros k. reflexivity.
Qed.

Lemma program_zeros chunk widen n_kv kv ts names qt os : program chunk widen n_kv kv ts names qt = Ok (os, true) ->
  exists n rest ws, 24 <= n /\ Forall is_write rest /\ os = (repeat (Write [0%N]) n ++ rest) ++ [Rewind; Write (meta n_kv kv ws)].
Proof.
  intros H. unfold program in H. destruct (add_all ts names []) as [ws| | |]; try discriminate. cbn [obind] in H. cbv zeta in H.
  destruct (convert chunk widen ts qt names ws) as [[os' r]| | |] eqn:E; try discriminate. cbn [obind fst snd] in H.
  assert (W := convert_writes _ _ _ _ _ _ _ E). cbn [fst] in W.
  assert (Z : exists n, 24 <= n /\ zeros (meta_size n_kv kv ws) = repeat (Write [0%N]) n).
  { exists (length (meta n_kv kv ws)). unfold zeros, meta_size. rewrite Nat2N.id. split; [|reflexivity].
    unfold meta, raw_meta. rewrite !app_length, !le_length. cbn. lia. }
  destruct Z as (n & Hn & Z). rewrite Z in H.
  destruct r as [ws'|]; [|discriminate H]. injection H as <-. exists n, os', ws'. split; [exact Hn|]. split; [exact W|].
  rewrite <- app_assoc. reflexivity.
Qed.

Lemma zeros_bytes n : concat (map bytes_of (repeat (Write [0%N]) n)) = repeat 0%N n.
Proof. induction n as [|n IH]; [reflexivity|]. cbn [repeat map concat bytes_of app]. rewrite IH. reflexivity. Qed.

Lemma torn_header chunk widen n_kv kv ts names qt os :
  program chunk widen n_kv kv ts names qt = Ok (os, true) ->
  exists dev rest, s_bytes (do_ops stream0 0 dev os) = GGUF ++ le 4 3 ++ repeat 0%N 16 ++ rest /\ s_bad (do_ops stream0 0 dev os) = true.
Proof.
  intros H. destruct (program_zeros _ _ _ _ _ _ _ _ H) as (n & rest & ws & Hn & W & ->).
  set (first := repeat (Write [0%N]) n ++ rest) in *.
  assert (Wf : Forall is_write first).
  { apply Forall_app. split; [|exact W]. apply Forall_forall. intros o Ho. apply repeat_spec in Ho. subst. exact I. }
  set (room := list_sum (map (fun o => length (bytes_of o)) first)).
  exists (fun i => if i =? S (length first) then 8 else room). rewrite do_ops_app.
  assert (B : s_bad (do_ops stream0 0 (fun i => if i =? S (length first) then 8 else room) first) = false).
  { apply do_ops_room; [reflexivity|]. intros j bs Hj. cbn [Nat.add].
    assert (Hl : j < length first) by (apply nth_error_Some; congruence).
    destruct (Nat.eqb_spec j (S (length first))); [lia|].
    apply nth_error_In in Hj. unfold room. clear - Hj. induction first as [|o l IH]; [destruct Hj|].
    cbn [map list_sum fold_right]. fold (list_sum (map (fun o => length (bytes_of o)) l)).
    destruct Hj as [->|Hj]; [cbn [bytes_of]; lia|specialize (IH Hj); lia]. }
  assert (X := do_writes first Wf stream0 0 _ eq_refl B). rewrite X. cbn [stream0 s_bytes app] in *.
  assert (Y : exists r, concat (map bytes_of first) = repeat 0%N 24 ++ r).
  { unfold first. rewrite map_app, concat_app, zeros_bytes. replace n with (24 + (n - 24)) by lia. rewrite repeat_app, <- app_assoc. eauto. }
  destruct Y as (r & Y). rewrite Y. exists r.
  cbn [Nat.add do_ops]. unfold do_op. cbn [s_bad s_bytes s_pos]. rewrite Nat.eqb_refl.
  destruct (Nat.eqb_spec (length first) (S (length first))); [lia|].
  assert (M : exists q, meta n_kv kv ws = GGUF ++ le 4 3 ++ q /\ 0 < length q).
  { unfold meta, raw_meta. cbv zeta. eexists. rewrite <- !app_assoc. split; [reflexivity|]. rewrite app_length, le_length. cbn. lia. }
  destruct M as (q & -> & Hq). split.
  - reflexivity.
  - cbn [s_bad]. apply Nat.ltb_lt. rewrite firstn_length, !app_length, le_length. change (length GGUF) with 4. change (N.to_nat 4) with 4. lia.
Qed.

Lemma pad_to_spec a n : (0 < a)%N ->
  (Ggml_model.pad_to a n mod a = 0 /\ n <= Ggml_model.pad_to a n < n + a)%N.
Proof.
  intros H. unfold Ggml_model.pad_to. split; [apply N.mod_mul; lia|].
  assert (D := N.div_mod (n + a - 1) a ltac:(lia)). assert (M := N.mod_lt (n + a - 1) a ltac:(lia)).
  rewrite (N.mul_comm a) in D. lia.
Qed.

(** ** Copied pairs *)
Lemma copy_kept x : pair_kept x (copy_kv x).
Proof.
  split; [apply cstr_cut|]. unfold copy_kv. cbn [k_val]. destruct (k_val x) as [t b|s|t n b|l]; cbn [copy_val]; try reflexivity; [apply cstr_cut|].
  induction l as [|s l IH]; constructor; [apply cstr_cut|exact IH].
Qed.
Lemma set_key_from k v l x : In x (set_key k v l) -> x = mkkv k v \/ In x l.
Proof.
  induction l as [|y l IH]; cbn [set_key]; [intros [<-|[]]; auto|].
  destruct (list_N_eqb (k_key y) k) eqn:E; cbn [In].
  - apply list_N_eqb_eq in E. intros [<-|H]; [left; rewrite E; reflexivity|auto].
  - intros [<-|H]; [auto|]. destruct (IH H); auto.
Qed.
Lemma set_key_keeps k v l x : In x l -> k_key x <> k -> In x (set_key k v l).
Proof.
  intros H Hn. induction l as [|y l IH]; [destruct H|]. cbn [set_key]. destruct (list_N_eqb (k_key y) k) eqn:E.
  - apply list_N_eqb_eq in E. destruct H as [<-|H]; [contradiction|right; exact H].
  - destruct H as [<-|H]; [left; reflexivity|right; apply IH, H].
Qed.
Lemma set_key_has k v l : In (mkkv k v) (set_key k v l).
Proof.
  induction l as [|y l IH]; [left; reflexivity|]. cbn [set_key]. destruct (list_N_eqb (k_key y) k) eqn:E; [|right; exact IH].
  apply list_N_eqb_eq in E. left. rewrite E. reflexivity.
Qed.

Lemma new_pairs kvs qt : distinct_keys kvs -> known_types kvs ->
  In (mkkv (u "general.file_type") (VScalar 4 (le 4 (code qt)))) (new_kvs kvs qt) /\
  In (mkkv (u "general.quantization_version") (VScalar 4 (le 4 2))) (new_kvs kvs qt) /\
  (forall x, In x kvs -> ~ In (cstr (k_key x)) touched -> In (copy_kv x) (new_kvs kvs qt)) /\
  (forall y, In y (new_kvs kvs qt) -> In (k_key y) touched \/ exists x, In x kvs /\ y = copy_kv x).
Proof.
  intros Hd Hk. unfold new_kvs. rewrite set_kv_copy by assumption. split; [apply set_key_has|]. split; [|split].
  - apply set_key_keeps; [apply set_key_has|]. cbn [k_key]. intros Q. discriminate Q.
  - intros x Hx Hn. unfold touched in Hn. cbn [In] in Hn.
    apply set_key_keeps; [apply set_key_keeps; [apply in_map, Hx|]|]; unfold copy_kv; cbn [k_key]; intros Q; apply Hn; auto.
  - intros y Hy. unfold touched. cbn [In]. apply set_key_from in Hy as [->|Hy]; [cbn [k_key]; auto|].
    apply set_key_from in Hy as [->|Hy]; [cbn [k_key]; auto|]. apply in_map_iff in Hy as (x & <- & Hx). right. eauto.
Qed.

Lemma torn_aborts L junk {V} (value : gty -> list N -> nat -> V) order f again : (forall k, f_set f k = None) ->
  load_from_file L junk value order (Some f) again = Abort.
Proof. intros H. unfold load_from_file, read_metadata, opt_str, opt_u32, need_u32. rewrite !H. reflexivity. Qed.
