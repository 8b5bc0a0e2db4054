(** Theorems about the buffers and the histogram of quantization. *)
From Verif Require Import Base Bert_model Vocab_model Bpe_model Roberta_model Loader_model Quantize_model Qbuf_model.
From Verif Require Import Loader_spec Quantize_spec Quantize_proofs Loader_proofs P_Quantize.
From Verif Require Says_quantize_spec Ggml_model P_Loader.
Local Open Scope N_scope.

(** ** Specification *)

(** Widening makes four bytes of two. *)
Definition widen_ok (widen : list N -> list N) : Prop :=
  forall bs n, length bs = (2 * n)%nat -> length (widen bs) = (4 * n)%nat.

(** Tensors that have the bytes their description says. *)
Definition sized (ts : list stored) : Prop := Forall (fun s => N.of_nat (length (st_bytes s)) = nbytes (st_info s)) ts.

(** [counts]: 16 counters. *)
Definition counters (count : gty -> list N -> list N) : Prop := forall t bs, length (count t bs) = 16%nat.

(** What bin [i] has counted of the conversions [done]. *)
Definition bin (count : gty -> list N -> list N) (qt : gty) (done : list (list N)) (i : nat) : N :=
  fold_right N.add 0 (map (fun bs => nth i (count qt bs) 0) done).

(** The lines about the bins: each share of the whole. *)
Definition bin_table (ratio : N -> N -> list N) (bins : nat -> N) : list N :=
  concat (map (fun i => u "  bin #" ++ decimal (N.of_nat i) ++ u ": " ++
                        ratio (bins i) (fold_right N.add 0 (map bins (seq 0 16))) ++ [10]) (seq 0 16)).

(** The types whose conversion counts: every weight of a whole block once. *)
Definition counting (t : gty) : bool := match t with TQ4_0 | TQ4_1 | TQ5_0 | TQ5_1 | TQ8_0 => true | _ => false end.
Definition counts_weights (count : gty -> list N -> list N) : Prop :=
  forall t bs, fold_right N.add 0 (count t bs) = if counting t then N.of_nat (length bs) / type_size t * 32 else 0.

(** ** Proofs *)

Lemma grow_length n l : (n <= length (grow n l))%nat.
Proof. unfold grow. rewrite app_length, repeat_length. lia. Qed.

Lemma float_size s : N.of_nat (length (st_bytes s)) = nbytes (st_info s) ->
  (ti_type (st_info s) = TF32 -> length (st_bytes s) = (4 * elements (st_info s))%nat) /\
  (ti_type (st_info s) = TF16 -> length (st_bytes s) = (2 * elements (st_info s))%nat).
Proof.
  intros H. split; intros E.
  - assert (W : whole_rows (st_info s)) by (unfold whole_rows; rewrite E; apply N.mod_1_r).
    rewrite (whole_size _ W), E in H. change (blck_size TF32) with 1 in H. change (type_size TF32) with 4 in H. rewrite N.div_1_r in H. lia.
  - assert (W : whole_rows (st_info s)) by (unfold whole_rows; rewrite E; apply N.mod_1_r).
    rewrite (whole_size _ W), E in H. change (blck_size TF16) with 1 in H. change (type_size TF16) with 2 in H. rewrite N.div_1_r in H. lia.
Qed.

Section Buffers.
Context (chunk : gty -> list N -> nat -> list N) (widen : list N -> list N) (count : gty -> list N -> list N).
Context (HC : chunk_ok chunk) (HW : widen_ok widen).

(** One conversion: the buffers are large enough, and hold the result at the start. *)
Lemma quantize_buf_ok s qt b : N.of_nat (length (st_bytes s)) = nbytes (st_info s) ->
  match quantize chunk widen s qt with
  | None => quantize_buf chunk widen count s qt b = Ok None
  | Some bs => exists f q, quantize_buf chunk widen count s qt b =
                 Ok (Some (length bs, mkcb f (bs ++ q) (add_counts (cb_h b) (count qt bs))))
  end.
Proof.
  intros HS. destruct (float_size s HS) as (F32 & F16). unfold quantize, quantize_buf. set (n := elements (st_info s)) in *.
  assert (OUT : forall data f (l : list N), (4 * n <= length l)%nat ->
    let out := if convertible qt then chunk qt data n else [] in
    exists q, obind (put out l) (fun q => Ok (Some (length out, mkcb f q (add_counts (cb_h b) (count qt out))))) =
              Ok (Some (length out, mkcb f (out ++ q) (add_counts (cb_h b) (count qt out))))).
  { intros data f l Hl out. unfold put.
    assert (X : (length out <= 4 * n)%nat).
    { unfold out. destruct (convertible qt) eqn:E; [apply C103_buffer_enough; assumption|cbn; lia]. }
    replace (length l <? length out)%nat with false by lia. cbn [obind]. eexists. reflexivity. }
  destruct (ti_type (st_info s)) eqn:ET; try reflexivity.
  - specialize (F32 eq_refl). assert (TK : take (4 * n) (st_bytes s) = Ok (st_bytes s)) by (unfold take; rewrite F32, Nat.ltb_irrefl, <- F32, firstn_all; reflexivity).
    rewrite TK. cbn [obind]. cbn [cb_f cb_q cb_h reserve].
    destruct (OUT (st_bytes s) (grow (4 * n) (cb_f b)) (grow (4 * n) (cb_q b)) (grow_length _ _)) as (q & E). cbv zeta in E.
    exists (grow (4 * n) (cb_f b)), q. exact E.
  - specialize (F16 eq_refl). assert (TK : take (2 * n) (st_bytes s) = Ok (st_bytes s)) by (unfold take; rewrite F16, Nat.ltb_irrefl, <- F16, firstn_all; reflexivity).
    rewrite TK. cbn [obind].
    assert (WL := HW (st_bytes s) n F16). unfold put at 1. cbn [cb_f cb_q cb_h reserve]. pose proof (grow_length (4 * n) (cb_f b)) as GL.
    rewrite WL. replace (length (grow (4 * n) (cb_f b)) <? 4 * n)%nat with false by lia. cbn [obind].
    unfold take. rewrite app_length, WL. replace (4 * n + _ <? 4 * n)%nat with false by lia. cbn [obind].
    replace (firstn (4 * n) (widen (st_bytes s) ++ skipn (4 * n) (grow (4 * n) (cb_f b)))) with (widen (st_bytes s))
      by (rewrite <- WL at 1; rewrite firstn_app, Nat.sub_diag, firstn_all, app_nil_r; reflexivity).
    match goal with |- exists _ _, obind (put _ _) (fun x => Ok (Some (_, mkcb ?g x _))) = _ => 
      destruct (OUT (widen (st_bytes s)) g (grow (4 * n) (cb_q b)) (grow_length _ _)) as (q & E); cbv zeta in E; exists g, q; exact E end.
Qed.

(** The counters after the conversions [done]. *)
Fixpoint counted_all (qt : gty) (h : list N) (done : list (list N)) : list N :=
  match done with [] => h | bs :: done' => counted_all qt (add_counts h (count qt bs)) done' end.

Lemma counted_app qt d1 : forall h d2, counted_all qt h (d1 ++ d2) = counted_all qt (counted_all qt h d1) d2.
Proof. induction d1 as [|x d1 IH]; intros h d2; [reflexivity|]. cbn [app counted_all]. apply IH. Qed.

Lemma get_in (ts : list stored) n s : get_tensor st_name ts n = Some s -> In s ts.
Proof. unfold get_tensor. intros H. exact (proj1 (find_some _ _ H)). Qed.

Lemma convert_one_buf_ok ts qt n ws b : sized ts ->
  match convert_one chunk widen ts qt n ws with
  | Ok None => convert_one_buf chunk widen count ts qt n ws b = Ok None
  | Ok (Some (os, ws')) => exists b', convert_one_buf chunk widen count ts qt n ws b = Ok (Some (os, ws', b')) /\
      exists bs, (exists pad, os = Write bs :: pad) /\
      cb_h b' = match get_tensor st_name ts n with
                | Some s => if is_weight n && (ti_dims (st_info s) =? 2) then add_counts (cb_h b) (count qt bs) else cb_h b
                | None => cb_h b
                end
  | Fail => convert_one_buf chunk widen count ts qt n ws b = Fail
  | UB => convert_one_buf chunk widen count ts qt n ws b = UB
  | Abort => convert_one_buf chunk widen count ts qt n ws b = Abort
  end.
Proof.
  intros HS. unfold convert_one, convert_one_buf. destruct (get_tensor st_name ts n) as [s|] eqn:G; [|reflexivity].
  assert (S := proj1 (Forall_forall _ _) HS s (get_in ts n s G)). cbv beta in S.
  pose proof (quantize_buf_ok s qt b S) as Q.
  destruct (is_weight n && (ti_dims (st_info s) =? 2))%bool.
  - destruct (quantize chunk widen s qt) as [bs|].
    + destruct Q as (f & q & Q). rewrite Q. cbn [obind cb_q]. unfold take. rewrite app_length.
      replace (length bs + length q <? length bs)%nat with false by lia. cbn [obind]. rewrite firstn_app, Nat.sub_diag, firstn_all, app_nil_r.
      unfold set_tensor_type, set_tensor_data. destruct (find_index n ws) as [i|]; [|reflexivity]. cbn [obind].
      destruct (find_index n (update i (set_type qt) ws)); [|reflexivity]. cbn [obind].
      eexists. split; [reflexivity|]. exists bs. split; [eexists; reflexivity|reflexivity].
    + rewrite Q. reflexivity.
  - cbn [obind]. unfold set_tensor_type, set_tensor_data. destruct (find_index n ws) as [i|]; [|reflexivity]. cbn [obind].
    destruct (find_index n (update i (set_type (ti_type (st_info s))) ws)); [|reflexivity]. cbn [obind].
    eexists. split; [reflexivity|]. exists (st_bytes s). split; [eexists; reflexivity|reflexivity].
Qed.

(** C200: the conversion done in buffers that are used again and again is the one without
    buffers; nothing is read or written outside, and nothing of an earlier tensor comes
    through. *)
Theorem C200_buffers : forall ts qt names ws b, sized ts ->
  obind (convert_buf chunk widen count ts qt names ws b) (fun r => Ok (fst r)) = convert chunk widen ts qt names ws.
Proof.
  intros ts qt names ws b HS. revert ws b. induction names as [|n names IH]; intros ws b; [reflexivity|].
  cbn [convert_buf convert]. pose proof (convert_one_buf_ok ts qt n ws b HS) as C.
  destruct (convert_one chunk widen ts qt n ws) as [[[os ws']|]| | |]; [destruct C as (b' & -> & _)|rewrite C; reflexivity..].
  cbn [obind]. specialize (IH ws' b').
  destruct (convert_buf chunk widen count ts qt names ws' b') as [[[os' r'] b'']| | |];
    destruct (convert chunk widen ts qt names ws') as [[o r]| | |]; cbn [obind] in IH |- *; try discriminate; try reflexivity.
  assert (E := f_equal (fun x => match x with Ok y => y | _ => (os', r') end) IH). cbn in E. injection E as -> ->. reflexivity.
Qed.

Lemma add_counts_length h : forall c, length (add_counts h c) = length h.
Proof. induction h as [|x h IH]; intros [|y c]; cbn [add_counts length]; [reflexivity..|]. rewrite IH. reflexivity. Qed.

Lemma add_counts_nth h : forall c i, length c = length h -> nth i (add_counts h c) 0 = nth i h 0 + nth i c 0.
Proof.
  induction h as [|x h IH]; intros [|y c] i E; try discriminate; [destruct i; reflexivity|].
  cbn [add_counts]. destruct i as [|i]; [reflexivity|]. cbn [nth]. apply IH. cbn in E. lia.
Qed.

Lemma add_counts_sum h : forall c, length c = length h ->
  fold_right N.add 0 (add_counts h c) = fold_right N.add 0 h + fold_right N.add 0 c.
Proof.
  induction h as [|x h IH]; intros [|y c] E; try discriminate; [reflexivity|].
  cbn [add_counts fold_right]. rewrite IH by (cbn in E; lia). lia.
Qed.

Lemma counted_length qt done : forall h, length (counted_all qt h done) = length h.
Proof. induction done as [|bs done IH]; intros h; [reflexivity|]. cbn [counted_all]. rewrite IH. apply add_counts_length. Qed.

Lemma counted_nth qt done : counters count -> forall h i, length h = 16%nat -> nth i (counted_all qt h done) 0 = nth i h 0 + bin count qt done i.
Proof.
  intros HN. induction done as [|bs done IH]; intros h i E; [unfold bin; cbn; lia|].
  cbn [counted_all]. rewrite IH by (rewrite add_counts_length; exact E). rewrite add_counts_nth by (rewrite HN, E; reflexivity).
  unfold bin. cbn [map fold_right]. lia.
Qed.

Lemma counted_sum qt done : counters count -> forall h, length h = 16%nat ->
  fold_right N.add 0 (counted_all qt h done) = fold_right N.add 0 h + fold_right N.add 0 (map (fun bs => fold_right N.add 0 (count qt bs)) done).
Proof.
  intros HN. induction done as [|bs done IH]; intros h E; [cbn; lia|].
  cbn [counted_all]. rewrite IH by (rewrite add_counts_length; exact E). rewrite add_counts_sum by (rewrite HN, E; reflexivity).
  cbn [map fold_right]. lia.
Qed.

(** The counters after the tensors [rest]. *)
Lemma convert_buf_hist ts qt : sized ts -> Forall (fun s => (length (st_name s) < 64)%nat) ts -> NoDup (map st_name ts) ->
  forall rest ws b os ws' b', (forall s, In s rest -> In s ts) ->
  convert_buf chunk widen count ts qt (map st_name rest) ws b = Ok (os, Some ws', b') ->
  exists outs done, Forall2 (fun s o => becomes chunk widen qt s (fst o) (snd o)) rest outs /\ Says_quantize_spec.conversions rest outs done /\
    cb_h b' = counted_all qt (cb_h b) done.
Proof.
  intros HS Hs Hd. induction rest as [|s rest IH]; intros ws b os ws' b' HI H; cbn [map convert_buf] in H.
  - injection H as <- <- <-. exists [], []. repeat constructor.
  - pose proof (convert_one_buf_ok ts qt (st_name s) ws b HS) as C.
    destruct (convert_one chunk widen ts qt (st_name s) ws) as [[[os1 ws1]|]| | |] eqn:E1; [|rewrite C in H; discriminate..].
    destruct C as (b1 & E & bs & (pad & EO) & HB). rewrite E in H. cbn [obind] in H.
    destruct (convert_buf chunk widen count ts qt (map st_name rest) ws1 b1) as [[[os2 r2] b2]| | |] eqn:E2; try discriminate.
    cbn [obind] in H. injection H as _ -> ->. apply IH in E2; [|intros x Hx; apply HI; right; exact Hx]. destruct E2 as (outs & done & F & CV & HH).
    unfold convert_one in E1. rewrite (get_self ts s Hs Hd) in E1, HB by (apply HI; left; reflexivity). cbv zeta in E1.
    pose proof (out_becomes chunk widen qt s) as OB. unfold out_of in OB. pose proof (wanted_iff s) as WI.
    destruct (is_weight (st_name s) && (ti_dims (st_info s) =? 2)) eqn:W.
    + assert (WS : wanted s) by (apply WI; reflexivity). destruct (quantize chunk widen s qt) as [bs0|]; [|discriminate].
      destruct (set_tensor_type (st_name s) _ ws) as [w1| | |]; try discriminate. cbn [obind] in E1.
      destruct (set_tensor_data (st_name s) _ w1) as [w2| | |]; try discriminate. cbn [obind] in E1. injection E1 as E1 <-.
      rewrite EO in E1. injection E1 as -> _.
      exists ((qt, bs) :: outs), (bs :: done). split; [constructor; [apply OB; reflexivity|exact F]|].
      split; [apply (Says_quantize_spec.conv_yes s (qt, bs)); assumption|]. rewrite HH, HB. reflexivity.
    + assert (WS : ~ wanted s) by (intros K; apply WI in K; discriminate).
      exists ((ti_type (st_info s), st_bytes s) :: outs), done. split; [constructor; [apply OB; reflexivity|exact F]|].
      split; [apply Says_quantize_spec.conv_no; assumption|]. rewrite HH, HB. reflexivity.
Qed.

Lemma converted_length qt s t bs : convertible qt = true -> wanted s -> becomes chunk widen qt s t bs ->
  N.of_nat (length bs) = N.of_nat (elements (st_info s)) / blck_size qt * type_size qt.
Proof. intros CV W B. destruct B; [contradiction|apply HC, CV..|congruence]. Qed.

Lemma hist_empty qt : counters count -> counts_weights count ->
  forall ts outs done, Forall2 (fun s o => becomes chunk widen qt s (fst o) (snd o)) ts outs -> Says_quantize_spec.conversions ts outs done ->
  (0 < fold_right N.add 0 (map (fun bs => fold_right N.add 0 (count qt bs)) done) <->
   counting qt = true /\ exists s, In s ts /\ wanted s /\ (32 <= elements (st_info s))%nat).
Proof.
  intros HN HCW ts outs done F C. induction C as [|s o ts outs done W C IH|s o ts outs done W C IH]; inversion F; subst; clear F.
  - cbn. split; [lia|intros (_ & s & [] & _)].
  - specialize (IH H4). cbn [map fold_right]. rewrite HCW.
    assert (X : counting qt = true -> N.of_nat (length (snd o)) / type_size qt = N.of_nat (elements (st_info s)) / 32).
    { intros CQ. assert (CV : convertible qt = true) by (destruct qt; try discriminate; reflexivity).
      assert (BL : blck_size qt = 32 /\ type_size qt <> 0) by (destruct qt; try discriminate; vm_compute; split; congruence).
      rewrite (converted_length qt s _ _ CV W H2), (proj1 BL). apply N.div_mul, BL. }
    destruct (counting qt) eqn:CQ.
    + rewrite (X eq_refl). assert (D : 0 < N.of_nat (elements (st_info s)) / 32 * 32 <-> (32 <= elements (st_info s))%nat).
      { split; intros H.
        - destruct (le_lt_dec 32 (elements (st_info s))) as [K|K]; [exact K|]. rewrite N.div_small in H by lia. lia.
        - assert (1 <= N.of_nat (elements (st_info s)) / 32) by (apply N.div_le_lower_bound; lia). lia. }
      split.
      * intros H. split; [reflexivity|]. destruct (le_lt_dec 32 (elements (st_info s))) as [K|K].
        -- exists s. split; [left; reflexivity|]. split; assumption.
        -- assert (~ 0 < N.of_nat (elements (st_info s)) / 32 * 32) by (rewrite D; lia).
           destruct (proj1 IH) as (_ & x & I & R); [lia|]. exists x. split; [right; exact I|exact R].
      * intros (_ & x & [->|I] & WX & R); [apply D in R; lia|].
        assert (0 < fold_right N.add 0 (map (fun bs => fold_right N.add 0 (count qt bs)) done)) by (apply IH; split; [reflexivity|exists x; auto]). lia.
    + rewrite N.add_0_l. split; [intros H; apply IH in H as (H & _); discriminate|intros (H & _); discriminate].
  - specialize (IH H4). rewrite IH. split; intros (CQ & x & I & WX & R); (split; [exact CQ|]).
    + exists x. split; [right; exact I|auto].
    + destruct I as [->|I]; [contradiction|]. exists x. auto.
Qed.

Lemma list_seq (h : list N) (g : nat -> N) : forall k, (forall i, (i < length h)%nat -> nth i h 0 = g (k + i)%nat) -> h = map g (seq k (length h)).
Proof.
  induction h as [|x h IH]; intros k H; [reflexivity|]. cbn [length seq map]. f_equal.
  - specialize (H 0%nat). cbn in H. rewrite Nat.add_0_r in H. apply H. lia.
  - apply IH. intros i Hi. specialize (H (S i)). cbn [nth length] in H. rewrite H by lia. f_equal. lia.
Qed.

Lemma bin_lines_map ratio sum g n : forall k, bin_lines ratio k sum (map g (seq k n)) =
  concat (map (fun i => u "  bin #" ++ decimal (N.of_nat i) ++ u ": " ++ ratio (g i) sum ++ [10]) (seq k n)).
Proof.
  induction n as [|n IH]; intros k; [reflexivity|]. cbn [seq map bin_lines concat]. rewrite IH, <- !app_assoc. reflexivity.
Qed.

(** C201: the counters tell how often each of 16 values was written, over all tensors
    converted; the log has them if there is anything to count, which is with the older types
    and a tensor of at least a block. *)
Theorem C201_histogram : forall ratio ts qt ws os ws' b, counters count -> pool_ok ts ->
  convert_buf chunk widen count ts qt (map st_name ts) ws conv_buf0 = Ok (os, Some ws', b) ->
  exists outs done, Forall2 (fun s o => becomes chunk widen qt s (fst o) (snd o)) ts outs /\ Says_quantize_spec.conversions ts outs done /\
    length (cb_h b) = 16%nat /\ (forall i, nth i (cb_h b) 0 = bin count qt done i) /\
    (counts_weights count ->
     ((counting qt = true /\ exists s, In s ts /\ wanted s /\ (32 <= elements (st_info s))%nat) ->
        hist_text ratio (cb_h b) = u "[histogram]" ++ [10] ++ bin_table ratio (bin count qt done)) /\
     (~ (counting qt = true /\ exists s, In s ts /\ wanted s /\ (32 <= elements (st_info s))%nat) -> hist_text ratio (cb_h b) = [])).
Proof.
  intros ratio ts qt ws os ws' b HN HP H.
  destruct (convert_buf_hist ts qt (po_bytes _ HP) (po_short _ HP) (po_distinct _ HP) ts ws conv_buf0 os ws' b (fun s I => I) H)
    as (outs & done & F & C & E).
  assert (LB : length (cb_h b) = 16%nat) by (rewrite E, counted_length; reflexivity).
  assert (NB : forall i, nth i (cb_h b) 0 = bin count qt done i).
  { intros i. rewrite E, (counted_nth qt done HN) by reflexivity. cbn [cb_h conv_buf0].
    assert (Z : nth i (repeat 0 16) 0 = 0) by (do 16 (destruct i as [|i]; [reflexivity|]); destruct i; reflexivity). rewrite Z. lia. }
  exists outs, done. split; [exact F|]. split; [exact C|]. split; [exact LB|]. split; [exact NB|].
  intros HCW. pose proof (hist_empty qt HN HCW ts outs done F C) as X.
  assert (SB : fold_right N.add 0 (cb_h b) = fold_right N.add 0 (map (fun bs => fold_right N.add 0 (count qt bs)) done)).
  { rewrite E, (counted_sum qt done HN) by reflexivity. change (fold_right N.add 0 (cb_h conv_buf0)) with 0. apply N.add_0_l. }
  rewrite <- SB in X. unfold hist_text. split; intros K.
  - apply X in K. apply N.ltb_lt in K. rewrite K.
    assert (LS := list_seq (cb_h b) (bin count qt done) 0 (fun i _ => NB i)). rewrite LB in LS. unfold bin_table. rewrite <- LS.
    rewrite LS at 2. rewrite bin_lines_map. reflexivity.
  - destruct (0 <? _) eqn:L; [|reflexivity]. apply N.ltb_lt in L. apply X in L. contradiction.
Qed.
End Buffers.
Print Assumptions C200_buffers.
Print Assumptions C201_histogram.

(** A tensor of halves, a smaller one of floats, and one that is left alone. *)
Definition b_widen (bs : list N) : list N := flat_map (fun x => [x; x]) bs.
Definition b_count (t : gty) (bs : list N) : list N :=
  (if counting t then N.of_nat (length bs) / type_size t * 32 else 0) :: repeat 0 15.
Definition b_tensor (name : list N) (t : gty) (dims : N) (n0 n1 : nat) (bytes : list N) : stored :=
  mkst (mkti name t dims n0 n1 1 1 0) name bytes.
Definition b_tensors : list stored :=
  [b_tensor (u "a.weight") TF16 2 32 2 (repeat 9 128); b_tensor (u "b.weight") TF32 2 32 1 (repeat 5 128);
   b_tensor (u "b.bias") TF32 1 3 1 (repeat 4 12)].
Definition b_infos : list winfo := match add_all b_tensors (map st_name b_tensors) [] with Ok ws => ws | _ => [] end.
Definition b_run (qt : gty) := convert_buf d_chunk b_widen b_count b_tensors qt (map st_name b_tensors) b_infos conv_buf0.

Lemma b_widen_ok : widen_ok b_widen.
Proof.
  intros bs n H. assert (X : forall l : list N, length (b_widen l) = (2 * length l)%nat)
    by (induction l as [|x l IH]; [reflexivity|]; unfold b_widen in *; cbn [flat_map app length]; rewrite IH; lia).
  rewrite X, H. lia.
Qed.

Lemma b_pool : pool_ok b_tensors.
Proof.
  split.
  - repeat constructor.
  - cbn. repeat constructor; cbn; intuition discriminate.
  - repeat constructor; cbn; intros; try discriminate; try reflexivity; lia.
  - repeat constructor.
Qed.

Example C200_example : chunk_ok d_chunk /\ widen_ok b_widen /\ sized b_tensors /\
  exists os ws b, b_run TQ4_0 = Ok (os, Some ws, b) /\ length (cb_f b) = 256%nat /\ length (cb_q b) = 256%nat /\
    nth_error os 0 = Some (Write (repeat 9 36)) /\ In (Write (repeat 5 18)) os /\ firstn 36 (cb_q b) = repeat 5 18 ++ repeat 9 18.
Proof.
  split; [exact d_chunk_ok|]. split; [exact b_widen_ok|]. split; [exact (po_bytes _ b_pool)|].
  assert (X : match b_run TQ4_0 with
              | Ok (os, Some ws, b) => length (cb_f b) = 256%nat /\ length (cb_q b) = 256%nat /\
                  nth_error os 0 = Some (Write (repeat 9 36)) /\ nth_error os 29 = Some (Write (repeat 5 18)) /\
                  firstn 36 (cb_q b) = repeat 5 18 ++ repeat 9 18
              | _ => False
              end) by (vm_compute; repeat split; reflexivity).
  destruct (b_run TQ4_0) as [[[os [ws|]] b]| | |]; try contradiction. destruct X as (A & B & C & D & E).
  exists os, ws, b. repeat (split; [assumption || reflexivity|]). split; [exact (nth_error_In _ _ D)|exact E].
Qed.

Definition b_ratio (v s : N) : list N := decimal v ++ u "/" ++ decimal s.

Example C201_example : counters b_count /\ counts_weights b_count /\ pool_ok b_tensors /\
  (exists os ws b, b_run TQ4_0 = Ok (os, Some ws, b) /\ cb_h b = 96 :: repeat 0 15 /\
     firstn 31 (hist_text b_ratio (cb_h b)) = u "[histogram]" ++ [10] ++ u "  bin #0: 96/96" ++ [10] ++ u "  b") /\
  (exists os ws b, b_run TQ4_K = Ok (os, Some ws, b) /\ hist_text b_ratio (cb_h b) = []).
Proof.
  split; [intros t bs; reflexivity|].
  split; [intros t bs; unfold b_count; cbn [fold_right repeat]; destruct (counting t); lia|]. split; [exact b_pool|]. split.
  - assert (X : match b_run TQ4_0 with
                | Ok (os, Some ws, b) => cb_h b = 96 :: repeat 0 15 /\
                    firstn 31 (hist_text b_ratio (cb_h b)) = u "[histogram]" ++ [10] ++ u "  bin #0: 96/96" ++ [10] ++ u "  b"
                | _ => False
                end) by (vm_compute; split; reflexivity).
    destruct (b_run TQ4_0) as [[[os [ws|]] b]| | |]; try contradiction. exists os, ws, b. split; [reflexivity|exact X].
  - assert (X : match b_run TQ4_K with Ok (os, Some ws, b) => hist_text b_ratio (cb_h b) = [] | _ => False end) by (vm_compute; reflexivity).
    destruct (b_run TQ4_K) as [[[os [ws|]] b]| | |]; try contradiction. exists os, ws, b. split; [reflexivity|exact X].
Qed.
