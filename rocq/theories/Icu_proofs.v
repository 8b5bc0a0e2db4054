(** Proofs about strings with their error field. *)
From Verif Require Import Base Utf_model Utf_spec Utf_proofs Ustr_model Ustr_spec Icu_model Icu_spec.
Local Open Scope nat_scope.

(** The object [o] holds what [v] says. *)
Definition fits (e : status) (c : condition) : Prop :=
  match c with Fine => failure e = false | Spoilt => e = Error | Unfit => e = Overflow end.

Definition holds (o : obj) (v : value) : Prop :=
  fits (o_err o) (v_cond v) /\
  match v_text v with
  | Unset => o_buf o = Null /\ o_size o = None
  | Units [] => o_buf o = Null /\ o_size o = Some 0
  | Units l => o_buf o = Chars l /\ o_size o = Some (length l)
  | Garbage => o_buf o = Junk /\ exists n, o_size o = Some (S n)
  end.

Definition agree (h : nat -> option obj) (s : nat -> option value) : Prop :=
  forall i, match h i, s i with
            | None, None => True
            | Some o, Some v => holds o v
            | _, _ => False
            end.

Lemma agree_upd h s i o v : agree h s -> match o, v with None, None => True | Some o, Some v => holds o v | _, _ => False end ->
  agree (upd h i o) (upd s i v).
Proof. intros A H j. unfold upd. destruct (Nat.eqb j i); [exact H|apply A]. Qed.

Lemma source_known o v : holds o v -> source o = known (v_text v).
Proof.
  intros (_ & H). unfold source, known. destruct (v_text v) as [[|c l]| |].
  - destruct H as (-> & ->). reflexivity.
  - destruct H as (-> & ->). cbn [length]. rewrite Nat.leb_refl. rewrite <- (firstn_all (c :: l)) at 2. reflexivity.
  - destruct H as (-> & ->). reflexivity.
  - destruct H as (-> & n & ->). reflexivity.
Qed.

Lemma holds_units l e c : fits e c -> holds (mkobj (match l with [] => Null | _ => Chars l end) (Some (length l)) e) (mkval (Units l) c).
Proof. intros F. split; [exact F|]. destruct l; split; reflexivity. Qed.

(** The two calls of a conversion: the size is exact, so the text is written completely. *)
Lemma icu_size l e : failure e = false -> icu_call (Ok (Some l)) 0 e =
  Ok (mkcalled (match l with [] => Warned | _ => Overflow end) [] (Some (length l))).
Proof. intros F. unfold icu_call. rewrite F. destruct l; reflexivity. Qed.

Lemma icu_exact l n e : failure e = false -> n = length l -> icu_call (Ok (Some l)) n e = Ok (mkcalled Warned l (Some n)).
Proof. intros F ->. unfold icu_call. rewrite F. cbn [obind]. rewrite Nat.ltb_irrefl, Nat.eqb_refl. reflexivity. Qed.

Lemma alloc_written l e o : o_err o = e ->
  with_error Warned (written l (alloc (length l) o)) = mkobj (match l with [] => Null | _ => Chars l end) (Some (length l)) Warned.
Proof. destruct l; reflexivity. Qed.

Lemma convert_holds r : exists o, convert r = Ok o /\ holds o (text_of r).
Proof.
  destruct r as [l|].
  - eexists. split; [|apply (holds_units l Warned Fine eq_refl)].
    unfold convert. cbn [obj_default o_err]. rewrite (icu_size l Zero eq_refl). cbn [obind c_length c_status o_err].
    replace (failure (match l with [] => Warned | _ => Overflow end) &&
      negb (match (match l with [] => Warned | _ => Overflow end) with Overflow => true | _ => false end)) with false by (destruct l; reflexivity).
    cbn [o_size]. cbn [alloc with_error o_err]. rewrite (icu_exact l _ Zero eq_refl eq_refl). destruct l; reflexivity.
  - eexists. split; [reflexivity|]. split; [reflexivity|split; reflexivity].
Qed.

Lemma of_units_holds l : holds (of_units l) (mkval (Units l) Fine).
Proof. split; [destruct l; reflexivity|]. destruct l; split; reflexivity. Qed.

Lemma copy_holds a b v : holds b v ->
  match copy_of v with
  | Ok w => exists o, copy a b = Ok o /\ holds o w
  | r => copy a b = match r with Ok _ => UB | Fail => Fail | UB => UB | Abort => Abort end
  end.
Proof.
  intros H. assert (S := source_known _ _ H). destruct H as (F & H). unfold copy_of, copy. destruct (v_text v) as [[|c l]| |].
  - destruct H as (-> & E). cbn [known obind]. eexists. split; [reflexivity|]. split; [exact F|split; reflexivity].
  - destruct H as (E & E'). rewrite E, S. cbn [known obind]. eexists. split; [reflexivity|]. split; [exact F|split; reflexivity].
  - destruct H as (-> & E). eexists. split; [reflexivity|]. split; [exact F|split; reflexivity].
  - destruct H as (E & n & E'). rewrite E, S. reflexivity.
Qed.

Lemma enc8_pos c : 0 < length (enc8 c).
Proof. unfold enc8. repeat (destruct (N.ltb _ _)); cbn; lia. Qed.

Lemma dec16_nonempty c l cs : dec16 (c :: l) = Some cs -> exists d cs', cs = d :: cs'.
Proof.
  cbn [dec16]. destruct (is_low c); [discriminate|]. destruct (is_high c).
  - destruct l as [|d l]; [discriminate|]. destruct (is_low d); [|discriminate]. destruct (dec16 l); [|discriminate]. cbn. intros E. injection E as <-. eauto.
  - destruct (dec16 l); [|discriminate]. cbn. intros E. injection E as <-. eauto.
Qed.

Lemma encode_holds o v : holds o v ->
  match encoded v with
  | Ok (l, w) => exists o', encode_obj o = Ok (l, o') /\ holds o' w
  | r => encode_obj o = match r with Ok _ => UB | Fail => Fail | UB => UB | Abort => Abort end
  end.
Proof.
  intros H. assert (S := source_known _ _ H). assert (H' := H). destruct H' as (F & H'). unfold encoded, encode_obj.
  destruct (v_text v) as [[|c l]| |] eqn:T.
  - destruct H' as (E & _). rewrite E. exists o. auto.
  - destruct H' as (E & E'). rewrite E, S. cbn [known obind]. destruct (v_cond v) eqn:C; cbn [fits] in F.
    + destruct (dec16 (c :: l)) as [cs|] eqn:D; cbn [option_map].
      * destruct (dec16_nonempty _ _ _ D) as (d & cs' & ->).
        assert (P : 0 < length (enc8s (d :: cs'))) by (unfold enc8s; cbn [flat_map]; rewrite app_length; assert (Q := enc8_pos d); lia).
        rewrite icu_size by exact F. cbn [obind c_status c_length].
        destruct (enc8s (d :: cs')) as [|b bs] eqn:EB; [cbn in P; lia|]. cbn [failure andb negb].
        rewrite (icu_exact (b :: bs) _ Zero eq_refl eq_refl). cbn [obind c_units c_status]. rewrite Nat.sub_diag. cbn [repeat]. rewrite app_nil_r.
        eexists. split; [reflexivity|]. split; [cbn; rewrite C; reflexivity|]. cbn [with_error o_buf o_size]. rewrite T. split; assumption.
      * unfold icu_call. rewrite F. cbn [obind c_status failure andb negb]. eexists. split; [reflexivity|].
        split; [reflexivity|]. cbn [with_error o_buf o_size v_text]. split; assumption.
    + unfold icu_call. rewrite F. cbn [failure obind c_status andb negb]. eexists. split; [reflexivity|]. split; [rewrite C; reflexivity|].
      rewrite T. cbn [with_error o_buf o_size]. split; assumption.
    + unfold icu_call. rewrite F. reflexivity.
  - destruct H' as (E & _). rewrite E. exists o. auto.
  - destruct H' as (E & n & E'). rewrite E, S. cbn [known obind]. destruct (v_cond v) eqn:C; cbn [fits] in F.
    + unfold icu_call. rewrite F. reflexivity.
    + unfold icu_call. rewrite F. cbn [failure obind c_status andb negb]. eexists. split; [reflexivity|]. split; [rewrite C; reflexivity|].
      rewrite T. cbn [with_error o_buf o_size]. split; [assumption|eauto].
    + unfold icu_call. rewrite F. reflexivity.
Qed.

Lemma normalize_holds f same i vi o vo : holds i vi -> holds o vo -> (same = true -> i = o /\ vi = vo) ->
  match normalized f same vi vo with
  | Ok (r, w) => exists o', normalize f same i o = Ok (r, o') /\ holds o' w
  | r => normalize f same i o = match r with Ok _ => UB | Fail => Fail | UB => UB | Abort => Abort end
  end.
Proof.
  intros Hi Ho SM. assert (S := source_known _ _ Hi). destruct Ho as (Fo & _).
  unfold normalized, normalize. rewrite S. destruct (known (v_text vi)) as [l| | |] eqn:K; cbn [obind];
    [|destruct (v_text vi); discriminate|reflexivity|destruct (v_text vi); discriminate].
  rewrite icu_size by reflexivity. cbn [obind c_length]. destruct same.
  - destruct (SM eq_refl) as (-> & ->). cbn [andb]. destruct (f l) as [|c t] eqn:E; cbn [length alloc Nat.eqb o_buf].
    + change (source (alloc 0 o)) with (Ok (@nil N)). cbn [obind]. unfold icu_call. cbn [failure obind]. destruct (f []) as [|c t]; cbn [length Nat.ltb Nat.leb Nat.eqb obind c_status failure negb c_units written].
      * eexists. split; [reflexivity|]. split; [exact Fo|split; reflexivity].
      * eexists. split; [reflexivity|]. split; [exact Fo|split; reflexivity].
    + eexists. split; [reflexivity|]. split; [exact Fo|split; [reflexivity|exists (length t); reflexivity]].
  - cbn [andb]. rewrite S. cbn [obind]. rewrite (icu_exact (f l) _ Zero eq_refl eq_refl). cbn [obind c_status failure negb c_units].
    eexists. split; [reflexivity|]. split; [destruct (f l); exact Fo|]. cbn [v_text]. destruct (f l); split; reflexivity.
Qed.

Lemma mapped_known g o v : holds o v -> mapped g o =
  match v_text v with Units [] => Ok None | Units l => Ok (Some (g l)) | _ => UB end.
Proof.
  intros H. assert (S := source_known _ _ H). destruct H as (_ & H). unfold mapped. rewrite S. destruct (v_text v) as [[|c l]| |].
  - destruct H as (E & E'). rewrite E, E'. reflexivity.
  - destruct H as (E & E'). rewrite E. reflexivity.
  - destruct H as (E & E'). rewrite E, E'. reflexivity.
  - destruct H as (E & n & E'). rewrite E. reflexivity.
Qed.

Lemma case_holds g same i vi o vo : holds i vi -> holds o vo -> (same = true -> i = o /\ vi = vo) ->
  match cased g same vi vo with
  | Ok (r, wi, wo) => exists i' o', to_case g same i o = Ok (r, i', o') /\ holds i' wi /\ holds o' wo
  | r => to_case g same i o = match r with Ok _ => UB | Fail => Fail | UB => UB | Abort => Abort end
  end.
Proof.
  intros Hi Ho SM. assert (M := mapped_known g _ _ Hi). unfold cased, to_case. destruct same.
  - cbn. eexists _, _. split; [reflexivity|]. split; (split; [reflexivity|split; reflexivity]).
  - assert (H := Hi). destruct H as (F & H). destruct (v_cond vi) eqn:C; cbn [fits] in F.
    + rewrite M. destruct (v_text vi) as [[|c l]| |] eqn:T; cbn [known obind].
      * unfold icu_call. rewrite F. cbn [obind c_status]. cbn [with_error o_err failure].
        eexists _, _. split; [reflexivity|]. split; [split; [reflexivity|]|split; [reflexivity|split; reflexivity]]. exact H.
      * rewrite icu_size by exact F. cbn [obind c_status c_length]. destruct (g (c :: l)) as [|d t] eqn:G; cbn [with_error o_err failure].
        -- cbn [length alloc Nat.eqb o_size o_err dispose].
           assert (M' : mapped g (with_error Warned i) = Ok (Some (g (c :: l)))).
           { unfold mapped, source. cbn [with_error o_buf o_size]. destruct H as (-> & ->). cbn [length]. rewrite Nat.leb_refl.
             change (S (length l)) with (length (c :: l)). rewrite firstn_all. reflexivity. }
           rewrite M', G. rewrite (icu_exact [] 0 Zero eq_refl eq_refl). cbn [obind c_status c_units with_error o_err failure negb written].
           eexists _, _. split; [reflexivity|]. split; [split; [reflexivity|exact H]|]. split; [reflexivity|split; reflexivity].
        -- eexists _, _. split; [reflexivity|]. split; [split; [reflexivity|exact H]|]. split; [reflexivity|split; reflexivity].
      * unfold icu_call. rewrite F. reflexivity.
      * unfold icu_call. rewrite F. reflexivity.
    + unfold icu_call. rewrite F. cbn [failure obind c_status with_error o_err]. eexists _, _. split; [reflexivity|].
      split; [split; [rewrite C; reflexivity|exact H]|]. split; [reflexivity|split; reflexivity].
    + unfold icu_call. rewrite F. cbn [failure obind c_status with_error o_err]. eexists _, _. split; [reflexivity|].
      split; [split; [rewrite C; reflexivity|exact H]|]. split; [reflexivity|split; reflexivity].
Qed.

Lemma plus_holds a va b vb : holds a va -> holds b vb ->
  plus a b = obind (known (v_text va)) (fun l => obind (known (v_text vb)) (fun r => Ok (of_units (l ++ r)))).
Proof. intros Ha Hb. unfold plus. rewrite (source_known _ _ Ha), (source_known _ _ Hb). reflexivity. Qed.

Definition same_outcome (x : outcome ((nat -> option obj) * tout)) (y : outcome ((nat -> option value) * tout)) : Prop :=
  match x, y with
  | Ok (h, a), Ok (s, b) => agree h s /\ a = b
  | Fail, Fail | UB, UB | Abort, Abort => True
  | _, _ => False
  end.

Lemma agree_get h s i : agree h s ->
  (exists o v, get h i = Ok o /\ get s i = Ok v /\ holds o v) \/ (get h i = Fail /\ get s i = Fail).
Proof. intros A. specialize (A i). unfold get. destruct (h i), (s i); try contradiction; [left; eauto|right; auto]. Qed.

Lemma agree_fresh h s i : agree h s -> fresh h i = fresh s i.
Proof. intros A. specialize (A i). unfold fresh. destruct (h i), (s i); try contradiction; reflexivity. Qed.

Section Run.
Context (nfc nfd lower upper : list N -> list N).

Lemma step_agrees h s o : agree h s -> same_outcome (tstep nfc nfd lower upper h o) (spec_step nfc nfd lower upper s o).
Proof.
  intros A.
  assert (SET : forall i x v, holds x v -> same_outcome (Ok (upd h i (Some x), TNothing)) (Ok (upd s i (Some v), TNothing))).
  { intros i x v H. split; [apply agree_upd; assumption|reflexivity]. }
  assert (SM : forall i j a va b vb, get h i = Ok a -> get s i = Ok va -> get h j = Ok b -> get s j = Ok vb -> (i =? j) = true -> a = b /\ va = vb).
  { intros i j a va b vb E1 E2 E3 E4 Q. apply Nat.eqb_eq in Q. subst j. split; congruence. }
  assert (COPY : forall i a b vb, holds b vb -> same_outcome (obind (copy a b) (fun x => Ok (upd h i (Some x), TNothing)))
    (obind (copy_of vb) (fun v => Ok (upd s i (Some v), TNothing)))).
  { intros i a b vb H. assert (C := copy_holds a b vb H). destruct (copy_of vb) as [w| | |]; [destruct C as (x & -> & Hx); apply SET, Hx|rewrite C..]; exact I. }
  assert (NORM : forall f i j, same_outcome (normalize_step f h i j)
    (obind (get s i) (fun a => obind (get s j) (fun b => obind (normalized f (i =? j) a b) (fun '(r, b') => Ok (upd s j (Some b'), TFlag r)))))).
  { intros f i j. unfold normalize_step. destruct (agree_get h s i A) as [(a & va & E1 & E2 & Ha)|(-> & ->)]; [rewrite E1, E2|exact I]. cbn [obind].
    destruct (agree_get h s j A) as [(b & vb & E3 & E4 & Hb)|(-> & ->)]; [rewrite E3, E4|exact I]. cbn [obind].
    assert (N := normalize_holds f (i =? j) a va b vb Ha Hb (SM _ _ _ _ _ _ E1 E2 E3 E4)).
    destruct (normalized f (i =? j) va vb) as [[r w]| | |]; [destruct N as (x & -> & Hx)|rewrite N..]; cbn [obind]; try exact I.
    split; [apply agree_upd; assumption|reflexivity]. }
  assert (CASE : forall g i j, same_outcome (case_step g h i j)
    (obind (get s i) (fun a => obind (get s j) (fun b => obind (cased g (i =? j) a b) (fun '(r, a', b') => Ok (upd (upd s i (Some a')) j (Some b'), TFlag r)))))).
  { intros f i j. unfold case_step. destruct (agree_get h s i A) as [(a & va & E1 & E2 & Ha)|(-> & ->)]; [rewrite E1, E2|exact I]. cbn [obind].
    destruct (agree_get h s j A) as [(b & vb & E3 & E4 & Hb)|(-> & ->)]; [rewrite E3, E4|exact I]. cbn [obind].
    assert (N := case_holds f (i =? j) a va b vb Ha Hb (SM _ _ _ _ _ _ E1 E2 E3 E4)).
    destruct (cased f (i =? j) va vb) as [[[r w] w']| | |]; [destruct N as (x & y & -> & Hx & Hy)|rewrite N..]; cbn [obind]; try exact I.
    split; [apply agree_upd; [apply agree_upd; assumption|exact Hy]|reflexivity]. }
  destruct o as [i|i bs|i l|i cs|i j|i j|i j|i j|k i j|i j|i|i|i j|i j|i j|i j|i]; cbn [tstep spec_step]; try apply NORM; try apply CASE.
  - rewrite (agree_fresh h s i A). destruct (fresh s i) as [[]| | |]; cbn [obind]; try exact I. apply SET. split; [reflexivity|split; reflexivity].
  - rewrite (agree_fresh h s i A). destruct (fresh s i) as [[]| | |]; cbn [obind]; try exact I. destruct (convert_holds (from_utf8 bs)) as (x & -> & Hx). apply SET, Hx.
  - rewrite (agree_fresh h s i A). destruct (fresh s i) as [[]| | |]; cbn [obind]; try exact I. apply SET, of_units_holds.
  - rewrite (agree_fresh h s i A). destruct (fresh s i) as [[]| | |]; cbn [obind]; try exact I. destruct (convert_holds (from_utf32 cs)) as (x & -> & Hx). apply SET, Hx.
  - rewrite (agree_fresh h s i A). destruct (fresh s i) as [[]| | |]; cbn [obind]; try exact I.
    destruct (agree_get h s j A) as [(b & vb & -> & -> & Hb)|(-> & ->)]; cbn [obind]; [apply COPY, Hb|exact I].
  - rewrite (agree_fresh h s i A). destruct (fresh s i) as [[]| | |]; cbn [obind]; try exact I.
    destruct (agree_get h s j A) as [(b & vb & -> & -> & Hb)|(-> & ->)]; cbn [obind moved]; [|exact I].
    split; [|reflexivity]. apply agree_upd; [apply agree_upd; [exact A|]|exact Hb]. split; [reflexivity|split; reflexivity].
  - destruct (agree_get h s i A) as [(a & va & -> & -> & Ha)|(-> & ->)]; cbn [obind]; [|exact I].
    destruct (agree_get h s j A) as [(b & vb & -> & -> & Hb)|(-> & ->)]; cbn [obind]; [|exact I].
    destruct (i =? j); [split; [exact A|reflexivity]|apply COPY, Hb].
  - destruct (agree_get h s i A) as [(a & va & -> & -> & Ha)|(-> & ->)]; cbn [obind]; [|exact I].
    destruct (agree_get h s j A) as [(b & vb & -> & -> & Hb)|(-> & ->)]; cbn [obind moved]; [|exact I].
    destruct (i =? j); [split; [exact A|reflexivity]|]. split; [|reflexivity]. apply agree_upd; [apply agree_upd; [exact A|]|exact Hb]. split; [reflexivity|split; reflexivity].
  - rewrite (agree_fresh h s k A). destruct (fresh s k) as [[]| | |]; cbn [obind]; try exact I.
    destruct (agree_get h s i A) as [(a & va & -> & -> & Ha)|(-> & ->)]; cbn [obind]; [|exact I].
    destruct (agree_get h s j A) as [(b & vb & -> & -> & Hb)|(-> & ->)]; cbn [obind]; [|exact I].
    rewrite (plus_holds a va b vb Ha Hb). destruct (known (v_text va)); cbn [obind]; try exact I. destruct (known (v_text vb)); cbn [obind]; try exact I.
    apply SET, of_units_holds.
  - destruct (agree_get h s i A) as [(a & va & -> & -> & Ha)|(-> & ->)]; cbn [obind]; [|exact I].
    destruct (agree_get h s j A) as [(b & vb & -> & -> & Hb)|(-> & ->)]; cbn [obind]; [|exact I].
    assert (JOIN : same_outcome (obind (obind (plus a b) (fun r => copy a r)) (fun a' => Ok (upd h i (Some a'), TNothing)))
      (obind (known (v_text va)) (fun l => obind (known (v_text vb)) (fun r => Ok (upd s i (Some (mkval (Units (l ++ r)) Fine)), TNothing))))).
    { rewrite (plus_holds a va b vb Ha Hb). destruct (known (v_text va)) as [l| | |]; cbn [obind]; try exact I. destruct (known (v_text vb)) as [r| | |]; cbn [obind]; try exact I.
      assert (C := copy_holds a _ _ (of_units_holds (l ++ r))). cbn [copy_of v_text known obind v_cond] in C. destruct C as (x & -> & Hx). cbn [obind]. apply SET, Hx. }
    assert (CP := COPY i a b vb Hb). assert (Ha' := Ha). assert (Hb' := Hb). destruct Ha' as (_ & Ha'). destruct Hb' as (_ & Hb'). unfold plus_assign.
    destruct (v_text vb) as [[|d r]| |] eqn:Tb.
    + destruct Hb' as (_ & ->). cbn [obind]. apply SET, Ha.
    + destruct Hb' as (_ & ->). cbn [length]. destruct (v_text va) as [[|c l]| |] eqn:Ta.
      * destruct Ha' as (_ & ->). exact CP.
      * destruct Ha' as (_ & ->). cbn [length]. exact JOIN.
      * destruct Ha' as (_ & ->). exact I.
      * destruct Ha' as (_ & n & ->). exact JOIN.
    + destruct Hb' as (_ & ->). exact I.
    + destruct Hb' as (_ & m & ->). destruct (v_text va) as [[|c l]| |] eqn:Ta.
      * destruct Ha' as (_ & ->). exact CP.
      * destruct Ha' as (_ & ->). cbn [length]. exact JOIN.
      * destruct Ha' as (_ & ->). exact I.
      * destruct Ha' as (_ & n & ->). exact JOIN.
  - destruct (agree_get h s i A) as [(a & va & -> & -> & Ha)|(-> & ->)]; cbn [obind]; [|exact I].
    assert (E := encode_holds a va Ha). destruct (encoded va) as [[l w]| | |]; [destruct E as (x & -> & Hx)|rewrite E..]; cbn [obind]; try exact I.
    split; [apply agree_upd; assumption|reflexivity].
  - destruct (agree_get h s i A) as [(a & va & -> & -> & Ha)|(-> & ->)]; cbn [obind]; [|exact I].
    split; [exact A|]. destruct Ha as (F & _). destruct (v_cond va); cbn [fits] in F; rewrite F; reflexivity.
  - destruct (agree_get h s i A) as [(a & va & -> & -> & Ha)|(-> & ->)]; cbn [obind]; [|exact I].
    split; [apply agree_upd; [exact A|exact I]|reflexivity].
Qed.

Lemma run_agrees os : forall h s, agree h s ->
  match trun nfc nfd lower upper h os, spec_run nfc nfd lower upper s os with
  | Ok (h', xs), Ok (s', ys) => agree h' s' /\ xs = ys
  | Fail, Fail | UB, UB | Abort, Abort => True
  | _, _ => False
  end.
Proof.
  induction os as [|o os IH]; intros h s A; [split; [exact A|reflexivity]|]. cbn [trun spec_run].
  assert (S := step_agrees h s o A). unfold same_outcome in S.
  destruct (tstep nfc nfd lower upper h o) as [[h1 x]| | |], (spec_step nfc nfd lower upper s o) as [[s1 y]| | |]; try contradiction; cbn [obind]; try exact I.
  destruct S as (A1 & <-). specialize (IH h1 s1 A1).
  destruct (trun nfc nfd lower upper h1 os) as [[h2 xs]| | |], (spec_run nfc nfd lower upper s1 os) as [[s2 ys]| | |]; try contradiction; cbn [obind]; try exact I.
  destruct IH as (A2 & <-). split; [exact A2|reflexivity].
Qed.
End Run.

(** ** Strings as plain values *)
Lemma dec16_app a : forall b x y, dec16 a = Some x -> dec16 b = Some y -> dec16 (a ++ b) = Some (x ++ y).
Proof.
  induction a as [a IH] using (well_founded_induction (Wf_nat.well_founded_ltof _ (@length N))). intros b x y. destruct a as [|c l].
  - cbn. intros E F. injection E as <-. exact F.
  - cbn [dec16 app]. destruct (is_low c); [discriminate|]. destruct (is_high c).
    + destruct l as [|d l]; [discriminate|]. cbn [app]. destruct (is_low d); [|discriminate].
      destruct (dec16 l) as [z|] eqn:Z; [|discriminate]. cbn. intros E F. injection E as <-.
      rewrite (IH l) with (x := z) (y := y); [reflexivity| |exact Z|exact F]. unfold ltof. cbn. lia.
    + destruct (dec16 l) as [z|] eqn:Z; [|discriminate]. cbn. intros E F. injection E as <-.
      rewrite (IH l) with (x := z) (y := y); [reflexivity| |exact Z|exact F]. unfold ltof. cbn. lia.
Qed.

Definition proper (l : list N) : Prop := dec16 l <> None.

Lemma proper_app a b : proper a -> proper b -> proper (a ++ b).
Proof.
  unfold proper. destruct (dec16 a) as [x|] eqn:A; [|congruence]. destruct (dec16 b) as [y|] eqn:B; [|congruence].
  intros _ _. rewrite (dec16_app a b x y A B). discriminate.
Qed.

Lemma proper_utf8 bs l : from_utf8 bs = Some l -> proper l.
Proof.
  unfold from_utf8. destruct (dec8 bs) as [cs|] eqn:D; [|discriminate]. cbn. intros E. injection E as <-.
  unfold proper. rewrite dec16_enc16s; [discriminate|]. apply (dec8_some bs cs D).
Qed.

Lemma proper_utf32 cs l : from_utf32 cs = Some l -> proper l.
Proof.
  unfold from_utf32. destruct (forallb scalar cs) eqn:D; [|discriminate]. intros E. injection E as <-.
  unfold proper. rewrite dec16_enc16s; [discriminate|]. rewrite Forall_forall. intros c Hc.
  rewrite forallb_forall in D. apply scalar_iff, D, Hc.
Qed.

Definition values (s : nat -> option value) (t : nat -> option (list N)) : Prop :=
  forall i, match s i, t i with
            | None, None => True
            | Some v, Some l => v = mkval (Units l) Fine /\ proper l
            | _, _ => False
            end.

Lemma values_upd s t i v l : values s t -> match v, l with None, None => True | Some v, Some l => v = mkval (Units l) Fine /\ proper l | _, _ => False end ->
  values (upd s i v) (upd t i l).
Proof. intros A H j. unfold upd. destruct (Nat.eqb j i); [exact H|apply A]. Qed.

Lemma values_get s t i : values s t ->
  (exists l, get s i = Ok (mkval (Units l) Fine) /\ get t i = Ok l /\ proper l) \/ (get s i = Fail /\ get t i = Fail).
Proof.
  intros A. specialize (A i). unfold get. destruct (s i), (t i); try contradiction; [left|right; auto].
  destruct A as (-> & P). eauto.
Qed.

Lemma values_fresh s t i : values s t -> fresh s i = fresh t i.
Proof. intros A. specialize (A i). unfold fresh. destruct (s i), (t i); try contradiction; reflexivity. Qed.

Definition same_values (x : outcome ((nat -> option value) * tout)) (y : outcome ((nat -> option (list N)) * tout)) : Prop :=
  match x, y with
  | Ok (s, a), Ok (t, b) => values s t /\ a = b
  | Fail, Fail | UB, UB | Abort, Abort => True
  | _, _ => False
  end.

Section Values.
Context (nfc nfd lower upper : list N -> list N).
Hypothesis nfc_proper : forall l, proper l -> proper (nfc l).
Hypothesis nfd_proper : forall l, proper l -> proper (nfd l).

Lemma upd_same_get {A} (t : nat -> option A) i l : get t i = Ok l -> forall j, upd t i (Some l) j = t j.
Proof.
  unfold get, upd. destruct (t i) eqn:T; [|discriminate]. intros E. injection E as <-. intros j.
  destruct (Nat.eqb_spec j i) as [->|]; [symmetry; exact T|reflexivity].
Qed.

Lemma values_step s t o : values s t -> plain o = true ->
  same_values (spec_step nfc nfd lower upper s o) (value_step nfc nfd t o).
Proof.
  intros A P.
  assert (F := fun i => values_fresh s t i A). assert (G := fun i => values_get s t i A).
  assert (empty_proper : proper []) by (unfold proper; discriminate).
  destruct o; cbn [plain] in P; try discriminate P; cbn [spec_step value_step].
  - rewrite F. destruct (fresh t i) as [[]| | |]; cbn; try exact I.
    destruct (from_utf8 bytes) as [l|] eqn:E; [|discriminate P]. cbn. split; [|reflexivity].
    apply values_upd; [exact A|]. split; [reflexivity|exact (proper_utf8 _ _ E)].
  - rewrite F. destruct (fresh t i) as [[]| | |]; cbn; try exact I. split; [|reflexivity].
    apply values_upd; [exact A|]. split; [reflexivity|]. unfold proper. destruct (dec16 units); [discriminate|discriminate P].
  - rewrite F. destruct (fresh t i) as [[]| | |]; cbn; try exact I.
    destruct (from_utf32 points) as [l|] eqn:E; [|discriminate P]. cbn. split; [|reflexivity].
    apply values_upd; [exact A|]. split; [reflexivity|exact (proper_utf32 _ _ E)].
  - rewrite F. destruct (fresh t i) as [[]| | |]; cbn [obind same_values]; try exact I.
    destruct (G j) as [(l & -> & -> & Q)|(-> & ->)]; cbn; [|exact I]. split; [|reflexivity]. apply values_upd; auto.
  - rewrite F. destruct (fresh t i) as [[]| | |]; cbn [obind same_values]; try exact I.
    destruct (G j) as [(l & -> & -> & Q)|(-> & ->)]; cbn; [|exact I]. split; [|reflexivity].
    apply values_upd; [apply values_upd|]; auto.
  - destruct (G i) as [(l & Si & Ti & Qi)|(-> & ->)]; [|exact I]. rewrite Si, Ti. cbn [obind].
    destruct (G j) as [(r & Sj & Tj & Qj)|(-> & ->)]; [|exact I]. rewrite Sj, Tj. cbn.
    destruct (Nat.eqb_spec i j) as [<-|].
    + split; [|reflexivity]. intros k. assert (E := upd_same_get t i r Tj k). rewrite E. apply A.
    + split; [|reflexivity]. apply values_upd; auto.
  - destruct (G i) as [(l & Si & Ti & Qi)|(-> & ->)]; [|exact I]. rewrite Si, Ti. cbn [obind].
    destruct (G j) as [(r & Sj & Tj & Qj)|(-> & ->)]; [|exact I]. rewrite Sj, Tj. cbn.
    destruct (i =? j); split; auto. apply values_upd; [apply values_upd|]; auto.
  - rewrite F. destruct (fresh t k) as [[]| | |]; cbn [obind same_values]; try exact I.
    destruct (G i) as [(l & -> & -> & Qi)|(-> & ->)]; [|exact I]. cbn [obind].
    destruct (G j) as [(r & -> & -> & Qj)|(-> & ->)]; [|exact I]. cbn. split; [|reflexivity].
    apply values_upd; [exact A|]. split; [reflexivity|]. apply proper_app; assumption.
  - destruct (G i) as [(l & -> & -> & Qi)|(-> & ->)]; [|exact I]. cbn [obind].
    destruct (G j) as [(r & -> & -> & Qj)|(-> & ->)]; [|exact I]. cbn [obind v_text].
    assert (K : values (upd s i (Some (mkval (Units (l ++ r)) Fine))) (upd t i (Some (l ++ r)))).
    { apply values_upd; [exact A|]. split; [reflexivity|]. apply proper_app; assumption. }
    destruct r as [|c r]; [rewrite app_nil_r in *; split; [exact K|reflexivity]|].
    destruct l as [|d l]; cbn; split; (exact K || reflexivity).
  - destruct (G i) as [(l & Si & Ti & Qi)|(-> & ->)]; [|exact I]. rewrite Si, Ti. cbn [obind].
    assert (E : encoded (mkval (Units l) Fine) = Ok (encode l, mkval (Units l) Fine)).
    { unfold encoded, encode. cbn [v_text v_cond known obind]. destruct l; [reflexivity|].
      unfold proper in Qi. destruct (dec16 (n :: l)); [reflexivity|congruence]. }
    rewrite E. cbn. split; [|reflexivity]. intros k. assert (U := upd_same_get s i _ Si k). rewrite U. apply A.
  - destruct (G i) as [(l & -> & -> & Qi)|(-> & ->)]; [|exact I]. cbn. split; [exact A|reflexivity].
  - destruct (G i) as [(l & -> & -> & Qi)|(-> & ->)]; [|exact I]. cbn [obind].
    destruct (G j) as [(r & -> & -> & Qj)|(-> & ->)]; [|exact I]. cbn.
    destruct (i =? j); [discriminate P|]. cbn. split; [|reflexivity]. apply values_upd; auto.
  - destruct (G i) as [(l & -> & -> & Qi)|(-> & ->)]; [|exact I]. cbn [obind].
    destruct (G j) as [(r & -> & -> & Qj)|(-> & ->)]; [|exact I]. cbn.
    destruct (i =? j); [discriminate P|]. cbn. split; [|reflexivity]. apply values_upd; auto.
  - destruct (G i) as [(l & -> & -> & Qi)|(-> & ->)]; [|exact I]. cbn. split; [|reflexivity]. apply values_upd; [exact A|exact I].
Qed.

Lemma values_run os : forall s t, values s t -> forallb plain os = true ->
  observed (spec_run nfc nfd lower upper s os) = observed (value_run nfc nfd t os).
Proof.
  induction os as [|o os IH]; intros s t A P; [reflexivity|]. cbn [forallb] in P. apply andb_prop in P. destruct P as (Po & P).
  cbn [spec_run value_run]. assert (S := values_step s t o A Po). unfold same_values in S.
  destruct (spec_step nfc nfd lower upper s o) as [[s1 x]| | |], (value_step nfc nfd t o) as [[t1 y]| | |]; try contradiction; cbn [obind observed]; try reflexivity.
  destruct S as (A1 & <-). specialize (IH s1 t1 A1 P). unfold observed in *.
  destruct (spec_run nfc nfd lower upper s1 os) as [[s2 xs]| | |], (value_run nfc nfd t1 os) as [[t2 ys]| | |]; cbn in *; try discriminate IH; try reflexivity.
  injection IH as ->. reflexivity.
Qed.
End Values.

(** ** Reachable states *)
Section Reach.
Context (nfc nfd lower upper : list N -> list N).

Lemma reach os h xs : trun nfc nfd lower upper no_obj os = Ok (h, xs) ->
  exists s, spec_run nfc nfd lower upper no_obj os = Ok (s, xs) /\ agree h s.
Proof.
  intros R. assert (E : agree no_obj no_obj) by (intros i; exact I).
  assert (A := run_agrees nfc nfd lower upper os no_obj no_obj E). rewrite R in A.
  destruct (spec_run nfc nfd lower upper no_obj os) as [[s ys]| | |]; try contradiction. destruct A as (A & ->). eauto.
Qed.

Lemma program os : observed (trun nfc nfd lower upper no_obj os) = observed (spec_run nfc nfd lower upper no_obj os).
Proof.
  assert (E : agree no_obj no_obj) by (intros i; exact I).
  assert (A := run_agrees nfc nfd lower upper os no_obj no_obj E). unfold observed.
  destruct (trun nfc nfd lower upper no_obj os) as [[h xs]| | |], (spec_run nfc nfd lower upper no_obj os) as [[s ys]| | |]; try contradiction; try reflexivity.
  destruct A as (_ & ->). reflexivity.
Qed.
End Reach.

(** ** Compiled expressions *)
Definition tidy (p : patterns) (n : nat) : Prop :=
  p_next p = n /\ NoDup (p_closed p) /\
  (forall m, In m (p_closed p) -> m < n) /\
  (forall i m, p_vars p i = Some (Some m) -> m < n /\ ~ In m (p_closed p)) /\
  (forall i j m, p_vars p i = Some (Some m) -> p_vars p j = Some (Some m) -> i = j) /\
  (forall m, m < n -> In m (p_closed p) \/ open_in p m).

Definition opens (o : rop) : nat := match o with ROpen _ true => 1 | _ => 0 end.

Lemma get_some {A} (h : nat -> option A) i : (exists a, h i = Some a /\ get h i = Ok a) \/ get h i = Fail.
Proof. unfold get. destruct (h i); eauto. Qed.
Lemma fresh_none {A} (h : nat -> option A) i : (h i = None /\ fresh h i = Ok tt) \/ fresh h i = Fail.
Proof. unfold fresh. destruct (h i); auto. Qed.
Lemma upd_at {A} (h : nat -> option A) i v : upd h i v i = v.
Proof. unfold upd. rewrite Nat.eqb_refl. reflexivity. Qed.
Lemma upd_other {A} (h : nat -> option A) i j v : j <> i -> upd h i v j = h j.
Proof. unfold upd. intros D. destruct (Nat.eqb_spec j i); [contradiction|reflexivity]. Qed.
Lemma upd_cases {A} (h : nat -> option A) i j v : (j = i /\ upd h i v j = v) \/ (j <> i /\ upd h i v j = h j).
Proof. destruct (Nat.eq_dec j i) as [->|D]; [left; split; [reflexivity|apply upd_at]|right; split; [exact D|apply upd_other, D]]. Qed.

Lemma close_in v cl m : In m (close v cl) <-> v = Some m \/ In m cl.
Proof.
  destruct v as [n|]; cbn [close]; [|split; [auto|intros [E|E]; [discriminate E|exact E]]].
  rewrite in_app_iff. cbn. split; [intros [E|[<-|[]]]; auto|intros [E|E]; [injection E as ->; auto|auto]].
Qed.

Lemma close_nodup v cl : NoDup cl -> (forall m, v = Some m -> ~ In m cl) -> NoDup (close v cl).
Proof.
  destruct v as [n|]; [|auto]. intros D H. cbn [close]. apply NoDup_rev in D. rewrite <- (rev_involutive (cl ++ [n])).
  apply NoDup_rev. rewrite rev_app_distr. cbn. constructor; [|exact D]. rewrite <- in_rev. apply H. reflexivity.
Qed.

Lemma tidy_intro p n : p_next p = n -> NoDup (p_closed p) ->
  (forall m, In m (p_closed p) -> m < n) ->
  (forall i m, p_vars p i = Some (Some m) -> m < n) ->
  (forall i m, p_vars p i = Some (Some m) -> ~ In m (p_closed p)) ->
  (forall i j m, p_vars p i = Some (Some m) -> p_vars p j = Some (Some m) -> i = j) ->
  (forall m, m < n -> In m (p_closed p) \/ open_in p m) -> tidy p n.
Proof. intros A B C D E F G. repeat (split; [assumption|]). split; [|split; assumption]. intros i m H. split; [exact (D i m H)|exact (E i m H)]. Qed.

Lemma rstep_tidy p n o : tidy p n ->
  match rstep p o with
  | Ok (q, x) => tidy q (opens o + n)
  | Fail => True
  | _ => False
  end.
Proof.
  intros (T1 & T2 & T3 & T4 & T5 & T6). destruct o; cbn [rstep opens].
  - destruct (fresh_none (p_vars p) i) as [(E & ->)| ->]; [|exact I]. cbn [obind plus].
    apply tidy_intro; cbn [p_vars p_next p_closed]; auto.
    + intros j m. destruct (upd_cases (p_vars p) i j (Some None)) as [(-> & ->)|(_ & ->)]; [discriminate|apply T4].
    + intros j m. destruct (upd_cases (p_vars p) i j (Some None)) as [(-> & ->)|(_ & ->)]; [discriminate|apply T4].
    + intros j k m. destruct (upd_cases (p_vars p) i j (Some None)) as [(-> & ->)|(_ & ->)]; [discriminate|].
      destruct (upd_cases (p_vars p) i k (Some None)) as [(-> & ->)|(_ & ->)]; [discriminate|apply T5].
    + intros m Hm. destruct (T6 m Hm) as [|(j & Hj)]; [auto|right]. exists j. cbn.
      rewrite upd_other; [exact Hj|]. intros ->. congruence.
  - destruct (fresh_none (p_vars p) i) as [(E & ->)| ->]; [|exact I]. cbn [obind]. destruct compiles; cbn [plus].
    + apply tidy_intro; cbn [p_vars p_next p_closed]; auto.
      * intros m Hm. apply T3 in Hm. lia.
      * intros i0 m H. destruct (upd_cases (p_vars p) i i0 (Some (Some (p_next p)))) as [(-> & W)|(_ & W)]; rewrite W in H; [injection H as <-; lia|].
        apply T4 in H. lia.
      * intros i0 m H. destruct (upd_cases (p_vars p) i i0 (Some (Some (p_next p)))) as [(-> & W)|(_ & W)]; rewrite W in H; [injection H as <-|].
        -- intros F. apply T3 in F. lia.
        -- apply T4 in H. apply H.
      * intros j k m. destruct (upd_cases (p_vars p) i j (Some (Some (p_next p)))) as [(-> & ->)|(_ & ->)];
          destruct (upd_cases (p_vars p) i k (Some (Some (p_next p)))) as [(-> & ->)|(_ & ->)]; auto.
        -- intros F H. injection F as <-. apply T4 in H. lia.
        -- intros H F. injection F as <-. apply T4 in H. lia.
        -- apply T5.
      * intros m Hm. destruct (Nat.eq_dec m n) as [->|D]; [right; exists i; cbn; rewrite upd_at, T1; reflexivity|].
        destruct (T6 m ltac:(lia)) as [|(j & Hj)]; [auto|right]. exists j. cbn.
        rewrite upd_other; [exact Hj|]. intros ->. congruence.
    + apply tidy_intro; cbn [p_vars p_next p_closed]; auto.
      * intros i0 m H. destruct (upd_cases (p_vars p) i i0 (Some None)) as [(-> & W)|(_ & W)]; rewrite W in H; [discriminate|apply T4 in H; apply H].
      * intros i0 m H. destruct (upd_cases (p_vars p) i i0 (Some None)) as [(-> & W)|(_ & W)]; rewrite W in H; [discriminate|apply T4 in H; apply H].
      * intros j k m. destruct (upd_cases (p_vars p) i j (Some None)) as [(-> & ->)|(_ & ->)]; [discriminate|].
        destruct (upd_cases (p_vars p) i k (Some None)) as [(-> & ->)|(_ & ->)]; [discriminate|apply T5].
      * intros m Hm. destruct (T6 m Hm) as [|(j & Hj)]; [auto|right]. exists j. cbn.
        rewrite upd_other; [exact Hj|]. intros ->. congruence.
  - destruct (fresh_none (p_vars p) i) as [(E & ->)| ->]; [|exact I]. cbn [obind].
    destruct (get_some (p_vars p) j) as [(v & V & ->)| ->]; [|exact I]. cbn [obind plus].
    assert (D : i <> j) by (intros ->; congruence).
    set (h := upd (upd (p_vars p) i (Some v)) j (Some None)).
    assert (K : forall k m, h k = Some (Some m) <-> (k = i /\ v = Some m) \/ (k <> i /\ k <> j /\ p_vars p k = Some (Some m))).
    { intros k m. unfold h. destruct (upd_cases (upd (p_vars p) i (Some v)) j k (Some None)) as [(-> & ->)|(D2 & ->)].
      - split; [discriminate|intros [(F & _)|(_ & F & _)]; congruence].
      - destruct (upd_cases (p_vars p) i k (Some v)) as [(-> & ->)|(D3 & ->)].
        + split; [intros F; injection F as ->; auto|intros [(_ & ->)|(F & _)]; [reflexivity|congruence]].
        + split; [auto|intros [(F & _)|(_ & _ & F)]; [congruence|exact F]]. }
    assert (K2 : forall k m, h k = Some (Some m) -> exists k', p_vars p k' = Some (Some m)).
    { intros k m H. apply K in H. destruct H as [(_ & ->)|(_ & _ & H)]; eauto. }
    apply tidy_intro; cbn [p_vars p_next p_closed]; auto.
    + intros i0 m H. destruct (K2 _ _ H) as (k & Hk). apply T4 in Hk. apply Hk.
    + intros i0 m H. destruct (K2 _ _ H) as (k & Hk). apply T4 in Hk. apply Hk.
    + intros a b m Ha Hb. apply K in Ha. apply K in Hb.
      destruct Ha as [(-> & Va)|(A1 & A2 & Ha)], Hb as [(-> & Vb)|(B1 & B2 & Hb)]; auto.
      * exfalso. apply B2. apply (T5 b j m); congruence.
      * exfalso. apply A2. apply (T5 a j m); congruence.
      * exact (T5 a b m Ha Hb).
    + intros m Hm. destruct (T6 m Hm) as [|(k & Hk)]; [auto|right].
      destruct (Nat.eq_dec k j) as [->|D2].
      * exists i. apply K. left. split; [reflexivity|congruence].
      * exists k. apply K. right. repeat split; auto. intros ->. congruence.
  - destruct (get_some (p_vars p) i) as [(v & V & ->)| ->]; [|exact I]. cbn [obind].
    destruct (get_some (p_vars p) j) as [(w & W & ->)| ->]; [|exact I]. cbn [obind].
    destruct (Nat.eqb_spec i j) as [->|D]; cbn [plus]; [repeat split; auto; eapply T4; eassumption|].
    set (h := upd (upd (p_vars p) i (Some w)) j (Some None)).
    assert (K : forall k m, h k = Some (Some m) <-> (k = i /\ w = Some m) \/ (k <> i /\ k <> j /\ p_vars p k = Some (Some m))).
    { intros k m. unfold h. destruct (upd_cases (upd (p_vars p) i (Some w)) j k (Some None)) as [(-> & ->)|(D2 & ->)].
      - split; [discriminate|intros [(F & _)|(_ & F & _)]; congruence].
      - destruct (upd_cases (p_vars p) i k (Some w)) as [(-> & ->)|(D3 & ->)].
        + split; [intros F; injection F as ->; auto|intros [(_ & ->)|(F & _)]; [reflexivity|congruence]].
        + split; [auto|intros [(F & _)|(_ & _ & F)]; [congruence|exact F]]. }
    assert (K2 : forall k m, h k = Some (Some m) -> exists k', k' <> i /\ p_vars p k' = Some (Some m)).
    { intros k m H. apply K in H. destruct H as [(_ & ->)|(A1 & _ & H)]; [exists j; auto|eauto]. }
    apply tidy_intro; cbn [p_vars p_next p_closed]; auto.
    + apply close_nodup; [exact T2|]. intros m ->. apply (T4 i m V).
    + intros m Hm. apply close_in in Hm. destruct Hm as [->|Hm]; [apply (T4 i m V)|apply T3, Hm].
    + intros i0 m H. destruct (K2 _ _ H) as (k & _ & Hk). apply T4 in Hk. apply Hk.
    + intros i0 m H. destruct (K2 _ _ H) as (k & Dk & Hk). rewrite close_in. intros [->|F]; [|apply T4 in Hk; tauto].
      apply Dk. apply (T5 k i m); auto.
    + intros a b m Ha Hb. apply K in Ha. apply K in Hb.
      destruct Ha as [(-> & Va)|(A1 & A2 & Ha)], Hb as [(-> & Vb)|(B1 & B2 & Hb)]; auto.
      * exfalso. apply B2. apply (T5 b j m); congruence.
      * exfalso. apply A2. apply (T5 a j m); congruence.
      * exact (T5 a b m Ha Hb).
    + intros m Hm. rewrite close_in. destruct (T6 m Hm) as [|(k & Hk)]; [auto|].
      destruct (Nat.eq_dec k i) as [->|D1]; [left; left; congruence|]. right.
      destruct (Nat.eq_dec k j) as [->|D2].
      * exists i. apply K. left. split; [reflexivity|congruence].
      * exists k. apply K. right. repeat split; auto.
  - destruct (get_some (p_vars p) i) as [(v & V & ->)| ->]; [|exact I]. cbn [obind plus].
    assert (K : forall k m, upd (p_vars p) i None k = Some (Some m) <-> k <> i /\ p_vars p k = Some (Some m)).
    { intros k m. destruct (upd_cases (p_vars p) i k None) as [(-> & ->)|(D & ->)]; split; try discriminate; try tauto. }
    apply tidy_intro; cbn [p_vars p_next p_closed]; auto.
    + apply close_nodup; [exact T2|]. intros m ->. apply (T4 i m V).
    + intros m Hm. apply close_in in Hm. destruct Hm as [->|Hm]; [apply (T4 i m V)|apply T3, Hm].
    + intros i0 m H. apply K in H. destruct H as (_ & H). apply T4 in H. apply H.
    + intros i0 m H. apply K in H. destruct H as (Dk & H). rewrite close_in. intros [->|F]; [|apply T4 in H; tauto].
      apply Dk. apply (T5 i0 i m); auto.
    + intros a b m Ha Hb. apply K in Ha. apply K in Hb. apply (T5 a b m); tauto.
    + intros m Hm. rewrite close_in. destruct (T6 m Hm) as [|(k & Hk)]; [auto|].
      destruct (Nat.eq_dec k i) as [->|D1]; [left; left; congruence|]. right. exists k. apply K. auto.
  - destruct (get_some (p_vars p) i) as [(v & V & ->)| ->]; [|exact I]. cbn [obind plus].
    destruct v as [m|]; [|repeat split; auto; eapply T4; eassumption].
    destruct (existsb (Nat.eqb m) (p_closed p)) eqn:E; [|repeat split; auto; eapply T4; eassumption].
    apply existsb_exists in E. destruct E as (m' & Hm & Q). apply Nat.eqb_eq in Q. subst m'. apply (T4 i m V). exact Hm.
Qed.

Lemma rrun_tidy os : forall p n, tidy p n ->
  match rrun p os with
  | Ok (q, xs) => tidy q (opened_by os + n)
  | Fail => True
  | _ => False
  end.
Proof.
  induction os as [|o os IH]; intros p n T; [exact T|]. cbn [rrun].
  assert (S := rstep_tidy p n o T). destruct (rstep p o) as [[q x]| | |]; try exact S. cbn [obind].
  specialize (IH q _ S). destruct (rrun q os) as [[q2 xs]| | |]; try exact IH. cbn [obind].
  replace (opened_by (o :: os) + n) with (opened_by os + (opens o + n)); [exact IH|].
  unfold opened_by. cbn [filter]. destruct o as [| |i j|i j| |]; cbn [opens]; try reflexivity. destruct compiles; cbn [length]; lia.
Qed.

Lemma tidy_none : tidy no_patterns 0.
Proof.
  repeat split; cbn; try constructor; try (intros; contradiction); try (intros; discriminate); try discriminate; intros; lia.
Qed.
