(** Strings with their error field, compiled expressions, general categories: C157-C163. *)
From Coq Require Import Permutation.
From Verif Require Import Base Utf_model Utf_spec Utf_proofs Ustr_model Ustr_spec Bert_model Icu_model Icu_spec Icu_proofs.
Local Open Scope nat_scope.

(** ** C157: every program observes what the specification says *)
Theorem C157_program : forall nfc nfd lower upper os,
  observed (trun nfc nfd lower upper no_obj os) = observed (spec_run nfc nfd lower upper no_obj os).
Proof. exact program. Qed.
Print Assumptions C157_program.

(** ** C158: strings of well-formed text are values *)
Theorem C158_values : forall nfc nfd lower upper os,
  (forall l, dec16 l <> None -> dec16 (nfc l) <> None) ->
  (forall l, dec16 l <> None -> dec16 (nfd l) <> None) ->
  forallb Icu_spec.plain os = true ->
  observed (trun nfc nfd lower upper no_obj os) = observed (value_run nfc nfd no_obj os).
Proof.
  intros nfc nfd lower upper os C D P. rewrite C157_program.
  apply (values_run nfc nfd lower upper C D os no_obj no_obj); [intros i; exact I|exact P].
Qed.
Print Assumptions C158_values.

(** In a run of such a program no operation has undefined behaviour. *)
Theorem C158_defined : forall nfc nfd lower upper os,
  (forall l, dec16 l <> None -> dec16 (nfc l) <> None) ->
  (forall l, dec16 l <> None -> dec16 (nfd l) <> None) ->
  forallb Icu_spec.plain os = true ->
  trun nfc nfd lower upper no_obj os <> UB.
Proof.
  intros nfc nfd lower upper os C D P U. assert (E := C158_values nfc nfd lower upper os C D P).
  rewrite U in E. cbn in E. clear U. revert E. generalize (@no_obj (list N)). induction os as [|o os IH]; intros t; [discriminate|].
  cbn [forallb] in P. apply andb_prop in P. destruct P as (Po & P). cbn [value_run].
  destruct (value_step nfc nfd t o) as [[t1 x]| | |] eqn:V; try discriminate.
  - cbn [obind]. specialize (IH P t1). unfold observed in *. destruct (value_run nfc nfd t1 os) as [[]| | |]; cbn in *; (discriminate || exact IH).
  - intros _. clear -V Po. destruct o; cbn [Icu_spec.plain] in Po; try discriminate Po; cbn [value_step] in V; unfold get, fresh in V;
      repeat match type of V with
             | context [match t ?i with _ => _ end] => destruct (t i)
             | context [from_utf8 ?b] => destruct (from_utf8 b)
             | context [from_utf32 ?b] => destruct (from_utf32 b)
             | context [if ?b then _ else _] => destruct b
             end; cbn in V; discriminate.
Qed.
Print Assumptions C158_defined.

Example C158_example :
  let os := [TUtf8 0 [0x41; 0xf0; 0x9f; 0x98; 0x80]; TUtf16 1 [0x62]; TPlusAssign 0 1; TCopyNew 2 0; TNfc 2 1; TEncode 1; TOk 0; TMoveNew 3 0; TEncode 0]%N in
  forallb Icu_spec.plain os = true /\
  observed (trun (fun l => l) (fun l => l) (fun l => l) (fun l => l) no_obj os) =
    Ok [TNothing; TNothing; TNothing; TNothing; TFlag true; TBytes [0x41; 0xf0; 0x9f; 0x98; 0x80; 0x62]%N; TFlag true; TNothing; TBytes []].
Proof. repeat split; vm_compute; reflexivity. Qed.

(** ** C159: a string can be encoded after it was a const argument *)
Definition C159_claim (nfc nfd lower upper : list N -> list N) : Prop :=
  forall os i l h xs, trun nfc nfd lower upper no_obj os = Ok (h, xs) ->
  (exists a, h i = Some a /\ source a = Ok l) -> dec16 l <> None ->
  exists h', tstep nfc nfd lower upper h (TEncode i) = Ok (h', TBytes (encode l)).

Theorem C159_encode_refuted : exists lower, ~ C159_claim (fun l => l) (fun l => l) lower (fun l => l).
Proof.
  exists (fun l => l). intros C. unfold C159_claim in C.
  destruct (C [TUtf16 0 [0x41%N]; TUtf16 1 []; TLower 0 1] 0 [0x41%N] (upd (upd (upd (upd no_obj 0 (Some (of_units [0x41%N]))) 1 (Some (of_units []))) 0 (Some (mkobj (Chars [0x41%N]) (Some 1) Overflow))) 1 (Some (mkobj Null (Some 0) Zero))) [TNothing; TNothing; TFlag false] eq_refl)
    as (h' & E).
  - exists (mkobj (Chars [0x41%N]) (Some 1) Overflow). split; reflexivity.
  - discriminate.
  - vm_compute in E. discriminate E.
Qed.
Print Assumptions C159_encode_refuted.

(** The exact outcome in every state a program reaches.  [s] is the state of the
    specification, [v] the string. *)
Theorem C159_encode_exact : forall nfc nfd lower upper os h xs,
  trun nfc nfd lower upper no_obj os = Ok (h, xs) ->
  exists s, spec_run nfc nfd lower upper no_obj os = Ok (s, xs) /\
  forall i v, s i = Some v ->
    (tstep nfc nfd lower upper h (TEncode i) = UB <->
     (exists c l, v_text v = Units (c :: l) /\ Icu_spec.v_cond v = Unfit) \/ (v_text v = Garbage /\ Icu_spec.v_cond v <> Spoilt)) /\
    (forall l, v_text v = Units l -> Icu_spec.v_cond v = Fine ->
       exists h', tstep nfc nfd lower upper h (TEncode i) = Ok (h', TBytes (encode l))) /\
    (Icu_spec.v_cond v = Spoilt -> exists h', tstep nfc nfd lower upper h (TEncode i) = Ok (h', TBytes [])).
Proof.
  intros nfc nfd lower upper os h xs R. destruct (reach _ _ _ _ _ _ _ R) as (s & Rs & A). exists s. split; [exact Rs|].
  intros i v V. assert (S := step_agrees nfc nfd lower upper h s (TEncode i) A). revert S.
  generalize (tstep nfc nfd lower upper h (TEncode i)). intros T0 S. cbn [spec_step] in S.
  assert (G : get s i = Ok v) by (unfold get; rewrite V; reflexivity). rewrite G in S. cbn [obind] in S.
  unfold same_outcome in S. unfold encoded in S.
  split; [|split].
  - split.
    + intros U. rewrite U in S. destruct (v_text v) as [[|c l]| |] eqn:T; try contradiction.
      * destruct (Icu_spec.v_cond v) eqn:K; cbn [known obind] in S.
        -- destruct (dec16 (c :: l)); contradiction.
        -- contradiction.
        -- left. eauto.
      * right. split; [reflexivity|]. intros E. rewrite E in S. contradiction.
    + intros [(c & l & T & K)|(T & K)]; rewrite T in S.
      * rewrite K in S. cbn in S. destruct T0 as [[]| | |]; try contradiction. reflexivity.
      * destruct (Icu_spec.v_cond v); [| congruence |]; cbn in S; destruct T0 as [[]| | |]; try contradiction; reflexivity.
  - intros l T K. rewrite T, K in S. unfold encode. destruct l as [|c l].
    + cbn in S. destruct T0 as [[h' x]| | |]; try contradiction. destruct S as (_ & ->). eauto.
    + cbn [known obind] in S. destruct (dec16 (c :: l)); cbn in S;
        destruct T0 as [[h' x]| | |]; try contradiction; destruct S as (_ & ->); eauto.
  - intros K. rewrite K in S. destruct (v_text v) as [[|c l]| |]; cbn in S;
      destruct T0 as [[h' x]| | |]; try contradiction; destruct S as (_ & ->); eauto.
Qed.
Print Assumptions C159_encode_exact.

Example C159_example : let id := fun l : list N => l in
  let os := [TUtf16 0 [0x41]; TUtf16 1 [0xd800]; TUtf16 2 []; TLower 0 2]%N in
  observed (trun id id id id no_obj (os ++ [TEncode 0])) = UB /\
  observed (trun id id id id no_obj (os ++ [TEncode 1; TOk 1; TNfc 0 1; TEncode 1]%N)) =
    Ok [TNothing; TNothing; TNothing; TFlag false; TBytes []; TFlag false; TFlag true; TBytes []].
Proof. split; vm_compute; reflexivity. Qed.

(** ** C160: normalization *)

Lemma normalize_other nfc h i j a b l :
  i <> j -> h i = Some a -> h j = Some b -> source a = Ok l ->
  exists h' b', normalize_step nfc h i j = Ok (h', TFlag true) /\
    h' j = Some b' /\ source b' = Ok (nfc l) /\ o_err b' = o_err b /\ forall k, k <> j -> h' k = h k.
Proof.
  intros D Hi Hj L. unfold normalize_step, get. rewrite Hi, Hj. cbn [obind].
  destruct (Nat.eqb_spec i j); [contradiction|]. unfold normalize. rewrite L. cbn [obind].
  rewrite icu_size by reflexivity. destruct (nfc l) as [|c r] eqn:N.
  - cbn. eexists. eexists. split; [reflexivity|]. rewrite upd_at. split; [reflexivity|]. split; [reflexivity|]. split; [reflexivity|].
    intros k K. apply upd_other, K.
  - cbn [obind c_length andb]. rewrite icu_exact by reflexivity. cbn [obind c_status c_units failure negb].
    eexists. eexists. split; [reflexivity|]. rewrite upd_at. split; [reflexivity|]. split; [|split; [reflexivity|]].
    + unfold source, written. cbn [o_size o_buf alloc length]. rewrite Nat.leb_refl. f_equal. apply (firstn_all (c :: r)).
    + intros k K. apply upd_other, K.
Qed.

(** Into another string: the result is true and the other string holds the text; nothing else
    changes. *)
Theorem C160_other : forall nfc nfd lower upper os h xs i j a b l,
  trun nfc nfd lower upper no_obj os = Ok (h, xs) ->
  i <> j -> h i = Some a -> h j = Some b -> source a = Ok l ->
  exists h' b', tstep nfc nfd lower upper h (TNfc i j) = Ok (h', TFlag true) /\
    h' j = Some b' /\ source b' = Ok (nfc l) /\ o_err b' = o_err b /\ forall k, k <> j -> h' k = h k.
Proof. intros nfc nfd lower upper os h xs i j a b l _. exact (normalize_other nfc h i j a b l). Qed.
Print Assumptions C160_other.

Theorem C164_nfc : forall nfc nfd lower upper os h xs i j a b l,
  trun nfc nfd lower upper no_obj os = Ok (h, xs) ->
  i <> j -> h i = Some a -> h j = Some b -> source a = Ok l ->
  exists h' b', tstep nfc nfd lower upper h (TNfc i j) = Ok (h', TFlag true) /\
    h' j = Some b' /\ source b' = Ok (nfc l) /\ forall k, k <> j -> h' k = h k.
Proof.
  intros nfc nfd lower upper os h xs i j a b l R D Hi Hj L.
  destruct (C160_other nfc nfd lower upper os h xs i j a b l R D Hi Hj L) as (h' & b' & A & B & C & _ & E). eauto 10.
Qed.
Print Assumptions C164_nfc.

Theorem C164_nfd : forall nfc nfd lower upper os h xs i j a b l,
  trun nfc nfd lower upper no_obj os = Ok (h, xs) ->
  i <> j -> h i = Some a -> h j = Some b -> source a = Ok l ->
  exists h' b', tstep nfc nfd lower upper h (TNfd i j) = Ok (h', TFlag true) /\
    h' j = Some b' /\ source b' = Ok (nfd l) /\ forall k, k <> j -> h' k = h k.
Proof.
  intros nfc nfd lower upper os h xs i j a b l R D Hi Hj L. cbn [tstep].
  destruct (normalize_other nfd h i j a b l D Hi Hj L) as (h' & b' & A & B & C & _ & E). eauto 10.
Qed.
Print Assumptions C164_nfd.

(** Into itself: a claim that is false for every text whose normal form is not empty. *)
Theorem C160_in_place_refuted : forall nfc nfd lower upper os h xs i a l,
  trun nfc nfd lower upper no_obj os = Ok (h, xs) ->
  h i = Some a -> source a = Ok l -> nfc l <> [] ->
  exists h' a', tstep nfc nfd lower upper h (TNfc i i) = Ok (h', TFlag false) /\
    h' i = Some a' /\ source a' = UB /\
    (failure (o_err a) = false -> tstep nfc nfd lower upper h' (TEncode i) = UB).
Proof.
  intros nfc nfd lower upper os h xs i a l R Hi L E. cbn [tstep]. unfold normalize_step, get. rewrite Hi. cbn [obind].
  rewrite Nat.eqb_refl. unfold normalize. rewrite L. cbn [obind]. rewrite icu_size by reflexivity.
  destruct (nfc l) as [|c r]; [congruence|]. cbn.
  eexists. eexists. split; [reflexivity|]. rewrite upd_at. split; [reflexivity|]. split; [reflexivity|].
  intros F. cbn [obind]. unfold encode_obj. cbn [o_buf]. unfold icu_call, alloc. cbn [o_err o_buf length Nat.eqb].
  rewrite F. reflexivity.
Qed.
Print Assumptions C160_in_place_refuted.

(** What the tokenizer's safe_norm_nfc and safe_norm_nfd (bert.cpp:380-394) do with a text. *)
Theorem C160_tokenizer : forall f w, exists o,
  normalize f false (of_units w) obj_default = Ok (true, o) /\ source o = Ok (f w).
Proof.
  intros f w. unfold normalize. rewrite (source_known _ _ (of_units_holds w)). cbn [v_text known obind].
  rewrite icu_size by reflexivity. destruct (f w) as [|c r].
  - cbn. eexists. split; reflexivity.
  - cbn [obind c_length andb]. rewrite icu_exact by reflexivity. cbn [obind c_status c_units failure negb].
    eexists. split; [reflexivity|]. unfold source, written. cbn [o_size o_buf alloc length]. rewrite Nat.leb_refl. f_equal. apply (firstn_all (c :: r)).
Qed.
Print Assumptions C160_tokenizer.

Example C160_example : let id := fun l : list N => l in
  observed (trun id id id id no_obj [TUtf16 0 [0xe9]; TNfc 0 0; TEncode 0]%N) = UB /\
  observed (trun (fun l => l ++ l) id id id no_obj [TUtf16 0 [0xe9]; TDefault 1; TNfc 0 1; TEncode 1]%N) =
    Ok [TNothing; TNothing; TFlag true; TBytes [0xc3; 0xa9; 0xc3; 0xa9]%N].
Proof. split; vm_compute; reflexivity. Qed.

(** ** C161: changing case *)

(** In every reachable state: the other string is empty afterwards; true is returned only if
    the result has no units at all; the text of the first string stays, but if the conversion
    had something to write the first string cannot be encoded any more. *)
Theorem C161_case_refuted : forall nfc nfd lower upper os h xs i j a b l,
  trun nfc nfd lower upper no_obj os = Ok (h, xs) ->
  i <> j -> h i = Some a -> h j = Some b -> source a = Ok l ->
  exists h' r a' b', tstep nfc nfd lower upper h (TLower i j) = Ok (h', TFlag r) /\
    h' i = Some a' /\ h' j = Some b' /\ source a' = Ok l /\ source b' = Ok [] /\
    (r = true -> lower l = []) /\
    (l <> [] -> lower l <> [] -> failure (o_err a) = false -> tstep nfc nfd lower upper h' (TEncode i) = UB).
Proof.
  intros nfc nfd lower upper os h xs i j a b l R D Hi Hj L.
  destruct (reach _ _ _ _ _ _ _ R) as (s & Rs & A). assert (Ai := A i). rewrite Hi in Ai.
  destruct (s i) as [vi|] eqn:Si; [|contradiction].
  assert (Li : v_text vi = Units l).
  { rewrite (source_known _ _ Ai) in L. unfold known in L. destruct (v_text vi); try discriminate L. congruence. }
  destruct Ai as (Fi & Ti). rewrite Li in Ti.
  assert (Q : forall h', h' i = Some (mkobj (o_buf a) (o_size a) Overflow) -> l <> [] -> tstep nfc nfd lower upper h' (TEncode i) = UB).
  { intros h' H NE. cbn [tstep]. unfold get. rewrite H. cbn [obind]. unfold encode_obj. cbn [o_buf o_err].
    destruct l as [|c l]; [congruence|]. destruct Ti as (B & S). rewrite B. cbn [obind icu_call failure]. reflexivity. }
  assert (SX : forall e, source (mkobj (o_buf a) (o_size a) e) = source a) by reflexivity.
  cbn [tstep]. unfold case_step, get. rewrite Hi, Hj. cbn [obind]. destruct (Nat.eqb_spec i j); [contradiction|].
  assert (M : mapped lower a = match l with [] => Ok None | _ => Ok (Some (lower l)) end).
  { rewrite (mapped_known lower a vi) by (split; [exact Fi|rewrite Li; exact Ti]). rewrite Li. reflexivity. }
  assert (M' : forall e, mapped lower (with_error e a) = mapped lower a) by reflexivity.
  assert (Z : forall (h' : nat -> option obj) a' b', upd (upd h i a') j b' i = a' /\ upd (upd h i a') j b' j = b').
  { intros _ a' b'. rewrite upd_at, (upd_other _ j i) by exact D. rewrite upd_at. auto. }
  unfold to_case.
  assert (NF : failure (o_err a) = true \/ l = [] \/ lower l <> [] ->
    exists e, obind (icu_call (mapped lower a) 0 (o_err a)) (fun c => Ok (c_status c)) = Ok e /\ failure e = true /\
      (l <> [] -> failure (o_err a) = false -> e = Overflow)).
  { intros H. unfold icu_call. destruct (failure (o_err a)) eqn:F; [exists (o_err a); cbn; repeat split; [exact F|discriminate]|].
    rewrite M. destruct l as [|c l]; [exists Error; cbn; repeat split; congruence|].
    destruct H as [H|[H|H]]; [discriminate|discriminate|]. cbn [obind]. destruct (lower (c :: l)) as [|d r]; [congruence|].
    exists Overflow. cbn. auto. }
  destruct (icu_call (mapped lower a) 0 (o_err a)) as [k| | |] eqn:K.
  2-4: exfalso; unfold icu_call in K; destruct (failure (o_err a)); [discriminate K|]; rewrite M in K;
    destruct l as [|c l]; [discriminate K|]; cbn [obind] in K; repeat (destruct (_ <? _) in K || destruct (_ =? _) in K); discriminate K.
  cbn [obind] in *.
  assert (Cs : (failure (o_err a) = true \/ l = [] \/ lower l <> []) \/ (failure (o_err a) = false /\ l <> [] /\ lower l = [])).
  { destruct (failure (o_err a)); [auto|]. destruct l as [|c l]; [auto|]. destruct (lower (c :: l)); [right|left]; [repeat split; auto; discriminate|right; right; discriminate]. }
  destruct Cs as [H|(F & NE & LE)].
  - destruct (NF H) as (e & E & Fe & U). injection E as E. rewrite E. cbn [with_error o_err]. rewrite Fe.
    eexists. exists false, (mkobj (o_buf a) (o_size a) e), (dispose b). split; [reflexivity|].
    destruct (Z h (Some (mkobj (o_buf a) (o_size a) e)) (Some (dispose b))) as (Z1 & Z2).
    split; [exact Z1|]. split; [exact Z2|]. split; [exact L|]. split; [reflexivity|]. split; [discriminate|].
    intros NE _ F. apply Q; [|exact NE]. rewrite (U NE F) in *. exact Z1.
  - unfold icu_call in K. rewrite F, M in K. destruct l as [|c l]; [congruence|]. rewrite LE in K. cbn in K. injection K as <-.
    cbn [c_status c_length with_error o_err failure]. cbn [alloc Nat.eqb o_size o_err dispose].
    change (mkobj (o_buf a) (o_size a) Warned) with (with_error Warned a). rewrite M', M, LE. cbn [icu_call failure obind length Nat.ltb Nat.leb Nat.eqb c_status c_units written with_error o_err o_buf o_size negb].
    eexists. exists true. eexists. eexists. split; [reflexivity|].
    destruct (Z h (Some (with_error Warned a)) (Some (with_error Warned (written [] (alloc 0 (dispose b)))))) as (Z1 & Z2).
    split; [exact Z1|]. split; [exact Z2|]. split; [exact L|]. split; [reflexivity|]. split; [reflexivity|]. congruence.
Qed.
Print Assumptions C161_case_refuted.

(** In place the text is lost. *)
Theorem C161_in_place : forall nfc nfd lower upper os h xs i a,
  trun nfc nfd lower upper no_obj os = Ok (h, xs) -> h i = Some a ->
  exists h' a', tstep nfc nfd lower upper h (TUpper i i) = Ok (h', TFlag false) /\ h' i = Some a' /\ source a' = Ok [].
Proof.
  intros nfc nfd lower upper os h xs i a R Hi. cbn [tstep]. unfold case_step, get. rewrite Hi. cbn [obind].
  rewrite Nat.eqb_refl. cbn. eexists. eexists. split; [reflexivity|]. rewrite upd_at. split; reflexivity.
Qed.
Print Assumptions C161_in_place.

(** The tokenizer's call (bert.cpp:512) is what its model uses. *)
Theorem C161_tokenizer : forall k w, exists i o,
  to_case (i_lower k) false (of_units w) obj_default = Ok (fst (to_lower k w), i, o) /\ source o = Ok (snd (to_lower k w)).
Proof.
  intros k w. assert (H := of_units_holds w). unfold to_case. cbn [dispose].
  rewrite (mapped_known _ _ _ H). cbn [v_text]. unfold to_lower.
  destruct w as [|c w].
  - cbn. eexists. eexists. split; reflexivity.
  - rewrite icu_size by reflexivity. destruct (i_lower k (c :: w)) as [|d r] eqn:W.
    + cbn [obind c_status with_error o_err failure c_length]. cbn [alloc Nat.eqb o_err o_size].
      assert (M : mapped (i_lower k) (with_error Warned (of_units (c :: w))) = Ok (Some [])).
      { rewrite (mapped_known _ _ (mkval (Units (c :: w)) Fine)); [cbn [v_text]; rewrite W; reflexivity|].
        split; [reflexivity|]. destruct H as (_ & H). exact H. }
      rewrite M. cbn. eexists. eexists. split; reflexivity.
    + cbn [obind c_status with_error o_err failure]. eexists. eexists. split; reflexivity.
Qed.
Print Assumptions C161_tokenizer.

Example C161_example : let id := fun l : list N => l in let low := map (fun c => if (65 <=? c)%N && (c <=? 90)%N then (c + 32)%N else c) in
  observed (trun id id low id no_obj [TUtf8 0 [0x48; 0x49]; TUtf16 1 [0x78]; TLower 0 1; TEncode 1; TOk 0]%N) =
    Ok [TNothing; TNothing; TFlag false; TBytes []; TFlag false] /\
  observed (trun id id low id no_obj [TUtf8 0 [0x48; 0x49]; TUtf16 1 [0x78]; TLower 0 1; TEncode 0]%N) = UB.
Proof. split; vm_compute; reflexivity. Qed.

(** ** C162: compiled expressions *)
Theorem C162_patterns : forall os,
  rrun no_patterns os <> UB /\
  forall p xs, rrun no_patterns os = Ok (p, xs) ->
    NoDup (p_closed p) /\
    (forall n, n < opened_by os <-> In n (p_closed p) \/ open_in p n) /\
    (forall n, ~ (In n (p_closed p) /\ open_in p n)) /\
    (forall i j n, p_vars p i = Some (Some n) -> p_vars p j = Some (Some n) -> i = j).
Proof.
  intros os. assert (T := rrun_tidy os no_patterns 0 tidy_none).
  split; [intros U; rewrite U in T; exact T|]. intros p xs R. rewrite R, Nat.add_0_r in T.
  destruct T as (T1 & T2 & T3 & T4 & T5 & T6).
  split; [exact T2|]. split; [|split].
  - intros n. split; [apply T6|]. intros [H|(i & H)]; [apply T3, H|apply (T4 i n H)].
  - intros n (H & i & Hi). apply (T4 i n Hi). exact H.
  - exact T5.
Qed.
Print Assumptions C162_patterns.

(** Once every variable is destroyed each pattern that was opened has been closed once. *)
Theorem C162_all_closed : forall os p xs,
  rrun no_patterns os = Ok (p, xs) -> (forall i, p_vars p i = None) ->
  Permutation (p_closed p) (seq 0 (opened_by os)).
Proof.
  intros os p xs R N. destruct (C162_patterns os) as (_ & H). destruct (H p xs R) as (D & I & _).
  apply NoDup_Permutation; [exact D|apply seq_NoDup|]. intros n. rewrite in_seq. split.
  - intros F. split; [lia|]. apply I. auto.
  - intros (_ & F). apply I in F. destruct F as [F|(i & F)]; [exact F|]. rewrite N in F. discriminate F.
Qed.
Print Assumptions C162_all_closed.

(** A default object is without a pattern, as is one moved from: using it finds nothing. *)
Theorem C162_null : forall p p' i x,
  rstep p (RDefault i) = Ok (p', x) -> rstep p' (RUse i) = Ok (p', Some false).
Proof.
  intros p p' i x E. cbn [rstep] in *. destruct (fresh_none (p_vars p) i) as [(N & F)|F]; rewrite F in E; [|discriminate E].
  cbn [obind] in E. injection E as <- <-. cbn [p_vars]. unfold get. rewrite upd_at. reflexivity.
Qed.
Print Assumptions C162_null.

Theorem C162_moved : forall p p' i j x,
  rstep p (RMoveNew i j) = Ok (p', x) \/ (i <> j /\ rstep p (RMoveAssign i j) = Ok (p', x)) ->
  rstep p' (RUse j) = Ok (p', Some false) /\ p_vars p' i = p_vars p j.
Proof.
  intros p p' i j x H. cbn [rstep] in *.
  assert (K : i <> j /\ exists cl v, p_vars p j = Some v /\ p' = mkpats (upd (upd (p_vars p) i (Some v)) j (Some None)) (p_next p) cl).
  { destruct H as [H|(D & H)].
    - destruct (fresh_none (p_vars p) i) as [(N & F)|F]; rewrite F in H; [|discriminate H]. cbn [obind] in H.
      destruct (get_some (p_vars p) j) as [(v & V & G)|G]; rewrite G in H; [|discriminate H]. cbn [obind] in H.
      injection H as <- <-. split; [intros ->; congruence|]. eexists. exists v. split; [exact V|reflexivity].
    - destruct (get_some (p_vars p) i) as [(w & W & G)|G]; rewrite G in H; [|discriminate H]. cbn [obind] in H.
      destruct (get_some (p_vars p) j) as [(v & V & G2)|G2]; rewrite G2 in H; [|discriminate H]. cbn [obind] in H.
      destruct (Nat.eqb_spec i j); [contradiction|]. injection H as <- <-. split; [exact D|]. eexists. exists v. split; [exact V|reflexivity]. }
  destruct K as (D & cl & v & V & ->). cbn [p_vars]. split.
  - unfold get. rewrite upd_at. reflexivity.
  - rewrite upd_other by exact D. rewrite upd_at, V. reflexivity.
Qed.
Print Assumptions C162_moved.

Example C162_example : exists p,
  rrun no_patterns [ROpen 0 true; ROpen 1 true; RDefault 2; RMoveAssign 0 1; RUse 0; RUse 1; RMoveNew 3 0; ROpen 4 false; RUse 3; RUse 4;
                    RDestroy 0; RDestroy 1; RDestroy 2; RDestroy 3; RDestroy 4] =
    Ok (p, [None; None; None; None; Some true; Some false; None; None; Some true; Some false; None; None; None; None; None]) /\
  p_closed p = [0; 1].
Proof.
  destruct (rrun no_patterns _) as [[p l]| | |] eqn:E.
  - exists p. assert (X : match rrun no_patterns [ROpen 0 true; ROpen 1 true; RDefault 2; RMoveAssign 0 1; RUse 0; RUse 1; RMoveNew 3 0;
        ROpen 4 false; RUse 3; RUse 4; RDestroy 0; RDestroy 1; RDestroy 2; RDestroy 3; RDestroy 4] with
      | Ok (p, l) => l = [None; None; None; None; Some true; Some false; None; None; Some true; Some false; None; None; None; None; None]
                     /\ p_closed p = [0; 1]
      | _ => False end) by (vm_compute; split; reflexivity).
    rewrite E in X. destruct X as (-> & X). split; [reflexivity|exact X].
  - apply (f_equal (fun o => match o with Ok _ => true | _ => false end)) in E. vm_compute in E. discriminate E.
  - apply (f_equal (fun o => match o with Ok _ => true | _ => false end)) in E. vm_compute in E. discriminate E.
  - apply (f_equal (fun o => match o with Ok _ => true | _ => false end)) in E. vm_compute in E. discriminate E.
Qed.

(** ** C163: general categories *)
Theorem C163_names : forall t, (t < 30)%N <-> In (t, category t) category_names.
Proof.
  intros t. split.
  - intros H. assert (K : forallb (fun n => existsb (fun p => N.eqb (fst p) (N.of_nat n) && list_N_eqb (snd p) (category (N.of_nat n))) category_names) (seq 0 30) = true) by reflexivity.
    rewrite forallb_forall in K. specialize (K (N.to_nat t)). rewrite N2Nat.id in K.
    assert (In (N.to_nat t) (seq 0 30)) as J by (rewrite in_seq; lia). specialize (K J).
    apply existsb_exists in K. destruct K as ((a & b) & Hin & E). cbn [fst snd] in E. apply andb_prop in E. destruct E as (E1 & E2).
    apply N.eqb_eq in E1. subst a. rewrite list_N_eqb_eq in E2. subst b. exact Hin.
  - intros H. assert (K : forallb (fun p => (fst p <? 30)%N) category_names = true) by reflexivity.
    rewrite forallb_forall in K. specialize (K _ H). apply N.ltb_lt in K. exact K.
Qed.

(** Two characters have one category name exactly if they have one type (of the thirty). *)
Theorem C163_injective : forall t t', (t < 30)%N -> (t' < 30)%N -> category t = category t' -> t = t'.
Proof.
  intros t t' H H' E.
  assert (K : forallb (fun n => forallb (fun m => implb (list_N_eqb (category (N.of_nat n)) (category (N.of_nat m))) (Nat.eqb n m)) (seq 0 30)) (seq 0 30) = true) by (vm_compute; reflexivity).
  rewrite forallb_forall in K. specialize (K (N.to_nat t)). rewrite forallb_forall in K.
  assert (J : In (N.to_nat t) (seq 0 30)) by (rewrite in_seq; lia). assert (J' : In (N.to_nat t') (seq 0 30)) by (rewrite in_seq; lia).
  specialize (K J (N.to_nat t') J'). rewrite !N2Nat.id, E in K.
  assert (list_N_eqb (category t') (category t') = true) as R by (apply list_N_eqb_eq; reflexivity).
  rewrite R in K. cbn in K. apply Nat.eqb_eq in K. lia.
Qed.

Theorem C163_is_category : forall chartype c t name, In (t, name) category_names -> (chartype c < 30)%N ->
  (is_category chartype c name = true <-> chartype c = t).
Proof.
  intros ty c t name H L. unfold is_category. rewrite list_N_eqb_eq.
  assert (K : forall p, In p category_names -> category (fst p) = snd p /\ (fst p < 30)%N).
  { intros p Hp. assert (Q : forallb (fun p => list_N_eqb (category (fst p)) (snd p) && (fst p <? 30)%N) category_names = true) by reflexivity.
    rewrite forallb_forall in Q. specialize (Q p Hp). apply andb_prop in Q. destruct Q as (Q1 & Q2).
    rewrite list_N_eqb_eq in Q1. apply N.ltb_lt in Q2. auto. }
  destruct (K _ H) as (E & T). cbn [fst snd] in E, T. split.
  - intros F. apply C163_injective; [exact L|exact T|congruence].
  - intros ->. exact E.
Qed.
Print Assumptions C163_is_category.

(** Punctuation: the ASCII characters that are neither letters, digits, space nor control, and
    the seven P categories. *)
Theorem C163_punct : forall chartype c, (chartype c < 30)%N ->
  (is_punct_by_category chartype c = true <->
   ((33 <= c <= 126)%N /\ ~ (48 <= c <= 57)%N /\ ~ (65 <= c <= 90)%N /\ ~ (97 <= c <= 122)%N) \/ In (chartype c) punctuation_types).
Proof.
  intros ty c L. unfold is_punct_by_category.
  assert (K : (match category (ty c) with k0 :: _ => (k0 =? 80)%N | [] => false end = true) <-> In (ty c) punctuation_types).
  { assert (Q : forallb (fun n => Bool.eqb (match category (N.of_nat n) with k0 :: _ => (k0 =? 80)%N | [] => false end) (existsb (N.eqb (N.of_nat n)) punctuation_types)) (seq 0 30) = true) by reflexivity.
    rewrite forallb_forall in Q. specialize (Q (N.to_nat (ty c))). rewrite N2Nat.id in Q.
    assert (J : In (N.to_nat (ty c)) (seq 0 30)) by (rewrite in_seq; lia). specialize (Q J). apply eqb_prop in Q. rewrite Q, existsb_exists.
    split; [intros (x & Hx & E); apply N.eqb_eq in E; subst x; exact Hx|intros Hx; exists (ty c); split; [exact Hx|apply N.eqb_refl]]. }
  rewrite <- K. clear K.
  destruct ((33 <=? c) && (c <=? 47) || (58 <=? c) && (c <=? 64) || (91 <=? c) && (c <=? 96) || (123 <=? c) && (c <=? 126))%N eqn:A.
  - split; [intros _; left|reflexivity]. rewrite !orb_true_iff, !andb_true_iff, !N.leb_le in A. lia.
  - split; [auto|]. intros [P|P]; [|exact P]. rewrite !orb_false_iff, !andb_false_iff, !N.leb_gt in A. lia.
Qed.
Print Assumptions C163_punct.

(** The tokenizer's model uses this test. *)
Theorem C163_tokenizer : forall k chartype c, (chartype c < 30)%N ->
  (i_punct k c = true <-> In (chartype c) punctuation_types) ->
  Bert_model.is_punct k c = is_punct_by_category chartype c.
Proof.
  intros k ty c L E. apply eq_true_iff_eq. rewrite (C163_punct ty c L). rewrite <- E. unfold Bert_model.is_punct.
  rewrite !orb_true_iff, !andb_true_iff, !N.leb_le. split.
  - intros [P|P]; [left; lia|right; exact P].
  - intros [P|P]; [left; lia|right; exact P].
Qed.
Print Assumptions C163_tokenizer.

Example C163_example :
  category 6 = u"Mn" /\ is_category (fun _ => 6%N) 0x301 (u"Mn") = true /\ is_category (fun _ => 8%N) 0x301 (u"Mn") = false /\
  is_punct_by_category (fun _ => 26%N) 0x5e = true /\ is_punct_by_category (fun _ => 26%N) 0xb4 = false /\
  is_punct_by_category (fun _ => 29%N) 0xbb = true.
Proof. repeat split; reflexivity. Qed.
