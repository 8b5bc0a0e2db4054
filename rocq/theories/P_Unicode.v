(** Properties C21-C25, C73-C76: Unicode strings. *)
From Verif Require Import Base Utf_model Utf_spec Utf_proofs Ustr_model Ustr_spec Ustr_proofs.
Open Scope N_scope.

(** ** C21: code point iteration *)

Theorem C21_each_cp_inverts_utf16 : forall skip cs us,
  utf16 cs us -> map cp_c (each_cp skip us) = cs.
Proof. exact codepoints_utf16. Qed.
Print Assumptions C21_each_cp_inverts_utf16.

(** Any 16-bit data has exactly one reading, the reading covers the data, and the
    iteration reports it item by item. *)
Theorem C21_each_cp_arbitrary : forall us,
  exists is, reads us is /\ (forall is', reads us is' -> is' = is) /\
    flat_map item_units is = us /\
    map cp_c (each_cp false us) = map item_char is /\
    map cp_c (each_cp true us) = map item_char (filter is_char is).
Proof.
  intros us. destruct (reads_total us) as [is R]. exists is.
  split; [exact R|]. split; [intros is' R'; exact (reads_functional _ _ _ R' R)|].
  split; [exact (reads_units _ _ R)|].
  rewrite !(fun s => each_cp_reads s _ _ R), !map_cp_c_items. split; reflexivity.
Qed.
Print Assumptions C21_each_cp_arbitrary.

Example C21_ex1 : utf16 [0x61; 0x1f600] [0x61; 0xd83d; 0xde00].
Proof.
  apply utf16_bmp; [left; lia|lia|]. apply (utf16_sup _ 0xd83d 0xde00);
    [unfold hi_sur; lia|unfold lo_sur; lia|reflexivity|constructor].
Qed.
Example C21_ex2 : map cp_c (each_cp false [0xd800; 0x61; 0xdc00; 0xd83d; 0xde00; 0xd800])
  = [0xfffd; 0x61; 0xfffd; 0x1f600; 0xfffd].
Proof. reflexivity. Qed.

(** ** C22: order, equality, hash, concatenation *)

(** The comparison operators of two strings holding [l] and [r]. *)
Theorem C22_comparison : forall l r,
  impl_eq (impl_of (Val l)) (impl_of (Val r)) = Ok (list_N_eqb l r) /\
  exists c, impl_cmp (impl_of (Val l)) (impl_of (Val r)) = Ok c /\
            CompareSpec (l = r) (lex_lt l r) (lex_lt r l) c.
Proof.
  intros l r. rewrite eq_any, cmp_any. split; [reflexivity|].
  exists (order l r). split; [reflexivity|apply order_spec].
Qed.
Print Assumptions C22_comparison.

Theorem C22_strict_total_order :
  (forall a, ~ lex_lt a a) /\
  (forall a b c, lex_lt a b -> lex_lt b c -> lex_lt a c) /\
  (forall a b, lex_lt a b \/ a = b \/ lex_lt b a).
Proof. exact (conj lex_lt_irrefl (conj lex_lt_trans lex_lt_total)). Qed.
Print Assumptions C22_strict_total_order.

Theorem C22_equal_hash : forall h a b,
  impl_eq (impl_of a) (impl_of b) = Ok true ->
  exists v, impl_hash h (impl_of a) = Ok v /\ impl_hash h (impl_of b) = Ok v.
Proof. exact hash_eq. Qed.
Print Assumptions C22_equal_hash.

(** The hash is the exclusive or of the hashes of the units, whatever the order. *)
Theorem C22_hash_value : forall h l,
  impl_hash h (impl_of (Val l)) = Ok (fold_right (fun c v => N.lxor (h c) v) 0 l).
Proof. exact hash_value. Qed.
Print Assumptions C22_hash_value.

Theorem C22_concat : forall l r,
  obind (impl_plus (impl_of (Val l)) (impl_of (Val r))) contents = Ok (l ++ r) /\
  obind (impl_plus_assign (impl_of (Val l)) (impl_of (Val r))) contents = Ok (l ++ r) /\
  obind (impl_plus_assign (impl_of (Val l)) (impl_of (Val l))) contents = Ok (l ++ l).
Proof.
  intros l r. rewrite plus_any, !plus_assign_any. cbn [val obind].
  split; [apply contents_val|]. split.
  - destruct r as [|c r]; cbn [obind]; [rewrite app_nil_r|]; apply contents_val.
  - destruct l as [|c l]; cbn [obind]; apply contents_val.
Qed.
Print Assumptions C22_concat.

Example C22_ex : impl_cmp (impl_of (Val (u "abc"))) (impl_of (Val (u "abd"))) = Ok Lt
  /\ impl_cmp (impl_of (Val (u "abc"))) (impl_of (Val (u "ab"))) = Ok Gt.
Proof. split; reflexivity. Qed.

(** ** C23: starts_with / ends_with *)

Theorem C23_starts_ends_refuted :
  (exists s p, starts_with s p = true /\ ~ prefix p s) /\
  (exists s p, ends_with s p = true /\ ~ suffix p s).
Proof.
  split.
  - exists (u "abcd"), (u "abxy"). split; [reflexivity|]. intros [r E]; discriminate E.
  - exists (u "abcd"), (u "abxy"). split; [reflexivity|]. intros [r E].
    destruct r as [|? [|? [|? [|? [|? r]]]]]; discriminate E.
Qed.
Print Assumptions C23_starts_ends_refuted.

(** What does hold: prefixes and suffixes are always accepted, and acceptance
    means agreement on the first half only.  Missing: the converse. *)
Theorem C23_starts_ends_partial : forall s p,
  (prefix p s -> starts_with s p = true) /\
  (suffix p s -> ends_with s p = true) /\
  (starts_with s p = true <-> half_match s p) /\
  (ends_with s p = true <->
     (length p <= length s)%nat /\ half_match (skipn (length s - length p) s) p).
Proof.
  intros s p. exact (conj (starts_with_prefix s p) (conj (ends_with_suffix s p)
    (conj (starts_with_iff s p) (ends_with_iff s p)))).
Qed.
Print Assumptions C23_starts_ends_partial.

Example C23_ex : half_match (u "##ing") (u "##i") /\ ~ half_match (u "ing") (u "##").
Proof.
  split; [rewrite <- starts_with_iff; reflexivity|].
  rewrite <- starts_with_iff; discriminate.
Qed.

(** ** C24: strip *)

Theorem C24_lstrip : forall ws cs us, utf16 cs us ->
  exists run rest, maximal_leading_run ws cs run rest /\
    exists out, lstrip ws us = Some out /\ utf16 rest out.
Proof.
  intros ws cs us H. apply utf16_enc16s in H as [H ->].
  destruct (lstrip_run ws cs H) as (run & rest & M & E). exists run, rest; split; [exact M|].
  exists (enc16s rest). split; [exact E|]. apply enc16s_spec.
  destruct M as (Ec & _). subst cs. apply Forall_app in H; tauto.
Qed.
Print Assumptions C24_lstrip.

Theorem C24_rstrip : forall ws cs us, utf16 cs us ->
  exists rest run, maximal_trailing_run ws cs rest run /\
    exists out, rstrip ws us = Some out /\ utf16 rest out.
Proof.
  intros ws cs us H. apply utf16_enc16s in H as [H ->].
  destruct (rstrip_run ws cs H) as (rest & run & M & E). exists rest, run; split; [exact M|].
  exists (enc16s rest). split; [exact E|]. apply enc16s_spec.
  destruct M as (Ec & _). subst cs. apply Forall_app in H; tauto.
Qed.
Print Assumptions C24_rstrip.

(** Arbitrary 16-bit data: a lone surrogate counts as (and becomes) U+FFFD. *)
Theorem C24_strip_arbitrary : forall ws us is, Forall unit16 us -> reads us is ->
  (exists run rest out, maximal_leading_run ws (map item_char is) run rest /\
     lstrip ws us = Some out /\ utf16 rest out) /\
  (exists rest run out, maximal_trailing_run ws (map item_char is) rest run /\
     rstrip ws us = Some out /\ utf16 rest out).
Proof.
  intros ws us is Hu R.
  assert (E : codepoints_of false us = map item_char is).
  { unfold codepoints_of. rewrite (each_cp_reads false _ _ R), map_cp_c_items. reflexivity. }
  assert (HS : Forall scalar_value (map item_char is)).
  { rewrite <- E. apply codepoints_scalar. exact Hu. }
  set (cs := map item_char is) in *. split.
  - destruct (lstrip_run ws cs HS) as (run & rest & M & EL). exists run, rest, (enc16s rest).
    split; [exact M|]. unfold lstrip in *. rewrite codepoints_enc16s in EL by exact HS. rewrite E.
    split; [exact EL|]. apply enc16s_spec. destruct M as (Ec & _). rewrite Ec in HS. apply Forall_app in HS; tauto.
  - destruct (rstrip_run ws cs HS) as (rest & run & M & EL). exists rest, run, (enc16s rest).
    split; [exact M|]. unfold rstrip in *. rewrite codepoints_enc16s in EL by exact HS. rewrite E.
    split; [exact EL|]. apply enc16s_spec. destruct M as (Ec & _). rewrite Ec in HS. apply Forall_app in HS; tauto.
Qed.
Print Assumptions C24_strip_arbitrary.

Example C24_ex_lone : let ws := fun c => c =? 32 in
  rstrip ws [0x20; 0xd800; 0x20] = Some [0x20; 0xfffd] /\ lstrip ws [0xdc00; 0x20] = Some [0xfffd; 0x20].
Proof. split; reflexivity. Qed.

Theorem C24_run_unique : forall ws cs r1 s1 r2 s2,
  maximal_leading_run ws cs r1 s1 -> maximal_leading_run ws cs r2 s2 -> r1 = r2 /\ s1 = s2.
Proof. exact leading_run_unique. Qed.
Print Assumptions C24_run_unique.

Theorem C24_strip_algebra : forall ws cs us, utf16 cs us ->
  exists l r b, lstrip ws us = Some l /\ rstrip ws us = Some r /\
    lstrip ws l = Some l /\ rstrip ws r = Some r /\
    rstrip ws l = Some b /\ lstrip ws r = Some b.
Proof. exact strip_algebra. Qed.
Print Assumptions C24_strip_algebra.

Example C24_ex : let ws := fun c => c =? 32 in
  lstrip ws (u "  a b ") = Some (u "a b ") /\ rstrip ws (u "  a b ") = Some (u "  a b")
  /\ lstrip ws (u "   ") = Some [].
Proof. repeat split. Qed.

(** ** C25: regex split *)

Theorem C25_regex_split : forall s ms, ordered 0 (length s) ms ->
  exists ps, regex_split s (map Some ms) = (ps, length ps) /\
    concat ps = s /\ pieces_spec s 0 ms ps.
Proof.
  intros s ms H. destruct (split_loop_spec s ms 0 H) as (ps & E & C & P).
  exists ps. unfold regex_split. rewrite E. auto.
Qed.
Print Assumptions C25_regex_split.

(** The engine's failure is visible as a count of 0 although pieces may already
    have been appended. *)
Theorem C25_engine_error_returns_zero : forall s ms1 ms2,
  snd (regex_split s (map Some ms1 ++ None :: ms2)) = 0%nat.
Proof.
  intros s ms1 ms2. unfold regex_split. generalize 0%nat at 1 as from.
  assert (H : forall from, snd (split_loop s from (map Some ms1 ++ None :: ms2)) = None).
  { induction ms1 as [|[st en] ms1 IH]; intros from; [reflexivity|].
    cbn [map app split_loop]. specialize (IH en).
    destruct (split_loop s en (map Some ms1 ++ None :: ms2)) as [ps n].
    simpl in IH; subst n. reflexivity. }
  intros from. specialize (H from). destruct (split_loop s from _) as [ps n]. simpl in H; subst n. reflexivity.
Qed.
Print Assumptions C25_engine_error_returns_zero.

Example C25_ex : ordered 0 (length (u "ab  cd")) [(0, 2); (3, 6)]%nat /\
  regex_split (u "ab  cd") [Some (0, 2); Some (3, 6)]%nat = ([u "ab"; u " "; u " cd"], 3%nat).
Proof. split; [simpl; lia|reflexivity]. Qed.

(** ** C73: strings behave like values in every program *)

Theorem C73_string_objects_are_values : forall os,
  seen (urun no_obj os) = seen (srun no_obj os).
Proof. exact program_refines. Qed.
Print Assumptions C73_string_objects_are_values.

Example C73_ex :
  seen (urun no_obj [UUnits 0 (u "ab"); UCopyNew 1 0; UPlusAssign 0 0; UMoveNew 2 0;
                     UEmpty 0; UEq 2 1; UCmp 1 2; USize 2; UPlus 3 2 1; USize 3])
  = Ok [ONone; ONone; ONone; ONone; OBool true; OBool false; OCmp Lt; OSize 4; ONone; OSize 6].
Proof. reflexivity. Qed.

(** ** C74: a default-constructed string is the empty string *)

Theorem C74_default_is_empty_refuted :
  exists os, seen (urun no_obj (UDefault 0 :: os)) = UB /\
             seen (urun no_obj (UUnits 0 [] :: os)) = Ok [ONone; ONone; OBool true].
Proof. exists [UUnits 1 []; UEq 0 1]. split; reflexivity. Qed.
Print Assumptions C74_default_is_empty_refuted.

(** What does hold: copying or disposing a default-constructed string yields the
    empty string, for every continuation.  Missing: direct comparison, size,
    concatenation. *)
Theorem C74_default_is_empty_partial : forall os,
  seen (urun no_obj (UDefault 0 :: UDispose 0 :: os)) =
  seen (urun no_obj (UUnits 0 [] :: UDispose 0 :: os)) /\
  seen (urun no_obj (UDefault 0 :: UCopyNew 1 0 :: UDestroy 0 :: os)) =
  seen (urun no_obj (UUnits 0 [] :: UCopyNew 1 0 :: UDestroy 0 :: os)).
Proof. exact default_then. Qed.
Print Assumptions C74_default_is_empty_partial.

(** ** C75: destroying all strings frees all memory *)

Theorem C75_strings_freed_refuted :
  (exists os h xs, urun no_obj os = Ok (h, xs) /\ (forall i, h i = None) /\ impl_blocks no_obj os 0 <> 0%nat) /\
  (forall os h xs, urun no_obj os = Ok (h, xs) -> (count_creates os <= impl_blocks no_obj os 0)%nat).
Proof.
  split.
  - exists [UUnits 0 (u "a"); UDestroy 0]. eexists _, _. split; [reflexivity|].
    split; [intros [|i]; reflexivity|discriminate].
  - intros os h xs H. exact (blocks_ge os no_obj 0 h xs H).
Qed.
Print Assumptions C75_strings_freed_refuted.

(** How many blocks are lost, exactly: one for each string that was created, and one for
    each append of a non-empty string to a non-empty string, whatever is destroyed. *)
Theorem C75_blocks_exact : forall os h xs, urun no_obj os = Ok (h, xs) ->
  impl_blocks no_obj os 0 = (count_creates os + count_joins no_obj os)%nat.
Proof. intros os h xs H. exact (blocks_exact os no_obj no_obj 0 h xs (fun i => eq_refl) H). Qed.
Print Assumptions C75_blocks_exact.

(** Nothing is lost just when the program creates no string. *)
Theorem C75_strings_freed_iff : forall os h xs, urun no_obj os = Ok (h, xs) ->
  (impl_blocks no_obj os 0 = 0%nat <-> forall o, In o os -> creates o = 0%nat).
Proof.
  intros os h xs H. assert (G : forall os (s : sheap), (forall i, s i = None) -> (forall o, In o os -> creates o = 0%nat) -> count_joins s os = 0%nat).
  { clear. intros [|o os] s Hs Hc; [reflexivity|]. cbn [count_joins].
    assert (C := Hc o (or_introl eq_refl)).
    destruct o as [i|i l|i j|i j|i j|i j|k i j|i j|i|i|i j|i j|i|i]; try discriminate C; cbn [joins sstep]; unfold get; rewrite !Hs; reflexivity. }
  assert (K : count_creates os = 0%nat <-> forall o, In o os -> creates o = 0%nat).
  { clear. unfold count_creates. induction os as [|o os IH]; cbn [fold_right In]; [split; [intros _ o []|reflexivity]|]. split.
    - intros E o' [<-|Ho]; [lia|apply IH; [lia|exact Ho]].
    - intros A. rewrite (A o (or_introl eq_refl)). apply IH. intros o' Ho. apply A. right. exact Ho. }
  rewrite (C75_blocks_exact _ _ _ H). split.
  - intros E. apply K. lia.
  - intros A. rewrite (proj2 K A), (G os no_obj (fun i => eq_refl) A). reflexivity.
Qed.
Print Assumptions C75_strings_freed_iff.

Example C75_example : exists h xs,
  urun no_obj [UUnits 0 (u "a"); UUnits 1 (u "b"); UPlusAssign 0 1; UDestroy 1; UDestroy 0] = Ok (h, xs) /\
  impl_blocks no_obj [UUnits 0 (u "a"); UUnits 1 (u "b"); UPlusAssign 0 1; UDestroy 1; UDestroy 0] 0 = 3%nat.
Proof. eexists _, _. split; reflexivity. Qed.

(** ** C76: UTF-8 round trip *)

Theorem C76_utf8_round_trip : forall bs us, from_utf8 bs = Some us -> encode us = bs.
Proof. intros bs us H; exact (proj1 (from_utf8_encode bs us H)). Qed.
Print Assumptions C76_utf8_round_trip.

Theorem C76_utf16_round_trip : forall cs us, utf16 cs us -> from_utf8 (encode us) = Some us.
Proof. exact encode_from_utf8. Qed.
Print Assumptions C76_utf16_round_trip.

Example C76_ex : from_utf8 [0x61; 0xc3; 0xa9; 0xf0; 0x9f; 0x98; 0x80] = Some [0x61; 0xe9; 0xd83d; 0xde00]
  /\ from_utf8 [0xc0; 0x80] = None.
Proof. split; reflexivity. Qed.

(** Conversion from UTF-8 accepts exactly the well-formed byte strings. *)
Theorem C76_utf8_accepts_exactly : forall bs, valid_utf8 bs <-> exists us, from_utf8 bs = Some us.
Proof. exact valid_utf8_iff. Qed.
Print Assumptions C76_utf8_accepts_exactly.

Theorem C76_utf8_to_utf16 : forall bs us, same_text bs us <-> from_utf8 bs = Some us.
Proof. exact same_text_iff. Qed.
Print Assumptions C76_utf8_to_utf16.

Example C76_ex_valid : valid_utf8 [0x61; 0xc3; 0xa9; 0xe2; 0x82; 0xac; 0xf0; 0x9f; 0x98; 0x80].
Proof. apply valid_utf8_iff. eexists. reflexivity. Qed.

Example C76_ex_invalid : ~ valid_utf8 [0x61; 0xff] /\ ~ valid_utf8 [0xc0; 0x80] /\ ~ valid_utf8 [0xed; 0xa0; 0x80].
Proof. repeat split; intros H; apply valid_utf8_iff in H as [us H]; discriminate H. Qed.
