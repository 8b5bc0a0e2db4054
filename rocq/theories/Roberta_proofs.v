(** Proofs about the RoBERTa tokenizer model. *)
From Coq Require Import Permutation FinFun.
From Verif Require Import Base Assoc Utf_model Utf_spec Utf_proofs Ustr_model Ustr_spec Ustr_proofs Bert_model.
From Verif Require Import Bpe_model Bpe_spec Bpe_proofs Bpe_load_proofs.
From Verif Require Import Vocab_model Vocab_spec Vocab_proofs Roberta_model Roberta_spec.
Local Open Scope N_scope.

(** * The byte alphabet *)

Lemma below_forall n (P : N -> bool) :
  forallb P (map N.of_nat (seq 0 n)) = true -> forall b, b < N.of_nat n -> P b = true.
Proof.
  intros H b L. rewrite forallb_forall in H. apply H. apply in_map_iff.
  exists (N.to_nat b). split; [apply N2Nat.id|]. apply in_seq. lia.
Qed.

Lemma table_symbol b : b < 256 -> nth (N.to_nat b) byte_encoder 0 = byte_symbol b.
Proof.
  intros H. apply N.eqb_eq.
  apply (below_forall 256 (fun b => nth (N.to_nat b) byte_encoder 0 =? byte_symbol b)); [vm_compute; reflexivity|exact H].
Qed.

Lemma symbol_range b : b < 256 -> printable (byte_symbol b) \/ 0x100 <= byte_symbol b <= 0x143.
Proof.
  intros H.
  assert (E : printable_b (byte_symbol b) || ((0x100 <=? byte_symbol b) && (byte_symbol b <=? 0x143)) = true).
  { apply (below_forall 256 (fun b => printable_b (byte_symbol b) || ((0x100 <=? byte_symbol b) && (byte_symbol b <=? 0x143))));
      [vm_compute; reflexivity|exact H]. }
  generalize dependent (byte_symbol b). intros x E. unfold printable, printable_b in *. lia.
Qed.

Lemma symbol_scalar b : b < 256 -> scalar_value (byte_symbol b).
Proof.
  intros H. pose proof (symbol_range b H) as R. unfold printable, scalar_value in *.
  left. generalize dependent (byte_symbol b). intros x R. lia.
Qed.

Lemma symbol_low b : b < 256 -> byte_symbol b < 0x800.
Proof.
  intros H. pose proof (symbol_range b H) as R. unfold printable in *.
  generalize dependent (byte_symbol b). intros x R. lia.
Qed.

Lemma symbols_scalar bs : Forall (fun b => b < 256) bs -> Forall scalar_value (map byte_symbol bs).
Proof. intros H. apply Forall_map. eapply Forall_impl; [|exact H]. intros; apply symbol_scalar; assumption. Qed.

Fixpoint distinct (l : list N) : bool :=
  match l with [] => true | x :: l' => negb (existsb (N.eqb x) l') && distinct l' end.

Lemma distinct_nodup l : distinct l = true -> NoDup l.
Proof.
  induction l as [|x l IH]; intros H; constructor; cbn [distinct] in H; apply andb_prop in H as [H1 H2]; auto.
  intros HI. apply negb_true_iff in H1. assert (E : existsb (N.eqb x) l = true); [|congruence].
  apply existsb_exists. exists x. split; [exact HI|apply N.eqb_refl].
Qed.

Lemma table_nodup : NoDup (map byte_symbol (map N.of_nat (seq 0 256))).
Proof. apply distinct_nodup. vm_compute. reflexivity. Qed.

Lemma symbol_inj a b : a < 256 -> b < 256 -> byte_symbol a = byte_symbol b -> a = b.
Proof.
  intros Ha Hb E. pose proof table_nodup as ND. rewrite map_map in ND.
  assert (X : forall b, b < 256 -> nth_error (map (fun n => byte_symbol (N.of_nat n)) (seq 0 256)) (N.to_nat b) = Some (byte_symbol b)).
  { intros c Hc. rewrite nth_error_map.
    assert (Y : nth_error (seq 0 256) (N.to_nat c) = Some (N.to_nat c)).
    { rewrite (nth_error_nth' _ 0%nat) by (rewrite seq_length; lia). rewrite seq_nth by lia. reflexivity. }
    rewrite Y. simpl. rewrite N2Nat.id. reflexivity. }
  apply N2Nat.inj. apply (proj1 (NoDup_nth_error _) ND).
  - apply nth_error_Some. rewrite (X a Ha). discriminate.
  - rewrite (X a Ha), (X b Hb), E. reflexivity.
Qed.

Lemma symbols_inj : forall a b, Forall (fun x => x < 256) a -> Forall (fun x => x < 256) b ->
  map byte_symbol a = map byte_symbol b -> a = b.
Proof.
  induction a as [|x a IH]; intros [|y b] Ha Hb E; try discriminate; [reflexivity|].
  cbn [map] in E. injection E as E1 E2. inversion Ha; inversion Hb; subst.
  f_equal; [apply symbol_inj; assumption|apply IH; assumption].
Qed.

(** The low byte of a symbol. *)
Lemma symbol_land b : b < 256 -> (N.land (byte_symbol b) 0xff = b <-> printable b \/ b <= 0x20).
Proof.
  intros H.
  assert (E : Bool.eqb (N.land (byte_symbol b) 0xff =? b) (printable_b b || (b <=? 0x20)) = true).
  { apply (below_forall 256 (fun b => Bool.eqb (N.land (byte_symbol b) 0xff =? b) (printable_b b || (b <=? 0x20))));
      [vm_compute; reflexivity|exact H]. }
  apply eqb_prop in E. rewrite <- N.eqb_eq, E. unfold printable, printable_b. lia.
Qed.

Lemma enc16s_low us : Forall (fun c => c < 0x800) us -> enc16s us = us.
Proof.
  intros H. assert (U : utf16 us us).
  { induction H as [|c us Hc _ IH]; [constructor|]. apply utf16_bmp; [unfold scalar_value; lia|lia|exact IH]. }
  apply utf16_enc16s in U. destruct U as [_ U]. congruence.
Qed.

Lemma low_scalar us : Forall (fun c => c < 0x800) us -> Forall scalar_value us.
Proof. intros H. eapply Forall_impl; [|exact H]. intros c Hc. cbv beta in Hc. left. lia. Qed.

Lemma encode_low us : Forall (fun c => c < 0x800) us -> encode us = enc8s us.
Proof.
  intros H. unfold encode. rewrite <- (enc16s_low us H) at 1.
  rewrite dec16_enc16s by (apply low_scalar; exact H). reflexivity.
Qed.

Lemma symbols_low bs : Forall (fun b => b < 256) bs -> Forall (fun c => c < 0x800) (map byte_symbol bs).
Proof. intros H. apply Forall_map. eapply Forall_impl; [|exact H]. intros; apply symbol_low; assumption. Qed.

(** * Encoding and decoding bytes *)

Lemma encode_bytes_ascii bs : Forall (fun b => b < 0x80) bs -> encode_bytes bs = Ok (map byte_symbol bs).
Proof.
  induction 1 as [|b bs H _ IH]; [reflexivity|]. cbn [encode_bytes map]. unfold encode_byte.
  apply N.ltb_lt in H as H'. rewrite H'. cbn [obind]. rewrite IH. cbn [obind].
  rewrite table_symbol by lia. reflexivity.
Qed.

Lemma encode_bytes_ub bs : ~ Forall (fun b => b < 0x80) bs -> encode_bytes bs = UB.
Proof.
  induction bs as [|b bs IH]; intros H; [destruct H; constructor|].
  cbn [encode_bytes]. unfold encode_byte. destruct (N.ltb_spec b 0x80) as [L|L]; [|reflexivity].
  cbn [obind]. rewrite IH; [reflexivity|]. intros F. apply H. constructor; assumption.
Qed.

Lemma ascii_dec bs : {Forall (fun b => b < 0x80) bs} + {~ Forall (fun b => b < 0x80) bs}.
Proof. apply Forall_dec. intros b. unfold N.lt. destruct (b ?= 0x80); [right|left|right]; congruence. Qed.

Lemma spelling_iff bs t : Forall (fun b => b < 256) bs -> (spelling bs t <-> t = enc8s (map byte_symbol bs)).
Proof.
  intros H. unfold spelling. rewrite utf8_enc8s. pose proof (symbols_scalar bs H). tauto.
Qed.

Lemma spelling_bytes_inj a b t : Forall (fun b => b < 256) a -> Forall (fun b => b < 256) b ->
  spelling a t -> spelling b t -> a = b.
Proof.
  intros Ha Hb Sa Sb. apply spelling_iff in Sa; [|exact Ha]. apply spelling_iff in Sb; [|exact Hb].
  apply symbols_inj; [exact Ha|exact Hb|].
  assert (E : dec8 t = Some (map byte_symbol a)) by (rewrite Sa; apply dec8_enc8s, symbols_scalar, Ha).
  assert (F : dec8 t = Some (map byte_symbol b)) by (rewrite Sb; apply dec8_enc8s, symbols_scalar, Hb).
  congruence.
Qed.

Lemma r_token_to_id_ascii v bs t : Forall (fun b => b < 0x80) bs -> spelling bs t ->
  r_token_to_id v bs = Ok (token_to_id v t).
Proof.
  intros H S. assert (H' : Forall (fun b => b < 256) bs) by (eapply Forall_impl; [|exact H]; intros; simpl in *; lia).
  apply spelling_iff in S; [|exact H'].
  unfold r_token_to_id. rewrite encode_bytes_ascii by exact H. cbn [obind].
  rewrite encode_low by (apply symbols_low; exact H'). rewrite <- S. reflexivity.
Qed.

Lemma decode_utf8 raw cs : utf8 cs raw -> decode_token raw = Ok (map (fun c => N.land c 0xff) cs).
Proof.
  intros U. apply utf8_enc8s in U. destruct U as [S ->]. unfold decode_token, from_utf8.
  rewrite dec8_enc8s by exact S. cbn [option_map]. rewrite codepoints_enc16s by exact S. reflexivity.
Qed.

Lemma decode_spelling bs t : spelling bs t -> decode_token t = Ok (map (fun b => N.land (byte_symbol b) 0xff) bs).
Proof. intros S. rewrite (decode_utf8 _ _ S), map_map. reflexivity. Qed.

Lemma decode_ok raw bs : decode_token raw = Ok bs ->
  exists cs, utf8 cs raw /\ bs = map (fun c => N.land c 0xff) cs.
Proof.
  unfold decode_token, from_utf8. destruct (dec8 raw) as [cs|] eqn:E; [|discriminate]. cbn [option_map].
  destruct (dec8_some _ _ E) as [E1 S]. rewrite codepoints_enc16s by exact S. intros H. exists cs.
  split; [apply utf8_enc8s; auto|congruence].
Qed.

Lemma decoded_back bs : Forall (fun b => b < 256) bs ->
  (map (fun b => N.land (byte_symbol b) 0xff) bs = bs <-> Forall (fun b => printable b \/ b <= 0x20) bs).
Proof.
  induction 1 as [|b bs H _ IH]; [split; [constructor|reflexivity]|]. cbn [map]. split.
  - intros E. injection E as E1 E2. constructor; [apply symbol_land; assumption|tauto].
  - intros F. inversion F; subst. f_equal; [apply symbol_land; assumption|tauto].
Qed.

(** * Cutting at the special tokens *)

Lemma begins_iff k s : begins k s = true <-> prefix k s.
Proof.
  revert s. induction k as [|a k IH]; intros s; simpl.
  - split; [intros; apply prefix_nil|reflexivity].
  - destruct s as [|b s].
    + split; [discriminate|]. intros H. apply prefix_nil_r in H. discriminate.
    + rewrite andb_true_iff, N.eqb_eq, IH. split.
      * intros [-> H]. apply prefix_cons. exact H.
      * intros H. exact (prefix_cons_inv _ _ _ _ H).
Qed.

Lemma find_special sp rest :
  match find (fun k => begins k rest) sp with
  | Some k => In k sp /\ exists r, rest = k ++ r /\ skipn (length k) rest = r
  | None => forall k, In k sp -> ~ prefix k rest
  end.
Proof.
  destruct (find (fun k => begins k rest) sp) as [k|] eqn:E.
  - apply find_some in E. destruct E as [H B]. split; [exact H|].
    apply begins_iff in B. destruct B as [r ->]. exists r. split; [reflexivity|].
    rewrite skipn_app, skipn_all, Nat.sub_diag. reflexivity.
  - intros k H P. pose proof (find_none _ _ E k H) as B. apply begins_iff in P. simpl in B. congruence.
Qed.

Definition no_start (sp : list (list N)) (p rest : list N) : Prop :=
  forall a b k, p = a ++ b -> b <> [] -> In k sp -> ~ prefix k (b ++ rest).

Lemma cut_flush sp tmp rest ps : no_start sp tmp rest -> cut sp rest ps -> ~ ordinary_first ps ->
  cut sp (tmp ++ rest) (flush tmp ++ ps).
Proof.
  intros N C O. destruct tmp as [|c tmp]; [exact C|]. cbn [flush app].
  change (c :: tmp ++ rest) with ((c :: tmp) ++ rest). apply cut_ordinary; auto. discriminate.
Qed.

Lemma split_cut sp : forall fuel tmp rest ps,
  no_start sp tmp rest -> split_specials fuel sp tmp rest = Some ps -> cut sp (tmp ++ rest) ps.
Proof.
  induction fuel as [|fuel IH]; intros tmp rest ps N H.
  - destruct rest; [|discriminate]. cbn [split_specials] in H. injection H as <-.
    rewrite <- (app_nil_r (flush tmp)). apply cut_flush; [exact N|constructor|intros []].
  - destruct rest as [|c rest].
    + cbn [split_specials] in H. injection H as <-.
      rewrite <- (app_nil_r (flush tmp)). apply cut_flush; [exact N|constructor|intros []].
    + cbn [split_specials] in H. pose proof (find_special sp (c :: rest)) as F.
      destruct (find (fun k => begins k (c :: rest)) sp) as [k|] eqn:E.
      * destruct F as (Hk & r & Er & Es). rewrite Es in H.
        destruct (split_specials fuel sp [] r) as [ps'|] eqn:S; [|discriminate]. cbn [option_map] in H. injection H as <-.
        apply cut_flush; [exact N| |intros []]. rewrite Er. apply cut_special; [exact Hk|].
        apply (IH [] r ps'); [|exact S]. intros a b k' Ea Hb. destruct a; [|discriminate]. simpl in Ea. congruence.
      * replace (tmp ++ c :: rest) with ((tmp ++ [c]) ++ rest) by (rewrite <- app_assoc; reflexivity).
        apply IH; [|exact H]. intros a b k Ea Hb Hk P.
        destruct b as [|x b _] using rev_ind; [congruence|]. rewrite app_assoc in Ea.
        apply app_inj_tail in Ea. destruct Ea as [Ea ->].
        rewrite <- app_assoc in P. simpl in P. destruct b as [|y b].
        -- exact (F k Hk P).
        -- apply (N a (y :: b) k Ea); [discriminate|exact Hk|exact P].
Qed.

Lemma cut_concat sp text ps : cut sp text ps -> concat (map snd ps) = text.
Proof. induction 1; simpl; congruence. Qed.

Lemma split_enough sp : Forall (fun k => k <> []) sp -> forall fuel tmp rest, (length rest <= fuel)%nat ->
  exists ps, split_specials fuel sp tmp rest = Some ps.
Proof.
  intros NE. induction fuel as [|fuel IH]; intros tmp rest L.
  - destruct rest; [eexists; reflexivity|simpl in L; lia].
  - destruct rest as [|c rest]; [eexists; reflexivity|]. cbn [split_specials].
    pose proof (find_special sp (c :: rest)) as F.
    destruct (find (fun k => begins k (c :: rest)) sp) as [k|].
    + destruct F as (Hk & r & Er & Es). rewrite Es.
      rewrite Forall_forall in NE. specialize (NE k Hk). destruct k as [|x k]; [congruence|].
      destruct (IH [] r) as [ps ->]; [|eexists; reflexivity].
      apply (f_equal (@length N)) in Er. rewrite app_length in Er. simpl in Er, L. lia.
    + apply IH. simpl in L. lia.
Qed.

(** An empty special string stops the progress. *)
Lemma split_stuck sp c rest : find (fun k => begins k (c :: rest)) sp = Some [] ->
  forall fuel tmp, split_specials fuel sp tmp (c :: rest) = None.
Proof.
  intros F. induction fuel as [|fuel IH]; intros tmp; [reflexivity|].
  cbn [split_specials]. rewrite F. cbn [length skipn]. rewrite IH. reflexivity.
Qed.

Lemma split_length sp : forall fuel tmp rest ps, split_specials fuel sp tmp rest = Some ps ->
  forall fuel', (length rest <= fuel')%nat -> split_specials fuel' sp tmp rest = Some ps.
Proof.
  induction fuel as [|fuel IH]; intros tmp rest ps H fuel' L.
  - destruct rest; [|discriminate]. destruct fuel'; exact H.
  - destruct rest as [|c rest]; [destruct fuel'; exact H|].
    destruct fuel' as [|fuel']; [simpl in L; lia|].
    destruct (find (fun k => begins k (c :: rest)) sp) as [k|] eqn:F.
    + destruct k as [|x k]; [rewrite (split_stuck _ _ _ F) in H; discriminate|].
      pose proof (find_special sp (c :: rest)) as G. rewrite F in G. destruct G as (_ & r & Er & Es).
      cbn [split_specials] in *. rewrite F in *. rewrite Es in *.
      destruct (split_specials fuel sp [] r) as [ps'|] eqn:S; [|discriminate].
      rewrite (IH _ _ _ S fuel'); [exact H|].
      apply (f_equal (@length N)) in Er. rewrite app_length in Er. simpl in Er, L. lia.
    + cbn [split_specials] in *. rewrite F in *. apply IH; [exact H|simpl in L; lia].
Qed.

Lemma app_prefix_cases {A} (a b c d : list A) : a ++ b = c ++ d -> prefix a c \/ prefix c a.
Proof.
  revert c. induction a as [|x a IH]; intros c E; [left; apply prefix_nil|].
  destruct c as [|y c]; [right; apply prefix_nil|]. simpl in E. injection E as -> E.
  destruct (IH c E) as [P|P]; [left|right]; apply prefix_cons; exact P.
Qed.

Lemma cut_fun sp : prefix_free sp -> ~ In [] sp -> forall text ps, cut sp text ps -> forall ps', cut sp text ps' -> ps = ps'.
Proof.
  intros PF NE text ps C. induction C as [|k rest ps Hk C IH|p rest ps Hp HN C IH HO]; intros ps' C'.
  - inversion C' as [|k rest ps Hk C E|p rest ps Hp HN C HO E]; [reflexivity| |].
    + apply app_eq_nil in E. destruct E; subst. contradiction.
    + apply app_eq_nil in E. destruct E; subst. contradiction.
  - inversion C' as [E|k' rest' qs Hk' C1 E Eq|p' rest' qs Hp' HN' C1 HO' E]; subst.
    + symmetry in E. apply app_eq_nil in E. destruct E; subst. contradiction.
    + assert (k' = k) by (destruct (app_prefix_cases _ _ _ _ E) as [P|P]; [|symmetry]; apply PF; assumption).
      subst k'. apply app_inv_head in E. subst rest'. f_equal. apply IH. exact C1.
    + exfalso. apply (HN' [] p' k eq_refl Hp' Hk). rewrite E. exists rest; reflexivity.
  - inversion C' as [E|k' rest' qs Hk' C1 E Eq|p' rest' qs Hp' HN' C1 HO' E]; subst.
    + symmetry in E. apply app_eq_nil in E. destruct E; subst. contradiction.
    + exfalso. apply (HN [] p k' eq_refl Hp Hk'). rewrite <- E. exists rest'; reflexivity.
    + assert (X : forall p1 r1 ps1 p2 r2, p1 ++ r1 = p2 ++ r2 -> prefix p1 p2 ->
                no_start sp p2 r2 -> cut sp r1 ps1 -> ~ ordinary_first ps1 -> p1 = p2).
      { clear. intros p1 r1 ps1 p2 r2 E [d ->] N C O. destruct d as [|c d]; [rewrite app_nil_r; reflexivity|].
        rewrite <- app_assoc in E. apply app_inv_head in E. subst r1. exfalso.
        inversion C as [|k rest ps Hk C1 E|p rest ps Hp HN C1 HO E]; subst.
        - apply (N p1 (c :: d) k eq_refl); [discriminate|exact Hk|]. exists rest. symmetry. exact E.
        - apply O. exact I. }
      assert (p' = p).
      { destruct (app_prefix_cases _ _ _ _ E) as [P|P].
        - apply (X p' rest' qs p rest); auto.
        - symmetry. apply (X p rest ps p' rest'); auto. }
      subst p'. apply app_inv_head in E. subst rest'. f_equal. apply IH. exact C1.
Qed.

Lemma cut_permutation sp sp' text ps : (forall k, In k sp <-> In k sp') -> cut sp text ps -> cut sp' text ps.
Proof.
  intros P C. induction C as [|k rest ps Hk C IH|p rest ps Hp HN C IH HO].
  - constructor.
  - apply cut_special; [apply P; exact Hk|exact IH].
  - apply cut_ordinary; auto. intros a b k Ea Hb Hk. apply (HN a b k Ea Hb). apply P; exact Hk.
Qed.

(** * The special ids *)

Definition seven_bit (t : list N) : Prop := Forall (fun c => 0x21 <= c <= 0x7e) t.

Lemma seven_bit_ascii t : seven_bit t -> Forall (fun c => c < 0x80) t.
Proof. intros H. eapply Forall_impl; [|exact H]. intros c Hc. cbv beta in Hc. lia. Qed.

Lemma seven_bit_symbol c : 0x21 <= c <= 0x7e -> byte_symbol c = c.
Proof.
  intros H. unfold byte_symbol, printable_b.
  replace ((0x21 <=? c) && (c <=? 0x7e)) with true by lia. reflexivity.
Qed.

Lemma seven_bit_symbols t : seven_bit t -> map byte_symbol t = t.
Proof. induction 1 as [|c t H _ IH]; [reflexivity|]. cbn [map]. rewrite IH, seven_bit_symbol by exact H. reflexivity. Qed.

Lemma seven_bit_spelling t : seven_bit t -> spelling t t.
Proof.
  intros H. apply spelling_iff.
  - eapply Forall_impl; [|exact H]. intros c Hc. cbv beta in Hc. lia.
  - rewrite seven_bit_symbols, enc8s_ascii; auto using seven_bit_ascii.
Qed.

Lemma r_find_seven_bit v t : seven_bit t -> r_find v t = token_to_id v t.
Proof.
  intros H. unfold r_find. rewrite (r_token_to_id_ascii v t t); auto using seven_bit_ascii, seven_bit_spelling.
Qed.

Lemma decode_seven_bit t : seven_bit t -> decode_token t = Ok t.
Proof.
  intros H. rewrite (decode_spelling t t) by (apply seven_bit_spelling; exact H). f_equal.
  apply decoded_back.
  - eapply Forall_impl; [|exact H]. intros c Hc. cbv beta in Hc. lia.
  - eapply Forall_impl; [|exact H]. intros c Hc. cbv beta in Hc. left. left. lia.
Qed.

Lemma get_token_id_ext g f1 f2 k alts : (forall t, In t alts -> f1 t = f2 t) ->
  get_token_id g f1 k alts = get_token_id g f2 k alts.
Proof.
  intros H. assert (E : try_alternates f1 alts = try_alternates f2 alts).
  { induction alts as [|a alts IH]; [reflexivity|]. cbn [try_alternates].
    rewrite (H a (or_introl eq_refl)), IH by (intros; apply H; right; assumption). reflexivity. }
  unfold get_token_id. rewrite E. reflexivity.
Qed.

Definition roberta_keys := [K_bos; K_eos; K_cls; K_mask; K_pad; K_sep; K_unk].
Definition roberta_spelling (k : key) : list N :=
  match k with
  | K_bos | K_cls => u "<s>"
  | K_eos | K_sep => u "</s>"
  | K_mask => u "<mask>"
  | K_pad => u "<pad>"
  | K_unk => u "<unk>"
  | _ => []
  end.
Definition roberta_special (s : rspecial) (k : key) : N :=
  match k with
  | K_bos => r_bos s | K_eos => r_eos s | K_cls => r_cls s | K_mask => r_mask s
  | K_pad => r_pad s | K_sep => r_sep s | K_unk => r_unk s | _ => INVALID
  end.
(** The key that supplies an id when the first one has none. *)
Definition roberta_fallback (k : key) : key :=
  match k with K_bos => K_cls | K_cls => K_bos | K_eos => K_sep | K_sep => K_eos | _ => k end.

Lemma roberta_specials_spec g v ts : voc_ok v ts -> N.of_nat (length ts) < 4294967296 ->
  (forall k, In k roberta_keys -> typed_u32 g k) ->
  let src k := special_id (stored g k) ts [roberta_spelling k] in
  match roberta_specials g (r_find v) with
  | Ok s => forall k, In k roberta_keys -> or_else (src k) (src (roberta_fallback k)) (roberta_special s k)
  | Fail => exists k, In k roberta_keys /\ forall n, ~ or_else (src k) (src (roberta_fallback k)) n
  | _ => False
  end.
Proof.
  intros V B T src. destruct (voc_find v ts V B) as [F1 F2].
  assert (G : forall k, In k roberta_keys ->
            exists i, get_token_id g (r_find v) k [roberta_spelling k] = Ok i /\
              ((i <> INVALID /\ src k i) \/ (i = INVALID /\ forall j, ~ src k j))).
  { intros k Hk. rewrite (get_token_id_ext g (r_find v) (token_to_id v)).
    - apply (get_token_id_ok g (token_to_id v) ts F1 F2 k _ (T k Hk)).
    - intros t [<-|[]]. apply r_find_seven_bit.
      unfold roberta_keys in Hk. simpl in Hk.
      repeat (destruct Hk as [<-|Hk]; [unfold seven_bit, roberta_spelling; cbn [u]; repeat constructor; vm_compute; congruence|]).
      destruct Hk. }
  unfold roberta_specials.
  destruct (G K_bos) as (i1 & E1 & C1); [simpl; tauto|].
  destruct (G K_eos) as (i2 & E2 & C2); [simpl; tauto|].
  destruct (G K_cls) as (i3 & E3 & C3); [simpl; tauto|].
  destruct (G K_mask) as (i4 & E4 & C4); [simpl; tauto|].
  destruct (G K_pad) as (i5 & E5 & C5); [simpl; tauto|].
  destruct (G K_sep) as (i6 & E6 & C6); [simpl; tauto|].
  destruct (G K_unk) as (i7 & E7 & C7); [simpl; tauto|].
  change [s_s] with [roberta_spelling K_bos] at 1. rewrite E1. cbn [obind].
  change [s_es] with [roberta_spelling K_eos] at 1. rewrite E2. cbn [obind].
  change [s_s] with [roberta_spelling K_cls]. rewrite E3. cbn [obind].
  change [s_mask] with [roberta_spelling K_mask]. rewrite E4. cbn [obind].
  change [s_pad] with [roberta_spelling K_pad]. rewrite E5. cbn [obind].
  change [s_es] with [roberta_spelling K_sep]. rewrite E6. cbn [obind].
  change [s_unk] with [roberta_spelling K_unk]. rewrite E7. cbn [obind].
  clear E1 E2 E3 E4 E5 E6 E7. cbv zeta.
  assert (OE : forall R1 R2 n, (forall m, ~ R1 m) -> (forall m, ~ R2 m) -> ~ or_else R1 R2 n).
  { unfold or_else. intros R1 R2 n A1 A2 [H|[_ H]]; [exact (A1 _ H)|exact (A2 _ H)]. }
  destruct C4 as [[N4 D4]|[-> D4]];
    [|rewrite N.eqb_refl, !orb_true_r; exists K_mask; split; [simpl; tauto|intros n; apply OE; assumption]].
  destruct C5 as [[N5 D5]|[-> D5]];
    [|rewrite N.eqb_refl, !orb_true_r; exists K_pad; split; [simpl; tauto|intros n; apply OE; assumption]].
  destruct C7 as [[N7 D7]|[-> D7]];
    [|rewrite N.eqb_refl, !orb_true_r; exists K_unk; split; [simpl; tauto|intros n; apply OE; assumption]].
  apply N.eqb_neq in N4, N5, N7. rewrite N4, N5, N7, !orb_false_r.
  assert (K : forall i1 i2 i3 i6,
    or_else (src K_bos) (src K_cls) i1 -> or_else (src K_eos) (src K_sep) i2 ->
    or_else (src K_cls) (src K_bos) i3 -> or_else (src K_sep) (src K_eos) i6 ->
    forall k, In k roberta_keys -> or_else (src k) (src (roberta_fallback k))
      (roberta_special (mkrs i1 i2 i3 i4 i5 i6 i7) k)).
  { intros j1 j2 j3 j6 H1 H2 H3 H6 k Hk. unfold roberta_keys in Hk. simpl in Hk.
    destruct Hk as [<-|[<-|[<-|[<-|[<-|[<-|[<-|[]]]]]]]]; cbn; try assumption; left; assumption. }
  destruct C1 as [[N1 D1]|[-> D1]]; destruct C3 as [[N3 D3]|[-> D3]];
    repeat match goal with H : _ <> INVALID |- _ => apply N.eqb_neq in H end;
    rewrite ?N.eqb_refl, ?N1, ?N3; rewrite ?N1, ?N3; cbn [orb].
  4: { exists K_bos. split; [simpl; tauto|]. intros n. apply OE; assumption. }
  all: destruct C2 as [[N2 D2]|[-> D2]]; destruct C6 as [[N6 D6]|[-> D6]];
    repeat match goal with H : _ <> INVALID |- _ => apply N.eqb_neq in H end;
    rewrite ?N.eqb_refl, ?N2, ?N6; rewrite ?N2, ?N6, ?N.eqb_refl; cbn [orb];
    try (exists K_eos; split; [simpl; tauto|]; intros n; apply OE; assumption);
    apply K; unfold or_else; tauto.
Qed.

(** * Loading *)

Lemma dec8_all ts cps : all_some (map dec8 ts) = Some cps -> Forall2 utf8 cps ts.
Proof.
  revert cps. induction ts as [|t ts IH]; intros cps H; cbn [map all_some] in H.
  - injection H as <-. constructor.
  - destruct (dec8 t) as [c|] eqn:E; [|discriminate].
    destruct (all_some (map dec8 ts)) as [cs|]; [|discriminate]. injection H as <-.
    constructor; [|apply IH; reflexivity]. destruct (dec8_some _ _ E) as [E1 S]. apply utf8_enc8s; auto.
Qed.

Lemma dec8_all_back ts cps : Forall2 utf8 cps ts -> all_some (map dec8 ts) = Some cps.
Proof.
  induction 1 as [|c t cps ts U _ IH]; [reflexivity|]. cbn [map all_some].
  apply utf8_enc8s in U. destruct U as [S ->]. rewrite dec8_enc8s by exact S. rewrite IH. reflexivity.
Qed.

Lemma utf8_fun1 c t t' : utf8 c t -> utf8 c t' -> t = t'.
Proof. intros A B. apply utf8_enc8s in A, B. destruct A, B. congruence. Qed.
Lemma utf8_fun2 c c' t : utf8 c t -> utf8 c' t -> c = c'.
Proof.
  intros A B. apply utf8_enc8s in A, B. destruct A as [A1 A2], B as [B1 B2].
  apply (f_equal dec8) in A2, B2. rewrite dec8_enc8s in A2, B2 by assumption. congruence.
Qed.

Lemma cps_nodup cps ts : Forall2 utf8 cps ts -> NoDup ts -> NoDup cps.
Proof.
  induction 1 as [|c t cps ts U F IH]; intros ND; [constructor|]. inversion ND; subst. constructor; [|auto].
  intros Hc. assert (In t ts); [|contradiction]. clear -Hc F U.
  induction F as [|c' t' cps ts U' F IH]; [contradiction|]. destruct Hc as [<-|Hc]; [left|right; auto].
  exact (utf8_fun1 _ _ _ U' U).
Qed.

Lemma combine_fst {A B} : forall (l : list A) (r : list B), length l = length r -> map fst (combine l r) = l.
Proof. induction l as [|a l IH]; intros [|b r] H; simpl in *; try discriminate; [reflexivity|]. f_equal. apply IH. lia. Qed.
Lemma combine_snd {A B} : forall (l : list A) (r : list B), length l = length r -> map snd (combine l r) = r.
Proof. induction l as [|a l IH]; intros [|b r] H; simpl in *; try discriminate; [reflexivity|]. f_equal. apply IH. lia. Qed.

(** What a loaded model is. *)
Record loaded (g : gguf) (ts : list (list N)) (rv : rvocab) : Prop := mkloaded {
  ld_voc : voc_ok (rv_voc rv) ts;
  ld_utf8 : exists cps, Forall2 utf8 cps ts;
  ld_sp : roberta_specials g (r_find (rv_voc rv)) = Ok (rv_sp rv);
  ld_bpe : exists unk vs ms, NoDup (map fst vs) /\ NoDup (map snd vs) /\
    load_vocab (Bpe_load_proofs.fresh unk DZero true [] []) vs ms = (true, rv_bpe rv) /\
    forall c, In c (map fst vs) <-> exists t, utf8 c t /\ In t ts }.

Lemma roberta_loaded order g merges lens data ts rv :
  (forall l, Permutation l (order l)) -> layout lens data ts ->
  roberta_init_vocab order g (Some (mkt 1 T_I8 lens)) (Some (mkt 1 T_I8 data)) merges = Ok rv ->
  loaded g ts rv.
Proof.
  intros HO LY H. unfold roberta_init_vocab in H.
  destruct (read_vocab _ _) as [v| | |] eqn:R; try discriminate. cbn [obind] in H.
  destruct (read_vocab_ok lens data v (layout_bytes _ _ _ LY) R) as (ts' & LY' & V).
  rewrite (layout_fun _ _ _ LY _ LY') in V. clear ts' LY'.
  unfold roberta_vocab_init in H.
  destruct (roberta_specials g (r_find v)) as [sp| | |] eqn:ES; try discriminate. cbn [obind] in H.
  destruct (r_id_to_token v (r_unk sp)) as [unk| | |] eqn:EU; try discriminate. cbn [obind] in H.
  destruct (dec8 unk) as [unk'|]; [|discriminate].
  unfold bpe_words in H. assert (V' := V). destruct V' as (Ei & ND & _). rewrite Ei in H.
  destruct (all_some (map dec8 ts)) as [cps|] eqn:EC; [|discriminate]. cbn [option_map] in H.
  destruct (read_merges merges) as [ms| | |]; try discriminate. cbn [obind] in H.
  set (words := combine cps (map N.of_nat (seq 0 (length cps)))) in *.
  destruct (load_vocab (bpe_new unk' DZero true) (order words) ms) as [[] b] eqn:EL; [|discriminate].
  injection H as <-. pose proof (dec8_all _ _ EC) as F.
  assert (L : length cps = length (map N.of_nat (seq 0 (length cps)))) by (rewrite map_length, seq_length; reflexivity).
  assert (P1 : Permutation cps (map fst (order words))).
  { rewrite <- (combine_fst cps (map N.of_nat (seq 0 (length cps))) L) at 1. apply Permutation_map. apply HO. }
  constructor; cbn [rv_voc rv_sp rv_bpe]; [exact V|exists cps; exact F|exact ES|].
  exists unk', (order words), ms. repeat split; [| |exact EL| |].
  - eapply Permutation_NoDup; [exact P1|]. eapply cps_nodup; eauto.
  - eapply Permutation_NoDup; [apply Permutation_map; apply HO|]. unfold words. rewrite combine_snd by exact L.
    apply Injective_map_NoDup; [|apply seq_NoDup]. intros x y E. apply Nat2N.inj; exact E.
  - intros Hc. apply (Permutation_in _ (Permutation_sym P1)) in Hc. clear -F Hc.
    induction F as [|c' t cps ts U F IH]; [contradiction|]. destruct Hc as [->|Hc].
    + exists t; split; [exact U|left; reflexivity].
    + destruct (IH Hc) as (t' & U' & H'). exists t'; split; [exact U'|right; exact H'].
  - intros (t & U & Ht). apply (Permutation_in _ P1). clear -F U Ht.
    induction F as [|c' t' cps ts U' F IH]; [contradiction|]. destruct Ht as [->|Ht].
    + left. exact (utf8_fun2 _ _ _ U' U).
    + right. auto.
Qed.

Lemma dropout_kept unk d fuse vs ms b : NoDup (map fst vs) -> NoDup (map snd vs) ->
  load_vocab (Bpe_load_proofs.fresh unk d fuse [] []) vs ms = (true, b) -> b_dropout b = d.
Proof.
  intros N1 N2 H. destruct (load_fresh_table unk [] [] d fuse vs ms N1 N2 b H) as (_ & _ & _ & _ & E & _). exact E.
Qed.

(** * The pieces of an ordinary part *)

Definition bmp (c : N) : Prop := c < 0xd800 \/ 0xe000 <= c < 0x10000.

Lemma bmp_scalar s : Forall bmp s -> Forall scalar_value s.
Proof. intros H. eapply Forall_impl; [|exact H]. unfold bmp, scalar_value. intros; lia. Qed.

Lemma bmp_enc16s s : Forall bmp s -> enc16s s = s.
Proof.
  intros H. assert (U : utf16 s s).
  { induction H as [|c s Hc _ IH]; [constructor|]. unfold bmp in Hc. apply utf16_bmp; [unfold scalar_value; lia|lia|exact IH]. }
  apply utf16_enc16s in U. destruct U as [_ U]. congruence.
Qed.

Lemma bmp_encode s : Forall bmp s -> encode s = enc8s s.
Proof.
  intros H. unfold encode. rewrite <- (bmp_enc16s s H) at 1.
  rewrite dec16_enc16s by (apply bmp_scalar; exact H). reflexivity.
Qed.

Section Pieces.
  Variable pick : picker.
  Hypothesis HP : removes_maximal Bpe_model.entry_lt pick.
  Variable b : bpe.
  Hypothesis HD : b_dropout b = DZero.

  Definition always (_ : nat) := true.
  Definition csound (cache : cache_t) : Prop := forall t r, lookup list_N_eqb t cache = Some r ->
    tokenize b pick (S (4 * length t)) always t = Some (Ok r).

  Lemma cached_piece cache t : csound cache -> exists r cache',
    tokenize b pick (S (4 * length t)) always t = Some (Ok r) /\
    tokenize_cached b pick (S (4 * length t)) always cache t = Some (Ok (r, cache')) /\ csound cache'.
  Proof.
    intros HS. destruct t as [|c t]; [exists [], cache; repeat split; exact HS|].
    set (w := c :: t) in *.
    assert (HD' : b_dropout b <> DPos) by congruence.
    destruct (merge_word_linear b pick always w (S (4 * length w)) HP HD' (Nat.lt_succ_diag_r _)) as (syms & E).
    assert (T : tokenize b pick (S (4 * length w)) always w = Some (Ok (word_to_tokens b syms))).
    { unfold tokenize. subst w. rewrite E. reflexivity. }
    unfold tokenize_cached. subst w. rewrite HD.
    destruct (lookup list_N_eqb (c :: t) cache) as [r|] eqn:L.
    - exists r, cache. repeat split; [apply HS; exact L|exact HS].
    - rewrite E. exists (word_to_tokens b syms). eexists. split; [exact T|]. split; [reflexivity|].
      unfold emplace. rewrite L. intros t' r' H. cbn [lookup] in H.
      destruct (list_N_eqb t' (c :: t)) eqn:Q; [|apply HS; exact H].
      apply list_N_eqb_eq in Q. subst t'. injection H as <-. exact T.
  Qed.

  (** A word and the strings the encoder produces for its bytes. *)
  Definition encoded (s : list N) (r : list ustring) : Prop :=
    tokenize b pick (S (4 * length s)) always (map byte_symbol s) = Some (Ok r).

  Lemma bpe_pieces_ascii ss : Forall (Forall (fun c => c < 0x80)) ss -> forall cache, csound cache ->
    exists rs cache', bpe_pieces pick b cache ss = Ok (concat rs, cache') /\ csound cache' /\ Forall2 encoded ss rs.
  Proof.
    induction 1 as [|s ss H _ IH]; intros cache HS; [exists [], cache; repeat split; [exact HS|constructor]|].
    cbn [bpe_pieces].
    assert (E : encode s = s).
    { rewrite encode_low; [apply enc8s_ascii; exact H|]. eapply Forall_impl; [|exact H]. intros; simpl in *; lia. }
    rewrite E, encode_bytes_ascii by exact H. cbn [obind].
    destruct (cached_piece cache (map byte_symbol s) HS) as (r & cache1 & T & C & HS1).
    unfold always in C. rewrite C. cbn [obind].
    destruct (IH cache1 HS1) as (rs & cache2 & Q & HS2 & F). rewrite Q. cbn [obind].
    exists (r :: rs), cache2. repeat split; [exact HS2|]. constructor; [|exact F].
    unfold encoded. rewrite map_length in T. exact T.
  Qed.

  (** A character from U+0080 on makes it undefined. *)
  Lemma bpe_pieces_ub ss : Forall (Forall bmp) ss ->
    ~ Forall (Forall (fun c => c < 0x80)) ss -> forall cache, csound cache -> bpe_pieces pick b cache ss = UB.
  Proof.
    induction 1 as [|s ss H _ IH]; intros HN cache HS; [destruct HN; constructor|]. cbn [bpe_pieces].
    destruct (ascii_dec s) as [A|A].
    - assert (E : encode s = s) by (rewrite bmp_encode by exact H; apply enc8s_ascii; exact A).
      rewrite E, encode_bytes_ascii by exact A. cbn [obind].
      destruct (cached_piece cache (map byte_symbol s) HS) as (r & cache1 & T & C & HS1).
      unfold always in C. rewrite C. cbn [obind]. rewrite IH; [reflexivity| |exact HS1].
      intros F. apply HN. constructor; assumption.
    - rewrite encode_bytes_ub; [reflexivity|]. rewrite bmp_encode by exact H. intros F. apply A.
      pose proof (dec8_ascii _ F) as D. rewrite dec8_enc8s in D by (apply bmp_scalar; exact H).
      injection D as D. rewrite D. exact F.
  Qed.
End Pieces.

(** * Ordinary parts without loss *)

Lemma Forall_concat {A} (P : A -> Prop) ls : Forall P (concat ls) -> Forall (Forall P) ls.
Proof.
  induction ls as [|l ls IH]; simpl; intros H; constructor; apply Forall_app in H; [tauto|]. apply IH; tauto.
Qed.

Lemma pieces_singles : forall t, Forall (fun p => exists c, p = [c] /\ In c t) (pieces [] [] t).
Proof.
  assert (R : forall t, Forall (fun p => exists c, p = [c] /\ In c t) (rest_pieces [] [] t)).
  { induction t as [|c t IH]; [constructor|]. destruct t as [|d t].
    - constructor; [|constructor]. exists c. split; [reflexivity|left; reflexivity].
    - change (rest_pieces [] [] (c :: d :: t)) with ([c] :: rest_pieces [] [] (d :: t)).
      constructor; [exists c; split; [reflexivity|left; reflexivity]|].
      eapply Forall_impl; [|exact IH]. intros p (x & E & H). exists x. split; [exact E|right; exact H]. }
  intros [|c [|d t]]; [constructor| |].
  - constructor; [|constructor]. exists c. split; [reflexivity|left; reflexivity].
  - change (pieces [] [] (c :: d :: t)) with ([c] :: rest_pieces [] [] (d :: t)).
    constructor; [exists c; split; [reflexivity|left; reflexivity]|].
    eapply Forall_impl; [|exact (R (d :: t))]. intros p (x & E & H). exists x. split; [exact E|right; exact H].
Qed.

Lemma glue_nil ts : glue [] ts = concat ts.
Proof.
  destruct ts as [|t ts]; [reflexivity|]. unfold glue. cbn [concat]. f_equal.
Qed.

Section Lossless.
  Variable pick : picker.
  Hypothesis HP : removes_maximal Bpe_model.entry_lt pick.
  Variables (g : gguf) (ts : list (list N)) (rv : rvocab).
  Hypothesis LD : loaded g ts rv.
  Hypothesis BD : N.of_nat (length ts) < 4294967296.

  Definition known (b : N) : Prop := exists t, spelling [b] t /\ In t ts.

  Lemma encoded_lossless s r : Forall known s -> encoded pick (rv_bpe rv) s r ->
    concat r = map byte_symbol s /\ Forall (fun t => exists raw, utf8 t raw /\ In raw ts) r.
  Proof.
    intros K E. destruct (ld_bpe _ _ _ LD) as (unk & vs & ms & N1 & N2 & L & W).
    destruct s as [|c s].
    { cbn in E. injection E as <-. split; [reflexivity|constructor]. }
    unfold encoded in E.
    destruct (loaded_lossless unk [] [] DZero true vs ms (rv_bpe rv) N1 N2 L pick always
                (map byte_symbol (c :: s)) (S (4 * length (c :: s))) (Ok r) HP) as (r' & E' & G & F).
    - discriminate.
    - eapply Forall_impl; [|apply pieces_singles]. intros p (x & -> & Hx).
      apply in_map_iff in Hx. destruct Hx as (y & <- & Hy).
      rewrite Forall_forall in K. destruct (K y Hy) as (t & S & Ht). apply W. exists t. split; [exact S|exact Ht].
    - exact E.
    - injection E' as <-. rewrite glue_nil, app_nil_r in G. split; [exact G|].
      eapply Forall_impl; [|exact F]. intros t Ht. apply W. exact Ht.
  Qed.

  (** Ids and the bytes they decode to. *)
  Definition decodes (ids : list N) (bss : list (list N)) : Prop :=
    Forall2 (fun id bs => r_id_to_token (rv_voc rv) id = Ok bs) ids bss.

  Lemma entry_decode n t : entry ts n t -> r_id_to_token (rv_voc rv) n = decode_token t.
  Proof.
    intros H. unfold r_id_to_token. rewrite (voc_i2t _ ts n (ld_voc _ _ _ LD)). unfold entry in H. rewrite H. reflexivity.
  Qed.

  Lemma ids_of_known r : Forall (fun t => exists raw, utf8 t raw /\ In raw ts) r ->
    exists ids, ids_of (rv_voc rv) r = Ok ids /\ decodes ids (map (map (fun c => N.land c 0xff)) r).
  Proof.
    destruct (voc_find _ ts (ld_voc _ _ _ LD) BD) as [F1 _].
    induction 1 as [|t r (raw & U & Hr) _ IH]; [exists []; split; [reflexivity|constructor]|].
    destruct IH as (ids & E & D). destruct (in_entry ts raw Hr) as [n Hn]. destruct (F1 n raw Hn) as [T V].
    assert (raw = enc8s t) by (apply utf8_enc8s in U; tauto). subst raw.
    cbn [ids_of]. rewrite T. apply N.eqb_neq in V. rewrite V, E. cbn [obind].
    exists (n :: ids). split; [reflexivity|]. cbn [map]. constructor; [|exact D].
    rewrite (entry_decode n _ Hn). apply decode_utf8. exact U.
  Qed.

  Lemma words_lossless ss rs : Forall known (concat ss) -> Forall (fun c => c <= 0x7e) (concat ss) ->
    Forall2 (encoded pick (rv_bpe rv)) ss rs ->
    exists ids bss, ids_of (rv_voc rv) (concat rs) = Ok ids /\ decodes ids bss /\ concat bss = concat ss.
  Proof.
    intros K A F.
    assert (Q : concat (concat rs) = map byte_symbol (concat ss) /\
                Forall (fun t => exists raw, utf8 t raw /\ In raw ts) (concat rs)).
    { clear A. induction F as [|s r ss rs E F IH]; [split; [reflexivity|constructor]|].
      cbn [concat] in K. apply Forall_app in K. destruct K as [K1 K2]. destruct (IH K2) as [E1 E2].
      destruct (encoded_lossless s r K1 E) as [E3 E4].
      cbn [concat]. rewrite concat_app, map_app, E1, E3. split; [reflexivity|]. apply Forall_app; auto. }
    destruct Q as [Q1 Q2]. destruct (ids_of_known (concat rs) Q2) as (ids & E & D).
    exists ids, (map (map (fun c => N.land c 0xff)) (concat rs)). split; [exact E|]. split; [exact D|].
    rewrite <- concat_map, Q1, map_map. apply decoded_back.
    - eapply Forall_impl; [|exact A]. intros c Hc. cbv beta in Hc. lia.
    - eapply Forall_impl; [|exact A]. intros c Hc. cbv beta in Hc. unfold printable. lia.
  Qed.
End Lossless.

(** * The loop over the parts *)

(** The regular expression engine reports matches in order. *)
Definition engine_ok (engine : list N -> list (option (nat * nat))) : Prop :=
  forall s, exists ms, engine s = map Some ms /\ ordered 0 (length s) ms.

Lemma engine_pieces engine s : engine_ok engine -> concat (fst (regex_split s (engine s))) = s.
Proof.
  intros H. destruct (H s) as (ms & -> & O). destruct (split_loop_spec s ms 0 O) as (ps & E & C & _).
  unfold regex_split. rewrite E. exact C.
Qed.

Definition ascii (s : list N) : Prop := Forall (fun c => c < 0x80) s.

Lemma strip_ascii ws (q : bool) p : ascii p ->
  exists kept run, (if q then rstrip ws p else Some p) = Some kept /\ p = kept ++ run /\
    (q = true -> maximal_trailing_run ws p kept run) /\ (q = false -> kept = p).
Proof.
  intros A. destruct q; [|exists p, []; rewrite app_nil_r; repeat split; auto; discriminate].
  assert (S : Forall scalar_value p) by (eapply Forall_impl; [|exact A]; intros c Hc; cbv beta in Hc; left; lia).
  destruct (rstrip_run ws p S) as (kept & run & M & E).
  rewrite enc16s_ascii in E by exact A.
  assert (p = kept ++ run) by apply M.
  assert (A' : ascii kept) by (unfold ascii in A; rewrite H in A; apply Forall_app in A; tauto).
  rewrite enc16s_ascii in E by exact A'. exists kept, run. repeat split; auto; try discriminate; apply M.
Qed.

Lemma before_mask_iff (mask : list N) (parts : list (bool * list N)) :
  match parts with (true, p) :: _ => list_N_eqb p mask | _ => false end = true <->
  exists ps, parts = (true, mask) :: ps.
Proof.
  destruct parts as [|[[] p] ps]; [split; [discriminate|intros (x & E); discriminate]| |split; [discriminate|intros (x & E); discriminate]].
  rewrite list_N_eqb_eq. split; [intros ->; eexists; reflexivity|intros (x & E); congruence].
Qed.

Section Parts.
  Variable engine : list N -> list (option (nat * nat)).
  Hypothesis HE : engine_ok engine.
  Variable ws : N -> bool.
  Variable pick : picker.
  Hypothesis HP : removes_maximal Bpe_model.entry_lt pick.
  Variables (g : gguf) (ts : list (list N)) (rv : rvocab).
  Hypothesis LD : loaded g ts rv.
  Hypothesis BD : N.of_nat (length ts) < 4294967296.

  Lemma rv_dropout : b_dropout (rv_bpe rv) = DZero.
  Proof.
    destruct (ld_bpe _ _ _ LD) as (unk & vs & ms & N1 & N2 & L & _). eapply dropout_kept; eauto.
  Qed.

  Lemma do_parts_defined mask : forall parts cache, Forall (fun p => ascii (snd p)) parts ->
    csound pick (rv_bpe rv) cache ->
    (exists ids, do_parts engine ws pick rv mask cache parts = Ok ids) \/
    do_parts engine ws pick rv mask cache parts = Fail.
  Proof.
    induction parts as [|[sp p] parts IH]; intros cache A HS; [left; eexists; reflexivity|].
    inversion A as [|x y A1 A2]; subst. cbn [snd] in A1. cbn [do_parts].
    set (q := match parts with (true, p0) :: _ => list_N_eqb p0 mask | _ => false end).
    rewrite from_utf8_ascii by exact A1.
    destruct (strip_ascii ws q p A1) as (kept & run & E & Ep & _). rewrite E.
    destruct sp.
    - destruct (token_to_id (rv_voc rv) p =? INVALID); [right; reflexivity|].
      destruct (IH cache A2 HS) as [[ids ->]| ->]; [left; eexists; reflexivity|right; reflexivity].
    - assert (AK : Forall ascii (fst (regex_split kept (engine kept)))).
      { apply Forall_concat. rewrite engine_pieces by exact HE.
        unfold ascii in A1. rewrite Ep in A1. apply Forall_app in A1. tauto. }
      destruct (bpe_pieces_ascii pick HP (rv_bpe rv) rv_dropout _ AK cache HS) as (rs & cache' & Q & HS' & F).
      rewrite Q. cbn [obind].
      assert (I : (exists ids, ids_of (rv_voc rv) (concat rs) = Ok ids) \/ ids_of (rv_voc rv) (concat rs) = Fail).
      { clear. induction (concat rs) as [|t l IH]; [left; eexists; reflexivity|]. cbn [ids_of].
        destruct (token_to_id (rv_voc rv) (enc8s t) =? INVALID); [right; reflexivity|].
        destruct IH as [[ids ->]| ->]; [left; eexists; reflexivity|right; reflexivity]. }
      destruct I as [[ids ->]| ->]; [|right; reflexivity]. cbn [obind].
      destruct (IH cache' A2 HS') as [[ids2 ->]| ->]; [left; eexists; reflexivity|right; reflexivity].
  Qed.

  (** One ordinary part with a character from U+0080 on. *)
  Lemma do_parts_ub mask cs cache : Forall bmp cs -> ~ Forall (fun c => c < 0x80) cs ->
    csound pick (rv_bpe rv) cache ->
    do_parts engine ws pick rv mask cache [(false, enc8s cs)] = UB.
  Proof.
    intros H N HS. cbn [do_parts]. unfold from_utf8. rewrite dec8_enc8s by (apply bmp_scalar; exact H).
    cbn [option_map]. rewrite bmp_enc16s by exact H.
    rewrite (bpe_pieces_ub pick HP (rv_bpe rv) rv_dropout); [reflexivity| | |exact HS].
    - apply Forall_concat. rewrite engine_pieces by exact HE. exact H.
    - intros F. apply N. rewrite <- (engine_pieces engine cs HE).
      clear -F. induction F as [|l ls Hl _ IH]; [constructor|]. cbn [concat]. apply Forall_app. auto.
  Qed.

  (** Parts that can be encoded without loss. *)
  Definition good_part (p : bool * list N) : Prop :=
    if fst p then seven_bit (snd p) /\ In (snd p) ts
    else Forall (known ts) (snd p) /\ Forall (fun c => c <= 0x7e) (snd p).

  Lemma do_parts_lossless mask : forall parts cache, Forall good_part parts -> csound pick (rv_bpe rv) cache ->
    exists ids bss, do_parts engine ws pick rv mask cache parts = Ok ids /\ decodes rv ids bss /\
      rendered ws mask parts (concat bss).
  Proof.
    destruct (voc_find _ ts (ld_voc _ _ _ LD) BD) as [F1 _].
    induction parts as [|[sp p] parts IH]; intros cache A HS.
    { exists [], []. split; [reflexivity|]. split; constructor. }
    inversion A as [|x y A1 A2]; subst. unfold good_part in A1. cbn [fst snd] in A1. cbn [do_parts].
    set (q := match parts with (true, p0) :: _ => list_N_eqb p0 mask | _ => false end).
    assert (AS : ascii p).
    { destruct sp; [apply seven_bit_ascii; tauto|].
      destruct A1 as [_ A1]. eapply Forall_impl; [|exact A1]. intros c Hc. cbv beta in Hc. lia. }
    rewrite from_utf8_ascii by exact AS.
    destruct (strip_ascii ws q p AS) as (kept & run & E & Ep & M1 & M2). rewrite E.
    destruct sp.
    - destruct A1 as [B1 B2]. destruct (in_entry ts p B2) as [n Hn]. destruct (F1 n p Hn) as [T V].
      rewrite T. apply N.eqb_neq in V. rewrite V.
      destruct (IH cache A2 HS) as (ids & bss & Q & D & R). rewrite Q. cbn [obind].
      exists (n :: ids), (p :: bss). split; [reflexivity|]. split.
      + constructor; [|exact D]. rewrite (entry_decode g ts rv LD n p Hn). apply decode_seven_bit. exact B1.
      + apply ren_special. exact R.
    - destruct A1 as [K L]. rewrite Ep in K, L. apply Forall_app in K, L.
      assert (AK : Forall ascii (fst (regex_split kept (engine kept)))).
      { apply Forall_concat. rewrite engine_pieces by exact HE.
        unfold ascii in AS. rewrite Ep in AS. apply Forall_app in AS. tauto. }
      destruct (bpe_pieces_ascii pick HP (rv_bpe rv) rv_dropout _ AK cache HS) as (rs & cache' & Q & HS' & F).
      rewrite Q. cbn [obind].
      destruct (words_lossless pick HP g ts rv LD BD (fst (regex_split kept (engine kept))) rs) as (ids & bss & I & D & C);
        [rewrite engine_pieces by exact HE; tauto|rewrite engine_pieces by exact HE; tauto|exact F|].
      rewrite I. cbn [obind]. rewrite engine_pieces in C by exact HE.
      destruct (IH cache' A2 HS') as (ids2 & bss2 & Q2 & D2 & R2). rewrite Q2. cbn [obind].
      exists (ids ++ ids2), (bss ++ bss2). split; [reflexivity|]. split; [apply Forall2_app; assumption|].
      rewrite concat_app, C. destruct q eqn:Eq.
      + apply before_mask_iff in Eq. destruct Eq as [ps ->]. eapply ren_before_mask; eauto.
      + rewrite (M2 eq_refl). apply ren_plain; [|exact R2]. intros ps ->. unfold q in Eq.
        rewrite list_N_eqb_refl in Eq. discriminate.
  Qed.

  Lemma special_tokens_ok : exists keep, special_tokens rv = Ok keep /\
    Forall2 (fun k t => r_id_to_token (rv_voc rv) (roberta_special (rv_sp rv) k) = Ok t) roberta_keys keep.
  Proof.
    assert (R : forall id, exists t, r_id_to_token (rv_voc rv) id = Ok t).
    { intros id. unfold r_id_to_token. rewrite (voc_i2t _ ts id (ld_voc _ _ _ LD)).
      destruct (nth_error ts (N.to_nat id)) as [t|] eqn:E; [|exists []; reflexivity].
      destruct (ld_utf8 _ _ _ LD) as (cps & F). apply nth_error_In in E. clear -F E.
      induction F as [|c t' cps ts U F IH]; [contradiction|]. destruct E as [->|E]; [|auto].
      eexists. apply decode_utf8. exact U. }
    unfold special_tokens.
    destruct (R (r_bos (rv_sp rv))) as [t1 E1]. destruct (R (r_eos (rv_sp rv))) as [t2 E2].
    destruct (R (r_cls (rv_sp rv))) as [t3 E3]. destruct (R (r_mask (rv_sp rv))) as [t4 E4].
    destruct (R (r_pad (rv_sp rv))) as [t5 E5]. destruct (R (r_sep (rv_sp rv))) as [t6 E6].
    destruct (R (r_unk (rv_sp rv))) as [t7 E7].
    rewrite E1. cbn [obind]. rewrite E2. cbn [obind]. rewrite E3. cbn [obind]. rewrite E4. cbn [obind].
    rewrite E5. cbn [obind]. rewrite E6. cbn [obind]. rewrite E7. cbn [obind].
    exists [t1; t2; t3; t4; t5; t6; t7]. split; [reflexivity|]. unfold roberta_keys. repeat constructor; assumption.
  Qed.
End Parts.

Lemma no_occurrence_cut sp text ps : text <> [] -> (forall k a b, In k sp -> text <> a ++ k ++ b) ->
  cut sp text ps -> ps = [(false, text)].
Proof.
  intros NE NO C. inversion C as [E|k rest ps' Hk C1 E|p rest ps' Hp HN C1 HO E]; subst.
  - congruence.
  - exfalso. apply (NO k [] rest Hk). reflexivity.
  - inversion C1 as [E|k rest' ps2 Hk C2 E|p2 rest' ps2 Hp2 HN2 C2 HO2 E]; subst.
    + rewrite app_nil_r. reflexivity.
    + exfalso. apply (NO k p rest' Hk). reflexivity.
    + exfalso. apply HO. exact I.
Qed.

Lemma rendered_no_mask ws mask ps t : rendered ws mask ps t -> ~ In (true, mask) ps -> t = concat (map snd ps).
Proof.
  induction 1 as [|k ps t R IH|p kept run ps t R IH M|p ps t HN R IH]; intros NI; cbn [map snd concat].
  - reflexivity.
  - rewrite IH; [reflexivity|]. intros H. apply NI. right; exact H.
  - exfalso. apply NI. right; left; reflexivity.
  - rewrite IH; [reflexivity|]. intros H. apply NI. right; exact H.
Qed.

Lemma cut_parts sp text ps : cut sp text ps -> forall s, In s ps ->
  (exists a b, text = a ++ snd s ++ b) /\ (fst s = true -> In (snd s) sp).
Proof.
  induction 1 as [|k rest ps Hk C IH|p rest ps Hp HN C IH HO]; intros s Hs; [contradiction| |].
  - destruct Hs as [<-|Hs]; [split; [exists [], rest; reflexivity|auto]|].
    destruct (IH s Hs) as [(a & b & ->) Q]. split; [|exact Q]. exists (k ++ a), b. rewrite <- app_assoc. reflexivity.
  - destruct Hs as [<-|Hs]; [split; [exists [], rest; reflexivity|discriminate]|].
    destruct (IH s Hs) as [(a & b & ->) Q]. split; [|exact Q]. exists (p ++ a), b. rewrite <- app_assoc. reflexivity.
Qed.

(** * Merges *)

Lemma pairs_of_triples l : pairs_of (triples l) = map fst l.
Proof.
  unfold triples. induction l as [|[[a b] r] l IH]; [reflexivity|]. cbn [flat_map app pairs_of map fst].
  rewrite IH. reflexivity.
Qed.

Lemma triples_length l : length (triples l) = (3 * length l)%nat.
Proof. induction l as [|[[a b] r] l IH]; [reflexivity|]. unfold triples in *. cbn [flat_map app length]. rewrite IH. lia. Qed.

Lemma triples_of l : (length l mod 3 = 0)%nat -> exists t, l = triples t.
Proof.
  assert (H : forall n l, (length l <= n)%nat -> (length l mod 3 = 0)%nat -> exists t, l = triples t).
  { induction n as [|n IH]; intros l' L M; [destruct l'; [exists []; reflexivity|simpl in L; lia]|].
    destruct l' as [|a [|b [|c l']]]; [exists []; reflexivity|discriminate|discriminate|].
    destruct (IH l') as [t ->]; [simpl in L; lia| |exists ((a, b, c) :: t); reflexivity].
    cbn [length] in M. replace (S (S (S (length l')))) with (length l' + 1 * 3)%nat in M by lia.
    rewrite Nat.mod_add in M by lia. exact M. }
  intros M. exact (H (length l) l (le_n _) M).
Qed.

Lemma read_merges_triples l : read_merges (Some (mkt 1 T_I32 (triples l))) = Ok (map fst l).
Proof.
  unfold read_merges. cbn [t_dims t_type t_data]. rewrite N.eqb_refl. cbn [negb].
  rewrite triples_length, Nat.mul_comm, Nat.mod_mul by lia. cbn [Nat.eqb]. rewrite pairs_of_triples. reflexivity.
Qed.

Lemma write_merges_spec vocab : forall merges l, write_merges vocab merges = Some l ->
  exists tr, l = triples tr /\ map snd tr = map snd merges /\
    Forall2 (fun m p => lookup list_N_eqb (fst (fst m)) vocab = Some (fst (fst p)) /\
                        lookup list_N_eqb (snd (fst m)) vocab = Some (snd (fst p))) merges tr.
Proof.
  induction merges as [|[[t0 t1] r] merges IH]; intros l H; cbn [write_merges] in H.
  - injection H as <-. exists []. repeat split; constructor.
  - destruct (lookup list_N_eqb t0 vocab) as [i0|] eqn:E0; [|discriminate].
    destruct (lookup list_N_eqb t1 vocab) as [i1|] eqn:E1; [|discriminate].
    destruct (_ && _ && _); [|discriminate].
    destruct (write_merges vocab merges) as [l'|]; [|discriminate]. cbn [option_map] in H. injection H as <-.
    destruct (IH l' eq_refl) as (tr & -> & S & F). exists ((i0, i1, r) :: tr).
    split; [reflexivity|]. split; [cbn [map snd]; rewrite S; reflexivity|]. constructor; [|exact F]. split; assumption.
Qed.

Lemma write_merges_total vocab merges :
  (exists l, write_merges vocab merges = Some l) <->
  Forall (fun m => snd m < 0x80000000 /\
    (exists i, lookup list_N_eqb (fst (fst m)) vocab = Some i /\ i < 0x80000000) /\
    (exists i, lookup list_N_eqb (snd (fst m)) vocab = Some i /\ i < 0x80000000)) merges.
Proof.
  induction merges as [|[[t0 t1] r] merges IH]; cbn [write_merges].
  - split; [constructor|eexists; reflexivity].
  - split.
    + intros [l H]. destruct (lookup list_N_eqb t0 vocab) as [i0|] eqn:E0; [|discriminate].
      destruct (lookup list_N_eqb t1 vocab) as [i1|] eqn:E1; [|discriminate].
      destruct (_ && _ && _) eqn:B; [|discriminate].
      apply andb_prop in B. destruct B as [B1 B3]. apply andb_prop in B1. destruct B1 as [B1 B2].
      apply N.ltb_lt in B1, B2, B3. constructor.
      * cbn [fst snd]. repeat split; [exact B3|exists i0; split; assumption|exists i1; split; assumption].
      * apply IH. destruct (write_merges vocab merges) as [l'|]; [eexists; reflexivity|discriminate].
    + intros F. inversion F as [|x y F1 F2]; subst. cbn [fst snd] in F1.
      destruct F1 as (B3 & (i0 & E0 & B1) & (i1 & E1 & B2)). rewrite E0, E1.
      apply N.ltb_lt in B1, B2, B3. rewrite B1, B2, B3. cbn [andb].
      apply IH in F2. destruct F2 as [l ->]. eexists; reflexivity.
Qed.
