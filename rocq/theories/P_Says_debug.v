(** Theorems about the messages of level DEBUG when a file is loaded or quantized. *)
From Verif Require Import Base Bert_model Vocab_model Bpe_model Roberta_model Loader_model Log_model.
From Verif Require Import Says_model Says_eval_model Says_load_model Quantize_model Says_quantize_model Tool_model Tool_text_model Says_debug_model.
From Verif Require Import Log_spec Loader_spec Says_spec Quantize_spec Tool_spec.
From Verif Require Import P_Log Says_proofs Says_eval_proofs Loader_proofs P_Says_vocab Says_load_proofs Quantize_proofs Says_quantize_proofs Tool_proofs P_Tool_text Says_debug_proofs.
From Verif Require Ggml_model P_Quantize P_Loader P_Eval.
Local Open Scope N_scope.

(** ** Specification *)

(** The lines about the settings, from number [i] on. *)
Fixpoint key_lines (i : nat) (keys : list (list N)) : list N :=
  match keys with
  | [] => []
  | k :: rest => Says_load_spec.line (u "  key " ++ decimal (N.of_nat i) ++ u ": " ++ k) ++ key_lines (S i) rest
  end.

(** The lines about the tensors [ds] of [f], from number [i] on.  Dimensions and size are those of
    the first tensor of the name. *)
Inductive dumped (L : Ggml_model.lib) (f : file) : nat -> list tinfo -> list N -> Prop :=
| dumped_none i : dumped L f i [] []
| dumped_one i d ds t m rest :
    first_named (ti_name d) (f_tensors f) t -> nbytes t <= m * Ggml_model.mem_align L < nbytes t + Ggml_model.mem_align L ->
    dumped L f (S i) ds rest ->
    dumped L f i (d :: ds)
      (concat (map Says_load_spec.line
         [u "  tensor " ++ decimal (N.of_nat i); u "    name: " ++ ti_name d ++ u " (" ++ ti_name d ++ u ")";
          u "    n_dims: " ++ decimal (ti_dims t); u "    size: " ++ decimal (nbytes t);
          u "    padded_size: " ++ decimal (m * Ggml_model.mem_align L); u "    offset: " ++ decimal (ti_offset d)]) ++ rest).

(** ** Proofs *)

(** From INFO on a run with further messages of level DEBUG has the same log. *)
Lemma calls_filter l b tr : (1 <= l)%Z -> Forall says tr -> calls (mkls l b) tr = calls (mkls l b) (filter no_debug tr).
Proof.
  intros Hl H. induction H as [|c tr Hc _ IH]; [reflexivity|].
  assert (K : forall st o, call (mkls l b) c = Ok (st, o) -> st = mkls l b).
  { destruct c as [x|x|s m|s m]; try contradiction; cbn [call]; intros st o; [destruct (plain _ _ _)|destruct (formatted _ _ _)]; cbn [obind]; congruence. }
  destruct (no_debug c) eqn:E; cbn [filter]; rewrite E.
  - cbn [calls]. destruct (call (mkls l b) c) as [[st o]| | |] eqn:C; try reflexivity. cbn [obind fst snd]. rewrite (K st o eq_refl), IH. reflexivity.
  - rewrite <- IH. cbn [calls]. destruct c as [x|x|[] m|[] m]; try discriminate; cbn [call]; unfold formatted, plain, is_logging; cbn [guard rank lvl];
      replace (l <=? 0)%Z with false by lia; cbn [obind fst snd]; destruct (calls (mkls l b) tr) as [[st o]| | |]; reflexivity.
Qed.
Lemma debug_same {A} (full part : outcome (A * list log_call)) l b : with_debug full part -> (1 <= l)%Z ->
  logged (mkls l b) full = logged (mkls l b) part.
Proof.
  intros W Hl. destruct full as [[a tr]| | |]; cbn [with_debug] in W; [|rewrite W; reflexivity..].
  destruct W as (S & tr' & -> & F).
  assert (S' : Forall says tr').
  { apply says_filter. rewrite F. apply Forall_forall. intros c Hc. apply filter_In in Hc as (Hc & _). exact (proj1 (Forall_forall _ _) S c Hc). }
  unfold logged. cbn [obind fst snd]. rewrite (calls_filter l b tr Hl S), (calls_filter l b tr' Hl S'), F. reflexivity.
Qed.

Lemma escaped_both a c b p : c <> 37 -> escaped (a ++ c :: b) p -> (exists q, escaped a q) /\ exists q, escaped (c :: b) q.
Proof.
  intros Hc H. remember (a ++ c :: b) as m eqn:E. revert a E.
  induction H as [|m o H IH|x m o Hx H IH]; intros a E.
  - destruct a; discriminate.
  - destruct a as [|x [|y a]].
    + injection E as E _. congruence.
    + injection E as _ E _. congruence.
    + injection E as <- <- E. destruct (IH a E) as ((p' & K) & K'). split; [exists (37 :: p'); constructor; exact K|exact K'].
  - destruct a as [|y a].
    + cbn [app] in E. injection E as <- <-. split; [exists []; constructor|]. exists (x :: o). constructor; assumption.
    + injection E as <- E. destruct (IH a E) as ((p' & K) & K'). split; [exists (x :: p'); constructor; assumption|exact K'].
Qed.
Lemma printable_pair a c b : c <> 37 -> ~ In 0 a -> (printable_text (a ++ c :: b) <-> printable_text a /\ printable_text (c :: b)).
Proof.
  intros Hc H0.
  assert (X : forall m, printable_text m <-> exists p, escaped (c_str m) p).
  { intros m. split.
    - intros (t & p & K & E). apply cut_fun in K. subst t. exists p. exact E.
    - intros (p & E). exists (c_str m), p. split; [apply cut_c_str|exact E]. }
  assert (N0 : existsb (N.eqb 0) a = false).
  { destruct (existsb (N.eqb 0) a) eqn:E; [|reflexivity]. apply existsb_exists in E as (z & Hz & E). apply N.eqb_eq in E. subst z. contradiction. }
  rewrite !X, c_str_app, N0, (c_str_no_nul a N0). cbn [c_str]. destruct (c =? 0) eqn:C0.
  - rewrite app_nil_r. split; [|tauto]. intros H. split; [exact H|]. exists []. constructor.
  - split.
    + intros (p & K). destruct (escaped_both _ _ _ _ Hc K) as (A & B). split; assumption.
    + intros ((p & K) & (q & K')). exists (p ++ q). apply escaped_join; assumption.
Qed.

Ltac plain_text := split; vm_compute; intuition discriminate.

Lemma counted_pad L t : lib_ok L -> exists m, Ggml_model.pad_to (Ggml_model.mem_align L) (nbytes t) = m * Ggml_model.mem_align L /\
  nbytes t <= m * Ggml_model.mem_align L < nbytes t + Ggml_model.mem_align L.
Proof.
  intros [HA _]. unfold Ggml_model.pad_to. set (a := Ggml_model.mem_align L) in *. set (n := nbytes t).
  exists ((n + (a - 1)) / a). split; [lia|].
  pose proof (N.div_mod (n + (a - 1)) a ltac:(lia)) as D. pose proof (N.mod_lt (n + (a - 1)) a ltac:(lia)) as M.
  rewrite (N.mul_comm _ a). lia.
Qed.

Section Debug.
Context (L : Ggml_model.lib) (junk : nat -> N) {V : Type} (value : gty -> list N -> nat -> V).
Context (order : list (ustring * N) -> list (ustring * N)).
Context (path : list N) (text : skey -> list N) (double : N -> list N) (keys : list (list N)) (addr : context -> N).
Local Notation full := (load_full L junk value order path text double keys addr).
Local Notation part := (load_logged L junk value order path text double (N.of_nat (length keys))).

(** The messages of level DEBUG that show texts of the file. *)
Definition reading_line (i : nat) (t : tinfo) : log_call := Formatted Debug (u "  load " ++ number i ++ u " " ++ ti_name t).
Definition named (f : file) (c : log_call) : Prop :=
  tame c \/ (is_context c = true /\ harmless (snd (message_of c))) \/ (exists i k, In k keys /\ c = key_debug i k) \/
  exists i t, In t (f_tensors f) /\ (c = tensor_debug L (f_tensors f) i t \/ c = reading_line i t).

Lemma numbered_filter {A} (g : nat -> A -> log_call) : (forall i x, no_debug (g i x) = false) -> forall l i, filter no_debug (numbered g i l) = [].
Proof. intros H. induction l as [|x l IH]; intros i; [reflexivity|]. cbn [numbered filter]. rewrite H. apply IH. Qed.
Lemma numbered_forall {A} (P : log_call -> Prop) (g : nat -> A -> log_call) l : (forall i x, In x l -> P (g i x)) -> forall i, Forall P (numbered g i l).
Proof. induction l as [|x l IH]; intros H i; [constructor|]. cbn [numbered]. constructor; [apply H; left; reflexivity|]. apply IH. intros. apply H. right. assumption. Qed.
Lemma numbered_in {A} (g : nat -> A -> log_call) l x : In x l -> forall i, exists j, In (g j x) (numbered g i l).
Proof.
  induction l as [|y l IH]; intros H i; [contradiction|]. cbn [numbered]. destruct H as [->|H]; [exists i; left; reflexivity|].
  destruct (IH H (S i)) as (j & K). exists j. right. exact K.
Qed.
Lemma reading_filter f : forall ts i b, filter no_debug (reading_says junk f i b ts) = [].
Proof.
  induction ts as [|t ts IH]; intros i b; [reflexivity|]. cbn [reading_says filter no_debug]. destruct b; [reflexivity|].
  destruct (get_tensor ti_name (f_tensors f) (ti_name t)); [apply IH|reflexivity].
Qed.
Lemma reading_named f : forall ts i b, incl ts (f_tensors f) -> Forall (named f) (reading_says junk f i b ts).
Proof.
  induction ts as [|t ts IH]; intros i b H; [constructor|]. cbn [reading_says]. constructor.
  - right. right. right. exists i, t. split; [apply H; left; reflexivity|right; reflexivity].
  - destruct b; [constructor|]. destruct (get_tensor ti_name (f_tensors f) (ti_name t)); [|constructor]. apply IH. intros x Hx. apply H. right. exact Hx.
Qed.

Lemma reading_context f : forall ts i b, filter is_context (reading_says junk f i b ts) = [].
Proof.
  induction ts as [|t ts IH]; intros i b; [reflexivity|]. cbn [reading_says filter]. destruct b; [reflexivity|].
  destruct (get_tensor ti_name (f_tensors f) (ti_name t)); [apply IH|reflexivity].
Qed.
Lemma numbered_context {A} (g : nat -> A -> log_call) : (forall i x, is_context (g i x) = false) -> forall l i, filter is_context (numbered g i l) = [].
Proof. intros H. induction l as [|x l IH]; intros i; [reflexivity|]. cbn [numbered filter]. rewrite H. apply IH. Qed.

Lemma hex_text kind n : harmless kind -> harmless (kind ++ u "_init @ " ++ hex16 n) /\ harmless (kind ++ u "_free @ " ++ hex16 n).
Proof. intros H. split; (apply harmless_app; [exact H|]); (apply harmless_app; [plain_text|apply hex16_harmless]). Qed.

(** C211: the contexts that a load disposes of when it returns *)
Definition disposed (r : load_result (V := V)) : list (list N * context) :=
  match r with
  | Null false => [(u "ggml", Pool); (u "gguf", Source); (u "ggml", Meta)]
  | _ => [(u "ggml", Meta)]
  end.
Definition about_contexts (r : load_result (V := V)) : list log_call :=
  [ctx_init addr (u "gguf") Source; ctx_init addr (u "ggml") Pool] ++ map (fun c => ctx_free addr (fst c) (snd c)) (disposed r).

(** The run with the messages of level DEBUG: everything about it. *)
Record shape (f : file) (r : load_result (V := V)) (tr : list log_call) (tr' : list log_call) : Prop := {
  sh_filter : filter no_debug tr' = filter no_debug tr;
  sh_named : Forall (named f) tr;
  sh_keys : forall k, In k keys -> exists i, In (key_debug i k) tr;
  sh_tensors : forall t, In t (f_tensors f) -> exists i, In (tensor_debug L (f_tensors f) i t) tr;
  sh_parts : exists pre post, tr = pre ++ numbered key_debug 0 keys ++ numbered (tensor_debug L (f_tensors f)) 0 (f_tensors f) ++ post;
  sh_context : filter is_context tr = about_contexts r;
  sh_size : exists size, ctx_size L (f_tensors f) (f_tensors f) = Ok size
}.

Lemma tame_named f tr : Forall tame tr -> Forall (named f) tr.
Proof. intros H. eapply Forall_impl; [|exact H]. intros c Hc. left. exact Hc. Qed.

Lemma load_shape f reopen :
  match full (Some f) reopen with
  | Ok (r, tr) => exists tr', part (Some f) reopen = Ok (r, tr') /\ shape f r tr tr'
  | Fail => part (Some f) reopen = Fail
  | UB => part (Some f) reopen = UB
  | Abort => part (Some f) reopen = Abort
  end.
Proof.
  cbn [load_full load_logged]. destruct (read_metadata f); try reflexivity. cbn [obind].
  destruct (ctx_size L (f_tensors f) (f_tensors f)) as [size| | |] eqn:Z; try reflexivity. cbn [obind]. cbv zeta.
  set (A := [Formatted Info (u "loading model: " ++ path)]). set (M := metadata_says text (N.of_nat (length keys)) f).
  set (KS := numbered key_debug 0 keys). set (TS := numbered (tensor_debug L (f_tensors f)) 0 (f_tensors f)).
  assert (FK : filter no_debug KS = []) by (apply numbered_filter; reflexivity).
  assert (FT : filter no_debug TS = []).
  { apply numbered_filter. intros i x. unfold tensor_debug. destruct (get_tensor _ _ _); reflexivity. }
  assert (CK : filter is_context KS = []) by (apply numbered_context; reflexivity).
  assert (CT : filter is_context TS = []).
  { apply numbered_context. intros i x. unfold tensor_debug. destruct (get_tensor _ _ _); reflexivity. }
  assert (T1 : forall kind c, harmless kind -> is_context (ctx_init addr kind c) = true -> named f (ctx_init addr kind c))
    by (intros kind c H C; right; left; split; [exact C|apply hex_text, H]).
  assert (T2 : forall kind c, harmless kind -> is_context (ctx_free addr kind c) = true -> named f (ctx_free addr kind c))
    by (intros kind c H C; right; left; split; [exact C|apply hex_text, H]).
  assert (HG : harmless (u "ggml")) by plain_text. assert (HU : harmless (u "gguf")) by plain_text.
  assert (NS : Forall (named f) (A ++ [ctx_init addr (u "gguf") Source] ++ M ++ KS ++ TS ++ [size_says size] ++ [ctx_init addr (u "ggml") Pool])).
  { repeat (apply Forall_app; split).
    - apply tame_named. repeat constructor.
    - constructor; [apply T1; [exact HU|reflexivity]|constructor].
    - apply tame_named. repeat constructor.
    - apply numbered_forall. intros i x Hx. right. right. left. exists i, x. auto.
    - apply numbered_forall. intros i x Hx. right. right. right. exists i, x. auto.
    - apply tame_named. repeat constructor.
    - constructor; [apply T1; [exact HG|reflexivity]|constructor]. }
  assert (MK : forall r c c' e, filter no_debug c' = filter no_debug c -> Forall (named f) c -> filter no_debug e = [] -> Forall (named f) e ->
    filter is_context c = [] -> e = map (fun x => ctx_free addr (fst x) (snd x)) (disposed r) ->
    shape f r ((A ++ [ctx_init addr (u "gguf") Source] ++ M ++ KS ++ TS ++ [size_says size] ++ [ctx_init addr (u "ggml") Pool]) ++ c ++ e)
      ((A ++ M ++ [size_says size]) ++ c')).
  { intros r c c' e F N' FE NE FC EC. constructor.
    - rewrite !filter_app, FK, FT, FE, F. cbn [filter no_debug ctx_init app]. rewrite !app_nil_r, <- !app_assoc. reflexivity.
    - apply Forall_app; split; [exact NS|]. apply Forall_app; split; [exact N'|exact NE].
    - intros k Hk. destruct (numbered_in key_debug keys k Hk 0) as (i & K). exists i. apply in_or_app. left.
      apply in_or_app. right. apply in_or_app. right. apply in_or_app. right. apply in_or_app. left. exact K.
    - intros t Ht. destruct (numbered_in (tensor_debug L (f_tensors f)) (f_tensors f) t Ht 0) as (i & K). exists i. apply in_or_app. left.
      apply in_or_app. right. apply in_or_app. right. apply in_or_app. right. apply in_or_app. right. apply in_or_app. left. exact K.
    - exists (A ++ [ctx_init addr (u "gguf") Source] ++ M), (([size_says size] ++ [ctx_init addr (u "ggml") Pool]) ++ c ++ e).
      fold KS TS. rewrite <- !app_assoc. reflexivity.
    - unfold about_contexts. rewrite <- EC, !filter_app, FC, CK, CT. replace (filter is_context e) with e; [reflexivity|].
      rewrite EC. destruct r as [m|[|]]; reflexivity.
    - exists size. exact Z. }
  assert (E3 : Forall (named f) [ctx_free addr (u "ggml") Pool; ctx_free addr (u "gguf") Source; ctx_free addr (u "ggml") Meta]).
  { repeat (apply Forall_cons; [apply T2; [assumption|reflexivity]|]). apply Forall_nil. }
  assert (E1 : Forall (named f) [ctx_free addr (u "ggml") Meta]) by (apply Forall_cons; [apply T2; [assumption|reflexivity]|apply Forall_nil]).
  destruct (negb reopen).
  { eexists. split; [reflexivity|]. apply MK; try reflexivity; [|exact E3]. apply tame_named. repeat constructor. }
  set (R := reading_says junk f 0 false (f_tensors f)).
  assert (FR : filter no_debug R = []) by apply reading_filter.
  assert (CR : filter is_context R = []) by apply reading_context.
  assert (NR : Forall (named f) R) by (apply reading_named; intros x Hx; exact Hx).
  destruct (read_tensors L junk f size 0 false (f_tensors f)) as [ts| | |]; try reflexivity.
  2: { eexists. split; [reflexivity|]. apply MK; try reflexivity; [|apply Forall_app; split; [exact NR|apply tame_named; repeat constructor]|exact E3|rewrite filter_app, CR; reflexivity].
       rewrite filter_app, FR. reflexivity. }
  destruct (read_settings f) as [s| | |]; try reflexivity. cbn [obind].
  destruct (need_u32 f S_file_type) as [t| | |]; try reflexivity. cbn [obind].
  destruct (ftype t) as [n| | |]; try reflexivity. cbn [obind].
  destruct (negb (se_act s =? 0)).
  { eexists. split; [reflexivity|]. rewrite <- app_assoc. apply MK; try reflexivity; [|repeat (apply Forall_app; split); [exact NR|apply tame_named; repeat constructor..]|exact E3|rewrite !filter_app, CR; reflexivity].
    rewrite !filter_app, FR. reflexivity. }
  destruct (negb ((se_arch s =? 0) || (se_arch s =? 1))).
  { eexists. split; [reflexivity|]. rewrite <- app_assoc. apply MK; try reflexivity; [|repeat (apply Forall_app; split); [exact NR|apply tame_named; repeat constructor..]|exact E3|rewrite !filter_app, CR; reflexivity].
    rewrite !filter_app, FR. reflexivity. }
  pose proof (new_context_adds order value f s ts) as Q.
  destruct (new_context_full value order f s ts) as [[r tr]| | |]; cbn [adds_to] in Q; [|rewrite Q; reflexivity..].
  destruct Q as (tr' & EQ & (F & T)). assert (RT : [ctx_free addr (u "ggml") Meta] = map (fun x => ctx_free addr (fst x) (snd x)) (disposed r)).
  { destruct r as [m|[|]]; try reflexivity. exfalso. revert EQ. unfold new_context_logged. destruct (init_vocab_logged _ _ _ _) as [[[v|] t0]| | |]; cbn [obind fst snd]; try discriminate.
    destruct (weights_init value ts _); discriminate. }
  rewrite EQ. cbn [obind fst snd]. eexists. split; [reflexivity|]. rewrite <- (app_assoc (A ++ M ++ [size_says size])).
  apply MK; try reflexivity; [|apply Forall_app; split; [apply Forall_app; split; [exact NR|apply tame_named; repeat constructor]|apply tame_named; exact T]|exact E1|rewrite !filter_app, CR, (tame_context _ T); reflexivity|exact RT].
  rewrite !filter_app, FR, F. reflexivity.
Qed.

(** ** C208: the messages of level DEBUG add to the log and change nothing else *)

Theorem C208_load : forall file reopen, with_debug (full file reopen) (part file reopen).
Proof.
  intros [f|] reopen.
  - pose proof (load_shape f reopen) as H. destruct (full (Some f) reopen) as [[r tr]| | |]; try exact H.
    destruct H as (tr' & E & S). cbn [with_debug]. split; [|exists tr'; split; [exact E|apply (sh_filter _ _ _ _ S)]].
    apply says_filter. rewrite <- (sh_filter _ _ _ _ S). apply says_load in E. apply Forall_forall. intros c Hc.
    apply filter_In in Hc as (Hc & _). exact (proj1 (Forall_forall _ _) E c Hc).
  - cbn. split; [repeat constructor|]. eexists. split; reflexivity.
Qed.

Theorem C208_load_log : forall l b file reopen, (1 <= l)%Z -> logged (mkls l b) (full file reopen) = logged (mkls l b) (part file reopen).
Proof. intros l b file reopen Hl. apply debug_same; [apply C208_load|exact Hl]. Qed.

(** ** C209: at level DEBUG all names in the file are formats *)

Lemma dump_found meta t : forall todo size, ctx_size L meta todo = Ok size -> In t todo ->
  exists t', get_tensor ti_name meta (ti_name t) = Some t' /\ firstn (MAX_NAME - 1) (ti_name t') = ti_name t.
Proof.
  induction todo as [|x todo IH]; intros size H I; [contradiction|].
  cbn [ctx_size] in H. destruct (get_tensor ti_name meta (ti_name x)) as [t'|] eqn:G; [|discriminate].
  destruct (ctx_size L meta todo) as [s| | |] eqn:E; try discriminate. destruct I as [->|I]; [|exact (IH s eq_refl I)].
  exists t'. split; [exact G|]. apply find_some in G as (_ & G). apply list_N_eqb_eq in G. exact G.
Qed.

Lemma dump_printable f t size i : ctx_size L (f_tensors f) (f_tensors f) = Ok size -> In t (f_tensors f) -> ~ In 0 (ti_name t) ->
  (printable_text (snd (message_of (tensor_debug L (f_tensors f) i t))) <-> printable_text (ti_name t)).
Proof.
  intros HZ Ht H0. destruct (dump_found _ t _ size HZ Ht) as (t' & G & N'). unfold tensor_debug. rewrite G, N'. cbn [message_of snd].
  rewrite (printable_app (u "  tensor ")) by plain_text. rewrite (printable_app (number i)) by apply number_harmless.
  rewrite (printable_app nl) by plain_text. rewrite (printable_app (u "    name: ")) by plain_text.
  change (u " (" ++ ti_name t ++ u ")" ++ nl ++ u "    n_dims: " ++ decimal (ti_dims t') ++ nl ++ u "    size: " ++ decimal (nbytes t') ++ nl
        ++ u "    padded_size: " ++ decimal (Ggml_model.pad_to (Ggml_model.mem_align L) (nbytes t')) ++ nl
        ++ u "    offset: " ++ decimal (ti_offset t))
    with (32 :: u "(" ++ ti_name t ++ 41 :: nl ++ u "    n_dims: " ++ decimal (ti_dims t') ++ nl ++ u "    size: " ++ decimal (nbytes t') ++ nl
        ++ u "    padded_size: " ++ decimal (Ggml_model.pad_to (Ggml_model.mem_align L) (nbytes t')) ++ nl
        ++ u "    offset: " ++ decimal (ti_offset t)).
  rewrite printable_pair; [|discriminate|exact H0].
  match goal with |- context [32 :: u "(" ++ ?r] => change (32 :: u "(" ++ r) with (u " (" ++ r); rewrite (printable_app (u " (") r) by plain_text end.
  rewrite printable_before; [tauto|].
  match goal with |- harmless (41 :: ?r) => change (41 :: r) with (u ")" ++ r) end.
  repeat first [apply decimal_harmless|apply harmless_app; [first [apply decimal_harmless|plain_text]|]].
Qed.

Theorem C209_load_defined : forall f reopen r tr, full (Some f) reopen = Ok (r, tr) ->
  Forall (fun t => ~ In 0 (ti_name t)) (f_tensors f) ->
  ((exists o, logged (mkls 0 true) (full (Some f) reopen) = Ok (r, o)) <->
   (exists o, logged (mkls 1 true) (full (Some f) reopen) = Ok (r, o)) /\
   Forall printable_text keys /\ Forall (fun t => printable_text (ti_name t)) (f_tensors f)).
Proof.
  intros f reopen r tr E H0. pose proof (C208_load (Some f) reopen) as W. pose proof (load_shape f reopen) as S. rewrite E in W, S |- *.
  destruct S as (tr' & E' & S). destruct W as (Sy & _).
  destruct (sh_size _ _ _ _ S) as (size & HZ). rewrite Forall_forall in H0.
  assert (KP : forall i k, printable_text (snd (message_of (key_debug i k))) <-> printable_text k).
  { intros i k. unfold key_debug. cbn [message_of snd]. rewrite (printable_app (u "  key ")) by plain_text.
    rewrite (printable_app (number i)) by apply number_harmless. rewrite (printable_app (u ": ")) by plain_text. tauto. }
  assert (RP : forall i t, printable_text (snd (message_of (reading_line i t))) <-> printable_text (ti_name t)).
  { intros i t. unfold reading_line. cbn [message_of snd]. rewrite (printable_app (u "  load ")) by plain_text.
    rewrite (printable_app (number i)) by apply number_harmless. rewrite (printable_app (u " ")) by plain_text. tauto. }
  assert (X : forall l, (exists o, logged (mkls l true) (Ok (r, tr)) = Ok (r, o)) <-> Forall (fun x : message => (l <= fst x)%Z -> printable_text (snd x)) (map message_of tr)).
  { intros l. rewrite <- log_exists. split; intros (o & K); exists o; apply (logged_log l r tr o Sy); exact K. }
  rewrite !X. split.
  - intros Q. rewrite Forall_forall in Q. split; [|split]; apply Forall_forall.
    + intros x Hx K. apply Q; [exact Hx|lia].
    + intros k Hk. destruct (sh_keys _ _ _ _ S k Hk) as (i & I). apply (KP i). apply Q; [apply in_map; exact I|cbn; lia].
    + intros t Ht. destruct (sh_tensors _ _ _ _ S t Ht) as (i & I). apply (dump_printable f t size i HZ Ht (H0 t Ht)).
      apply Q; [apply in_map; exact I|]. unfold tensor_debug. destruct (get_tensor _ _ _); cbn; lia.
  - intros (Q & K & T). rewrite Forall_forall in K, T. rewrite Forall_forall in Q. apply Forall_forall. intros x Hx Hl.
    apply in_map_iff in Hx as (c & <- & Hc). pose proof (proj1 (Forall_forall _ _) (sh_named _ _ _ _ S) c Hc) as Nc.
    destruct Nc as [[Nc|(Nc & _)]|[(_ & Nc)|[(i & k & Hk & ->)|(i & t & Ht & [->| ->])]]].
    + destruct c as [y|y|s m|s m].
      * exact (False_ind _ (proj1 (Forall_forall _ _) Sy _ Hc)).
      * exact (False_ind _ (proj1 (Forall_forall _ _) Sy _ Hc)).
      * apply Q; [apply in_map; exact Hc|]. destruct s; try discriminate; cbn; lia.
      * apply Q; [apply in_map; exact Hc|]. destruct s; try discriminate; cbn; lia.
    + destruct (harmless_cut _ Nc) as (C & P). exists (snd (message_of c)), (snd (message_of c)). auto.
    + destruct (harmless_cut _ Nc) as (C & P). exists (snd (message_of c)), (snd (message_of c)). auto.
    + apply KP, K, Hk.
    + apply (dump_printable f t size i HZ Ht (H0 t Ht)), T, Ht.
    + apply RP, T, Ht.
Qed.


(** ** C211: the contexts of a load *)

(** Loading takes over the contexts of the file and of the tensors.  If it fails before the
    model is made, both are disposed of; otherwise, failed or not, neither is.  The context of
    the metadata is always disposed of. *)
Theorem C211_load : forall f reopen r tr, full (Some f) reopen = Ok (r, tr) ->
  map (fun c => snd (message_of c)) (filter is_context tr) =
  [u "gguf_init @ " ++ hex16 (addr Source); u "ggml_init @ " ++ hex16 (addr Pool)] ++
  match r with
  | Null false => [u "ggml_free @ " ++ hex16 (addr Pool); u "gguf_free @ " ++ hex16 (addr Source); u "ggml_free @ " ++ hex16 (addr Meta)]
  | Null true | Loaded _ => [u "ggml_free @ " ++ hex16 (addr Meta)]
  end.
Proof.
  intros f reopen r tr E. pose proof (load_shape f reopen) as S. rewrite E in S. destruct S as (tr' & _ & S).
  rewrite (sh_context _ _ _ _ S). destruct r as [m|[|]]; reflexivity.
Qed.

(** ** C210: what level DEBUG shows about a file *)

Lemma log_split l a b : forall o, log_of l (a ++ b) o -> exists oa ob, o = oa ++ ob /\ log_of l a oa /\ log_of l b ob.
Proof.
  induction a as [|[r m] a IH]; intros o H; [exists [], o; split; [reflexivity|]; split; [constructor|exact H]|].
  cbn [app] in H. apply log_cons in H as [(Hr & H)|(Hr & t & p & o' & C & E & H & ->)]; destruct (IH _ H) as (oa & ob & -> & A & B).
  - exists oa, ob. split; [reflexivity|]. split; [apply log_skip; assumption|exact B].
  - exists (p ++ [10] ++ oa), ob. split; [rewrite <- !app_assoc; reflexivity|]. split; [eapply log_line; eauto|exact B].
Qed.
Lemma log_harmless l r m ms o : (l <= r)%Z -> harmless m -> log_of l ((r, m) :: ms) o -> exists o', o = Says_load_spec.line m ++ o' /\ log_of l ms o'.
Proof.
  intros Hr Hm H. apply log_cons in H as [(K & _)|(_ & t & p & o' & C & E & H & ->)]; [lia|]. destruct (harmless_cut m Hm) as (C' & E').
  exists o'. split; [|exact H]. unfold Says_load_spec.line. rewrite <- app_assoc. f_equal.
  assert (t = m) as -> by (apply cut_fun in C; apply cut_fun in C'; congruence). apply escaped_fun in E. apply escaped_fun in E'. congruence.
Qed.

Lemma keys_log : forall ks i o, Forall harmless ks -> log_of 0 (map message_of (numbered key_debug i ks)) o -> o = key_lines i ks.
Proof.
  induction ks as [|k ks IH]; intros i o H K; [inversion K; reflexivity|]. inversion H as [|? ? Hk Hks]; subst.
  cbn [numbered map message_of key_debug] in K. apply log_harmless in K as (o' & -> & K); [|cbn; lia|].
  - cbn [key_lines]. rewrite (IH (S i) o' Hks K). reflexivity.
  - apply harmless_app; [plain_text|]. apply harmless_app; [apply number_harmless|]. apply harmless_app; [plain_text|exact Hk].
Qed.

Lemma tensors_log f size : lib_ok L -> ctx_size L (f_tensors f) (f_tensors f) = Ok size ->
  forall ds i o, incl ds (f_tensors f) -> Forall (fun t => harmless (ti_name t)) ds ->
  log_of 0 (map message_of (numbered (tensor_debug L (f_tensors f)) i ds)) o -> dumped L f i ds o.
Proof.
  intros HL HZ. assert (short_names f) as Hs.
  { apply Forall_forall. intros t Ht. destruct (dump_found _ t _ size HZ Ht) as (t' & _ & N'). rewrite <- N'.
    pose proof (firstn_le_length (MAX_NAME - 1) (ti_name t')) as F. unfold MAX_NAME in *. lia. }
  induction ds as [|d ds IH]; intros i o HI H K; [inversion K; constructor|]. inversion H as [|? ? Hd Hds]; subst.
  destruct (dump_found _ d _ size HZ (HI d (or_introl eq_refl))) as (t & G & N').
  assert (FN : first_named (ti_name d) (f_tensors f) t) by (apply find_first; rewrite <- G; symmetry; apply get_first; exact Hs).
  cbn [numbered map] in K. unfold tensor_debug in K at 1. rewrite G, N' in K. cbn [message_of] in K. apply log_harmless in K as (o' & -> & K); [|cbn; lia|].
  - assert (HI' : incl ds (f_tensors f)) by (intros x Hx; apply HI; right; exact Hx). specialize (IH (S i) o' HI' Hds K).
    destruct (counted_pad L t HL) as (m & EP & HB). rewrite EP.
    eapply (dumped_one L f i d ds t m o') in IH; [|exact FN|exact HB].
    match goal with |- dumped L f i (d :: ds) ?x => match type of IH with dumped L f i (d :: ds) ?y => replace x with y; [exact IH|] end end.
    unfold Says_load_spec.line, nl, number. cbn [map concat]. rewrite ?app_nil_r, <- ?app_assoc. reflexivity.
  - repeat first [apply decimal_harmless|exact Hd|apply harmless_app; [first [apply decimal_harmless|apply number_harmless|exact Hd|plain_text]|]].
Qed.

Theorem C210_dump : forall f reopen r o, lib_ok L -> logged (mkls 0 true) (full (Some f) reopen) = Ok (r, o) ->
  Forall harmless keys -> Forall (fun t => harmless (ti_name t)) (f_tensors f) ->
  exists before tensors after, dumped L f 0 (f_tensors f) tensors /\ o = before ++ key_lines 0 keys ++ tensors ++ after.
Proof.
  intros f reopen r o HL H HK HT. pose proof (C208_load (Some f) reopen) as W. pose proof (load_shape f reopen) as S.
  destruct (full (Some f) reopen) as [[r' tr]| | |] eqn:E; try discriminate. destruct S as (tr' & _ & S). destruct W as (Sy & _).
  assert (r = r') as -> by (eapply (proj1 (logged_says (mkls 0 true) r' tr Sy)); eauto).
  apply (logged_log 0 r' tr o Sy) in H. destruct (sh_parts _ _ _ _ S) as (pre & post & ->). destruct (sh_size _ _ _ _ S) as (size & HZ).
  rewrite !map_app in H. apply log_split in H as (o1 & o2 & -> & _ & H). apply log_split in H as (o3 & o4 & -> & H3 & H).
  apply log_split in H as (o5 & o6 & -> & H5 & _). exists o1, o5, o6. split.
  - apply (tensors_log f size HL HZ); [intros x Hx; exact Hx|exact HT|exact H5].
  - rewrite (keys_log keys 0 o3 HK H3). reflexivity.
Qed.

End Debug.
Print Assumptions C208_load.
Print Assumptions C208_load_log.
Print Assumptions C209_load_defined.
Print Assumptions C211_load.
Print Assumptions C210_dump.

(** ** Quantization and its tool *)

Section Quantize.
Context (L : Ggml_model.lib) (junk : nat -> N) {V : Type} (value : gty -> list N -> nat -> V).
Context (order : list (ustring * N) -> list (ustring * N)).
Context (text : skey -> list N) (double : N -> list N) (keys : list (list N)) (addr : context -> N).
Context (chunk : gty -> list N -> nat -> list N) (widen : list N -> list N).
Context (kib mib : N -> list N) (bins : list (list N) -> list N).
Context (file : option file) (reopen opens : bool) (n_kv : N) (kv : list N) (dev : nat -> nat).
Local Notation in_kv := (N.of_nat (length keys)).

(** berts_model_quantize on this machine: the run of the tool *)
Definition convert_full (input output : list N) (qt : gty) : outcome ((bool * option (list N)) * list log_call) :=
  quantize_full L junk value order input text double keys addr chunk widen kib mib bins output file reopen opens n_kv kv dev qt.
Local Notation convert_part input output :=
  (quantize_logged chunk widen kib mib bins L junk value order input output text double in_kv file reopen opens n_kv kv dev).

(** C208 for quantization. *)
Theorem C208_quantize : forall input output qt, with_debug (convert_full input output qt) (convert_part input output qt).
Proof.
  intros input output qt. pose proof (C208_load L junk value order input text double keys addr file reopen) as W.
  assert (X : match convert_full input output qt with
              | Ok (a, tr) => exists tr', convert_part input output qt = Ok (a, tr') /\ filter no_debug tr' = filter no_debug tr
              | Fail => convert_part input output qt = Fail | UB => convert_part input output qt = UB | Abort => convert_part input output qt = Abort
              end).
  { unfold convert_full, quantize_full, quantize_logged. destruct (type_to_str qt); try reflexivity. cbn [obind].
    destruct (load_full L junk value order input text double keys addr file reopen) as [[r tr]| | |]; cbn [with_debug] in W; [|rewrite W; reflexivity..].
    destruct W as (_ & tr' & -> & F). cbn [obind].
    assert (REF : exists tr0, Ok (false, @None (list N), [Plain Info (u "start quantization")] ++ tr' ++ [Formatted Error (u "fail to load model: " ++ input)]) =
        Ok (false, None, tr0) /\ filter no_debug tr0 = filter no_debug ([Plain Info (u "start quantization")] ++ tr ++ [Formatted Error (u "fail to load model: " ++ input)])).
    { eexists. split; [reflexivity|]. rewrite !filter_app, F. reflexivity. }
    destruct r as [m|b]; [|exact REF]. destruct file as [f|]; [|exact REF].
    destruct (ctx_size L _ _) as [size| | |]; try reflexivity. cbn [obind].
    destruct (read_tensors L junk f size 0 false (f_tensors f)) as [ts| | |]; try reflexivity. cbn [obind].
    destruct (quantize_to_logged _ _ _ _ _ _ _ _ _ _ _ _ _) as [[a0 t2]| | |]; try reflexivity. cbn [obind].
    eexists. split; [reflexivity|]. rewrite !filter_app, F. cbn [filter no_debug ctx_init ctx_free app]. rewrite app_nil_r. reflexivity. }
  destruct (convert_full input output qt) as [[a tr]| | |]; try exact X. destruct X as (tr' & E & F). cbn [with_debug].
  split; [|exists tr'; split; [exact E|exact F]]. apply says_filter. rewrite <- F. apply says_run in E.
  apply Forall_forall. intros c Hc. apply filter_In in Hc as (Hc & _). exact (proj1 (Forall_forall _ _) E c Hc).
Qed.

(** C211 for quantization: of the contexts of the input only that of the metadata is disposed
    of, the model before the function returns. *)
Lemma convert_context ts qt : forall names ws c os r tr,
  convert_logged chunk widen kib ts qt names ws c = Ok (os, r, tr) -> filter is_context tr = [].
Proof.
  induction names as [|n names IH]; intros ws c os r tr; cbn [convert_logged].
  { intros E. injection E as _ _ <-. reflexivity. }
  unfold convert_one_logged. destruct (get_tensor st_name ts n) as [s|]; [|discriminate].
  destruct (if is_weight n && (ti_dims (st_info s) =? 2) then _ else _) as [bs|].
  - cbv zeta. destruct (set_tensor_type _ _ _) as [ws1| | |]; try discriminate. cbn [obind]. destruct (set_tensor_data _ _ _) as [ws2| | |]; try discriminate.
    cbn [obind]. destruct (convert_logged chunk widen kib ts qt names _ _) as [[[os' r'] tr']| | |] eqn:E; try discriminate. cbn [obind].
    intros X. assert (Y : report_says kib n (is_weight n && (ti_dims (st_info s) =? 2)) (ti_dims (st_info s)) (nbytes (st_info s)) (N.of_nat (length bs)) :: tr' = tr)
      by exact (f_equal (fun o => match o with Ok p => snd p | _ => [] end) X). rewrite <- Y. cbn [filter]. exact (IH _ _ _ _ _ E).
  - cbn [obind]. intros X. injection X as _ _ <-. reflexivity.
Qed.

Theorem C211_quantize : forall input output qt f m a tr,
  file = Some f -> load_from_file L junk value order file reopen = Ok (Loaded m) -> convert_full input output qt = Ok (a, tr) ->
  map (fun c => snd (message_of c)) (filter is_context tr) =
  [u "gguf_init @ " ++ hex16 (addr Source); u "ggml_init @ " ++ hex16 (addr Pool); u "ggml_free @ " ++ hex16 (addr Meta);
   u "berts_init @ " ++ hex16 (addr Berts); u "gguf_init @ " ++ hex16 (addr Target);
   u "gguf_free @ " ++ hex16 (addr Target); u "berts_free @ " ++ hex16 (addr Berts)].
Proof.
  intros input output qt f m a tr EF EL E. unfold convert_full, quantize_full in E. destruct (type_to_str qt); try discriminate. cbn [obind] in E.
  rewrite EF in E, EL. rewrite <- (load_result_same L junk value order input text double in_kv) in EL.
  pose proof (C208_load L junk value order input text double keys addr (Some f) reopen) as W.
  destruct (load_full L junk value order input text double keys addr (Some f) reopen) as [[r tl]| | |] eqn:EFULL; try discriminate. cbn [with_debug] in W.
  destruct W as (_ & tr' & W & _). rewrite W in EL. cbn in EL. assert (r = Loaded m) as -> by (injection EL as EL; exact EL). cbn [obind] in E.
  pose proof (C211_load L junk value order input text double keys addr f reopen _ _ EFULL) as C. cbn [app] in C.
  destruct (ctx_size L _ _) as [size| | |]; try discriminate. cbn [obind] in E.
  destruct (read_tensors L junk f size 0 false (f_tensors f)) as [ts| | |]; try discriminate. cbn [obind] in E.
  destruct (quantize_to_logged _ _ _ _ _ _ _ _ _ _ _ _ _) as [[a2 t2]| | |] eqn:EQ; try discriminate. cbn [obind] in E.
  assert (X : [Plain Info (u "start quantization")] ++ tl ++ [ctx_init addr (u "berts") Berts; Formatted Info (u "model loaded: " ++ input); ctx_init addr (u "gguf") Target]
    ++ t2 ++ [ctx_free addr (u "gguf") Target; ctx_free addr (u "berts") Berts] = tr) by exact (f_equal (fun o => match o with Ok p => snd p | _ => [] end) E).
  assert (T : filter is_context t2 = []).
  { revert EQ. unfold quantize_to_logged. destruct (negb opens); [intros Q; apply (f_equal (fun o => match o with Ok p => snd p | _ => [] end)) in Q; cbn [snd] in Q; rewrite <- Q; reflexivity|].
    destruct (add_all ts _ []) as [ws| | |]; try discriminate. cbn [obind].
    destruct (convert_logged chunk widen kib ts qt _ ws _) as [[[os r] t3]| | |] eqn:EC; try discriminate. cbn [obind]. apply convert_context in EC.
    destruct r as [[ws' c]|]; intros Q.
    - assert (Y : ([Plain Info (u "converting...")] ++ t3) ++ [Plain Info (u "writing metadata..."); dump_says mib bins c; Plain Info (u "quantization completed")] = t2)
        by exact (f_equal (fun o => match o with Ok p => snd p | _ => [] end) Q). rewrite <- Y, !filter_app, EC. reflexivity.
    - assert (Y : [Plain Info (u "converting...")] ++ t3 = t2) by exact (f_equal (fun o => match o with Ok p => snd p | _ => [] end) Q). rewrite <- Y, filter_app, EC. reflexivity. }
  rewrite <- X, !filter_app, !map_app, T, C. reflexivity.
Qed.

(** C203 for the whole log. *)
Theorem C203_whole_log : forall version bpw exe input type output t,
  Forall (fun c => c < 256) type -> ~ Exists negative_char type -> ~ too_large type -> names_type type t ->
  (exists a, berts_model_quantize chunk widen L junk value order file reopen opens n_kv kv dev t = Ok a) ->
  ~ printable_text input ->
  quant_tool version bpw convert_full [exe; input; type; output] = UB.
Proof.
  intros version bpw exe input type output t Hb Hn Hl NT HA HP.
  apply (C203_path_undefined version bpw chunk widen kib mib bins L junk V value order text double in_kv file reopen opens n_kv kv dev
    convert_full exe input type output t Hb Hn Hl NT); [|exact HA|exact HP]. intros o t'. apply C208_quantize.
Qed.

(** C209 for the tool: it logs at level DEBUG, so one name of a setting or tensor that is no
    format makes it undefined. *)
Theorem C209_quant_undefined : forall version bpw exe input type output t f,
  Forall (fun c => c < 256) type -> ~ Exists negative_char type -> ~ too_large type -> names_type type t ->
  file = Some f -> (exists a, berts_model_quantize chunk widen L junk value order file reopen opens n_kv kv dev t = Ok a) ->
  Forall (fun t => ~ In 0 (ti_name t)) (f_tensors f) ->
  (exists k, In k keys /\ ~ printable_text k) \/ (exists x, In x (f_tensors f) /\ ~ printable_text (ti_name x)) ->
  quant_tool version bpw convert_full [exe; input; type; output] = UB.
Proof.
  intros version bpw exe input type output t f Hb Hn Hl NT EF (a & HA) H0 HP. rewrite (tool_argv _ _ _ _ _ _ _ _ _ Hb Hn Hl NT).
  rewrite <- (run_erase chunk widen kib mib bins L junk value order input output text double in_kv) in HA.
  pose proof (C208_quantize input output t) as W. destruct (convert_full input output t) as [[a' tr]| | |] eqn:E; cbn [with_debug] in W; try (rewrite W in HA; discriminate).
  destruct W as (S & _). destruct (proj2 (logged_says (mkls LOG_ALL true) a' tr S)) as [(log & EL)|EL]; [exfalso|rewrite EL; reflexivity].
  change LOG_ALL with 0%Z in EL. apply (logged_log 0 a' tr log S) in EL. assert (Q := proj1 (log_exists 0 _) (ex_intro _ log EL)). rewrite Forall_forall in Q.
  unfold convert_full, quantize_full in E. destruct (type_to_str t); try discriminate. cbn [obind] in E. rewrite EF in E, HA.
  pose proof (C208_load L junk value order input text double keys addr (Some f) reopen) as W2.
  destruct (load_full L junk value order input text double keys addr (Some f) reopen) as [[r tl]| | |] eqn:EFULL; try discriminate. cbn [obind] in E.
  assert (I : incl tl tr).
  { intros c Hc. destruct r as [m|b].
    - destruct (ctx_size L _ _) as [size| | |]; try discriminate. cbn [obind] in E.
      destruct (read_tensors L junk f size 0 false (f_tensors f)) as [ts| | |]; try discriminate. cbn [obind] in E.
      destruct (quantize_to_logged _ _ _ _ _ _ _ _ _ _ _ _ _) as [[a2 t2]| | |]; try discriminate. cbn [obind] in E.
      injection E as _ <-. right. apply in_or_app. left. exact Hc.
    - injection E as _ <-. right. apply in_or_app. left. exact Hc. }
  destruct W2 as (S2 & _).
  assert (D : exists o, logged (mkls 0 true) (load_full L junk value order input text double keys addr (Some f) reopen) = Ok (r, o)).
  { rewrite EFULL. assert (Q2 : Forall (fun x : message => (0 <= fst x)%Z -> printable_text (snd x)) (map message_of tl)).
    { apply Forall_forall. intros x Hx. apply in_map_iff in Hx as (c & <- & Hc). apply Q, in_map, I, Hc. }
    apply (proj2 (log_exists 0 _)) in Q2 as (o & Q2). exists o. apply (logged_log 0 r tl o S2). exact Q2. }
  apply (C209_load_defined L junk value order input text double keys addr f reopen r tl EFULL H0) in D as (_ & DK & DT).
  rewrite Forall_forall in DK, DT. destruct HP as [(k & Hk & HP)|(x & Hx & HP)]; apply HP; [apply DK, Hk|apply DT, Hx].
Qed.
End Quantize.
Print Assumptions C208_quantize.
Print Assumptions C203_whole_log.
Print Assumptions C211_quantize.
Print Assumptions C209_quant_undefined.

(** The file of P_Loader, with the names of three settings. *)
Definition k_load (keys : list (list N)) (f : file) :=
  load_full P_Eval.lib64 P_Loader.d_junk P_Loader.d_value (fun x => x) (u "m.gguf") (fun _ => []) (fun _ => u "0") keys
    (fun c => match c with Meta => 16 | Source => 32 | Pool => 48 | Berts => 64 | Target => 80 end) (Some f) true.
Definition k_run (keys : list (list N)) (f : file) : list N -> list N -> gty -> outcome ((bool * option (list N)) * list log_call) :=
  convert_full P_Eval.lib64 P_Loader.d_junk P_Loader.d_value (fun x => x) (fun _ => []) (fun _ => u "0") keys
    (fun c => match c with Meta => 16 | Source => 32 | Pool => 48 | Berts => 64 | Target => 80 end)
    P_Quantize.d_chunk P_Quantize.d_widen (fun n => decimal (n / 1024) ++ u ".0") (fun n => u "0.0") (fun _ => [])
    (Some f) true true 1 P_Quantize.d_kv (fun _ => 4000%nat).
Definition k_names : list (list N) := [u "general.architecture"; u "berts.bert.n_layers"; u "x.done%%"].
Definition k_lines (l : Z) (keys : list (list N)) (f : file) := match logged (mkls l true) (k_load keys f) with Ok (_, o) => Some o | _ => None end.

Example C208_example :
  option_map (firstn 47) (k_lines 2 k_names P_Loader.d_file) = Some (line (u "berts.cls_id is not defined; use [CLS] instead")) /\
  (match k_lines 0 k_names P_Loader.d_file, k_lines 1 k_names P_Loader.d_file with
   | Some o, Some o' => firstn 51 o = line (u "loading model: m.gguf") ++ line (u "gguf_init @ 0000000000000020") /\
                        firstn 37 o' = line (u "loading model: m.gguf") ++ line (u "model metadata")
   | _, _ => False
   end).
Proof. split; [vm_compute; reflexivity|]. vm_compute. split; reflexivity. Qed.

(** A setting's name with a single percent sign: nothing at level INFO, undefined at level DEBUG
    and in the tool. *)
Example C209_example :
  Forall (fun t => ~ In 0 (ti_name t)) (f_tensors P_Loader.d_file) /\
  ~ printable_text (u "x.done%") /\ k_lines 1 [u "x.done%"] P_Loader.d_file <> None /\ k_lines 0 [u "x.done%"] P_Loader.d_file = None /\
  (match quant_tool (u "0.1.0") (fun _ _ => u "1.000") (k_run k_names P_Loader.d_file) [u "quant"; u "m.gguf"; u "f16"; u "q.gguf"] with
   | Ok r => tr_status r = 0 | _ => False end) /\
  quant_tool (u "0.1.0") (fun _ _ => u "1.000") (k_run [u "x.done%"] P_Loader.d_file) [u "quant"; u "m.gguf"; u "f16"; u "q.gguf"] = UB.
Proof.
  split; [|split; [|split; [vm_compute; discriminate|split; [vm_compute; reflexivity|split; vm_compute; reflexivity]]]].
  - assert (H : forallb (fun t => forallb (fun c => negb (c =? 0)) (ti_name t)) (f_tensors P_Loader.d_file) = true) by (vm_compute; reflexivity).
    apply Forall_forall. intros t Ht H0. rewrite forallb_forall in H. specialize (H t Ht). rewrite forallb_forall in H. specialize (H 0 H0). discriminate.
  - intros (t & p & C & E). apply cut_fun in C. subst t. apply escaped_fun in E. vm_compute in E. discriminate.
Qed.

Example C210_example :
  lib_ok P_Eval.lib64 /\ Forall harmless [u "general.architecture"; u "berts.bert.n_layers"] /\
  Forall (fun t => harmless (ti_name t)) (f_tensors P_Loader.d_file) /\
  option_map (fun o => firstn 176 (skipn 226 o)) (k_lines 0 [u "general.architecture"; u "berts.bert.n_layers"] P_Loader.d_file) =
    Some (line (u "  key 0: general.architecture") ++ line (u "  key 1: berts.bert.n_layers") ++ line (u "  tensor 0") ++ line (u "    name: berts.vocab.size (berts.vocab.size)") ++ line (u "    n_dims: 1") ++ line (u "    size: 5") ++ line (u "    padded_size: 16") ++ line (u "    offset: 0")).
Proof.
  split; [exact P_Loader.lib64_ok|].
  assert (X : forall l, forallb (fun s => forallb (fun c => negb (c =? 37) && negb (c =? 0)) s) l = true -> Forall harmless l).
  { intros l H. apply Forall_forall. intros s Hs. rewrite forallb_forall in H. specialize (H s Hs). rewrite forallb_forall in H.
    split; intros K; specialize (H _ K); discriminate H. }
  split; [apply X; vm_compute; reflexivity|]. split; [|vm_compute; reflexivity].
  rewrite <- Forall_map. apply X. vm_compute. reflexivity.
Qed.

(** A load that succeeds, one whose weights are incomplete, one that cannot read the file. *)
Definition k_contexts (o : outcome (load_result (V := Z) * list log_call)) : option (bool * list (list N)) :=
  match o with
  | Ok (r, tr) => Some (match r with Loaded _ => true | Null _ => false end, map (fun c => snd (message_of c)) (filter is_context tr))
  | _ => None
  end.
Definition k_short : file := P_Loader.a_file 0 0 (P_Loader.d_vocab ++ P_Loader.d_rest ++ P_Loader.d_layer ++ P_Loader.d_pooler).
Example C211_example :
  k_contexts (k_load k_names P_Loader.d_file) =
    Some (true, [u "gguf_init @ 0000000000000020"; u "ggml_init @ 0000000000000030"; u "ggml_free @ 0000000000000010"]) /\
  k_contexts (k_load k_names k_short) =
    Some (false, [u "gguf_init @ 0000000000000020"; u "ggml_init @ 0000000000000030"; u "ggml_free @ 0000000000000010"]) /\
  k_contexts (load_full P_Eval.lib64 P_Loader.d_junk P_Loader.d_value (fun x => x) (u "m.gguf") (fun _ => []) (fun _ => u "0") k_names
      (fun c => match c with Meta => 16 | Source => 32 | Pool => 48 | Berts => 64 | Target => 80 end) (Some P_Loader.d_file) false) =
    Some (false, [u "gguf_init @ 0000000000000020"; u "ggml_init @ 0000000000000030"; u "ggml_free @ 0000000000000030";
                  u "gguf_free @ 0000000000000020"; u "ggml_free @ 0000000000000010"]).
Proof. split; [|split]; vm_compute; reflexivity. Qed.
