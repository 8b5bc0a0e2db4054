(** The whole log of an evaluation, at every level. *)
From Verif Require Import Base Vocab_model Log_model Ggml_model Encoder_model Eval_model Says_model Says_eval_model.
From Verif Require Import Log_spec Eval_spec Says_spec Says_proofs Says_eval_proofs P_Eval P_Says_eval.
Local Open Scope nat_scope.

(** ** berts_eval *)

(** What the log should tell about a request. *)
Definition opening (k : flavour) (n : nat) : list message :=
  [(1%Z, u "start evaluating " ++ match k with Bert => u "BERT" | Roberta _ => u "RoBERTa" end);
   (0%Z, u "  #tokens = " ++ decimal (N.of_nat n))].

Definition pool_name (p : pooling) : list N :=
  match p with PoolNone => u "none" | PoolCls => u "cls" | PoolAvg => u "avg" | PoolMax => u "max" | PoolOther => [] end.

Definition closing (k : flavour) (what dry : list N) : message :=
  (1%Z, u "finish " ++ what ++ match k with Bert => u "BERT" | Roberta _ => u "RoBERTa" end ++ dry).

Definition request_lines (c : eval_info) (threads : Z) (need given : N) : list message :=
  [(1%Z, u "  berts_eval_info {" ++ [10%N] ++
         u "    output_layer = " ++ signed (output_layer c) ++ u ";" ++ [10%N] ++
         u "    pool_type = " ++ pool_name (pool_type c) ++ u ";" ++ [10%N] ++
         u "    n_threads = " ++ signed threads ++ [10%N] ++ u "  }");
   (0%Z, u "  output size = " ++ decimal need);
   (0%Z, u "    given     = " ++ decimal given)].

(** A ggml context is made and goes. *)
Definition ctx_made (addr : list N) : message := (0%Z, u "ggml_init @ " ++ addr).
Definition ctx_gone (addr : list N) : message := (0%Z, u "ggml_free @ " ++ addr).

(** An address: 16 hexadecimal digits, lower case, with this value. *)
Inductive hex_value : N -> N -> Prop :=
| hex_09 n : (n < 10)%N -> hex_value (48 + n) n
| hex_af n : (10 <= n < 16)%N -> hex_value (97 + (n - 10)) n.
Definition address (n : N) (ds : list N) : Prop :=
  exists vs, length ds = 16 /\ Forall2 hex_value ds vs /\ fold_left (fun a v => a * 16 + v)%N vs 0%N = n.

(** The stories a call can have, by its first fault: [ok] is the value returned, [dry]
    a call without buffer, [mem] the size asked of ggml, [addr] the address it gave. *)
Inductive eval_story (k : flavour) (hp : hparams) (n : nat) (segs : list N) (c : eval_info) (threads code : Z)
    (dry : bool) (given : N) (addr : list N) (mem : nat -> N) : bool -> list message -> Prop :=
| story_long : max_tokens hp < n ->
    eval_story k hp n segs c threads code dry given addr mem false
      (opening k n ++ [(1%Z, u "too many tokens (" ++ decimal (N.of_nat n) ++ u ") for this model (" ++
                             decimal (N.of_nat (max_tokens hp)) ++ u ")")])
| story_segment a s b : n <= max_tokens hp -> segs = a ++ s :: b ->
    Forall (fun x => (x < N.of_nat (segment_count hp))%N) a -> (N.of_nat (segment_count hp) <= s)%N ->
    eval_story k hp n segs c threads code dry given addr mem false
      (opening k n ++ [(1%Z, u "invalid segment value: " ++ decimal s ++ u " (allowed = 0.." ++
                             signed (Z.of_nat (segment_count hp) - 1) ++ u ")")])
| story_pool : n <= max_tokens hp -> Forall (fun x => (x < N.of_nat (segment_count hp))%N) segs ->
    pool_type c = PoolOther ->
    eval_story k hp n segs c threads code dry given addr mem false
      (opening k n ++ [(1%Z, u "unknown pooling type: " ++ signed code)])
| story_dry : n <= max_tokens hp -> Forall (fun x => (x < N.of_nat (segment_count hp))%N) segs ->
    pool_type c <> PoolOther -> dry = true ->
    eval_story k hp n segs c threads code dry given addr mem true
      (opening k n ++ request_lines c threads (N.of_nat (values hp (pool_type c) n)) given ++ [closing k (u "evaluating ") (u " (dry run)")])
| story_layer : n <= max_tokens hp -> Forall (fun x => (x < N.of_nat (segment_count hp))%N) segs ->
    pool_type c <> PoolOther -> dry = false ->
    ~ (- Z.of_nat (n_layers hp) <= output_layer c <= Z.of_nat (n_layers hp))%Z ->
    eval_story k hp n segs c threads code dry given addr mem false
      (opening k n ++ request_lines c threads (N.of_nat (values hp (pool_type c) n)) given ++
       [(1%Z, u "invalid output_layer_value: " ++ signed (output_layer c) ++ u " (expected: " ++
              signed (- Z.of_nat (n_layers hp)) ++ u ".." ++ decimal (N.of_nat (n_layers hp)) ++ u ")")])
| story_activation last : valid_request hp (repeat 0%N n) segs c -> dry = false -> names_layer (n_layers hp) (output_layer c) last ->
    eval_story k hp n segs c threads code dry given addr mem false
      (opening k n ++ request_lines c threads (N.of_nat (values hp (pool_type c) n)) given ++
       [ctx_made addr; (0%Z, u "  context buffer size = " ++ decimal (mem last)); (3%Z, u "unknown activation function"); ctx_gone addr])
| story_done last : valid_request hp (repeat 0%N n) segs c -> dry = false -> names_layer (n_layers hp) (output_layer c) last ->
    eval_story k hp n segs c threads code dry given addr mem true
      (opening k n ++ request_lines c threads (N.of_nat (values hp (pool_type c) n)) given ++
       [ctx_made addr; (0%Z, u "  context buffer size = " ++ decimal (mem last)); closing k (u "evaluating ") []; ctx_gone addr]).

Lemma find_first_bad k segs a s b : segs = a ++ s :: b ->
  Forall (fun x => (x < N.of_nat k)%N) a -> (N.of_nat k <= s)%N ->
  find (fun s => (Z.of_nat k <=? Z.of_N s)%Z) segs = Some s.
Proof.
  intros -> F H. induction F as [|x a Hx F IH]; cbn [app find].
  - replace (_ <=? _)%Z with true by lia. reflexivity.
  - replace (_ <=? _)%Z with false by lia. exact IH.
Qed.

Lemma find_none_bad k segs : Forall (fun x => (x < N.of_nat k)%N) segs ->
  find (fun s => (Z.of_nat k <=? Z.of_N s)%Z) segs = None.
Proof. induction 1 as [|x a Hx F IH]; cbn [find]; [reflexivity|]. replace (_ <=? _)%Z with false by lia. exact IH. Qed.

Lemma find_bad k segs :
  match find (fun s => (Z.of_nat k <=? Z.of_N s)%Z) segs with
  | Some s => exists a b, segs = a ++ s :: b /\ Forall (fun x => (x < N.of_nat k)%N) a /\ (N.of_nat k <= s)%N
  | None => Forall (fun x => (x < N.of_nat k)%N) segs
  end.
Proof.
  induction segs as [|x segs IH]; cbn [find]; [constructor|]. destruct (Z.leb_spec (Z.of_nat k) (Z.of_N x)) as [H|H].
  - exists [], segs. split; [reflexivity|]. split; [constructor|lia].
  - destruct (find _ segs) as [s|].
    + destruct IH as (a & b & -> & F & G). exists (x :: a), b. split; [reflexivity|]. split; [constructor; [lia|exact F]|exact G].
    + constructor; [lia|exact IH].
Qed.

Lemma needed_values hp p n : (N.of_nat (hidden_dim hp) < 4294967296)%N -> (N.of_nat n < 2147483648)%N -> p <> PoolOther ->
  needed hp p n = Some (N.of_nat (values hp p n)).
Proof.
  intros H1 H2 H3. unfold needed, values, w64. destruct p; try congruence; try reflexivity.
  f_equal. rewrite N.mod_small by nia. lia.
Qed.

Lemma valid_checks hp tokens segs c : valid_request hp (repeat 0%N (length tokens)) segs c ->
  valid_request hp tokens segs c.
Proof. intros [A B C D E]. rewrite repeat_length in A, B. constructor; assumption. Qed.

Lemma resolve_range n l :
  match resolve_layer n l with
  | Ok _ => (- Z.of_nat n <= l <= Z.of_nat n)%Z
  | Fail => ~ (- Z.of_nat n <= l <= Z.of_nat n)%Z
  | _ => True
  end.
Proof.
  unfold resolve_layer. destruct (Z.ltb_spec l 0) as [A|A].
  - destruct (Z.eqb_spec l INT64_MIN) as [B|B]; [exact I|]. destruct (Z.ltb_spec (Z.of_nat n) (- l)) as [C|C]; lia.
  - destruct (Z.ltb_spec (Z.of_nat n) l) as [C|C]; lia.
Qed.

Section Story.
Context {V : Type} (P : prim V) (L : lib) (ptr : N).

Lemma story_is (m : emodel V) tokens segs c threads code out given r ms :
  let hp := em_hp m in
  (N.of_nat (hidden_dim hp) < 4294967296)%N -> (N.of_nat (max_tokens hp) < 2147483648)%N ->
  (N.of_nat (n_layers hp) < 4294967296)%N -> length segs = length tokens ->
  eval P L m tokens segs c out given = Ok r ->
  eval_story (em_kind m) hp (length tokens) segs c threads code (match out with None => true | _ => false end) given (hex16 ptr)
    (fun last => calc (get_context_buffer_size L (length tokens) hp (pool_type c)) last) (e_ok r) ms ->
  ms = map message_of (eval_says P L ptr m tokens segs c threads code out given).
Proof.
  intros hp B1 B2 B3 LS. unfold eval, eval_says. fold hp. rewrite find_existsb.
  assert (SE : length tokens =? length segs = true) by (apply Nat.eqb_eq; auto).
  intros H S. inversion S as [K|a s b K K1 K2 K3|K K1 K2|K K1 K2 K3|K K1 K2 K3 K4|last K K1 K2|last K K1 K2]; subst ms.
  - rewrite (proj2 (Nat.ltb_lt _ _) K). reflexivity.
  - rewrite (proj2 (Nat.ltb_ge _ _) K), SE. cbn [negb]. rewrite (find_first_bad _ _ _ _ _ K1 K2 K3). reflexivity.
  - rewrite (proj2 (Nat.ltb_ge _ _) K), SE. cbn [negb]. rewrite (find_none_bad _ _ K1), K2. reflexivity.
  - rewrite (proj2 (Nat.ltb_ge _ _) K), SE. cbn [negb]. rewrite (find_none_bad _ _ K1).
    rewrite needed_values by (auto; lia). destruct out; [discriminate|]. rewrite !map_app. reflexivity.
  - rewrite (proj2 (Nat.ltb_ge _ _) K), SE in H |- *. cbn [negb] in H |- *. rewrite (find_none_bad _ _ K1) in H |- *.
    rewrite needed_values in H |- * by (auto; lia). destruct out; [|discriminate].
    pose proof (resolve_range (n_layers hp) (output_layer c)) as R.
    destruct (resolve_layer _ _) as [last| | |]; try discriminate; [contradiction|].
    rewrite !map_app. unfold number. reflexivity.
  - pose proof (valid_checks _ _ _ _ K) as [V1 V2 V3 V4 V5].
    rewrite (proj2 (Nat.ltb_ge _ _) V1), SE in H |- *. cbn [negb] in H |- *. rewrite (find_none_bad _ _ V3) in H |- *.
    rewrite needed_values in H |- * by (auto; lia). destruct out; [|discriminate].
    rewrite (Eval_proofs.names_resolve _ _ _ K2) in H |- * by lia. cbv zeta in H |- *.
    destruct (run _ _ _) as [x| | |]; try discriminate.
    + exfalso. destruct (copy_n _ _ _) as [o| | |]; try discriminate. cbn [obind] in H. injection H as <-. discriminate.
    + rewrite !map_app. reflexivity.
  - pose proof (valid_checks _ _ _ _ K) as [V1 V2 V3 V4 V5].
    rewrite (proj2 (Nat.ltb_ge _ _) V1), SE in H |- *. cbn [negb] in H |- *. rewrite (find_none_bad _ _ V3) in H |- *.
    rewrite needed_values in H |- * by (auto; lia). destruct out; [|discriminate].
    rewrite (Eval_proofs.names_resolve _ _ _ K2) in H |- * by lia. cbv zeta in H |- *.
    destruct (run _ _ _) as [x| | |]; try discriminate.
    + rewrite !map_app. unfold closing. rewrite app_nil_r. reflexivity.
    + exfalso. injection H as <-. discriminate.
Qed.

Lemma story_exists (m : emodel V) tokens segs c threads code out given r :
  let hp := em_hp m in
  (N.of_nat (hidden_dim hp) < 4294967296)%N -> (N.of_nat (max_tokens hp) < 2147483648)%N ->
  length segs = length tokens ->
  eval P L m tokens segs c out given = Ok r ->
  exists ms, eval_story (em_kind m) hp (length tokens) segs c threads code (match out with None => true | _ => false end) given (hex16 ptr)
    (fun last => calc (get_context_buffer_size L (length tokens) hp (pool_type c)) last) (e_ok r) ms.
Proof.
  intros hp B1 B2 LS. unfold eval. fold hp. rewrite find_existsb.
  assert (SE : length tokens =? length segs = true) by (apply Nat.eqb_eq; auto). rewrite SE. cbn [negb].
  destruct (Nat.ltb_spec (max_tokens hp) (length tokens)) as [K|K].
  { intros H. injection H as <-. eexists. apply story_long, K. }
  pose proof (find_bad (segment_count hp) segs) as FB. destruct (find _ segs) as [s|].
  { intros H. injection H as <-. destruct FB as (a & b & E & F & G). eexists. eapply story_segment; eauto. }
  destruct (needed hp (pool_type c) (length tokens)) as [need|] eqn:ND.
  2: { intros H. injection H as <-. eexists. apply story_pool; auto. unfold needed in ND. destruct (pool_type c); try discriminate. reflexivity. }
  assert (NO : pool_type c <> PoolOther) by (intros E; rewrite E in ND; discriminate).
  destruct out as [cells|].
  2: { intros H. injection H as <-. eexists. apply story_dry; auto. }
  pose proof (resolve_range (n_layers hp) (output_layer c)) as RG.
  destruct (resolve_layer _ _) as [last| | |]; try discriminate.
  2: { intros H. injection H as <-. eexists. apply story_layer; auto. }
  assert (VR : valid_request hp (repeat 0%N (length tokens)) segs c) by (constructor; rewrite ?repeat_length; auto).
  destruct (Eval_proofs.names_total _ _ RG) as (last' & NL). cbv zeta.
  destruct (run _ _ _) as [x| | |]; try discriminate.
  - destruct (copy_n _ _ _) as [o| | |]; try discriminate. cbn [obind]. intros H. injection H as <-.
    eexists. eapply story_done; eauto.
  - intros H. injection H as <-. eexists. eapply story_activation; eauto.
Qed.
End Story.

(** The address in the lines about the ggml context. *)
Theorem C182_address : forall n, (n < 2 ^ 64)%N -> address n (hex16 n).
Proof.
  intros n H. exists (map (fun i => N.land (N.shiftr n (4 * N.of_nat i)) 15) (rev (seq 0 16))).
  assert (LD : forall x, N.land x 15 = (x mod 16)%N) by (intros x; change 15%N with (N.ones 4); apply N.land_ones).
  split; [reflexivity|]. split.
  - unfold hex16. induction (rev (seq 0 16)) as [|i l IH]; cbn [map]; constructor; [|exact IH]. rewrite LD. pose proof (N.mod_lt (N.shiftr n (4 * N.of_nat i)) 16 ltac:(discriminate)) as M.
    unfold hex_digit. destruct (N.ltb_spec (N.shiftr n (4 * N.of_nat i) mod 16) 10) as [X|X]; [apply hex_09, X|].
    replace (87 + N.shiftr n (4 * N.of_nat i) mod 16)%N with (97 + (N.shiftr n (4 * N.of_nat i) mod 16 - 10))%N by lia. apply hex_af. lia.
  - assert (X : forall k a, fold_left (fun a v => a * 16 + v)%N (map (fun i => N.land (N.shiftr n (4 * N.of_nat i)) 15) (rev (seq 0 k))) a
                 = (a * 16 ^ N.of_nat k + n mod 16 ^ N.of_nat k)%N).
    { induction k as [|k IH]; intros a; [cbn; rewrite N.mod_1_r; lia|].
      rewrite seq_S, rev_app_distr. cbn [rev app map fold_left plus]. rewrite IH, LD, N.shiftr_div_pow2.
      replace (2 ^ (4 * N.of_nat k))%N with (16 ^ N.of_nat k)%N by (change 16%N with (2 ^ 4)%N; rewrite <- N.pow_mul_r; reflexivity).
      rewrite Nat2N.inj_succ, N.pow_succ_r'. set (e := (16 ^ N.of_nat k)%N).
      assert (P : (e <> 0)%N) by (apply N.pow_nonzero; discriminate).
      rewrite (N.mul_comm 16 e), (N.mod_mul_r n e 16) by (try exact P; discriminate). ring. }
    rewrite X. change (N.of_nat 16) with 16%N. rewrite N.mod_small; [lia|]. exact H.
Qed.
Print Assumptions C182_address.

(** C182: the log of berts_eval with a model tells its story and nothing else. *)
Theorem C182_eval_story {V} (P : prim V) L ptr m toks segs count c threads code (out : option (list V)) given l r o :
  let hp := em_hp m in
  (N.of_nat (hidden_dim hp) < 4294967296)%N -> (N.of_nat (max_tokens hp) < 2147483648)%N ->
  (N.of_nat (n_layers hp) < 4294967296)%N ->
  logged (mkls l true) (berts_eval_logged P L ptr (ELoaded m) toks segs count (Some c) threads code out (Some given)) = Ok (r, o) ->
  let story := eval_story (em_kind m) hp count (given_segments segs count) c threads code
    (match out with None => true | _ => false end) given (hex16 ptr)
    (fun last => calc (get_context_buffer_size L count hp (pool_type c)) last) (e_ok r) in
  (exists ms, story ms) /\ (forall ms, story ms -> log_of l ms o).
Proof.
  intros hp B1 B2 B3 H story. apply eval_lines in H as (H & ->). cbn [handle_of check_model_says app].
  assert (E : eval P L m (firstn count toks) (given_segments segs count) c out given = Ok r /\
              length (firstn count toks) = count /\ length (given_segments segs count) = count).
  { cbn [berts_eval] in H. destruct (Nat.ltb_spec (length toks) count) as [X|X]; [discriminate|]. unfold given_segments.
    destruct segs as [sg|].
    - destruct (Nat.ltb_spec (length sg) count) as [Y|Y]; [discriminate|]. split; [exact H|]. rewrite !firstn_length. lia.
    - split; [exact H|]. rewrite firstn_length, repeat_length. lia. }
  destruct E as (E & L1 & L2). fold (given_segments segs count).
  pose proof (story_exists P L ptr m (firstn count toks) (given_segments segs count) c threads code out given r B1 B2 ltac:(lia) E) as X.
  pose proof (story_is P L ptr m (firstn count toks) (given_segments segs count) c threads code out given r) as Y.
  cbv zeta in X, Y. rewrite L1 in X, Y. fold hp in X, Y. split; [exact X|].
  intros ms S. rewrite (Y ms B1 B2 B3 ltac:(lia) E S). apply lines_log.
  pose proof (eval_quiet P L ptr m (firstn count toks) (given_segments segs count) c threads code out given) as Q.
  clear -Q. induction Q as [|x tr (K & K') Q IH]; cbn [map]; constructor; assumption.
Qed.
Print Assumptions C182_eval_story.

(** ** berts_eval_lm *)

Definition lm_opening (k : flavour) : list message :=
  [(1%Z, u "start LM " ++ match k with Bert => u "BERT" | Roberta _ => u "RoBERTa" end)].

(** The line about the sizes: the number after "hidden_dim" is the number of hidden
    states, and the text about the shape stands where the number of tokens should. *)
Definition sizes_line (n : nat) : message :=
  (0%Z, u "  #tokens =   input_shape = {0}x{1}" ++ [10%N] ++ u "  hidden_dim = " ++ decimal (N.of_nat n) ++ [10%N]).

Definition gelu_new (k : flavour) (hp : hparams) : Prop := k = Bert /\ hidden_act hp = GeluNew.

(** [out] and [outp]: which buffers are given; [head]: the weights of the head are. *)
Inductive lm_story (k : flavour) (hp : hparams) (count : nat) (head out outp : bool) (addr : list N) (mem : nat -> N)
    : bool -> list message -> Prop :=
| lm_size : (forall n, count <> n * hidden_dim hp) ->
    lm_story k hp count head out outp addr mem false
      (lm_opening k ++ [(1%Z, u "invalid size of hidden_states, expected to a multiple of " ++
                              decimal (N.of_nat (hidden_dim hp)) ++ u ", but " ++ decimal (N.of_nat count))])
| lm_dry n : count = n * hidden_dim hp -> out = false -> outp = false ->
    lm_story k hp count head out outp addr mem true (lm_opening k ++ [sizes_line n; closing k (u "LM ") (u " (dry run)")])
| lm_one n : count = n * hidden_dim hp -> out <> outp ->
    lm_story k hp count head out outp addr mem false (lm_opening k ++ [sizes_line n; (3%Z, u "output buffer is not specified")])
| lm_headless n warn : count = n * hidden_dim hp -> out = true -> outp = true -> head = false ->
    (gelu_new k hp /\ warn = [(3%Z, u "gelu_new is not implmented yet")] \/ ~ gelu_new k hp /\ warn = []) ->
    lm_story k hp count head out outp addr mem false
      (lm_opening k ++ [sizes_line n] ++ warn ++
       [ctx_made addr; (0%Z, u "  context buffer size = " ++ decimal (mem n)); (3%Z, u "LM weights are not loaded"); ctx_gone addr])
| lm_gelu_new n : count = n * hidden_dim hp -> out = true -> outp = true -> head = true -> gelu_new k hp ->
    lm_story k hp count head out outp addr mem false
      (lm_opening k ++ [sizes_line n; (3%Z, u "gelu_new is not implmented yet");
                        ctx_made addr; (0%Z, u "  context buffer size = " ++ decimal (mem n)); (3%Z, u "gelu_new is not implmented yet");
                        ctx_gone addr])
| lm_done n : count = n * hidden_dim hp -> out = true -> outp = true -> head = true -> ~ gelu_new k hp ->
    lm_story k hp count head out outp addr mem true
      (lm_opening k ++ [sizes_line n; ctx_made addr; (0%Z, u "  context buffer size = " ++ decimal (mem n)); closing k (u "LM ") []; ctx_gone addr]).

Definition given {A} (o : option A) : bool := match o with Some _ => true | None => false end.

Lemma warn_dec k hp :
  gelu_new k hp /\ (match k, hidden_act hp with Bert, GeluNew => [Plain Error (u "gelu_new is not implmented yet")] | _, _ => [] end)
                   = [Plain Error (u "gelu_new is not implmented yet")] \/
  ~ gelu_new k hp /\ (match k, hidden_act hp with Bert, GeluNew => [Plain Error (u "gelu_new is not implmented yet")] | _, _ => [] end) = [].
Proof.
  unfold gelu_new. destruct k; [destruct (hidden_act hp)|]; try (right; split; [intros (A & B); congruence|reflexivity]).
  left. auto.
Qed.

(** The head is reached with the weights there: it fails exactly for gelu_new. *)
Lemma lm_run {V} (P : prim V) L (m : emodel V) hidden count size h : lm (em_weights m) = Some h ->
  let graph := if length hidden <? count then bub
               else build_lm_graph P L (em_kind m) (em_hp m) (em_weights m) (em_vocab_count m) (firstn count hidden) in
  (run L size graph = Fail -> gelu_new (em_kind m) (em_hp m)) /\
  (forall x, run L size graph = Ok x -> ~ gelu_new (em_kind m) (em_hp m)).
Proof.
  intros LM graph. split.
  - intros R. assert (D : gelu_new (em_kind m) (em_hp m) \/ (em_kind m <> Bert \/ hidden_act (em_hp m) <> GeluNew)).
    { unfold gelu_new. destruct (em_kind m); [destruct (hidden_act (em_hp m)); auto; right; right; discriminate|right; left; discriminate]. }
    destruct D as [D|D]; [exact D|]. exfalso. revert R. apply run_never_fails. subst graph.
    destruct (_ <? _); [apply nf_ub|]. apply nf_lm; [congruence|exact D].
  - intros x R (K & A). revert R. subst graph. unfold run, bbind, build_lm_graph. rewrite LM.
    destruct (length hidden <? count); [discriminate|]. intros R. rewrite K, A in R. unfold lm_activation, bbind, bfail in R.
    repeat match type of R with context [obind ?q _] => match q with obind _ _ => fail 1 | _ => destruct q as [[? ?]| | |]; cbn [obind fst snd] in R; try discriminate R end end.
Qed.

Lemma mul_inj n n' h : h <> 0 -> n * h = n' * h -> n = n'.
Proof. intros H. apply Nat.mul_cancel_r, H. Qed.

(** C183: the log of berts_eval_lm with a model tells its story and nothing else. *)
Theorem C183_lm_story {V} (P : prim V) L ptr m hidden count c out (outp : option (list V)) cnt l r o :
  logged (mkls l true) (berts_eval_lm_logged P L ptr (ELoaded m) hidden count (Some c) out outp (Some cnt)) = Ok (r, o) ->
  let story := lm_story (em_kind m) (em_hp m) count (given (lm (em_weights m))) (given out) (given outp) (hex16 ptr)
    (fun n => calc (get_context_buffer_size_for_lm L n (em_hp m) (em_vocab_count m)) 0) (l_ok r) in
  (exists ms, story ms) /\ (forall ms, story ms -> log_of l ms o).
Proof.
  intros H story. apply eval_lm_lines in H as (H & ->). cbn [handle_of check_model_says app berts_eval_lm] in H |- *.
  assert (LG : log_of l (map message_of (eval_lm_says P L ptr m hidden count c out outp))
                        (lines_at l (map message_of (eval_lm_says P L ptr m hidden count c out outp)))).
  { apply lines_log. pose proof (eval_lm_quiet P L ptr m hidden count c out outp) as Q.
    clear -Q. induction Q as [|x tr (K & K') Q IH]; cbn [map]; constructor; assumption. }
  enough (X : (exists ms, story ms) /\ forall ms, story ms -> ms = map message_of (eval_lm_says P L ptr m hidden count c out outp)).
  { split; [apply X|]. intros ms S. rewrite (proj2 X ms S). exact LG. }
  clear LG. unfold eval_lm in H. unfold eval_lm_says.
  destruct (Nat.eqb_spec (hidden_dim (em_hp m)) 0) as [Hz|Hz]; [discriminate|]. cbv zeta in H |- *.
  destruct (Nat.eqb_spec (count mod hidden_dim (em_hp m)) 0) as [Hm|Hm]; cbn [negb] in H |- *.
  2: { assert (E : l_ok r = false) by (injection H as <-; reflexivity).
       assert (NM : forall n, count <> n * hidden_dim (em_hp m)) by (intros n ->; apply Hm, Nat.mod_mul, Hz).
       split; [eexists; subst story; rewrite E; apply lm_size, NM|].
       intros ms S. destruct S as [S|n S|n S|n w S|n S|n S]; try (exfalso; apply (NM n S)). reflexivity. }
  assert (CM : count = count / hidden_dim (em_hp m) * hidden_dim (em_hp m)).
  { pose proof (Nat.div_mod count _ Hz). lia. }
  remember (count / hidden_dim (em_hp m)) as n eqn:Hn. clear Hn.
  assert (SAME : forall n', count = n' * hidden_dim (em_hp m) -> n' = n) by (intros n' E; apply (mul_inj _ _ _ Hz); congruence).
  assert (NOT : ~ forall n, count <> n * hidden_dim (em_hp m)) by (intros K; exact (K n CM)).
  pose proof (warn_dec (em_kind m) (em_hp m)) as W.
  set (warn := match em_kind m, hidden_act (em_hp m) with Bert, GeluNew => [Plain Error (u "gelu_new is not implmented yet")] | _, _ => [] end) in *.
  destruct out as [ids|], outp as [probs|]; cbn [given] in story.
  2,3: assert (E : l_ok r = false) by (injection H as <-; reflexivity);
    (split; [eexists; subst story; rewrite E; eapply lm_one; [exact CM|discriminate]|]);
    intros ms S; subst story; inversion S as [S1|n' S1 S2 S3|n' S1 S2|n' w S1 S2 S3|n' S1 S2 S3|n' S1 S2 S3]; try discriminate; try contradiction;
    rewrite (SAME _ S1); reflexivity.
  2: { assert (E : l_ok r = true) by (injection H as <-; reflexivity).
    split; [eexists; subst story; rewrite E; eapply lm_dry; [exact CM|reflexivity|reflexivity]|].
    intros ms S; subst story; inversion S as [S1|n' S1 S2 S3|n' S1 S2|n' w S1 S2 S3|n' S1 S2 S3|n' S1 S2 S3]; try discriminate; try contradiction; try congruence.
    rewrite (SAME _ S1); reflexivity. }
  destruct (lm (em_weights m)) as [h|] eqn:LM; cbn [given] in story.
  - destruct (lm_run P L m hidden count (calc (get_context_buffer_size_for_lm L n (em_hp m) (em_vocab_count m)) 0) h LM) as (RF & RO).
    cbv zeta in RF, RO. destruct (run _ _ _) as [[prob sorted]| | |]; try discriminate H.
    + specialize (RO _ eq_refl).
      assert (E : l_ok r = true).
      { destruct (_ <=? _)%Z.
        - destruct (copy_n _ _ ids); try discriminate H. cbn [obind] in H. destruct (copy_n _ _ probs); try discriminate H.
          cbn [obind] in H. injection H as <-. reflexivity.
        - destruct (top_rows _ _ _ _ _ _ _); try discriminate H. cbn [obind] in H. injection H as <-. reflexivity. }
      destruct W as [(W & _)|(_ & ->)]; [contradiction|].
      split; [eexists; subst story; rewrite E; eapply lm_done; eauto|].
      intros ms S; subst story; inversion S as [S1|n' S1 S2 S3|n' S1 S2|n' w S1 S2 S3 S4|n' S1 S2 S3 S4 S5|n' S1 S2 S3 S4 S5]; try discriminate; try contradiction; try congruence.
      rewrite (SAME _ S1). unfold closing. rewrite app_nil_r. reflexivity.
    + specialize (RF eq_refl).
      assert (E : l_ok r = false) by (injection H as <-; reflexivity).
      destruct W as [(_ & ->)|(W & _)]; [|contradiction].
      split; [eexists; subst story; rewrite E; eapply lm_gelu_new; eauto|].
      intros ms S; subst story; inversion S as [S1|n' S1 S2 S3|n' S1 S2|n' w S1 S2 S3 S4|n' S1 S2 S3 S4 S5|n' S1 S2 S3 S4 S5]; try discriminate; try contradiction; try congruence.
      rewrite (SAME _ S1). reflexivity.
  - change (run L _ bfail) with (@Fail (tensor V * list (list nat))) in H |- *.
    assert (E : l_ok r = false) by (injection H as <-; reflexivity). split.
    + eexists. subst story. rewrite E. eapply (lm_headless _ _ _ _ _ _ _ _ n (map message_of warn)); eauto.
      destruct W as [(W1 & ->)|(W1 & ->)]; [left|right]; split; auto.
    + intros ms S; subst story; inversion S as [S1|n' S1 S2 S3|n' S1 S2|n' w S1 S2 S3 S4 S5|n' S1 S2 S3 S4 S5|n' S1 S2 S3 S4 S5]; try discriminate; try contradiction; try congruence.
      rewrite (SAME _ S1). cbn [map]. rewrite map_app.
      destruct W as [(W1 & ->)|(W1 & ->)], S5 as [(S5 & ->)|(S5 & ->)]; try contradiction; reflexivity.
Qed.
Print Assumptions C183_lm_story.

(** C184: "the log of berts_eval_lm tells the hidden size" is false at every level: models
    of different hidden sizes write the same. *)
Definition wide_model : emodel Z := mkem Z Bert (mkhp 4 1 1 4 3 2 Gelu 4427486594234968593) demo_weights 3.
Theorem C184_sizes_reported_refuted : exists (m1 m2 : emodel Z) count1 count2 h1 h2 r,
  hidden_dim (em_hp m1) <> hidden_dim (em_hp m2) /\
  forall l, exists o,
    logged (mkls l true) (berts_eval_lm_logged zprim lib64 somewhere (ELoaded m1) h1 count1 (Some (mkli 1)) None None (Some 0%N)) = Ok (r, o) /\
    logged (mkls l true) (berts_eval_lm_logged zprim lib64 somewhere (ELoaded m2) h2 count2 (Some (mkli 1)) None None (Some 0%N)) = Ok (r, o).
Proof.
  exists demo, wide_model, 6, 12, (repeat 1%Z 6), (repeat 1%Z 12), (mklv true None None (Some 3%N)).
  split; [discriminate|]. intros l. eexists. split.
  - change (berts_eval_lm_logged zprim lib64 somewhere (ELoaded demo) (repeat 1%Z 6) 6 (Some (mkli 1)) None None (Some 0%N)) with
      (Ok (mklv true (V := Z) None None (Some 3%N), eval_lm_says zprim lib64 somewhere demo (repeat 1%Z 6) 6 (mkli 1) None None)).
    apply quiet_logged, eval_lm_quiet.
  - change (berts_eval_lm_logged zprim lib64 somewhere (ELoaded wide_model) (repeat 1%Z 12) 12 (Some (mkli 1)) None None (Some 0%N)) with
      (Ok (mklv true (V := Z) None None (Some 3%N), eval_lm_says zprim lib64 somewhere demo (repeat 1%Z 6) 6 (mkli 1) None None)).
    apply quiet_logged, eval_lm_quiet.
Qed.
Print Assumptions C184_sizes_reported_refuted.

(** What it does tell: the number of hidden states. *)
Theorem C184_states_reported {V} (P : prim V) L ptr m hidden count c out (outp : option (list V)) cnt r o :
  logged (mkls 0 true) (berts_eval_lm_logged P L ptr (ELoaded m) hidden count (Some c) out outp (Some cnt)) = Ok (r, o) ->
  l_ok r = true ->
  exists n a b, count = n * hidden_dim (em_hp m) /\
    o = a ++ (u "  hidden_dim = " ++ decimal (N.of_nat n) ++ [10%N]) ++ b.
Proof.
  intros H E. destruct (C183_lm_story P L ptr m hidden count c out outp cnt 0 r o H) as ((ms & S) & F).
  specialize (F ms S).
  assert (X : forall n k t, log_of 0 (lm_opening k ++ sizes_line n :: t) o ->
    exists a b, o = a ++ (u "  hidden_dim = " ++ decimal (N.of_nat n) ++ [10%N]) ++ b).
  { intros n k t G. cbn [lm_opening app] in G. inversion G as [|? ? ? ? G1 G2|r0 m0 ms0 t0 p0 o0 G1 G2 G3 G4]; subst; [cbn in G1; lia|].
    inversion G4 as [|? ? ? ? K1 K2|r1 m1 ms1 t1 p1 o1 K1 K2 K3 K4]; subst; [cbn in K1; lia|].
    assert (HM : harmless (u "  #tokens =   input_shape = {0}x{1}" ++ [10%N] ++ u "  hidden_dim = " ++ decimal (N.of_nat n) ++ [10%N])) by harm.
    destruct (harmless_cut _ HM) as ((C1 & _) & C2). destruct HM as (HM1 & HM2).
    assert (t1 = u "  #tokens =   input_shape = {0}x{1}" ++ [10%N] ++ u "  hidden_dim = " ++ decimal (N.of_nat n) ++ [10%N]).
    { destruct K2 as (_ & [K2|(rr & K2)]); [symmetry; exact K2|]. exfalso. apply HM2. eapply eq_ind_r with (P := In 0%N); [|exact K2]. apply in_or_app. right. left. reflexivity. }
    subst t1. assert (p1 = u "  #tokens =   input_shape = {0}x{1}" ++ [10%N] ++ u "  hidden_dim = " ++ decimal (N.of_nat n) ++ [10%N]).
    { clear -K3 HM1. remember (u "  #tokens =   input_shape = {0}x{1}" ++ _) as q eqn:Q. clear Q. induction K3; [reflexivity| |];
        first [exfalso; apply HM1; left; reflexivity|f_equal; apply IHK3; intros K; apply HM1; right; exact K]. }
    subst p1. exists (p0 ++ [10%N] ++ u "  #tokens =   input_shape = {0}x{1}" ++ [10%N]), ([10%N] ++ o1).
    repeat rewrite <- app_assoc. reflexivity. }
  rewrite E in S. inversion S as [S1|n S1 S2 S3|n S1 S2|n w S1 S2 S3 S4 S5|n S1 S2 S3 S4 S5|n S1 S2 S3 S4 S5]; subst ms;
    destruct (X _ _ _ F) as (a & b & ->); exists n, a, b; auto.
Qed.
Print Assumptions C184_states_reported.

Example C182_example :
  logged (mkls 0 true) (berts_eval_logged zprim lib64 somewhere (ELoaded demo) [0;2]%N (Some [0;9]%N) 2 (Some (ask 0 PoolNone)) 4 0 None (Some 7%N)) =
    Ok (mkev false None (Some 7%N), line (u "start evaluating BERT") ++ line (u "  #tokens = 2") ++
                                    line (u "invalid segment value: 9 (allowed = 0..1)")) /\
  logged (mkls 1 true) (berts_eval_logged zprim lib64 somewhere (ELoaded demo) [0;2]%N None 2 (Some (ask (-2) PoolMax)) 4 0 (Some [0]%Z) (Some 7%N)) =
    Ok (mkev false (Some [0]%Z) (Some 2%N), line (u "start evaluating BERT") ++ line (u "  berts_eval_info {") ++
      line (u "    output_layer = -2;") ++ line (u "    pool_type = max;") ++ line (u "    n_threads = 4") ++ line (u "  }") ++
      line (u "invalid output_layer_value: -2 (expected: -1..1)")).
Proof. split; vm_compute; reflexivity. Qed.

Example C183_example :
  logged (mkls 0 true) (berts_eval_lm_logged zprim lib64 somewhere (ELoaded demo) [1;2;3]%Z 3 (Some (mkli 1)) (Some [0]) (Some [0]%Z) (Some 1%N)) =
    Ok (mklv false (Some [0]) (Some [0]%Z) (Some 1%N), line (u "start LM BERT") ++
        line (u "invalid size of hidden_states, expected to a multiple of 2, but 3")) /\
  logged (mkls 0 true) (berts_eval_lm_logged zprim lib64 somewhere (ELoaded demo) [1;2;3;4;5;6]%Z 6 (Some (mkli 1)) None None (Some 1%N)) =
    Ok (mklv true None None (Some 3%N), line (u "start LM BERT") ++ line (u "  #tokens =   input_shape = {0}x{1}") ++
        line (u "  hidden_dim = 3") ++ line [] ++ line (u "finish LM BERT (dry run)")).
Proof. split; vm_compute; reflexivity. Qed.
