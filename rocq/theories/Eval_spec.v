(** What evaluation requests mean, in the terms of berts.h. *)
From Verif Require Import Base Ggml_model Encoder_model Encoder_spec Eval_model.

(** A request the documentation allows (berts.h:134-206). *)
Record valid_request (hp : hparams) (tokens segments : list N) (c : eval_info) : Prop := {
  v_tokens : length tokens <= max_tokens hp;
  v_segments : length segments = length tokens;
  v_range : Forall (fun s => (s < N.of_nat (segment_count hp))%N) segments;
  v_pool : pool_type c <> PoolOther;
  v_layer : (- Z.of_nat (n_layers hp) <= output_layer c <= Z.of_nat (n_layers hp))%Z
}.

(** The layer a request names: 0 is the embedding, n the last layer, -1 the last,
    -n the first. *)
Inductive names_layer (n : nat) : Z -> nat -> Prop :=
| names_forward k : k <= n -> names_layer n (Z.of_nat k) k
| names_backward k : 1 <= k -> k <= n -> names_layer n (- Z.of_nat k) (n + 1 - k).

(** Number of values of a result. *)
Definition values (hp : hparams) (p : pooling) (n : nat) : nat :=
  match p with PoolNone => n * hidden_dim hp | _ => hidden_dim hp end.

(** The memory estimate fits in 64 bits. *)
Definition fits (z : size_info) (layers : nat) : Prop :=
  (z_emb z + z_layer z * N.of_nat layers + z_pooler z + z_graph z < 18446744073709551616)%N.

(** A model whose weights have the declared shapes, over arbitrary arithmetic. *)
Record sound {V} (P : prim V) (m : emodel V) (words rows : nat) (s : s_model V) : Prop := {
  s_weights : weights_are P (em_hp m) words rows (em_weights m) s;
  s_heads : hidden_dim (em_hp m) = (hidden_dim (em_hp m) / attn_heads (em_hp m)) * attn_heads (em_hp m);
  s_hidden : 0 < hidden_dim (em_hp m);
  s_act : hidden_act (em_hp m) = Gelu;
  s_rows_ok : row_ops_ok P;
  s_layers : (N.of_nat (n_layers (em_hp m)) < 4294967296)%N;
  s_max : (N.of_nat (max_tokens (em_hp m)) < 2147483648)%N;
  s_dim : (N.of_nat (hidden_dim (em_hp m)) < 4294967296)%N;
  s_segs : (N.of_nat (segment_count (em_hp m)) < 2147483648)%N;
  s_words : (N.of_nat words <= 2147483648)%N;
  s_rows : (N.of_nat rows <= 2147483648)%N;
  s_inter : 0 < intermediate_dim (em_hp m);
  s_pad : match em_kind m with
          | Bert => True
          | Roberta pad => (pad + N.of_nat (max_tokens (em_hp m)) < 2147483648)%N
          end
}.

(** Word ids that exist. *)
Definition known_tokens (words : nat) (tokens : list N) : Prop :=
  Forall (fun t => (t < N.of_nat words)%N) tokens.

(** The matrix of hidden states after layer [last]. *)
Definition hidden_states {V} (P : prim V) (m : emodel V) (s : s_model V) (last : nat)
    (tokens segments : list N) (pos : list Z) : matrix V :=
  s_encode P (em_hp m) s last
    (s_embed P (ln_eps (em_hp m)) (sm_words s) (sm_positions s) (sm_segments s) (sm_lw s) (sm_lb s)
       pos (map Z.of_N tokens) (map Z.of_N segments)).

(** RoBERTa positions: how many tokens up to and including [i] are not padding. *)
Definition ordinary (pad : N) (tokens : list N) (i : nat) : nat :=
  length (filter (fun t => negb (t =? pad)%N) (firstn (S i) tokens)).

(** Position ids: BERT counts from 0; RoBERTa gives the k-th ordinary token pad + k
    and padding 0. *)
Definition position_ids (f : flavour) (tokens : list N) : list Z :=
  match f with
  | Bert => map Z.of_nat (seq 0 (length tokens))
  | Roberta pad => map (fun i => if (nth i tokens 0 =? pad)%N then 0%Z
                                 else Z.of_N pad + Z.of_nat (ordinary pad tokens i))%Z
                       (seq 0 (length tokens))
  end.

(** The position table has a row for each of them. *)
Definition enough_rows (f : flavour) (rows : nat) (tokens : list N) : Prop :=
  match f with
  | Bert => length tokens <= rows
  | Roberta pad => 0 < rows /\ ((exists t, In t tokens /\ t <> pad) ->
                   (pad + N.of_nat (ordinary pad tokens (length tokens)) < N.of_nat rows)%N)
  end.

(** Operation nodes of the encoder graph: 10 for the embedding, 46 per layer, 5 for the
    pooler. *)
Definition encoder_nodes (p : pooling) (last : nat) : nat :=
  10 + 46 * last + match p with PoolNone => 0 | _ => 5 end.

(** A request that can be carried out: everything the tensor library needs is there. *)
Record runnable {V} (P : prim V) (L : lib) (m : emodel V) (words rows : nat) (s : s_model V)
    (tokens segments : list N) (c : eval_info) (last : nat) : Prop := {
  r_sound : sound P m words rows s;
  r_valid : valid_request (em_hp m) tokens segments c;
  r_some : 0 < length tokens;
  r_layer : names_layer (n_layers (em_hp m)) (output_layer c) last;
  r_fits : fits (get_context_buffer_size L (length tokens) (em_hp m) (pool_type c)) last;
  r_nodes : encoder_nodes (pool_type c) last <= graph_nodes L
}.

(** The values a request asks for. *)
Definition answer {V} (P : prim V) (m : emodel V) (s : s_model V) (p : pooling) (last : nat)
    (tokens segments : list N) : list V :=
  concat (s_output P p (sm_pw s) (sm_pb s)
    (hidden_states P m s last tokens segments (position_ids (em_kind m) tokens))).

(** The segments of a call: given, or all zero. *)
Definition given_segments (segments : option (list N)) (count : nat) : list N :=
  match segments with Some sg => firstn count sg | None => repeat 0%N count end.

(** The arrays behind the pointers of a call are as long as the count says. *)
Definition arrays_ok (tokens : list N) (segments : option (list N)) (count : nat) : Prop :=
  count <= length tokens /\ match segments with Some sg => count <= length sg | None => True end.

(** ** Language-model head *)

(** [le a b]: a is at most b.  A sort routine for rows: a permutation of the indices,
    values not increasing. *)
Definition sorts {V} (le : V -> V -> Prop) (z : V) (argsort : list V -> list nat) : Prop :=
  forall r, NoDup (argsort r) /\ (forall i, In i (argsort r) <-> i < length r) /\
    forall i j, i < j -> j < length r ->
      le (nth (nth j (argsort r) 0) r z) (nth (nth i (argsort r) 0) r z).

(** [ids], [ps]: the [k] best of a row of probabilities, best first. *)
Record best {V} (le : V -> V -> Prop) (z : V) (k : nat) (r : list V) (ids : list nat) (ps : list V) : Prop := {
  best_length : length ids = k;
  best_distinct : NoDup ids;
  best_exist : Forall (fun i => i < length r) ids;
  best_order : forall i j, i < j -> j < k -> le (nth j ps z) (nth i ps z);
  best_probs : ps = map (fun i => nth i r z) ids;
  best_rest : forall other i, other < length r -> ~ In other ids -> i < k -> le (nth other r z) (nth i ps z)
}.

(** The probabilities of a model's head, one row per input token. *)
Definition lm_probs {V} (P : prim V) (e : N) (act : V -> V) (sh : s_lm_head V) (h n : nat) (hidden : list V) : matrix V :=
  s_lm P e act (sl_dw sh) (sl_db sh) (sl_lw sh) (sl_lb sh) (sl_cw sh) (sl_cb sh) (s_cut h n hidden).

(** A model with a language-model head of the declared shapes. *)
Record lm_sound {V} (P : prim V) (m : emodel V) (sh : s_lm_head V) (act : V -> V) : Prop := {
  ls_head : exists hd, lm (em_weights m) = Some hd /\
              head_is P (hidden_dim (em_hp m)) (em_vocab_count m) hd sh;
  ls_act : s_activation P (em_kind m) (hidden_act (em_hp m)) = Some act;
  ls_hidden : 0 < hidden_dim (em_hp m);
  ls_words : 0 < em_vocab_count m;
  ls_bound : (N.of_nat (em_vocab_count m) < 4294967296)%N;
  ls_rows_ok : row_ops_ok P
}.

(** [n] hidden states can be processed. *)
Record lm_runnable {V} (L : lib) (m : emodel V) (n : nat) : Prop := {
  lr_some : 0 < n;
  lr_bound : (N.of_nat n < 2147483648)%N;
  lr_fits : fits (get_context_buffer_size_for_lm L n (em_hp m) (em_vocab_count m)) 0;
  lr_nodes : 15 <= graph_nodes L
}.
