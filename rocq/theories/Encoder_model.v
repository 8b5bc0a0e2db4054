(** The graphs of the encoder and of the language-model head, and the memory
    estimates made before building them.

    berts/models/bert.cpp:648-1131 and berts/models/roberta.cpp:379-835.  The two
    encoders differ only in the position ids (roberta.cpp:614-623) and the two heads
    only in the activation (roberta.cpp:806).  Tensor names (ggml_set_name,
    ggml_format_name) are not modelled: the result of a builder is the tensor it names
    "out" (or "lm_prob" and "lm_out").  BERTS_DEBUG blocks are not modelled. *)
From Verif Require Import Base Ggml_model.

(** berts/models/internal.hpp:14-33.  The integers are bert_int (int64) and are read
    from 32-bit unsigned settings (gguf.cpp:214-224), hence natural numbers; eps is the bit
    pattern of the double. *)
Inductive activation := Gelu | Relu | Silu | GeluNew.

Record hparams := mkhp {
  hidden_dim : nat;
  n_layers : nat;
  attn_heads : nat;
  max_tokens : nat;
  intermediate_dim : nat;
  segment_count : nat;
  hidden_act : activation;
  ln_eps : N
}.

(** berts.h:134-147; any other integer is [PoolOther] *)
Inductive pooling := PoolNone | PoolCls | PoolAvg | PoolMax | PoolOther.

(** bert.hpp:86-130, roberta.hpp *)
Record block (V : Type) := mkblock {
  q_w : tensor V; q_b : tensor V; k_w : tensor V; k_b : tensor V;
  v_w : tensor V; v_b : tensor V; ff_w : tensor V; ff_b : tensor V;
  ln_ff_w : tensor V; ln_ff_b : tensor V;
  i_w : tensor V; i_b : tensor V; o_w : tensor V; o_b : tensor V;
  ln_out_w : tensor V; ln_out_b : tensor V
}.
Arguments q_w {V}. Arguments q_b {V}. Arguments k_w {V}. Arguments k_b {V}.
Arguments v_w {V}. Arguments v_b {V}. Arguments ff_w {V}. Arguments ff_b {V}.
Arguments ln_ff_w {V}. Arguments ln_ff_b {V}. Arguments i_w {V}. Arguments i_b {V}.
Arguments o_w {V}. Arguments o_b {V}. Arguments ln_out_w {V}. Arguments ln_out_b {V}.

Record head (V : Type) := mkhead {
  lm_dense_w : tensor V; lm_dense_b : tensor V;
  lm_ln_w : tensor V; lm_ln_b : tensor V;
  lm_decoder_w : tensor V; lm_decoder_b : tensor V
}.
Arguments lm_dense_w {V}. Arguments lm_dense_b {V}. Arguments lm_ln_w {V}.
Arguments lm_ln_b {V}. Arguments lm_decoder_w {V}. Arguments lm_decoder_b {V}.

(** [lm] is [None] if any of the six optional tensors is missing
    (bert.cpp:1055-1063). *)
Record weights (V : Type) := mkweights {
  token_embedding : tensor V;
  segment_embedding : tensor V;
  position_embedding : tensor V;
  ln_w : tensor V; ln_b : tensor V;
  layers : list (block V);
  pool_w : tensor V; pool_b : tensor V;
  lm : option (head V)
}.
Arguments token_embedding {V}. Arguments segment_embedding {V}.
Arguments position_embedding {V}. Arguments ln_w {V}. Arguments ln_b {V}.
Arguments layers {V}. Arguments pool_w {V}. Arguments pool_b {V}. Arguments lm {V}.

(** uint32 or size_t stored in a 32-bit signed cell *)
Definition to_i32 (x : N) : Z :=
  let r := (x mod 4294967296)%N in
  if (r <? 2147483648)%N then Z.of_N r else (Z.of_N r - 4294967296)%Z.

(** bert.cpp:898-901 *)
Definition bert_positions (tokens : list N) : list Z :=
  map (fun i => to_i32 (N.of_nat i)) (seq 0 (length tokens)).

(** roberta.cpp:614-623: [v] is the next position *)
Fixpoint roberta_positions_from (pad v : N) (tokens : list N) : list Z :=
  match tokens with
  | [] => []
  | t :: rest =>
      if (t =? pad)%N then 0%Z :: roberta_positions_from pad v rest
      else to_i32 v :: roberta_positions_from pad (v + 1)%N rest
  end.
Definition roberta_positions (pad : N) (tokens : list N) : list Z :=
  roberta_positions_from pad (pad + 1)%N tokens.

Inductive flavour := Bert | Roberta (pad : N).
Definition positions (f : flavour) (tokens : list N) : list Z :=
  match f with Bert => bert_positions tokens | Roberta pad => roberta_positions pad tokens end.

Section Graphs.
Context {V : Type} (P : prim V) (L : lib).

(** bert.cpp:892-914, roberta.cpp:604-636 *)
Definition embed (hp : hparams) (w : weights V) (pos : list Z) (tokens segments : list N) : B (tensor V) :=
  token_emb <- new_indices L (map to_i32 tokens) ;;
  seg_emb <- new_indices L (map to_i32 segments) ;;
  pos_emb <- new_indices L pos ;;
  x <- g_get_rows L (token_embedding w) token_emb ;;
  p <- g_get_rows L (position_embedding w) pos_emb ;;
  x <- g_add P L p x ;;
  s <- g_get_rows L (segment_embedding w) seg_emb ;;
  x <- g_add P L s x ;;
  x <- bert_layer_norm P L x (ln_w w) (ln_b w) (ln_eps hp) ;;
  _ <- bassert ((ne2 x =? 1) && (ne3 x =? 1)) ;;
  _ <- bassert (ne0 x =? hidden_dim hp) ;;
  _ <- bassert (ne1 x =? length tokens) ;;
  bret x.

(** bert.cpp:924-925 and 936-977 *)
Definition self_attention (hp : hparams) (y : block V) (n : nat) (x : tensor V) : B (tensor V) :=
  let n_head := attn_heads hp in
  let attn_dim := hidden_dim hp / n_head in
  q <- bert_dense P L x (q_w y) (q_b y) ;;
  q <- g_reshape L q attn_dim n_head n 1 ;;
  k <- bert_dense P L x (k_w y) (k_b y) ;;
  k <- g_reshape L k attn_dim n_head n 1 ;;
  v <- bert_dense P L x (v_w y) (v_b y) ;;
  v <- g_reshape L v attn_dim n_head n 1 ;;
  q <- g_permute L q 0 2 1 3 ;;
  q <- g_cont L q ;;
  k <- g_permute L k 0 2 1 3 ;;
  k <- g_cont L k ;;
  v <- g_permute L v 1 2 0 3 ;;
  v <- g_cont L v ;;
  kq <- g_mul_mat P L k q ;;
  sim <- g_soft_max_ext P L kq attn_dim ;;
  res <- g_mul_mat P L v sim ;;
  res <- g_permute L res 0 2 1 3 ;;
  res <- g_cont L res ;;
  dst <- new_tensor L F32 (hidden_dim hp) n 1 1 (fun _ _ _ _ => p_zero P) ;;
  res <- g_cpy L res dst ;;
  res <- bert_dense P L res (ff_w y) (ff_b y) ;;
  x <- g_add P L x res ;;
  bert_layer_norm P L x (ln_ff_w y) (ln_ff_b y) (ln_eps hp).

(** bert.cpp:979-998: any activation but GELU is rejected *)
Definition intermediate (hp : hparams) (y : block V) (x : tensor V) : B (tensor V) :=
  res <- bert_dense P L x (i_w y) (i_b y) ;;
  res <- (match hidden_act hp with Gelu => g_unary L (p_gelu P) res | _ => bfail end) ;;
  res <- bert_dense P L res (o_w y) (o_b y) ;;
  x <- g_add P L x res ;;
  bert_layer_norm P L x (ln_out_w y) (ln_out_b y) (ln_eps hp).

(** bert.cpp:929-999: [last] layers are run, or all there are *)
Fixpoint encode (hp : hparams) (last : nat) (ys : list (block V)) (n : nat) (x : tensor V) : B (tensor V) :=
  match last, ys with
  | S last', y :: ys' =>
      x <- self_attention hp y n x ;;
      x <- intermediate hp y x ;;
      encode hp last' ys' n x
  | _, _ => bret x
  end.

(** bert.cpp:1011-1041 *)
Definition pool (hp : hparams) (w : weights V) (p : pooling) (n : nat) (x : tensor V) : B (tensor V) :=
  let finish x :=
    _ <- bassert ((ne0 x =? hidden_dim hp) && (ne1 x =? 1) && (ne2 x =? 1) && (ne3 x =? 1)) ;;
    x <- bert_dense P L x (pool_w w) (pool_b w) ;;
    g_unary L (p_tanh P) x in
  match p with
  | PoolNone => bret x
  | PoolCls => x <- g_view_1d L x (ne0 x) ;; finish x
  | PoolAvg => x <- g_pool_2d L (p_avg P) x n ;; finish x
  | PoolMax => x <- g_pool_2d L (p_max P) x n ;; finish x
  | PoolOther => bfail
  end.

(** bert.cpp:871-1048, roberta.cpp:587-770.  The head size is computed before the
    layers (bert.cpp:924-925): no heads is a division by zero. *)
Definition build_graph (f : flavour) (hp : hparams) (w : weights V) (last : nat) (p : pooling)
    (tokens segments : list N) : B (tensor V) :=
  x <- embed hp w (positions f tokens) tokens segments ;;
  if attn_heads hp =? 0 then bub
  else
    x <- encode hp last (layers w) (length tokens) x ;;
    pool hp w p (length tokens) x.

(** bert.cpp:1069-1127, roberta.cpp:789-831: probabilities and sorted ids.
    [vocab_count] is vocab->token_count(). *)
Definition lm_activation (f : flavour) (a : activation) (x : tensor V) : B (tensor V) :=
  match f, a with
  | Roberta _, _ => g_unary L (p_gelu P) x
  | Bert, Gelu => g_unary L (p_gelu P) x
  | Bert, Relu => g_unary L (p_relu P) x
  | Bert, Silu => g_unary L (p_silu P) x
  | Bert, GeluNew => bfail
  end.

Definition build_lm_graph (f : flavour) (hp : hparams) (w : weights V) (vocab_count : nat)
    (hidden_states : list V) : B (tensor V * list (list nat)) :=
  match lm w with
  | None => bfail
  | Some h =>
      let count := length hidden_states in
      let n := count / hidden_dim hp in
      x <- new_tensor L F32 count 1 1 1 (fun i _ _ _ => nth i hidden_states (p_zero P)) ;;
      x <- g_reshape L x (hidden_dim hp) n 1 1 ;;
      x <- bert_dense P L x (lm_dense_w h) (lm_dense_b h) ;;
      x <- lm_activation f (hidden_act hp) x ;;
      x <- bert_layer_norm P L x (lm_ln_w h) (lm_ln_b h) (ln_eps hp) ;;
      _ <- bassert (ne0 x =? hidden_dim hp) ;;
      _ <- bassert (ne1 x =? n) ;;
      x <- bert_dense P L x (lm_decoder_w h) (lm_decoder_b h) ;;
      _ <- bassert (ne0 x =? vocab_count) ;;
      _ <- bassert (ne1 x =? n) ;;
      prob <- g_soft_max P L x ;;
      ids <- g_argsort P L prob ;;
      bret (prob, ids)
  end.
End Graphs.

(** bert.cpp:648-800 and, identically, roberta.cpp:379-531 *)
Definition get_context_buffer_size (L : lib) (n : nat) (hp : hparams) (p : pooling) : size_info :=
  let ts1 t a := get_tensor_size L t a 1 1 1 in
  let ts2 t a b := get_tensor_size L t a b 1 1 in
  let ts3 t a b c := get_tensor_size L t a b c 1 in
  let view := ts1 F32 O in
  let h := hidden_dim hp in
  let m := intermediate_dim hp in
  let emb := (ts1 I32 n * 3 + ts2 F32 h n * 3 + ts2 F32 h n * 2 + ts2 F32 h n * 5)%N in
  let layer :=
    if n_layers hp =? 0 then 0%N
    else
      ((ts2 F32 h n + ts2 F32 h n + ts2 F32 h n + view + ts2 F32 h n + view) * 3
       + ts3 F32 n n (attn_heads hp) * 2
       + ts2 F32 h n
       + (view + ts2 F32 h n)
       + (view + ts2 F32 h n)
       + (ts2 F32 h n + ts2 F32 h n + ts2 F32 h n)
       + ts2 F32 h n
       + ts2 F32 h n * 5
       + (ts2 F32 m n + ts2 F32 m n + ts2 F32 m n)
       + ts2 F32 m n
       + (ts2 F32 h n + ts2 F32 h n + ts2 F32 h n)
       + ts2 F32 h n
       + ts2 F32 h n * 5)%N in
  let dense_tanh := (ts1 F32 h + ts1 F32 h + ts1 F32 h + ts1 F32 h)%N in
  let pooler :=
    match p with
    | PoolNone => 0%N
    | PoolCls => (view + dense_tanh)%N
    | PoolAvg | PoolMax => (ts1 F32 h + dense_tanh)%N
    | PoolOther => dense_tanh
    end in
  mksize emb layer pooler (graph_overhead L).

(** bert.cpp:802-869 and roberta.cpp:533-585: the same sum, every activation adds one
    tensor *)
Definition get_context_buffer_size_for_lm (L : lib) (n : nat) (hp : hparams) (vocab_count : nat) : size_info :=
  let ts1 t a := get_tensor_size L t a 1 1 1 in
  let ts2 t a b := get_tensor_size L t a b 1 1 in
  let view := ts1 F32 O in
  let h := hidden_dim hp in
  mksize
    (ts1 F32 (n * h)%nat
     + view
     + (ts2 F32 h n + ts2 F32 h n + ts2 F32 h n)
     + ts2 F32 h n
     + ts2 F32 h n * 5
     + (ts2 F32 vocab_count n + ts2 F32 vocab_count n + ts2 F32 vocab_count n)
     + ts2 F32 vocab_count n
     + ts2 I32 vocab_count n)%N
    0%N 0%N (graph_overhead L).
