(** What BERT computes, on matrices given as lists of rows (one row per token).

    Independent of the graph builders: no tensors, no strides, no permutations.  The
    arithmetic is the arbitrary [prim] of the model. *)
From Verif Require Import Base Ggml_model Encoder_model.

Section Spec.
Context {V : Type} (P : prim V).

Definition matrix := list (list V).

Definition zip_with (f : V -> V -> V) (a b : list V) : list V :=
  map (fun p => f (fst p) (snd p)) (combine a b).

(** Column [c] of a matrix. *)
Definition column (m : matrix) (c : nat) : list V := map (fun r => nth c r (p_zero P)) m.

(** x W^T + b, row by row. *)
Definition s_dense (w : matrix) (b : list V) (x : matrix) : matrix :=
  map (fun r => zip_with (p_add P) (map (fun wr => p_dot P wr r) w) b) x.

(** Normalise (with the constant [e]), scale, shift, row by row. *)
Definition s_layer_norm (e : N) (w b : list V) (x : matrix) : matrix :=
  map (fun r => zip_with (p_add P) (zip_with (p_mul P) w (p_norm P e r)) b) x.

(** Row-wise sum of two matrices. *)
Definition s_add (x y : matrix) : matrix :=
  map (fun p => zip_with (p_add P) (fst p) (snd p)) (combine x y).

(** The part of each row that belongs to head [h]. *)
Definition s_head (d h : nat) (x : matrix) : matrix :=
  map (fun r => firstn d (skipn (h * d) r)) x.

(** Scaled dot-product attention of one query row over keys and values. *)
Definition s_attend (d : nat) (k v : matrix) (query : list V) : list V :=
  let p := p_soft_scaled P d (map (fun key => p_dot P key query) k) in
  map (fun c => p_dot P (column v c) p) (seq 0 d).

(** Heads side by side. *)
Definition s_attention (heads d : nat) (q k v : matrix) : matrix :=
  map (fun i => concat (map (fun h =>
         s_attend d (s_head d h k) (s_head d h v) (nth i (s_head d h q) [])) (seq 0 heads)))
      (seq 0 (length q)).

(** Parameters of one encoder layer as matrices. *)
Record s_block := mksb {
  sq_w : matrix; sq_b : list V; sk_w : matrix; sk_b : list V;
  sv_w : matrix; sv_b : list V; sff_w : matrix; sff_b : list V;
  sln_ff_w : list V; sln_ff_b : list V;
  si_w : matrix; si_b : list V; so_w : matrix; so_b : list V;
  sln_out_w : list V; sln_out_b : list V
}.

(** One encoder layer (post-norm transformer). *)
Definition s_layer (e : N) (heads d : nat) (y : s_block) (x : matrix) : matrix :=
  let ctx := s_attention heads d
    (s_dense (sq_w y) (sq_b y) x) (s_dense (sk_w y) (sk_b y) x) (s_dense (sv_w y) (sv_b y) x) in
  let x1 := s_layer_norm e (sln_ff_w y) (sln_ff_b y) (s_add x (s_dense (sff_w y) (sff_b y) ctx)) in
  let m := map (map (p_gelu P)) (s_dense (si_w y) (si_b y) x1) in
  s_layer_norm e (sln_out_w y) (sln_out_b y) (s_add x1 (s_dense (so_w y) (so_b y) m)).

(** Rows of a table. *)
Definition s_rows (table : matrix) (ids : list Z) : matrix :=
  map (fun i => nth (Z.to_nat i) table []) ids.

(** Embedding: segment + (position + word), normalised. *)
Definition s_embed (e : N) (words positions segments : matrix) (lw lb : list V) (pos tok seg : list Z) : matrix :=
  s_layer_norm e lw lb
    (s_add (s_rows segments seg) (s_add (s_rows positions pos) (s_rows words tok))).

(** Pooling of the rows to one. *)
Definition s_pooled (p : pooling) (x : matrix) : list V :=
  match p with
  | PoolCls => nth 0 x []
  | PoolAvg => map (fun c => p_avg P (column x c)) (seq 0 (length (nth 0 x [])))
  | PoolMax => map (fun c => p_max P (column x c)) (seq 0 (length (nth 0 x [])))
  | _ => []
  end.

(** The output matrix for a pooling type. *)
Definition s_output (p : pooling) (w : matrix) (b : list V) (x : matrix) : matrix :=
  match p with
  | PoolNone => x
  | _ => map (map (p_tanh P)) (s_dense w b [s_pooled p x])
  end.

(** Language-model head. *)
Definition s_lm (e : N) (act : V -> V) (dw : matrix) (db lw lb : list V) (cw : matrix) (cb : list V) (x : matrix) : matrix :=
  map (p_soft P) (s_dense cw cb (s_layer_norm e lw lb (map (map act) (s_dense dw db x)))).

(** ** Declared shapes *)

(** [t] is an r x c matrix (ggml order: extent 0 is the row length) with rows [m]. *)
Definition is_matrix (t : tensor V) (r c : nat) (m : matrix) : Prop :=
  ne0 t = c /\ ne1 t = r /\ ne2 t = 1 /\ ne3 t = 1 /\
  length m = r /\ Forall (fun x => length x = c) m /\
  transposed t = false /\
  forall i j, i < c -> j < r -> el t i j 0 0 = nth i (nth j m []) (p_zero P).

(** [t] is an F32 vector of length [c] with elements [v]. *)
Definition is_vector (t : tensor V) (c : nat) (v : list V) : Prop :=
  ty t = F32 /\ ne0 t = c /\ ne1 t = 1 /\ ne2 t = 1 /\ ne3 t = 1 /\ length v = c /\
  forall i, i < c -> el t i 0 0 0 = nth i v (p_zero P).

Record block_is (h m : nat) (y : block V) (s : s_block) : Prop := {
  b_qw : is_matrix (q_w y) h h (sq_w s); b_qb : is_vector (q_b y) h (sq_b s);
  b_kw : is_matrix (k_w y) h h (sk_w s); b_kb : is_vector (k_b y) h (sk_b s);
  b_vw : is_matrix (v_w y) h h (sv_w s); b_vb : is_vector (v_b y) h (sv_b s);
  b_fw : is_matrix (ff_w y) h h (sff_w s); b_fb : is_vector (ff_b y) h (sff_b s);
  b_lfw : is_vector (ln_ff_w y) h (sln_ff_w s); b_lfb : is_vector (ln_ff_b y) h (sln_ff_b s);
  b_iw : is_matrix (i_w y) m h (si_w s); b_ib : is_vector (i_b y) m (si_b s);
  b_ow : is_matrix (o_w y) h m (so_w s); b_ob : is_vector (o_b y) h (so_b s);
  b_low : is_vector (ln_out_w y) h (sln_out_w s); b_lob : is_vector (ln_out_b y) h (sln_out_b s)
}.

(** Parameters of the whole model. *)
Record s_model := mksm {
  sm_words : matrix; sm_positions : matrix; sm_segments : matrix;
  sm_lw : list V; sm_lb : list V;
  sm_blocks : list s_block;
  sm_pw : matrix; sm_pb : list V
}.

(** The weights have the shapes declared by the hyper-parameters: [words] rows in
    the word table, [rows] in the position table. *)
Record weights_are (hp : hparams) (words rows : nat) (w : weights V) (s : s_model) : Prop := {
  w_words : is_matrix (token_embedding w) words (hidden_dim hp) (sm_words s);
  w_segs : is_matrix (segment_embedding w) (segment_count hp) (hidden_dim hp) (sm_segments s);
  w_pos : is_matrix (position_embedding w) rows (hidden_dim hp) (sm_positions s);
  w_lw : is_vector (ln_w w) (hidden_dim hp) (sm_lw s);
  w_lb : is_vector (ln_b w) (hidden_dim hp) (sm_lb s);
  w_layers : Forall2 (block_is (hidden_dim hp) (intermediate_dim hp)) (layers w) (sm_blocks s);
  w_count : length (layers w) = n_layers hp;
  w_pw : is_matrix (pool_w w) (hidden_dim hp) (hidden_dim hp) (sm_pw s);
  w_pb : is_vector (pool_b w) (hidden_dim hp) (sm_pb s)
}.

(** Parameters of the language-model head, over a vocabulary of [words] ids. *)
Record s_lm_head := mksl {
  sl_dw : matrix; sl_db : list V; sl_lw : list V; sl_lb : list V; sl_cw : matrix; sl_cb : list V
}.

Record head_is (h words : nat) (w : head V) (s : s_lm_head) : Prop := {
  h_dw : is_matrix (lm_dense_w w) h h (sl_dw s); h_db : is_vector (lm_dense_b w) h (sl_db s);
  h_lw : is_vector (lm_ln_w w) h (sl_lw s); h_lb : is_vector (lm_ln_b w) h (sl_lb s);
  h_cw : is_matrix (lm_decoder_w w) words h (sl_cw s); h_cb : is_vector (lm_decoder_b w) words (sl_cb s)
}.

(** An array cut into [n] rows of [h] values. *)
Definition s_cut (h n : nat) (v : list V) : matrix :=
  map (fun j => firstn h (skipn (j * h) v)) (seq 0 n).

(** The activation of the head: RoBERTa always uses GELU, BERT the configured one. *)
Definition s_activation (f : flavour) (a : activation) : option (V -> V) :=
  match f, a with
  | Roberta _, _ => Some (p_gelu P)
  | Bert, Gelu => Some (p_gelu P)
  | Bert, Relu => Some (p_relu P)
  | Bert, Silu => Some (p_silu P)
  | Bert, GeluNew => None
  end.

(** The encoder run up to layer [last]. *)
Definition s_encode (hp : hparams) (s : s_model) (last : nat) (x : matrix) : matrix :=
  fold_left (fun x y => s_layer (ln_eps hp) (attn_heads hp) (hidden_dim hp / attn_heads hp) y x)
            (firstn last (sm_blocks s)) x.

(** Row operations keep the row length. *)
Record row_ops_ok : Prop := {
  norm_length : forall e r, length (p_norm P e r) = length r;
  soft_length : forall r, length (p_soft P r) = length r;
  soft_scaled_length : forall d r, length (p_soft_scaled P d r) = length r
}.
End Spec.
Arguments matrix : clear implicits.
Arguments s_block : clear implicits.
Arguments s_model : clear implicits.
Arguments s_lm_head : clear implicits.
