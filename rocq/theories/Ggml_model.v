(** The tensor operations used by the graph builders.

    ggml is an external library (the submodule /repo/ggml is empty); the sizes,
    preconditions and element-wise meaning below are those of the operations called
    in berts/models/{bert,roberta}.cpp and berts/models/ggml.hpp.  Sizes of the
    library's structures are a parameter ([lib]) and so is arithmetic on elements
    ([prim]); nothing is assumed about them unless a theorem says so.

    A tensor is its type, its four extents, its strides (counted in elements) and
    the value of each element.  Building a graph and running it are one step here:
    the graphs are built once, no tensor is overwritten after it was read, so the
    value of a node does not depend on when it is computed.  Two things only happen
    when the graph runs and are therefore recorded while building: the rows looked
    up in embedding tables, and the number of operation nodes. *)
From Verif Require Import Base.

(** Arithmetic.  [p_norm e] and [p_soft_scaled d] act on rows; [e] is the bit pattern of a
    double, converted to float when ggml_norm is called; the latter multiplies by
    1/sqrt(d) first. *)
Record prim (V : Type) := mkprim {
  p_zero : V;
  p_add : V -> V -> V;
  p_mul : V -> V -> V;
  p_dot : list V -> list V -> V;
  p_norm : N -> list V -> list V;
  p_soft : list V -> list V;
  p_soft_scaled : nat -> list V -> list V;
  p_gelu : V -> V;
  p_relu : V -> V;
  p_silu : V -> V;
  p_tanh : V -> V;
  p_avg : list V -> V;
  p_max : list V -> V;
  p_argsort : list V -> list nat
}.
Arguments p_zero {V}. Arguments p_add {V}. Arguments p_mul {V}. Arguments p_dot {V}.
Arguments p_norm {V}. Arguments p_soft {V}. Arguments p_soft_scaled {V}.
Arguments p_gelu {V}. Arguments p_relu {V}. Arguments p_silu {V}. Arguments p_tanh {V}.
Arguments p_avg {V}. Arguments p_max {V}. Arguments p_argsort {V}.

(** GGML_TENSOR_SIZE, GGML_OBJECT_SIZE, GGML_MEM_ALIGN, the bytes of a graph object
    and the number of nodes it has room for. *)
Record lib := mklib {
  tensor_bytes : N;
  object_bytes : N;
  mem_align : N;
  graph_bytes : N;
  graph_nodes : nat
}.

Inductive gtype := F32 | I32 | OtherType (type_size block_size : N).

(** ggml_type_size, ggml_blck_size *)
Definition type_size (t : gtype) : N :=
  match t with F32 => 4 | I32 => 4 | OtherType s _ => s end.
Definition blck_size (t : gtype) : N :=
  match t with F32 => 1 | I32 => 1 | OtherType _ b => b end.

Record tensor (V : Type) := mkt {
  ty : gtype;
  ne0 : nat; ne1 : nat; ne2 : nat; ne3 : nat;
  st0 : nat; st1 : nat; st2 : nat; st3 : nat;
  el : nat -> nat -> nat -> nat -> V
}.
Arguments mkt {V}. Arguments ty {V}. Arguments el {V}.
Arguments ne0 {V}. Arguments ne1 {V}. Arguments ne2 {V}. Arguments ne3 {V}.
Arguments st0 {V}. Arguments st1 {V}. Arguments st2 {V}. Arguments st3 {V}.

Definition numel {V} (t : tensor V) : nat := ne0 t * ne1 t * ne2 t * ne3 t.

(** A tensor laid out without gaps. *)
Definition packed {V} (t : gtype) (a b c d : nat) (f : nat -> nat -> nat -> nat -> V) : tensor V :=
  mkt t a b c d 1 a (a * b) (a * b * c) f.

(** ggml_is_contiguous, ggml_is_transposed *)
Definition contiguous {V} (t : tensor V) : bool :=
  (st0 t =? 1) && (st1 t =? ne0 t) && (st2 t =? ne0 t * ne1 t) && (st3 t =? ne0 t * ne1 t * ne2 t).
Definition transposed {V} (t : tensor V) : bool := (st1 t <? st0 t).

(** Element number [p] in storage order of a contiguous tensor. *)
Definition flat {V} (t : tensor V) (p : nat) : V :=
  el t (p mod ne0 t) (p / ne0 t mod ne1 t)
       (p / (ne0 t * ne1 t) mod ne2 t) (p / (ne0 t * ne1 t * ne2 t)).

(** All elements in storage order (the array behind ggml_get_data). *)
Definition data {V} (t : tensor V) : list V := map (flat t) (seq 0 (numel t)).

(** One row (extent 0). *)
Definition row {V} (t : tensor V) (j k l : nat) : list V :=
  map (fun i => el t i j k l) (seq 0 (ne0 t)).

(** The memory pool, the nodes made so far and the table look-ups they will do. *)
Record arena := mkarena {
  capacity : N;
  used : N;
  nodes : nat;
  lookups : list (nat * list Z)
}.

Definition B (A : Type) : Type := arena -> outcome (A * arena).

Definition bret {A} (a : A) : B A := fun s => Ok (a, s).
Definition bfail {A} : B A := fun _ => Fail.
Definition bub {A} : B A := fun _ => UB.
Definition bbind {A C} (m : B A) (k : A -> B C) : B C :=
  fun s => obind (m s) (fun r => k (fst r) (snd r)).
Notation "x <- m ;; k" := (bbind m (fun x => k)) (at level 61, m at next level, right associativity).

(** GGML_ASSERT: kills the process, in release builds too. *)
Definition bassert (c : bool) : B unit := fun s => if c then Ok (tt, s) else Abort.

(** Take [cost] bytes of the pool; with too little room ggml returns a null tensor
    which the builders dereference. *)
Definition step {A} (cost : N) (k : nat) (l : list (nat * list Z)) (a : A) : B A :=
  fun s => if (capacity s <? used s + cost)%N then UB
           else Ok (a, mkarena (capacity s) (used s + cost) (nodes s + k) (lookups s ++ l)).

(** GGML_PAD for a power of two *)
Definition pad_to (a x : N) : N := ((x + (a - 1)) / a * a)%N.

(** Pool bytes of an object with [n] data bytes. *)
Definition object_cost (L : lib) (n : N) : N :=
  (object_bytes L + pad_to (mem_align L) n)%N.

Definition tensor_cost (L : lib) (t : gtype) (a b c d : nat) : N :=
  object_cost L (tensor_bytes L +
    type_size t * (N.of_nat a / blck_size t) * N.of_nat b * N.of_nat c * N.of_nat d)%N.

(** A view has no data of its own. *)
Definition view_cost (L : lib) : N := object_cost L (tensor_bytes L).

Section Operations.
Context {V : Type} (P : prim V) (L : lib).

Definition fresh_op (t : gtype) (a b c d : nat) (f : nat -> nat -> nat -> nat -> V) : B (tensor V) :=
  step (tensor_cost L t a b c d) 1 [] (packed t a b c d f).

(** ggml_new_tensor_*: a leaf *)
Definition new_tensor (t : gtype) (a b c d : nat) (f : nat -> nat -> nat -> nat -> V) : B (tensor V) :=
  step (tensor_cost L t a b c d) 0 [] (packed t a b c d f).

(** a one-dimensional I32 tensor with its contents *)
Definition new_indices (v : list Z) : B (list Z) :=
  step (tensor_cost L I32 (length v) 1 1 1) 0 [] v.

Definition dup_op (x : tensor V) (f : nat -> nat -> nat -> nat -> V) : B (tensor V) :=
  fresh_op (ty x) (ne0 x) (ne1 x) (ne2 x) (ne3 x) f.

(** ggml_can_repeat and ggml_can_mul_mat: in each pair the second must be a multiple of
    the first; the test computes a remainder, undefined for a first of zero *)
Fixpoint bmultiples (l : list (nat * nat)) : B unit :=
  match l with
  | [] => bret tt
  | (a, b) :: l' => if a =? 0 then bub else _ <- bassert (b mod a =? 0) ;; bmultiples l'
  end.
Definition extents (a b : tensor V) : list (nat * nat) :=
  [(ne0 a, ne0 b); (ne1 a, ne1 b); (ne2 a, ne2 b); (ne3 a, ne3 b)].

Definition tiled (a : tensor V) (i j k l : nat) : V :=
  el a (i mod ne0 a) (j mod ne1 a) (k mod ne2 a) (l mod ne3 a).

Definition g_repeat (a b : tensor V) : B (tensor V) :=
  _ <- bmultiples (extents a b) ;;
  fresh_op (ty a) (ne0 b) (ne1 b) (ne2 b) (ne3 b) (tiled a).

Definition g_add (a b : tensor V) : B (tensor V) :=
  _ <- bassert (ne0 a =? ne0 b) ;;
  _ <- bmultiples (extents b a) ;;
  dup_op a (fun i j k l => p_add P (el a i j k l) (tiled b i j k l)).

Definition g_mul (a b : tensor V) : B (tensor V) :=
  _ <- bmultiples (extents b a) ;;
  dup_op a (fun i j k l => p_mul P (el a i j k l) (tiled b i j k l)).

Definition g_mul_mat (a b : tensor V) : B (tensor V) :=
  _ <- bassert (ne0 a =? ne0 b) ;;
  _ <- bmultiples [(ne2 a, ne2 b); (ne3 a, ne3 b)] ;;
  _ <- bassert (negb (transposed a)) ;;
  fresh_op F32 (ne1 a) (ne1 b) (ne2 b) (ne3 b) (fun i j k l =>
    p_dot P (row a i (k / (ne2 b / ne2 a)) (l / (ne3 b / ne3 a))) (row b j k l)).

Definition g_norm (a : tensor V) (eps : N) : B (tensor V) :=
  dup_op a (fun i j k l => nth i (p_norm P eps (row a j k l)) (p_zero P)).

Definition g_unary (f : V -> V) (a : tensor V) : B (tensor V) :=
  _ <- bassert (contiguous a) ;;
  dup_op a (fun i j k l => f (el a i j k l)).

(** ggml_get_rows with a one-dimensional index tensor; the rows are read when the
    graph runs *)
Definition g_get_rows (a : tensor V) (ids : list Z) : B (tensor V) :=
  _ <- bassert (ne2 a =? 1) ;;
  step (tensor_cost L F32 (ne0 a) (length ids) 1 1) 1 [(ne1 a, ids)]
    (packed F32 (ne0 a) (length ids) 1 1 (fun i j _ _ => el a i (Z.to_nat (nth j ids 0%Z)) 0 0)).

Definition reshaped (x : tensor V) (a b c d : nat) : tensor V :=
  packed (ty x) a b c d (fun i j k l => flat x (i + a * (j + b * (k + c * l)))).

Definition g_reshape (x : tensor V) (a b c d : nat) : B (tensor V) :=
  _ <- bassert (contiguous x) ;;
  _ <- bassert (numel x =? a * b * c * d) ;;
  step (view_cost L) 1 [] (reshaped x a b c d).

(** ggml_permute(x, p0, p1, p2, p3): old axis i becomes axis p_i *)
Definition axis {A} (j p0 p1 p2 : nat) (x0 x1 x2 x3 : A) : A :=
  if p0 =? j then x0 else if p1 =? j then x1 else if p2 =? j then x2 else x3.
Definition coord (j i0 i1 i2 i3 : nat) : nat :=
  match j with 0 => i0 | 1 => i1 | 2 => i2 | _ => i3 end.

Definition g_permute (x : tensor V) (p0 p1 p2 p3 : nat) : B (tensor V) :=
  let ne j := axis j p0 p1 p2 (ne0 x) (ne1 x) (ne2 x) (ne3 x) in
  let st j := axis j p0 p1 p2 (st0 x) (st1 x) (st2 x) (st3 x) in
  step (view_cost L) 1 []
    (mkt (ty x) (ne 0) (ne 1) (ne 2) (ne 3) (st 0) (st 1) (st 2) (st 3)
      (fun i0 i1 i2 i3 => el x (coord p0 i0 i1 i2 i3) (coord p1 i0 i1 i2 i3)
                               (coord p2 i0 i1 i2 i3) (coord p3 i0 i1 i2 i3))).

Definition g_cont (x : tensor V) : B (tensor V) := dup_op x (el x).

Definition g_soft_max_ext (x : tensor V) (d : nat) : B (tensor V) :=
  _ <- bassert (contiguous x) ;;
  dup_op x (fun i j k l => nth i (p_soft_scaled P d (row x j k l)) (p_zero P)).

Definition g_soft_max (x : tensor V) : B (tensor V) :=
  _ <- bassert (contiguous x) ;;
  dup_op x (fun i j k l => nth i (p_soft P (row x j k l)) (p_zero P)).

(** ggml_cpy: the result is a view of the destination, holding the elements of the
    source in storage order *)
Definition g_cpy (x dst : tensor V) : B (tensor V) :=
  _ <- bassert (numel x =? numel dst) ;;
  step (view_cost L) 1 [] (mkt (ty dst) (ne0 dst) (ne1 dst) (ne2 dst) (ne3 dst)
    (st0 dst) (st1 dst) (st2 dst) (st3 dst)
    (fun i j k l => flat x (i + ne0 dst * (j + ne1 dst * (k + ne2 dst * l))))).

(** ggml_view_1d at offset 0: the view must lie inside its source *)
Definition g_view_1d (x : tensor V) (n : nat) : B (tensor V) :=
  _ <- bassert (n <=? numel x) ;;
  step (view_cost L) 1 [] (packed (ty x) n 1 1 1 (fun i _ _ _ => flat x i)).

(** ggml_pool_2d(x, op, 1, k, 1, k, 0, 0): extent 1 is cut into windows of [k]; the
    number of windows is (ne1 - k) / k + 1, a division by zero for k = 0 *)
Definition g_pool_2d (f : list V -> V) (x : tensor V) (k : nat) : B (tensor V) :=
  if k =? 0 then bub
  else fresh_op F32 (ne0 x) ((ne1 x - k) / k + 1) (ne2 x) 1 (fun i j c _ =>
    f (map (fun v => el x i (j * k + v) c 0) (seq 0 k))).

(** ggml_argsort descending: an I32 tensor holding a row of ids per row of [x] *)
Definition g_argsort (x : tensor V) : B (list (list nat)) :=
  step (tensor_cost L I32 (ne0 x) (ne1 x) (ne2 x) (ne3 x)) 1 []
    (map (fun j => p_argsort P (row x j 0 0)) (seq 0 (ne1 x))).

(** berts/models/ggml.hpp:92-96 *)
Definition bert_dense (x w b : tensor V) : B (tensor V) :=
  x <- g_mul_mat w x ;;
  r <- g_repeat b x ;;
  g_add x r.

(** berts/models/ggml.hpp:98-103 *)
Definition bert_layer_norm (x ln_w ln_b : tensor V) (eps : N) : B (tensor V) :=
  x <- g_norm x eps ;;
  r <- g_repeat ln_w x ;;
  m <- g_mul r x ;;
  b <- g_repeat ln_b x ;;
  g_add m b.

End Operations.

(** berts/models/ggml.hpp:76-90, in exact arithmetic (see [calc] for size_t) *)
Definition get_data_size (t : gtype) (a b c d : nat) : N :=
  (type_size t * (N.of_nat a / blck_size t) * N.of_nat b * N.of_nat c * N.of_nat d)%N.
Definition get_tensor_size (L : lib) (t : gtype) (a b c d : nat) : N :=
  (pad_to (mem_align L) (get_data_size t a b c d + tensor_bytes L) + object_bytes L)%N.

(** berts/models/ggml.hpp:14-27.  All sizes are size_t: additions and
    multiplications are modulo 2^64, and as rounding up to the alignment commutes
    with that the reduction is done once, in [calc]. *)
Record size_info := mksize { z_emb : N; z_layer : N; z_pooler : N; z_graph : N }.
Definition w64 (x : N) : N := (x mod 18446744073709551616)%N.
Definition calc (z : size_info) (layers : nat) : N :=
  w64 (z_emb z + z_layer z * N.of_nat layers + z_pooler z + z_graph z).

(** ggml_graph_overhead *)
Definition graph_overhead (L : lib) : N := object_cost L (graph_bytes L).
