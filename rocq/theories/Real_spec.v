(** The tensor operations in exact real arithmetic, and what follows for results
    should be read "up to rounding".  [eps] gives the real value of a stored layer
    norm constant. *)
From Coq Require Import Reals Lra Permutation.
From Verif Require Import Base Ggml_model Encoder_model Encoder_spec Eval_spec.
Local Open Scope R_scope.

Definition rsum (l : list R) : R := fold_right Rplus 0 l.
Definition mean (l : list R) : R := rsum l / INR (length l).
Definition variance (l : list R) : R := mean (map (fun x => (x - mean l) * (x - mean l)) l).
Definition softmax (l : list R) : list R := map (fun x => exp x / rsum (map exp l)) l.

(** What the operations of the library mean (ggml.c of the pinned time: add, mul,
    mul_mat, norm, soft_max, pool_1d, tanh, argsort in descending order). *)
Record exact (eps : N -> R) (P : prim R) : Prop := {
  ex_zero : p_zero P = 0;
  ex_add : forall a b, p_add P a b = a + b;
  ex_mul : forall a b, p_mul P a b = a * b;
  ex_dot : forall a b, p_dot P a b = rsum (zip_with Rmult a b);
  ex_norm : forall e r, p_norm P e r = map (fun x => (x - mean r) / sqrt (variance r + eps e)) r;
  ex_soft : forall r, p_soft P r = softmax r;
  ex_soft_scaled : forall d r, p_soft_scaled P d r = softmax (map (fun x => x * / sqrt (INR d)) r);
  ex_tanh : forall x, p_tanh P x = (exp x - exp (- x)) / (exp x + exp (- x));
  ex_avg : forall r, p_avg P r = mean r;
  ex_max : forall r, r <> [] -> In (p_max P r) r /\ Forall (fun x => x <= p_max P r) r;
  ex_sort : sorts Rle 0 (p_argsort P)
}.

(** A probability distribution without zeros. *)
Definition distribution (l : list R) : Prop := Forall (fun p => 0 < p <= 1) l /\ rsum l = 1.

(** Two requests that differ only in where their padding tokens stand: the same pairs of
    token and segment, the ordinary ones in the same order. *)
Definition ordinary_pair (pad : N) (p : N * N) : bool := negb (fst p =? pad)%N.
Definition padded_alike (pad : N) (l l' : list (N * N)) : Prop :=
  filter (ordinary_pair pad) l = filter (ordinary_pair pad) l' /\ Permutation l l'.

(** Scale and shift of the layer norm whose output layer [last] returns. *)
Definition final_norm (s : s_model R) (last : nat) : list R * list R :=
  match last with
  | O => (sm_lw s, sm_lb s)
  | S k => match nth_error (sm_blocks s) k with
           | Some y => (sln_out_w y, sln_out_b y)
           | None => ([], [])
           end
  end.
