(** berts_eval and berts_eval_lm: berts/berts.cpp:200-271,
    berts/models/model_berts.hpp:53-346, berts/models/internal.cpp:56-64.

    Memory of the caller is explicit as in Api_model: a pointer is [None] or the
    cells of the object behind it, and reading or writing past them is undefined.
    Logging is not modelled. *)
From Verif Require Import Base Ggml_model Encoder_model.

(** A loaded model, as far as evaluation uses it. *)
Record emodel (V : Type) := mkem {
  em_kind : flavour;
  em_hp : hparams;
  em_weights : weights V;
  em_vocab_count : nat
}.
Arguments em_kind {V}. Arguments em_hp {V}. Arguments em_weights {V}.
Arguments em_vocab_count {V}.

(** berts.h:149-190 berts_eval_info; output_layer is bert_int (int64).  The number of
    threads is passed on to ggml. *)
Record eval_info := mkei { output_layer : Z; pool_type : pooling }.

(** berts.h:213-222 berts_eval_lm_info *)
Record lm_info := mkli { top_k : Z }.

Definition INT64_MIN : Z := (-9223372036854775808)%Z.

(** What a call leaves behind: result, buffer(s), count cell. *)
Record evaluated (V : Type) := mkev { e_ok : bool; e_out : option (list V); e_count : option N }.
Arguments mkev {V}. Arguments e_ok {V}. Arguments e_out {V}. Arguments e_count {V}.

(** A graph is run: too many nodes trip an assertion of ggml, a look-up outside its
    table reads foreign memory. *)
Definition looked_up (l : list (nat * list Z)) : bool :=
  forallb (fun p => forallb (fun i => (0 <=? i)%Z && (i <? Z.of_nat (fst p))%Z) (snd p)) l.

Definition run {V} (L : lib) (mem_size : N) (b : B V) : outcome V :=
  match bbind b (fun x => step (graph_overhead L) 0 [] x) (mkarena mem_size 0 0 []) with
  | Ok (x, s) =>
      if graph_nodes L <? nodes s then Abort
      else if looked_up (lookups s) then Ok x else UB
  | Fail => Fail
  | UB => UB
  | Abort => Abort
  end.

(** std::copy_n(src, n, dst) *)
Definition copy_n {V} (src : list V) (n : nat) (dst : list V) : outcome (list V) :=
  if (length src <? n) || (length dst <? n) then UB else Ok (firstn n src ++ skipn n dst).

(** model_berts.hpp:95-104; None for an unknown pooling type *)
Definition needed (hp : hparams) (p : pooling) (n : nat) : option N :=
  match p with
  | PoolNone => Some (w64 (N.of_nat (hidden_dim hp) * N.of_nat n))
  | PoolCls | PoolAvg | PoolMax => Some (N.of_nat (hidden_dim hp))
  | PoolOther => None
  end.

(** model_berts.hpp:127-140.  [UB]: negating the least int64. *)
Definition resolve_layer (n : nat) (l : Z) : outcome nat :=
  if (l <? 0)%Z then
    if (l =? INT64_MIN)%Z then UB
    else if (Z.of_nat n <? - l)%Z then Fail
    else Ok (Z.to_nat (l + (Z.of_nat n + 1)))
  else
    if (Z.of_nat n <? l)%Z then Fail else Ok (Z.to_nat l).

Section Eval.
Context {V : Type} (P : prim V) (L : lib).

(** model_berts.hpp:53-204 (the context is known to hold the model) *)
Definition eval (m : emodel V) (tokens segments : list N) (c : eval_info)
    (out : option (list V)) (out_count : N) : outcome (evaluated V) :=
  let hp := em_hp m in
  let n := length tokens in
  let rejected := Ok (mkev false out (Some out_count)) in
  if max_tokens hp <? n then rejected
  else if negb (n =? length segments) then rejected
  else if existsb (fun s => (Z.of_nat (segment_count hp) <=? Z.of_N s)%Z) segments then rejected
  else
    match needed hp (pool_type c) n with
    | None => rejected
    | Some need =>
        match out with
        | None => Ok (mkev true None (Some need))
        | Some cells =>
            match resolve_layer (n_layers hp) (output_layer c) with
            | Ok last =>
                let mem := calc (get_context_buffer_size L n hp (pool_type c)) last in
                match run L mem (build_graph P L (em_kind m) hp (em_weights m) last (pool_type c) tokens segments) with
                | Ok x => obind (copy_n (data x) (N.to_nat (N.min out_count need)) cells) (fun cells' =>
                            Ok (mkev true (Some cells') (Some need)))
                | Fail => Ok (mkev false out (Some need))
                | UB => UB
                | Abort => Abort
                end
            | Fail => Ok (mkev false out (Some need))
            | UB => UB
            | Abort => Abort
            end
        end
    end.

(** A context pointer: null, a context without model, or with. *)
Inductive econtext := ENullCtx | ENoModel | ELoaded (m : emodel V).

(** berts.cpp:212-239 with internal.cpp:56-64.  [tokens] and [segments] are the
    objects behind the pointers; std::copy reads [token_count] of them. *)
Definition berts_eval (ctx : econtext) (tokens : list N) (segments : option (list N)) (token_count : nat)
    (c : option eval_info) (out : option (list V)) (out_count : option N) : outcome (evaluated V) :=
  let failed := Ok (mkev false out out_count) in
  match ctx with
  | ELoaded m =>
      match c, out_count with
      | Some c, Some cnt =>
          if length tokens <? token_count then UB
          else
            let toks := firstn token_count tokens in
            match segments with
            | Some sg =>
                if length sg <? token_count then UB
                else eval m toks (firstn token_count sg) c out cnt
            | None => eval m toks (repeat 0%N token_count) c out cnt
            end
      | _, _ => failed
      end
  | _ => failed
  end.

(** ** Language-model head *)

Record lm_evaluated := mklv {
  l_ok : bool; l_ids : option (list nat); l_probs : option (list V); l_count : option N
}.

(** write [src] into [dst] from index [off] on *)
Definition write_at {A} (src : list A) (off : nat) (dst : list A) : outcome (list A) :=
  if length dst <? off + length src then UB
  else Ok (firstn off dst ++ src ++ skipn (off + length src) dst).

(** elements [off, off + n) of an array *)
Definition read_at {A} (src : list A) (off n : nat) : outcome (list A) :=
  if length src <? off + n then UB else Ok (firstn n (skipn off src)).

(** probs[ids[i]] for one position, model_berts.hpp:336-340; [base] is where the row
    of the position starts *)
Fixpoint gather (probs : list V) (base : nat) (ids : list nat) : outcome (list V) :=
  match ids with
  | [] => Ok []
  | id :: rest =>
      match nth_error probs (base + id) with
      | None => UB
      | Some p => obind (gather probs base rest) (fun ps => Ok (p :: ps))
      end
  end.

(** model_berts.hpp:332-341 *)
Fixpoint top_rows (ids : list nat) (probs : list V) (k max : nat) (todo : list nat)
    (out : list nat) (out_probs : list V) : outcome (list nat * list V) :=
  match todo with
  | [] => Ok (out, out_probs)
  | t :: rest =>
      obind (read_at ids (t * max) k) (fun top =>
      obind (write_at top (t * k) out) (fun out =>
      obind (gather probs (t * max) top) (fun ps =>
      obind (write_at ps (t * k) out_probs) (fun out_probs =>
        top_rows ids probs k max rest out out_probs))))
  end.

(** model_berts.hpp:206-346.  [hidden] is the object behind hidden_states. *)
Definition eval_lm (m : emodel V) (hidden : list V) (count : nat) (c : lm_info)
    (out : option (list nat)) (out_probs : option (list V)) (out_count : N) : outcome lm_evaluated :=
  let hp := em_hp m in
  let h := hidden_dim hp in
  if h =? 0 then UB
  else
    let n := count / h in
    if negb (count mod h =? 0) then Ok (mklv false out out_probs (Some out_count))
    else
      let max := em_vocab_count m in
      let k := if (top_k c <=? 0)%Z then max else Nat.min (Z.to_nat (top_k c)) max in
      let need := w64 (N.of_nat k * N.of_nat n) in
      match out, out_probs with
      | None, None => Ok (mklv true None None (Some need))
      | Some ids_cells, Some prob_cells =>
          let mem := calc (get_context_buffer_size_for_lm L n hp max) 0 in
          let graph :=
            match lm (em_weights m) with
            | None => bfail
            | Some _ =>
                if length hidden <? count then bub
                else build_lm_graph P L (em_kind m) hp (em_weights m) max (firstn count hidden)
            end in
          match run L mem graph with
          | Ok (prob, ids) =>
              let ids := concat ids in
              let probs := data prob in
              if (top_k c <=? 0)%Z then
                let cnt := N.to_nat (N.min out_count need) in
                obind (copy_n ids cnt ids_cells) (fun o =>
                obind (copy_n probs cnt prob_cells) (fun p =>
                  Ok (mklv true (Some o) (Some p) (Some need))))
              else
                obind (top_rows ids probs (Z.to_nat (top_k c)) max (seq 0 n) ids_cells prob_cells) (fun r =>
                  Ok (mklv true (Some (fst r)) (Some (snd r)) (Some need)))
          | Fail => Ok (mklv false out out_probs (Some need))
          | UB => UB
          | Abort => Abort
          end
      | _, _ => Ok (mklv false out out_probs (Some need))
      end.

(** berts.cpp:253-271 *)
Definition berts_eval_lm (ctx : econtext) (hidden : list V) (count : nat) (c : option lm_info)
    (out : option (list nat)) (out_probs : option (list V)) (out_count : option N) : outcome lm_evaluated :=
  let failed := Ok (mklv false out out_probs out_count) in
  match ctx with
  | ELoaded m =>
      match c, out_count with
      | Some c, Some cnt => eval_lm m hidden count c out out_probs cnt
      | _, _ => failed
      end
  | _ => failed
  end.
End Eval.
Arguments econtext : clear implicits.
Arguments lm_evaluated : clear implicits.
