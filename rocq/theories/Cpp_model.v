(** The C++ overloads of evaluation, the initial settings of requests and the kind of a
    loaded model: berts/berts.cpp:65-70, 200-210, 242-251 and 279-297,
    berts/models/internal.cpp:56-64 and 83-93. *)
From Verif Require Import Base Ggml_model Encoder_model Eval_model Loader_model.

(** berts.cpp:203-210.  A null pointer is ignored.  The number of threads (-1) only
    reaches the tensor library. *)
Definition berts_init_eval_info (cond : option eval_info) : option eval_info :=
  match cond with
  | Some _ => Some (mkei (-1) PoolCls)
  | None => None
  end.

(** berts.cpp:245-251 *)
Definition berts_init_eval_lm_info (cond : option lm_info) : option lm_info :=
  match cond with
  | Some _ => Some (mkli 0)
  | None => None
  end.

Section Cpp.
Context {V : Type} (P : prim V) (L : lib).

(** internal.cpp:56-64  model::eval without segments: a vector of as many zeros *)
Definition model_eval (m : emodel V) (tokens : list N) (c : eval_info) (out : option (list V)) (out_count : N) :=
  eval P L m tokens (repeat 0%N (length tokens)) c out out_count.

(** berts.cpp:279-286  berts::eval; references cannot be null *)
Definition cpp_eval (ctx : econtext V) (tokens : list N) (c : eval_info) (out : option (list V)) (out_count : N)
    : outcome (evaluated V) :=
  match ctx with
  | ELoaded m => model_eval m tokens c out out_count
  | _ => Ok (mkev false out (Some out_count))
  end.

(** berts.cpp:288-296  berts::eval with segments *)
Definition cpp_eval_segments (ctx : econtext V) (tokens segments : list N) (c : eval_info)
    (out : option (list V)) (out_count : N) : outcome (evaluated V) :=
  match ctx with
  | ELoaded m => eval P L m tokens segments c out out_count
  | _ => Ok (mkev false out (Some out_count))
  end.
End Cpp.

(** berts.h:87-92 *)
Definition BERTS_TYPE_UNKNOWN : N := 2.

(** berts.cpp:65-70 with internal.cpp:83-93: the setting the context was created with;
    a null pointer has none. *)
Definition berts_arch {V : Type} (ctx : option (@loaded V)) : N :=
  match ctx with
  | Some m => se_arch (lo_settings m)
  | None => BERTS_TYPE_UNKNOWN
  end.
