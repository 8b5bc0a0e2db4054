(** What berts_eval and berts_eval_lm write to the log: berts/berts.cpp:212-271,
    berts/models/model_berts.hpp:53-346, and the errors of the graph builders
    (bert.cpp:839, 989, 1061, 1097; roberta.cpp:711, 783).  The results are those of
    Eval_model; a call that ends in UB or Abort there does so here. *)
From Verif Require Import Base Vocab_model Log_model Ggml_model Encoder_model Eval_model Says_model.
Local Open Scope nat_scope.

(** {} of a signed integer *)
Definition signed (z : Z) : list N :=
  if (z <? 0)%Z then u "-" ++ decimal (Z.to_N (- z)) else decimal (Z.to_N z).
Definition number (n : nat) : list N := decimal (N.of_nat n).

(** bert.hpp:144, roberta.hpp:54 *)
Definition model_name (k : flavour) : list N := match k with Bert => u "BERT" | Roberta _ => u "RoBERTa" end.

(** ggml.hpp:65-74 *)
Definition pool_type_str (p : pooling) : list N :=
  match p with
  | PoolNone => u "none" | PoolCls => u "cls" | PoolAvg => u "avg" | PoolMax => u "max" | PoolOther => []
  end.

(** {:016x} of an address *)
Definition hex16 (n : N) : list N :=
  map (fun i => hex_digit (N.land (N.shiftr n (4 * N.of_nat i)) 15)) (rev (seq 0 16)).

(** utils.hpp:127-133: the messages of a ggml_ctx when it is made and when it goes *)
Definition ggml_init_says (ptr : N) : log_call := Formatted Debug (u "ggml_init @ " ++ hex16 ptr).
Definition ggml_free_says (ptr : N) : log_call := Formatted Debug (u "ggml_free @ " ++ hex16 ptr).

(** [ptr] is the address of the ggml context of the call. *)
Section Says.
Context {V : Type} (P : prim V) (L : lib) (ptr : N).

(** model_berts.hpp:106-118 *)
Definition eval_info_says (c : eval_info) (threads : Z) (need given : N) : list log_call :=
  [Formatted Info (u "  berts_eval_info {" ++ nl ++ u "    output_layer = " ++ signed (output_layer c) ++ u ";" ++ nl
     ++ u "    pool_type = " ++ pool_type_str (pool_type c) ++ u ";" ++ nl
     ++ u "    n_threads = " ++ signed threads ++ nl ++ u "  }");
   Formatted Debug (u "  output size = " ++ decimal need);
   Formatted Debug (u "    given     = " ++ decimal given)].

(** model_berts.hpp:53-204; [code] is the number of an unknown pooling type *)
Definition eval_says (m : emodel V) (tokens segments : list N) (c : eval_info) (threads code : Z)
    (out : option (list V)) (out_count : N) : list log_call :=
  let hp := em_hp m in
  let n := length tokens in
  [Formatted Info (u "start evaluating " ++ model_name (em_kind m)); Formatted Debug (u "  #tokens = " ++ number n)]
  ++ (if max_tokens hp <? n
      then [Formatted Error (u "too many tokens (" ++ number n ++ u ") for this model (" ++ number (max_tokens hp) ++ u ")")]
      else if negb (n =? length segments)
      then [Formatted Error (u "segment count (" ++ number (length segments) ++ u ") is not match for tokens (" ++ number n ++ u ")")]
      else match find (fun s => (Z.of_nat (segment_count hp) <=? Z.of_N s)%Z) segments with
      | Some s => [Formatted Error (u "invalid segment value: " ++ decimal s ++ u " (allowed = 0.." ++
                     signed (Z.of_nat (segment_count hp) - 1) ++ u ")")]
      | None =>
      match needed hp (pool_type c) n with
      | None => [Formatted Error (u "unknown pooling type: " ++ signed code)]
      | Some need =>
          eval_info_says c threads need out_count ++
          match out with
          | None => [Formatted Info (u "finish evaluating " ++ model_name (em_kind m) ++ u " (dry run)")]
          | Some _ =>
              match resolve_layer (n_layers hp) (output_layer c) with
              | Ok last =>
                  let mem := calc (get_context_buffer_size L n hp (pool_type c)) last in
                  [ggml_init_says ptr; Formatted Debug (u "  context buffer size = " ++ decimal mem)] ++
                  match run L mem (build_graph P L (em_kind m) hp (em_weights m) last (pool_type c) tokens segments) with
                  | Fail => [Plain Error (u "unknown activation function")]
                  | _ => [Formatted Info (u "finish evaluating " ++ model_name (em_kind m))]
                  end ++ [ggml_free_says ptr]
              | _ => [Formatted Error (u "invalid output_layer_value: " ++ signed (output_layer c) ++ u " (expected: " ++
                        signed (- Z.of_nat (n_layers hp)) ++ u ".." ++ number (n_layers hp) ++ u ")")]
              end
          end
      end
      end).

(** The handle behind a context pointer. *)
Definition handle_of (ctx : econtext V) : handle :=
  match ctx with ENullCtx => NullCtx | ENoModel => NoModel | ELoaded _ => HasModel end.

(** berts.cpp:212-239; the last two refusals write nothing *)
Definition berts_eval_logged (ctx : econtext V) (tokens : list N) (segments : option (list N)) (token_count : nat)
    (c : option eval_info) (threads code : Z) (out : option (list V)) (out_count : option N)
    : outcome (evaluated V * list log_call) :=
  obind (berts_eval P L ctx tokens segments token_count c out out_count) (fun r =>
    Ok (r, check_model_says (handle_of ctx) ++
           match ctx, c, out_count with
           | ELoaded m, Some c, Some cnt =>
               eval_says m (firstn token_count tokens)
                 (match segments with Some sg => firstn token_count sg | None => repeat 0%N token_count end)
                 c threads code out cnt
           | _, _, _ => []
           end)).

(** model_berts.hpp:206-346.  Lines 237-242: a comma instead of a line break makes the
    third line of the format the first argument. *)
Definition eval_lm_says (m : emodel V) (hidden : list V) (count : nat) (c : lm_info)
    (out : option (list nat)) (out_probs : option (list V)) : list log_call :=
  let hp := em_hp m in
  let h := hidden_dim hp in
  let n := count / h in
  Formatted Info (u "start LM " ++ model_name (em_kind m)) ::
  if negb (count mod h =? 0)
  then [Formatted Error (u "invalid size of hidden_states, expected to a multiple of " ++ number h ++ u ", but " ++ number count)]
  else
    Formatted Debug (u "  #tokens =   input_shape = {0}x{1}" ++ nl ++ u "  hidden_dim = " ++ number n ++ nl) ::
    match out, out_probs with
    | None, None => [Formatted Info (u "finish LM " ++ model_name (em_kind m) ++ u " (dry run)")]
    | Some _, Some _ =>
        let max := em_vocab_count m in
        let mem := calc (get_context_buffer_size_for_lm L n hp max) 0 in
        let graph :=
          match lm (em_weights m) with
          | None => bfail
          | Some _ =>
              if length hidden <? count then bub
              else build_lm_graph P L (em_kind m) hp (em_weights m) max (firstn count hidden)
          end in
        (match em_kind m, hidden_act hp with
         | Bert, GeluNew => [Plain Error (u "gelu_new is not implmented yet")]
         | _, _ => []
         end)
        ++ [ggml_init_says ptr; Formatted Debug (u "  context buffer size = " ++ decimal mem)] ++
        match run L mem graph with
        | Fail => match lm (em_weights m) with
                  | None => [Plain Error (u "LM weights are not loaded")]
                  | Some _ => [Plain Error (u "gelu_new is not implmented yet")]
                  end
        | _ => [Formatted Info (u "finish LM " ++ model_name (em_kind m))]
        end ++ [ggml_free_says ptr]
    | _, _ => [Plain Error (u "output buffer is not specified")]
    end.

(** berts.cpp:253-271 *)
Definition berts_eval_lm_logged (ctx : econtext V) (hidden : list V) (count : nat) (c : option lm_info)
    (out : option (list nat)) (out_probs : option (list V)) (out_count : option N)
    : outcome (lm_evaluated V * list log_call) :=
  obind (berts_eval_lm P L ctx hidden count c out out_probs out_count) (fun r =>
    Ok (r, check_model_says (handle_of ctx) ++
           match ctx, c, out_count with
           | ELoaded m, Some c, Some cnt => eval_lm_says m hidden count c out out_probs
           | _, _, _ => []
           end)).
End Says.
