(** A process that uses the library: any number of threads calling berts_load_from_file,
    berts_free, berts_model_quantize and the functions that work on a context
    (berts/berts.h).

    What the calls share is the table of contexts of the tensor library: ggml_init hands out
    one of GGML_MAX_CONTEXTS entries (under a lock) and returns null if there is none left,
    ggml_free gives it back.  A loaded model is only read.  A step of a thread goes from one
    use of that table to the next; [slots] is the size of the table (64 in the pinned
    library).

    Simplified: a context shared by several threads is not freed while they run; setting the
    log level or log file from a thread is left out; threads of ggml itself are part of
    ggml_graph_compute. *)
From Verif Require Import Base Bert_model Vocab_model Bpe_model Roberta_model Ggml_model Encoder_model Eval_model Api_model Loader_model Quantize_model Fill_model.
Local Open Scope nat_scope.

(** A call on a context, with the objects behind its pointers *)
Inductive query (V : Type) :=
| Tokenize (text : option (list N)) (out : option (list N)) (len : option N)
| IdToToken (id : N) (out : option (list N)) (len : option N)
| TokenToId (token : option (list N))
| VocabSize
| Encode (tokens : list N) (segments : option (list N)) (token_count : nat) (c : option eval_info)
    (out : option (list V)) (out_count : option N)
| Predict (hidden : list V) (count : nat) (c : option lm_info)
    (out : option (list nat)) (out_probs : option (list V)) (out_count : option N).
Arguments Tokenize {V}. Arguments IdToToken {V}. Arguments TokenToId {V}. Arguments VocabSize {V}.
Arguments Encode {V}. Arguments Predict {V}.

(** A context: one that existed before the threads were started, or the result of the n-th
    load of the calling thread *)
Inductive handle := Shared (n : nat) | Own (n : nat).

(** A quantization: what berts_model_quantize finds, and its arguments *)
Record job := mkjob { j_input : option file; j_reopen : bool; j_opens : bool; j_n_kv : N; j_kv : list N; j_dev : nat -> nat; j_type : gty }.

Inductive call (V : Type) :=
| Load (f : option file) (reopen : bool)
| Quantize (j : job)
| Free (n : nat)
| Ask (h : handle) (q : query V).
Arguments Load {V}. Arguments Quantize {V}. Arguments Free {V}. Arguments Ask {V}.

(** What a call returns *)
Inductive reply (V : Type) :=
| GotContext (valid : bool)
| GotFile (r : bool * option (list N))
| Freed
| GotText (r : returned)
| GotNumber (n : N)
| GotValues (r : evaluated V)
| GotTokens (r : lm_evaluated V).
Arguments GotContext {V}. Arguments GotFile {V}. Arguments Freed {V}. Arguments GotText {V}. Arguments GotNumber {V}.
Arguments GotValues {V}. Arguments GotTokens {V}.

(** What a variable of a thread refers to *)
Inductive variable (V : Type) := Valid (m : opened (V := V)) | NullPtr | Dangling.
Arguments Valid {V}. Arguments NullPtr {V}. Arguments Dangling {V}.

(** l[i] = x *)
Fixpoint replace {A} (i : nat) (x : A) (l : list A) {struct l} : list A :=
  match l, i with
  | [], _ => []
  | _ :: l', 0 => x :: l'
  | y :: l', S i' => y :: replace i' x l'
  end.

Section Session.
Context {V : Type} (P : prim V) (L : lib) (junk : nat -> N) (value : gty -> list N -> nat -> V).
Context (order : list (ustring * N) -> list (ustring * N)).
Context (k : icu) (engine : list N -> list (option (nat * nat))) (ws : N -> bool) (pick : picker).
Context (sporder : list (list N) -> list (list N)).
Context (chunk : gty -> list N -> nat -> list N) (widen : list N -> list N).
Context (slots : nat) (shared : list (opened (V := V))).

(** berts.cpp:127-271 *)
Definition ask (c : context) (e : econtext V) (q : query V) : outcome (reply V) :=
  match q with
  | Tokenize text out len => obind (berts_tokenize c text out len) (fun r => Ok (GotText r))
  | IdToToken id out len => obind (berts_id_to_token c id out len) (fun r => Ok (GotText r))
  | TokenToId t => obind (berts_token_to_id c t) (fun r => Ok (GotNumber r))
  | VocabSize => Ok (GotNumber (berts_vocab_size c))
  | Encode tokens segments n c out cnt => obind (berts_eval P L e tokens segments n c out cnt) (fun r => Ok (GotValues r))
  | Predict hidden n c out probs cnt => obind (berts_eval_lm P L e hidden n c out probs cnt) (fun r => Ok (GotTokens r))
  end.

(** The call comes to 'ggml_ctx ggml{init}' (model_berts.hpp:154 and 274): everything before
    it succeeds and an output buffer is given *)
Definition computes (m : opened (V := V)) (q : query V) : bool :=
  let hp := em_hp (op_eval m) in
  match q with
  | Encode tokens segments n (Some c) (Some _) (Some _) =>
      (n <=? length tokens) && (n <=? max_tokens hp) &&
      match segments with
      | Some sg => (n <=? length sg) && forallb (fun s => (Z.of_N s <? Z.of_nat (segment_count hp))%Z) (firstn n sg)
      | None => (n =? 0) || (0 <? segment_count hp)
      end &&
      match needed hp (pool_type c) n with Some _ => true | None => false end &&
      match resolve_layer (n_layers hp) (output_layer c) with Ok _ => true | _ => false end
  | Predict _ n (Some _) (Some _) (Some _) (Some _) => negb (hidden_dim hp =? 0) && (n mod hidden_dim hp =? 0)
  | _ => false
  end.

(** With a null context build_graph goes on to use it; build_lm_graph looks for the head first
    (bert.cpp:895, 1055-1063; roberta.cpp:611, 777-785) *)
Definition without_context (m : opened (V := V)) (q : query V) : bool :=
  match q with Predict _ _ _ _ _ _ => match lm (em_weights (op_eval m)) with None => true | Some _ => false end | _ => false end.

(** Between two steps a thread is at the start of a call; in a load with the descriptions of
    the file open (gguf.cpp:165), or with the memory for its tensors as well (gguf.cpp:180);
    in an evaluation with the memory of its graph. *)
Inductive phase := Start | Described | Loading | Computing.
Record thread := mkth { t_todo : list (call V); t_phase : phase; t_vars : list (variable V); t_said : list (reply V) }.

Definition lookup (vars : list (variable V)) (h : handle) : variable V :=
  match h with
  | Shared n => match nth_error shared n with Some m => Valid m | None => NullPtr end
  | Own n => nth n vars NullPtr
  end.

(** The call is over *)
Definition say (t : thread) (vars : list (variable V)) (r : reply V) : thread :=
  mkth (tl (t_todo t)) Start vars (t_said t ++ [r]).
Definition go (t : thread) (p : phase) : thread := mkth (t_todo t) p (t_vars t) (t_said t).

(** How many entries the library keeps for good when load_from_file returns: the memory of
    the tensors once handed over (C59) *)
Definition kept (r : load_result (V := V)) : nat := match r with Loaded _ | Null true => 1 | Null false => 0 end.

Definition input (c : call V) : option (option file * bool) :=
  match c with Load f r => Some (f, r) | Quantize j => Some (j_input j, j_reopen j) | _ => None end.

(** The caller goes on with the result of load_from_file: berts_load_from_file returns it,
    berts_model_quantize writes the file and frees the context (quantize.cpp:76-218) *)
Definition finish_load (t : thread) (c : call V) (r : load_result (V := V)) : outcome thread :=
  match c with
  | Quantize j =>
      match r with
      | Loaded _ =>
          obind (berts_model_quantize chunk widen L junk value order (j_input j) (j_reopen j) (j_opens j) (j_n_kv j) (j_kv j) (j_dev j) (j_type j))
            (fun w => Ok (say t (t_vars t) (GotFile w)))
      | Null _ => Ok (say t (t_vars t) (GotFile (false, None)))
      end
  | _ =>
      match r with
      | Loaded m => Ok (say t (t_vars t ++ [Valid (mkopened (api_of k engine ws pick sporder m) (evaluator m))]) (GotContext true))
      | Null _ => Ok (say t (t_vars t ++ [NullPtr]) (GotContext false))
      end
  end.

(** One step of a thread; [used] entries are taken *)
Definition step (used : nat) (t : thread) : outcome (nat * thread) :=
  match t_todo t with
  | [] => Ok (used, t)
  | Free n :: _ =>
      match nth n (t_vars t) NullPtr with
      | Dangling => UB
      | NullPtr => Ok (used, say t (t_vars t) Freed)
      | Valid _ => Ok (used, say t (replace n Dangling (t_vars t)) Freed)
      end
  | Ask h q :: _ =>
      match lookup (t_vars t) h with
      | Dangling => UB
      | NullPtr => obind (ask NullCtx (ENullCtx (V := V)) q) (fun r => Ok (used, say t (t_vars t) r))
      | Valid m =>
          let answer := ask (Api_model.Loaded (op_api m)) (ELoaded (op_eval m)) q in
          match t_phase t with
          | Computing => obind answer (fun r => Ok (used - 1, say t (t_vars t) r))
          | _ =>
              if computes m q then
                if used <? slots then Ok (S used, go t Computing)
                else if without_context m q then obind answer (fun r => Ok (used, say t (t_vars t) r))
                else UB
              else obind answer (fun r => Ok (used, say t (t_vars t) r))
          end
      end
  | c :: _ =>
      match input c with
      | None => UB
      | Some (None, _) => obind (finish_load t c (Null false)) (fun t' => Ok (used, t'))
      | Some (Some f, reopen) =>
          match t_phase t with
          | Start | Computing =>
              (** gguf_init_from_file uses the context without looking *)
              if used <? slots then Ok (S used, go t Described) else UB
          | Described =>
              obind (read_metadata f) (fun _ =>
              obind (ctx_size L (f_tensors f) (f_tensors f)) (fun _ =>
              if used <? slots then Ok (S used, go t Loading)
              else obind (finish_load t c (Null false)) (fun t' => Ok (used - 1, t'))))
          | Loading =>
              obind (load_from_file L junk value order (Some f) reopen) (fun r =>
              obind (finish_load t c r) (fun t' => Ok (used - 2 + kept r, t')))
          end
      end
  end.

(** A process: the threads and the number of entries taken.  The schedule says which thread
    goes on. *)
Record process := mkpr { p_used : nat; p_threads : list thread }.
Fixpoint run_schedule (s : list nat) (p : process) : outcome process :=
  match s with
  | [] => Ok p
  | i :: s' =>
      match nth_error (p_threads p) i with
      | None => run_schedule s' p
      | Some t => obind (step (p_used p) t) (fun r => run_schedule s' (mkpr (fst r) (replace i (snd r) (p_threads p))))
      end
  end.

(** The threads are started with [used] entries taken *)
Definition start (used : nat) (programs : list (list (call V))) : process :=
  mkpr used (map (fun calls => mkth calls Start [] []) programs).
End Session.
