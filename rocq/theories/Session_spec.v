(** What the calls of a program return if nothing else happens in the process and the tensor
    library can hand out any number of contexts. *)
From Verif Require Import Base Bert_model Vocab_model Bpe_model Roberta_model Ggml_model Encoder_model Eval_model Api_model Loader_model Quantize_model Fill_model Session_model.
Local Open Scope nat_scope.

Section Spec.
Context {V : Type} (P : prim V) (L : lib) (junk : nat -> N) (value : gty -> list N -> nat -> V).
Context (order : list (ustring * N) -> list (ustring * N)).
Context (k : icu) (engine : list N -> list (option (nat * nat))) (ws : N -> bool) (pick : picker).
Context (sporder : list (list N) -> list (list N)).
Context (chunk : gty -> list N -> nat -> list N) (widen : list N -> list N).
Context (shared : list (opened (V := V))).

Definition pointer (r : load_result (V := V)) : variable V :=
  match r with
  | Loaded m => Valid (mkopened (api_of k engine ws pick sporder m) (evaluator m))
  | Null _ => NullPtr
  end.
Definition is_valid (v : variable V) : bool := match v with Valid _ => true | _ => false end.

(** The context a handle stands for *)
Definition refers (vars : list (variable V)) (h : handle) : variable V :=
  match match h with Shared n => option_map Valid (nth_error shared n) | Own n => nth_error vars n end with
  | Some v => v
  | None => NullPtr
  end.

(** What a call on a context or on a null pointer returns *)
Definition respond (m : option (opened (V := V))) (q : query V) : outcome (reply V) :=
  let c := match m with Some m => Api_model.Loaded (op_api m) | None => NullCtx end in
  let e := match m with Some m => ELoaded (op_eval m) | None => ENullCtx end in
  let returns {A} (o : outcome A) (f : A -> reply V) := obind o (fun r => Ok (f r)) in
  match q with
  | Tokenize text out len => returns (berts_tokenize c text out len) GotText
  | IdToToken id out len => returns (berts_id_to_token c id out len) GotText
  | TokenToId token => returns (berts_token_to_id c token) GotNumber
  | VocabSize => Ok (GotNumber (berts_vocab_size c))
  | Encode tokens segments n i out cnt => returns (berts_eval P L e tokens segments n i out cnt) GotValues
  | Predict hidden n i out probs cnt => returns (berts_eval_lm P L e hidden n i out probs cnt) GotTokens
  end.

(** A call: the variables afterwards and what is returned.  Using a freed context is
    undefined. *)
Definition answer (vars : list (variable V)) (c : call V) : outcome (list (variable V) * reply V) :=
  match c with
  | Load f reopen =>
      obind (load_from_file L junk value order f reopen) (fun r => Ok (vars ++ [pointer r], GotContext (is_valid (pointer r))))
  | Quantize j =>
      obind (berts_model_quantize chunk widen L junk value order (j_input j) (j_reopen j) (j_opens j) (j_n_kv j) (j_kv j) (j_dev j) (j_type j))
        (fun w => Ok (vars, GotFile w))
  | Free n =>
      match refers vars (Own n) with
      | Valid _ => Ok (firstn n vars ++ Dangling :: skipn (S n) vars, Freed)
      | NullPtr => Ok (vars, Freed)
      | Dangling => UB
      end
  | Ask h q =>
      match refers vars h with
      | Valid m => obind (respond (Some m) q) (fun r => Ok (vars, r))
      | NullPtr => obind (respond None q) (fun r => Ok (vars, r))
      | Dangling => UB
      end
  end.

Fixpoint answers (vars : list (variable V)) (calls : list (call V)) : outcome (list (variable V) * list (reply V)) :=
  match calls with
  | [] => Ok (vars, [])
  | c :: rest => obind (answer vars c) (fun a => obind (answers (fst a) rest) (fun b => Ok (fst b, snd a :: snd b)))
  end.

(** What a program that runs alone gets to see *)
Definition alone (calls : list (call V)) : outcome (list (reply V)) := obind (answers [] calls) (fun r => Ok (snd r)).

(** The calls that read a model file *)
Definition loads (calls : list (call V)) : nat :=
  length (filter (fun c => match c with Load _ _ | Quantize _ => true | _ => false end) calls).

(** The same with room for [room] models: when it is used up the file is still opened and its
    description read, but the result is a null pointer.  Freeing a model makes no room. *)
Definition takes_room (c : call V) : bool :=
  match c with
  | Load f r => match load_from_file L junk value order f r with Ok (Loaded _) | Ok (Null true) => true | _ => false end
  | Quantize j => match load_from_file L junk value order (j_input j) (j_reopen j) with Ok (Loaded _) | Ok (Null true) => true | _ => false end
  | _ => false
  end.
Definition description_read (f : option file) : outcome unit :=
  match f with None => Ok tt | Some f => obind (read_metadata f) (fun _ => obind (ctx_size L (f_tensors f) (f_tensors f)) (fun _ => Ok tt)) end.
Definition answer_full (vars : list (variable V)) (c : call V) : outcome (list (variable V) * reply V) :=
  match c with
  | Load f _ => obind (description_read f) (fun _ => Ok (vars ++ [NullPtr], GotContext false))
  | Quantize j => obind (description_read (j_input j)) (fun _ => Ok (vars, GotFile (false, None)))
  | _ => answer vars c
  end.
Fixpoint answers_limited (room : nat) (vars : list (variable V)) (calls : list (call V)) : outcome (list (variable V) * list (reply V)) :=
  match calls with
  | [] => Ok (vars, [])
  | c :: rest =>
      obind (match room with 0 => answer_full vars c | S _ => answer vars c end) (fun a =>
      obind (answers_limited (if takes_room c then room - 1 else room) (fst a) rest) (fun b => Ok (fst b, snd a :: snd b)))
  end.
End Spec.
