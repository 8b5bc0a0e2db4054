(** The mask filling tool: berts/examples/fill_mask.cpp.

    Arguments are lists of bytes.  Memory from new[] is filled with whatever [junk_ids],
    [junk_top] and [junk_values] say.  What is printed is represented by the list of the
    result lines; an exception that is not caught ends the process ([Abort]). *)
From Verif Require Import Base Bert_model Vocab_model Bpe_model Roberta_model Api_model Ggml_model Encoder_model Eval_model.
From Verif Require Tool_model Loader_model.

(** std::isspace in the "C" locale *)
Definition space (c : N) : bool := ((c =? 32) || ((9 <=? c) && (c <=? 13)))%N.
Fixpoint skip_spaces (s : list N) : list N :=
  match s with
  | c :: rest => if space c then skip_spaces rest else s
  | [] => []
  end.

(** std::stoi, base 10: std::invalid_argument without digits, std::out_of_range if the
    number is no int.  Both are std::logic_error, and fill_mask.cpp:38 only catches
    std::runtime_error.  What follows the number is not looked at. *)
Definition stoi (s : list N) : outcome Z :=
  let s := skip_spaces s in
  let '(neg, body) := match s with 43%N :: r => (false, r) | 45%N :: r => (true, r) | _ => (false, s) end in
  let '(n, v, _) := Tool_model.take_digits 0 body in
  if (n =? 0)%nat then Abort
  else
    let z := if neg then (- Z.of_N v)%Z else Z.of_N v in
    if ((Tool_model.INT_MIN <=? z) && (z <=? Tool_model.INT_MAX))%Z then Ok z else Abort.

(** fill_mask.cpp:89-109: the position of the only mask; None: the message and status 1 *)
Fixpoint find_mask (mask : N) (i : nat) (found : option nat) (tokens : list N) : option nat :=
  match tokens with
  | [] => found
  | t :: rest =>
      if (t =? mask)%N
      then match found with Some _ => None | None => find_mask mask (S i) (Some i) rest end
      else find_mask mask (S i) found rest
  end.

Section Fill.
Context {V : Type} (P : prim V) (L : lib).
Context (junk_ids : nat -> N) (junk_top : nat -> nat) (junk_values : nat -> V).

(** new T[n] *)
Definition fresh_cells {A} (junk : nat -> A) (n : N) : list A := map junk (seq 0 (N.to_nat n)).

(** A loaded model, as the two parts of the API see it. *)
Record opened := mkopened { op_api : api_model; op_eval : emodel V }.

(** A result: the text, the id, the score. *)
Record line := mkline { li_text : list N; li_id : N; li_score : V }.

(** fill_mask.cpp:159-173; [at_] is k * mask_pos.  std::string::erase throws
    std::out_of_range behind the end. *)
Fixpoint result_lines (c : context) (at_ : nat) (todo : list nat) (ids : list nat) (scores : list V) : outcome (list line) :=
  match todo with
  | [] => Ok []
  | i :: rest =>
      match nth_error ids (at_ + i)%nat, nth_error scores (at_ + i)%nat with
      | Some id, Some score =>
          obind (berts_id_to_token c (N.of_nat id) (Some (repeat 0%N 256)) (Some 256%N)) (fun r =>
          match r_out r, r_len r with
          | Some cells, Some n =>
              if (256 <? n)%N then Abort
              else obind (result_lines c at_ rest ids scores) (fun ls =>
                     Ok (mkline (firstn (N.to_nat n) cells) (N.of_nat id) score :: ls))
          | _, _ => UB
          end)
      | _, _ => UB
      end
  end.

(** fill_mask.cpp:168-170 and 175-179: texts are filled up with blanks *)
Definition widest (ls : list line) : nat := fold_right (fun l a => Nat.max (length (li_text l)) a) 0%nat ls.
Definition filled (w : nat) (l : line) : line :=
  mkline (li_text l ++ repeat 32%N (w - length (li_text l))) (li_id l) (li_score l).

(** fill_mask.cpp:15-186: the exit status and the lines printed *)
Definition fill_mask (load : list N -> outcome (option opened)) (argv : list (list N)) : outcome (N * list line) :=
  let failed := Ok (1%N, []) in
  match argv with
  | [_; path; k_str; prompt] =>
      obind (stoi k_str) (fun k =>
      if (k <=? 0)%Z then failed
      else
        obind (load path) (fun m =>
        match m with
        | None => failed
        | Some m =>
            let ctx := Loaded (op_api m) in
            let ectx := ELoaded (op_eval m) in
            if (berts_vocab_size ctx <? Z.to_N k)%N then failed
            else
              let cap := N.of_nat (length prompt) in
              obind (berts_tokenize ctx (Some prompt) (Some (fresh_cells junk_ids cap)) (Some cap)) (fun r =>
              if negb (r_ok r) then failed
              else
                match r_out r, r_len r with
                | Some cells, Some count =>
                    let n := N.to_nat count in
                    if (length cells <? n)%nat then UB
                    else
                      match find_mask (berts_mask_id ctx) 0 None (firstn n cells) with
                      | None => failed
                      | Some pos =>
                          let cond := Some (mkei (-1) PoolNone) in
                          obind (berts_eval P L ectx cells None n cond None (Some 0%N)) (fun e =>
                          match e_ok e, e_count e with
                          | true, Some size =>
                              obind (berts_eval P L ectx cells None n cond (Some (fresh_cells junk_values size)) (Some size)) (fun e =>
                              match e_ok e, e_out e, e_count e with
                              | true, Some hidden, Some size =>
                                  let lm := Some (mkli k) in
                                  obind (berts_eval_lm P L ectx hidden (N.to_nat size) lm None None (Some 0%N)) (fun l =>
                                  match l_ok l, l_count l with
                                  | true, Some size' =>
                                      obind (berts_eval_lm P L ectx hidden (N.to_nat size) lm (Some (fresh_cells junk_top size'))
                                               (Some (fresh_cells junk_values size')) (Some size')) (fun l =>
                                      match l_ok l, l_ids l, l_probs l with
                                      | true, Some ids, Some scores =>
                                          obind (result_lines ctx (Z.to_nat k * pos) (seq 0 (Z.to_nat k)) ids scores) (fun ls =>
                                          Ok (0%N, map (filled (widest ls)) ls))
                                      | _, _, _ => failed
                                      end)
                                  | _, _ => failed
                                  end)
                              | _, _, _ => failed
                              end)
                          | _, _ => failed
                          end)
                      end
                | _, _ => UB
                end)
        end))
  | _ => failed
  end.
End Fill.

(** ** The loaded model *)

Section Open.
Context {V : Type} (k : icu) (engine : list N -> list (option (nat * nat))) (ws : N -> bool) (pick : picker).
Context (sporder : list (list N) -> list (list N)).

(** model_base.hpp:135-142 for the tokens of a loaded vocabulary, which are distinct *)
Fixpoint index_of (t : list N) (i : N) (l : list (list N)) : N :=
  match l with
  | [] => INVALID
  | x :: rest => if list_N_eqb t x then i else index_of t (i + 1)%N rest
  end.

(** bert.hpp and roberta.hpp: the virtual functions of the two models.  A call of tokenize
    that does not return is represented by [Abort]. *)
Definition api_of (m : Loader_model.loaded (V := V)) : api_model :=
  match Loader_model.lo_vocab m with
  | Loader_model.LBert v =>
      mkam (v_cls v) (v_mask v) (v_pad v) (v_sep v) (v_unk v) INVALID INVALID
        (fun id => Ok (bv_token v id)) (fun t => Ok (index_of t 0 (v_tokens v)))
        (N.of_nat (length (v_tokens v))) (model_tokenize k v)
  | Loader_model.LRoberta v =>
      let s := rv_sp v in
      mkam (r_cls s) (r_mask s) (r_pad s) (r_sep s) (r_unk s) (r_bos s) (r_eos s)
        (r_id_to_token (rv_voc v)) (r_token_to_id (rv_voc v))
        (N.of_nat (length (i2t (rv_voc v))))
        (fun t => match r_tokenize engine ws pick sporder v t with Some o => o | None => Abort end)
  end.

(** berts.cpp:57-59 *)
Definition open (r : outcome (Loader_model.load_result (V := V))) : outcome (option (opened (V := V))) :=
  match r with
  | Ok (Loader_model.Loaded m) => Ok (Some (mkopened (api_of m) (Loader_model.evaluator m)))
  | Ok (Loader_model.Null _) => Ok None
  | Fail => Ok None
  | UB => UB
  | Abort => Abort
  end.
End Open.
