(** The mask filling tool with its log: berts/examples/fill_mask.cpp, where the lines of the
    library's log go to stderr between those of the tool.  The control flow is that of
    Fill_model and Fill_text_model; the messages are those of Says_load_model, Says_model,
    Says_roberta_model and Says_eval_model.

    [ptr]: the addresses of the ggml contexts of the four evaluations; [threads], [code]: as in
    Says_eval_model.  Left out: the messages of berts_id_to_token about ids that are not found,
    which are written at levels up to INFO only. *)
From Verif Require Import Base Bert_model Vocab_model Bpe_model Roberta_model Api_model Ggml_model Encoder_model Eval_model.
From Verif Require Import Log_model Says_model Says_roberta_model Says_eval_model Fill_model Fill_text_model.
From Verif Require Loader_model Says_load_model.

Section Fill_log.
Context {V : Type} (P : prim V) (L : lib).
Context (junk_ids : nat -> N) (junk_top : nat -> nat) (junk_values : nat -> V).
Context (version : list N) (score : V -> list N) (ptr : nat -> N) (threads code : Z).

(** berts.h:55 and fill_mask.cpp:18 *)
Definition LOG_WARN : Z := 2.
Definition warn_state : log_state := mkls LOG_WARN true.

(** A model with what its tokenizer says about a text. *)
Definition told : Type := (opened (V := V) * (list N -> list log_call))%type.

(** fill_mask.cpp:15-186 *)
Definition fill_log (load : list N -> outcome (option told * list log_call)) (argv : list (list N)) : outcome fill_run :=
  let failed out log message := Ok (mkfr 1 out (fill_banner version ++ log ++ message ++ endl)) in
  match argv with
  | [_; path; k_str; prompt] =>
      obind (stoi k_str) (fun k =>
      if (k <=? 0)%Z then Ok (mkfr 1 [] (fill_banner version ++ not_positive k_str))
      else
        obind (logged warn_state (load path)) (fun '(m, log) =>
        match m with
        | None => failed [] log (u "fail to load model: " ++ path)
        | Some (m, says) =>
            let ctx := Loaded (op_api m) in
            let ectx := ELoaded (op_eval m) in
            if (berts_vocab_size ctx <? Z.to_N k)%N
            then failed [] log (u "invalid k: " ++ k_str ++ endl ++ u "k must be in range 1.." ++ decimal (berts_vocab_size ctx))
            else
              let out := u "prompt = " ++ prompt ++ endl in
              let cap := N.of_nat (length prompt) in
              obind (berts_tokenize ctx (Some prompt) (Some (fresh_cells junk_ids cap)) (Some cap)) (fun r =>
              obind (calls warn_state (says prompt)) (fun w =>
              let log := log ++ snd w in
              if negb (r_ok r) then failed out log (u "fail to tokenize prompt: " ++ prompt)
              else
                match r_out r, r_len r with
                | Some cells, Some count =>
                    let n := N.to_nat count in
                    if (length cells <? n)%nat then UB
                    else
                      let out := out ++ show_ids (firstn n cells) in
                      match find_mask (berts_mask_id ctx) 0 None (firstn n cells) with
                      | None => failed out log (u "please specify one mask")
                      | Some pos =>
                          let cond := Some (mkei (-1) PoolNone) in
                          obind (logged warn_state (berts_eval_logged P L (ptr 0%nat) ectx cells None n cond threads code None (Some 0%N)))
                            (fun '(e, o) =>
                          let log := log ++ o in
                          match e_ok e, e_count e with
                          | true, Some size =>
                              obind (logged warn_state (berts_eval_logged P L (ptr 1%nat) ectx cells None n cond threads code
                                       (Some (fresh_cells junk_values size)) (Some size))) (fun '(e, o) =>
                              let log := log ++ o in
                              match e_ok e, e_out e, e_count e with
                              | true, Some hidden, Some size =>
                                  let lm := Some (mkli k) in
                                  obind (logged warn_state (berts_eval_lm_logged P L (ptr 2%nat) ectx hidden (N.to_nat size) lm None None (Some 0%N)))
                                    (fun '(l, o) =>
                                  let log := log ++ o in
                                  match l_ok l, l_count l with
                                  | true, Some size' =>
                                      obind (logged warn_state (berts_eval_lm_logged P L (ptr 3%nat) ectx hidden (N.to_nat size) lm
                                               (Some (fresh_cells junk_top size')) (Some (fresh_cells junk_values size')) (Some size')))
                                        (fun '(l, o) =>
                                      let log := log ++ o in
                                      match l_ok l, l_ids l, l_probs l with
                                      | true, Some ids, Some scores =>
                                          obind (result_lines ctx (Z.to_nat k * pos) (seq 0 (Z.to_nat k)) ids scores) (fun ls =>
                                          Ok (mkfr 0 (out ++ show_lines score 0 (map (filled (widest ls)) ls)) (fill_banner version ++ log)))
                                      | _, _, _ => failed out log (u "fail to call `berts_eval_lm`")
                                      end)
                                  | _, _ => failed out log (u "fail to call `berts_eval_lm`")
                                  end)
                              | _, _, _ => failed out log (u "fail to call `berts_eval`")
                              end)
                          | _, _ => failed out log (u "fail to call `berts_eval`")
                          end)
                      end
                | _, _ => UB
                end))
        end))
  | exe :: _ => Ok (mkfr 1 (fill_usage exe) (fill_banner version))
  | [] => UB
  end.
End Fill_log.

(** ** The loaded model *)

Section Open_log.
Context {V : Type} (k : icu) (engine : list N -> list (option (nat * nat))) (ws : N -> bool) (pick : picker).
Context (sporder : list (list N) -> list (list N)).

(** The messages of berts_tokenize (berts.cpp:151-197) with a loaded model *)
Definition tokenize_says (m : Loader_model.loaded (V := V)) (text : list N) : list log_call :=
  let max := N.of_nat (max_tokens (em_hp (Loader_model.evaluator m))) in
  match Loader_model.lo_vocab m with
  | Loader_model.LBert v => match berts_tokenize_logged k v max text with Ok p => snd p | _ => [] end
  | Loader_model.LRoberta v =>
      match r_berts_tokenize_logged engine ws pick sporder v max text with Some (Ok p) => snd p | _ => [] end
  end.

(** berts.cpp:57-59 *)
Definition open_log (r : outcome (Loader_model.load_result (V := V) * list log_call)) : outcome (option (told (V := V)) * list log_call) :=
  match r with
  | Ok (Loader_model.Loaded m, says) =>
      Ok (Some (mkopened (api_of k engine ws pick sporder m) (Loader_model.evaluator m), tokenize_says m), says)
  | Ok (Loader_model.Null _, says) => Ok (None, says)
  | Fail => Ok (None, [])
  | UB => UB
  | Abort => Abort
  end.
End Open_log.
