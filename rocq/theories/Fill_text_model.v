(** What the mask filling tool prints: berts/examples/fill_mask.cpp, with the texts that
    Fill_model leaves out.  The control flow is that of Fill_model.

    [version]: berts_version(); [score]: operator<< of a float.  Lines of the log, which go to
    stderr too, are left out. *)
From Verif Require Import Base Bert_model Vocab_model Bpe_model Roberta_model Api_model Ggml_model Encoder_model Eval_model Fill_model.

(** A finished run: exit status, stdout, stderr *)
Record fill_run := mkfr { fr_status : N; fr_out : list N; fr_err : list N }.

Section Fill_text.
Context {V : Type} (P : prim V) (L : lib).
Context (junk_ids : nat -> N) (junk_top : nat -> nat) (junk_values : nat -> V).
Context (version : list N) (score : V -> list N).

(** std::endl *)
Definition endl : list N := [10%N].

(** fill_mask.cpp:10-13 *)
Definition fill_usage (exe : list N) : list N := u "usage: " ++ exe ++ u " input.gguf k prompt" ++ endl ++ endl.

(** fill_mask.cpp:16 *)
Definition fill_banner : list N := u "* berts.cpp v" ++ version ++ u " fill_mask" ++ endl.

(** fill_mask.cpp:39-40 and 45-46 *)
Definition not_positive (k_str : list N) : list N :=
  u "invalid k: " ++ k_str ++ endl ++ u "k must be a positive integer" ++ endl.

(** fill_mask.cpp:83-87 *)
Definition show_ids (ids : list N) : list N := u "token id = " ++ flat_map (fun i => decimal i ++ u " ") ids ++ endl.

(** fill_mask.cpp:175-181; the texts are filled up already *)
Fixpoint show_lines (i : N) (ls : list (line (V := V))) : list N :=
  match ls with
  | [] => []
  | l :: rest =>
      decimal i ++ u ": " ++ li_text l ++ u " (" ++ decimal (li_id l) ++ u "); p = " ++ score (li_score l) ++ endl ++ show_lines (i + 1) rest
  end.

(** fill_mask.cpp:15-186.  An exception that is not caught ends the process ([Abort]). *)
Definition fill_text (load : list N -> outcome (option (opened (V := V)))) (argv : list (list N)) : outcome fill_run :=
  let failed out message := Ok (mkfr 1 out (fill_banner ++ message ++ endl)) in
  match argv with
  | [_; path; k_str; prompt] =>
      obind (stoi k_str) (fun k =>
      if (k <=? 0)%Z then Ok (mkfr 1 [] (fill_banner ++ not_positive k_str))
      else
        obind (load path) (fun m =>
        match m with
        | None => failed [] (u "fail to load model: " ++ path)
        | Some m =>
            let ctx := Loaded (op_api m) in
            let ectx := ELoaded (op_eval m) in
            if (berts_vocab_size ctx <? Z.to_N k)%N
            then failed [] (u "invalid k: " ++ k_str ++ endl ++ u "k must be in range 1.." ++ decimal (berts_vocab_size ctx))
            else
              let out := u "prompt = " ++ prompt ++ endl in
              let cap := N.of_nat (length prompt) in
              obind (berts_tokenize ctx (Some prompt) (Some (fresh_cells junk_ids cap)) (Some cap)) (fun r =>
              if negb (r_ok r) then failed out (u "fail to tokenize prompt: " ++ prompt)
              else
                match r_out r, r_len r with
                | Some cells, Some count =>
                    let n := N.to_nat count in
                    if (length cells <? n)%nat then UB
                    else
                      let out := out ++ show_ids (firstn n cells) in
                      match find_mask (berts_mask_id ctx) 0 None (firstn n cells) with
                      | None => failed out (u "please specify one mask")
                      | Some pos =>
                          let cond := Some (mkei (-1) PoolNone) in
                          obind (berts_eval P L ectx cells None n cond None (Some 0%N)) (fun e =>
                          match e_ok e, e_count e with
                          | true, Some size =>
                              obind (berts_eval P L ectx cells None n cond (Some (fresh_cells junk_values size)) (Some size)) (fun e =>
                              match e_ok e, e_out e, e_count e with
                              | true, Some hidden, Some size =>
                                  let lm := Some (mkli k) in
                                  obind (berts_eval_lm P L ectx hidden (N.to_nat size) lm None None (Some 0%N)) (fun l =>
                                  match l_ok l, l_count l with
                                  | true, Some size' =>
                                      obind (berts_eval_lm P L ectx hidden (N.to_nat size) lm (Some (fresh_cells junk_top size'))
                                               (Some (fresh_cells junk_values size')) (Some size')) (fun l =>
                                      match l_ok l, l_ids l, l_probs l with
                                      | true, Some ids, Some scores =>
                                          obind (result_lines ctx (Z.to_nat k * pos) (seq 0 (Z.to_nat k)) ids scores) (fun ls =>
                                          Ok (mkfr 0 (out ++ show_lines 0 (map (filled (widest ls)) ls)) fill_banner))
                                      | _, _, _ => failed out (u "fail to call `berts_eval_lm`")
                                      end)
                                  | _, _ => failed out (u "fail to call `berts_eval_lm`")
                                  end)
                              | _, _, _ => failed out (u "fail to call `berts_eval`")
                              end)
                          | _, _ => failed out (u "fail to call `berts_eval`")
                          end)
                      end
                | _, _ => UB
                end)
        end))
  | exe :: _ => Ok (mkfr 1 (fill_usage exe) fill_banner)
  | [] => UB
  end.
End Fill_text.
