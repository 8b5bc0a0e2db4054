(** What tokenizing with a RoBERTa model writes to the log: berts/models/roberta.cpp:249-379
    and berts.cpp:151-197, in the order in which it is written.  The results are those of
    Roberta_model.

    Simplified: messages of level DEBUG are left out (statements are about levels from INFO
    on); so are the lines of unicode.cpp about ICU errors.  As in [r_tokenize], [None] is a
    call that does not return. *)
From Verif Require Import Base Utf_model Ustr_model Bert_model Vocab_model Bpe_model Roberta_model Log_model Says_model.

Section Says_roberta.
  Variable engine : list N -> list (option (nat * nat)).
  Variable ws : N -> bool.
  Variable pick : picker.

  (** roberta.cpp:329-341; the first component is [None] after a failure *)
  Fixpoint pieces_logged (b : bpe) (cache : cache_t) (ss : list (list N))
    : outcome (option (list ustring * cache_t) * list log_call) :=
    match ss with
    | [] => Ok (Some ([], cache), [])
    | s :: ss' =>
        obind (encode_bytes (encode s)) (fun t =>
        match tokenize_cached b pick (S (4 * length t)) (fun _ => true) cache t with
        | None => Abort
        | Some (Ok (ts, cache')) =>
            obind (pieces_logged b cache' ss') (fun p =>
              Ok (option_map (fun q => (ts ++ fst q, snd q)) (fst p), snd p))
        | Some Fail => Ok (None, [Formatted Error (u "failed to tokenize: " ++ encode s)])
        | Some UB => UB
        | Some Abort => Abort
        end)
    end.

  (** roberta.cpp:343-350: the ids put out, whether all were found, and the messages *)
  Fixpoint ids_logged (v : voc) (ts : list ustring) : list N * bool * list log_call :=
    match ts with
    | [] => ([], true, [])
    | t :: ts' =>
        let id := token_to_id v (enc8s t) in
        if id =? INVALID
        then ([], false, token_to_id_says v (enc8s t) ++ [Formatted Error (u "failed to tokenize: " ++ enc8s t)])
        else let '(ids, ok, tr) := ids_logged v ts' in (id :: ids, ok, tr)
    end.

  (** roberta.cpp:300-351 *)
  Fixpoint parts_logged (v : rvocab) (mask : list N) (cache : cache_t) (parts : list (bool * list N))
    : outcome (list N * bool * list log_call) :=
    match parts with
    | [] => Ok ([], true, [])
    | (special, part) :: parts' =>
        let before_mask := match parts' with (true, p) :: _ => list_N_eqb p mask | _ => false end in
        match from_utf8 part with
        | None => UB
        | Some us =>
            match (if before_mask then rstrip ws us else Some us) with
            | None => UB
            | Some us' =>
                if special : bool then
                  let id := token_to_id (rv_voc v) part in
                  if id =? INVALID
                  then Ok ([], false, token_to_id_says (rv_voc v) part
                                      ++ [Formatted Error (u "unknown special token: """ ++ encode us' ++ u """")])
                  else obind (parts_logged v mask cache parts') (fun '(ids, ok, tr) => Ok (id :: ids, ok, tr))
                else
                  obind (pieces_logged (rv_bpe v) cache (fst (regex_split us' (engine us')))) (fun p =>
                  match fst p with
                  | None => Ok ([], false, snd p)
                  | Some (ts, cache') =>
                      let '(ids, ok, tr) := ids_logged (rv_voc v) ts in
                      if ok : bool
                      then obind (parts_logged v mask cache' parts') (fun '(ids', ok', tr') => Ok (ids ++ ids', ok', tr'))
                      else Ok (ids, false, tr)
                  end)
            end
        end
    end.

  (** roberta.cpp:249-379: the ids put out so far even if the call fails *)
  Definition r_tokenize_logged (sporder : list (list N) -> list (list N)) (v : rvocab) (text : list N)
    : option (outcome (list N * bool * list log_call)) :=
    match special_tokens v with
    | Ok keep =>
        match split_specials (length text) (sporder keep) [] text with
        | None => None
        | Some parts =>
            Some (obind (r_id_to_token (rv_voc v) (r_mask (rv_sp v))) (fun mask =>
              let s := rv_sp v in
              let says id := id_to_token_says (i2t (rv_voc v)) id in
              obind (parts_logged v mask [] parts) (fun '(ids, ok, tr) =>
                Ok (ids, ok,
                    flat_map says [r_bos s; r_eos s; r_cls s; r_mask s; r_pad s; r_sep s; r_unk s]
                    ++ [Plain Info (u "tokenization start")] ++ says (r_mask s) ++ tr))))
        end
    | Fail => Some Fail
    | UB => Some UB
    | Abort => Some Abort
    end.

  (** berts.cpp:151-197; [None] inside is the return of false, [max] is hparams.max_tokens as
      size_t.  The number in the hint is that of the ids put out so far. *)
  Definition r_berts_tokenize_logged (sporder : list (list N) -> list (list N)) (v : rvocab) (max : N) (text : list N)
    : option (outcome (option (list N) * list log_call)) :=
    let s := rv_sp v in
    if r_cls s =? INVALID then Some (Ok (None, [Plain Error (u "cls_id is not found")]))
    else if r_sep s =? INVALID then Some (Ok (None, [Plain Error (u "sep_id is not found")]))
    else
      option_map (fun r =>
        obind r (fun '(ids, ok, tr) =>
          let all := [r_cls s] ++ ids ++ (if ok : bool then [r_sep s] else []) in
          let n := N.of_nat (length all) in
          Ok (if ok then Some all else None,
              tr ++ (if max <? n
                     then [Formatted Warn (u "Token count (" ++ decimal n ++ u ") is larger than the max_position_embeddings ("
                             ++ decimal max ++ u "). Calling eval() with this sequence will cause a failure.")]
                     else []))))
        (r_tokenize_logged sporder v text).
End Says_roberta.
