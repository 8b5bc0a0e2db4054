(** What tokenizing with a RoBERTa model writes to the log with the messages of level DEBUG:
    berts/models/roberta.cpp:249-379, bpe.cpp:225-422 and berts.cpp:151-197.  Says_roberta_model
    with these messages added; the results are those of Roberta_model and Bpe_model. *)
From Verif Require Import Base Assoc Utf_model Ustr_model Bert_model Vocab_model Bpe_model Roberta_model Log_model Says_model Says_roberta_model.

(** bpe.cpp:292-299: the numbers with a blank after each but the last *)
Fixpoint joined (ids : list N) : list N :=
  match ids with
  | [] => []
  | [i] => decimal i
  | i :: rest => decimal i ++ u " " ++ joined rest
  end.

(** bpe.cpp:346-373: a merge is reported when none of the checks has left the pass. *)
Definition process_says (b : bpe) (top : entry) (syms : list sym) : list log_call :=
  match nth_error syms (e_index top) with
  | Some s =>
      if s_len s =? 0 then []
      else match s_next s with
           | Some np =>
               match nth_error syms np with
               | Some r =>
                   match bpe_merge b (s_id s, s_id r) with
                   | Some (_, nid) =>
                       if negb (nid =? e_new top) then []
                       else [Formatted Debug (u "  * merge (" ++ decimal (s_id s) ++ u ", " ++ decimal (s_id r) ++ u ") -> " ++ decimal (e_new top))]
                   | None => []
                   end
               | None => []
               end
           | None => []
           end
  | None => []
  end.

(** bpe.cpp:326-411: the recursion of [merge_loop] *)
Fixpoint merge_loop_says (b : bpe) (pick : picker) (fuel : nat) (coins : nat -> bool)
         (q skip : list entry) (syms : list sym) : list log_call :=
  match fuel with
  | O => []
  | S fuel' =>
      match pick q with
      | None => []
      | Some (top, q1) =>
          let dropping := match b_dropout b with DPos => true | _ => false end in
          let coins' := if dropping then (fun k => coins (S k)) else coins in
          if dropping && coins 0%nat
          then merge_loop_says b pick fuel' coins' q1 (skip ++ [top]) syms
          else process_says b top syms
               ++ match process b top (skip ++ q1) syms with
                  | Ok (q2, syms') => merge_loop_says b pick fuel' coins' q2 [] syms'
                  | _ => []
                  end
      end
  end.

(** bpe.cpp:233-302: nothing after the text if it is empty or in the cache *)
Definition tokenize_cached_says (b : bpe) (pick : picker) (fuel : nat) (coins : nat -> bool) (cache : cache_t) (text : ustring) : list log_call :=
  [Plain Debug (u "start BPE tokenization"); Formatted Debug (u "  text = """ ++ enc8s text ++ u """")]
  ++ match text with
     | [] => []
     | _ =>
         match (match b_dropout b with DZero => lookup list_N_eqb text cache | _ => None end) with
         | Some _ => []
         | None =>
             let syms := initial_symbols b text in
             [Formatted Debug (u "  id = (" ++ joined (map s_id syms) ++ u ")")]
             ++ merge_loop_says b pick fuel coins (init_queue b 0 syms) [] syms
             ++ match merge_word b pick fuel coins text with
                | Some (Ok _) => [Plain Debug (u "finish BPE tokenization")]
                | _ => []
                end
         end
     end.

Section Says_rdebug.
  Variable engine : list N -> list (option (nat * nat)).
  Variable ws : N -> bool.
  Variable pick : picker.

  (** roberta.cpp:329-341 *)
  Fixpoint pieces_full (b : bpe) (cache : cache_t) (ss : list (list N))
    : outcome (option (list ustring * cache_t) * list log_call) :=
    match ss with
    | [] => Ok (Some ([], cache), [])
    | s :: ss' =>
        obind (encode_bytes (encode s)) (fun t =>
        let says := tokenize_cached_says b pick (S (4 * length t)) (fun _ => true) cache t in
        match tokenize_cached b pick (S (4 * length t)) (fun _ => true) cache t with
        | None => Abort
        | Some (Ok (ts, cache')) =>
            obind (pieces_full b cache' ss') (fun p =>
              Ok (option_map (fun q => (ts ++ fst q, snd q)) (fst p), says ++ snd p))
        | Some Fail => Ok (None, says ++ [Formatted Error (u "failed to tokenize: " ++ encode s)])
        | Some UB => UB
        | Some Abort => Abort
        end)
    end.

  (** roberta.cpp:286-291 *)
  Definition subtexts_says (parts : list (bool * list N)) : list log_call :=
    Plain Debug (u "  subtexts:")
    :: map (fun p : bool * list N => Formatted Debug (u "    """ ++ snd p ++ u """ " ++ (if fst p then u "*" else []))) parts.

  (** roberta.cpp:300-357 *)
  Fixpoint parts_full (v : rvocab) (mask : list N) (cache : cache_t) (parts : list (bool * list N))
    : outcome (list N * bool * list log_call) :=
    match parts with
    | [] => Ok ([], true, [Plain Debug (u "finish tokenization")])
    | (special, part) :: parts' =>
        let before_mask := match parts' with (true, p) :: _ => list_N_eqb p mask | _ => false end in
        match from_utf8 part with
        | None => UB
        | Some us =>
            match (if before_mask then rstrip ws us else Some us) with
            | None => UB
            | Some us' =>
                if special : bool then
                  let id := token_to_id (rv_voc v) part in
                  if id =? INVALID
                  then Ok ([], false, token_to_id_says (rv_voc v) part
                                      ++ [Formatted Error (u "unknown special token: """ ++ encode us' ++ u """")])
                  else obind (parts_full v mask cache parts') (fun '(ids, ok, tr) =>
                         Ok (id :: ids, ok, Formatted Debug (u "special token: " ++ encode us' ++ u " (" ++ decimal id ++ u ")") :: tr))
                else
                  obind (pieces_full (rv_bpe v) cache (fst (regex_split us' (engine us')))) (fun p =>
                  match fst p with
                  | None => Ok ([], false, snd p)
                  | Some (ts, cache') =>
                      let '(ids, ok, tr) := ids_logged (rv_voc v) ts in
                      if ok : bool
                      then obind (parts_full v mask cache' parts') (fun '(ids', ok', tr') => Ok (ids ++ ids', ok', snd p ++ tr'))
                      else Ok (ids, false, snd p ++ tr)
                  end)
            end
        end
    end.

  (** roberta.cpp:249-379 *)
  Definition r_tokenize_full (sporder : list (list N) -> list (list N)) (v : rvocab) (text : list N)
    : option (outcome (list N * bool * list log_call)) :=
    match special_tokens v with
    | Ok keep =>
        match split_specials (length text) (sporder keep) [] text with
        | None => None
        | Some parts =>
            Some (obind (r_id_to_token (rv_voc v) (r_mask (rv_sp v))) (fun mask =>
              let s := rv_sp v in
              let says id := id_to_token_says (i2t (rv_voc v)) id in
              obind (parts_full v mask [] parts) (fun '(ids, ok, tr) =>
                Ok (ids, ok,
                    flat_map says [r_bos s; r_eos s; r_cls s; r_mask s; r_pad s; r_sep s; r_unk s]
                    ++ [Plain Info (u "tokenization start")] ++ subtexts_says parts ++ says (r_mask s) ++ tr))))
        end
    | Fail => Some Fail
    | UB => Some UB
    | Abort => Some Abort
    end.

  (** berts.cpp:151-197 *)
  Definition r_berts_tokenize_full (sporder : list (list N) -> list (list N)) (v : rvocab) (max : N) (text : list N)
    : option (outcome (option (list N) * list log_call)) :=
    let s := rv_sp v in
    if r_cls s =? INVALID then Some (Ok (None, [Plain Error (u "cls_id is not found")]))
    else if r_sep s =? INVALID then Some (Ok (None, [Plain Error (u "sep_id is not found")]))
    else
      option_map (fun r =>
        obind r (fun '(ids, ok, tr) =>
          let all := [r_cls s] ++ ids ++ (if ok : bool then [r_sep s] else []) in
          let n := N.of_nat (length all) in
          Ok (if ok then Some all else None,
              tr ++ (if max <? n
                     then [Formatted Warn (u "Token count (" ++ decimal n ++ u ") is larger than the max_position_embeddings ("
                             ++ decimal max ++ u "). Calling eval() with this sequence will cause a failure.")]
                     else []))))
        (r_tokenize_full sporder v text).
End Says_rdebug.
