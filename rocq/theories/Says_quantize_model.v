(** What quantization writes to the log: berts/models/quantize.cpp:41-218, in the order in
    which it is written, after what loading writes (Says_load_model).  The results are those
    of Quantize_model.

    Simplified: numbers with a fixed number of decimals are texts given by parameters
    ([kib], [mib]: of a number of bytes divided by 1024 or 1024*1024); the lines of the
    histogram are a parameter that depends on the conversions done ([bins]: empty if nothing
    was counted). *)
From Verif Require Import Base Bert_model Vocab_model Bpe_model Roberta_model Loader_model Log_model.
From Verif Require Import Says_model Says_load_model Quantize_model.
From Verif Require Ggml_model.

(** The name of a type in a message, gguf.cpp:53-55; every type has one *)
Definition type_label (t : gty) : list N := match type_to_str t with Ok n => n | _ => [] end.

(** std::format of a bool *)
Definition bool_text (b : bool) : list N := if b then u "true" else u "false".

Section Says_quantize.
Context (chunk : gty -> list N -> nat -> list N) (widen : list N -> list N).
Context (kib mib : N -> list N) (bins : list (list N) -> list N).

(** quantize.cpp:166-175 *)
Definition report_says (name : list N) (q : bool) (dims before after : N) : log_call :=
  Formatted Info (name ++ u ":" ++ [10%N] ++ u "  quantized = " ++ bool_text q ++ [10%N] ++
                  u "  n_dims = " ++ decimal dims ++ [10%N] ++
                  u "  size = " ++ kib before ++ u " KiB -> " ++ kib after ++ u " KiB").

(** What is counted in the loop: bytes before and after, and the conversions *)
Record tally := mktally { t_before : N; t_after : N; t_done : list (list N) }.

(** quantize.cpp:122-175, one tensor, with quantize.cpp:41-68 *)
Definition convert_one_logged (ts : list stored) (qt : gty) (n : list N) (ws : list winfo) (c : tally)
  : outcome (option (list sop * list winfo * tally) * list log_call) :=
  match get_tensor st_name ts n with
  | None => UB
  | Some s =>
      let t := st_info s in
      let q := is_weight n && (ti_dims t =? 2)%N in
      let data := if q then quantize chunk widen s qt else Some (st_bytes s) in
      match data with
      | None => Ok (None, [Formatted Error (u "input type must be f16 or f32, but " ++ type_label (ti_type t))])
      | Some bs =>
          let size := N.of_nat (length bs) in
          obind (set_tensor_type n (if q then qt else ti_type t) ws) (fun ws =>
          obind (set_tensor_data n size ws) (fun ws =>
          Ok (Some (Write bs :: zeros (pad32 size - size), ws,
                    mktally (t_before c + nbytes t) (t_after c + size) (t_done c ++ (if q then [bs] else []))),
              [report_says n q (ti_dims t) (nbytes t) size])))
      end
  end.

(** quantize.cpp:121-176 *)
Fixpoint convert_logged (ts : list stored) (qt : gty) (names : list (list N)) (ws : list winfo) (c : tally)
  : outcome (list sop * option (list winfo * tally) * list log_call) :=
  match names with
  | [] => Ok ([], Some (ws, c), [])
  | n :: rest =>
      obind (convert_one_logged ts qt n ws c) (fun '(r, tr) =>
      match r with
      | None => Ok ([], None, tr)
      | Some (os, ws', c') =>
          obind (convert_logged ts qt rest ws' c') (fun '(os', r', tr') => Ok (os ++ os', r', tr ++ tr'))
      end)
  end.

(** quantize.cpp:193-213 *)
Definition dump_says (c : tally) : log_call :=
  Plain Info (u "========================================" ++ [10%N] ++
    u "original size  = " ++ decimal (t_before c) ++ u " (" ++ mib (t_before c) ++ u " MiB)" ++ [10%N] ++
    u "quantized size = " ++ decimal (t_after c) ++ u " (" ++ mib (t_after c) ++ u " MiB)" ++ [10%N] ++
    bins (t_done c) ++ u "========================================").

(** quantize.cpp:94-217 *)
Definition quantize_to_logged (output : list N) (ts : list stored) (names : list (list N)) (opens : bool)
    (n_kv : N) (kv : list N) (dev : nat -> nat) (qt : gty) : outcome ((bool * option (list N)) * list log_call) :=
  if negb opens then Ok ((false, None), [Formatted Error (u "failed to open " ++ output)])
  else
    obind (add_all ts names []) (fun ws =>
    let size := meta_size n_kv kv ws in
    obind (convert_logged ts qt names ws (mktally 0 0 [])) (fun '(os, r, tr) =>
    let start := [Plain Info (u "converting...")] ++ tr in
    let file os := Some (s_bytes (do_ops stream0 0 dev os)) in
    match r with
    | None => Ok ((false, file (zeros size ++ os)), start)
    | Some (ws', c) =>
        Ok ((true, file (zeros size ++ os ++ [Rewind; Write (meta n_kv kv ws')])),
            start ++ [Plain Info (u "writing metadata..."); dump_says c; Plain Info (u "quantization completed")])
    end)).

(** quantize.cpp:70-218.  [text], [double], [in_kv]: see Says_load_model. *)
Context (L : Ggml_model.lib) (junk : nat -> N) {V : Type} (value : gty -> list N -> nat -> V).
Context (order : list (ustring * N) -> list (ustring * N)).
Context (input output : list N) (text : skey -> list N) (double : N -> list N) (in_kv : N).
Definition quantize_logged (file : option file) (reopen opens : bool)
    (n_kv : N) (kv : list N) (dev : nat -> nat) (qt : gty) : outcome ((bool * option (list N)) * list log_call) :=
  let start := [Plain Info (u "start quantization")] in
  obind (type_to_str qt) (fun _ =>
  obind (load_logged L junk value order input text double in_kv file reopen) (fun '(r, tr) =>
  match r, file with
  | Loaded _, Some f =>
      obind (ctx_size L (f_tensors f) (f_tensors f)) (fun size =>
      obind (read_tensors L junk f size 0 false (f_tensors f)) (fun ts =>
      obind (quantize_to_logged output ts (map ti_name (f_tensors f)) opens n_kv kv dev qt) (fun '(a, tr') =>
      Ok (a, start ++ tr ++ [Formatted Info (u "model loaded: " ++ input)] ++ tr'))))
  | _, _ => Ok ((false, None), start ++ tr ++ [Formatted Error (u "fail to load model: " ++ input)])
  end)).
End Says_quantize.
