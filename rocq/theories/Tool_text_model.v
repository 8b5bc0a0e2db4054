(** What the quantization tool prints: berts/examples/quant.cpp:68-121.

    [version]: berts_version().  [bpw bits per]: %.3f of (float)(bits / per).  [run]:
    berts_model_quantize with its messages to the log, which goes to stderr (log.cpp:6). *)
From Verif Require Import Base Loader_model Log_model Says_model Vocab_model Tool_model.
Local Open Scope N_scope.

(** A finished run: exit status, stdout, stderr, and what the conversion left behind if there
    was one *)
Record tool_run {R : Type} := mktr { tr_status : N; tr_out : list N; tr_err : list N; tr_kept : option R }.
Arguments tool_run : clear implicits.

Section Tool.
Context (version : list N) (bpw : N -> N -> list N).

(** quant.cpp:68-75 *)
Definition usage_line (o : quant_option) : list N :=
  u "  " ++ decimal (code (o_type o)) ++ u " or " ++ o_name o ++ u " : " ++ o_about o ++ u " (bpw=" ++ bpw (o_bits o) (o_per o) ++ u ")" ++ [10].
Definition usage (exe : list N) : list N :=
  u "usage: " ++ exe ++ u " input.gguf type output.gguf" ++ [10] ++ [10] ++ u "Allowed quantization types:" ++ [10]
  ++ flat_map usage_line quant_types.

(** quant.cpp:78 *)
Definition banner : list N := u "* berts.cpp v" ++ version ++ u " quant" ++ [10].

(** quant.cpp:77-121.  Without argv[0] (a null pointer) printing the usage is undefined. *)
Definition quant_tool {R} (run : list N -> list N -> gty -> outcome ((bool * R) * list log_call)) (argv : list (list N))
  : outcome (tool_run R) :=
  let refused exe := Ok (mktr R 1 (usage exe) banner None) in
  match argv with
  | [exe; input; type; output] =>
      if (length type =? 0)%nat then refused exe
      else
        obind (parse_ftype type) (fun t =>
        match t with
        | None => refused exe
        | Some t =>
            obind (logged (mkls LOG_ALL true) (run input output t)) (fun r =>
            let '((ok, kept), log) := r in
            Ok (mktr R 0 (u "input:  " ++ input ++ [10] ++ u "output: " ++ output ++ [10] ++ u "type: " ++ ftype_to_str t ++ [10]
                          ++ (if ok then u "done" else u "fail to quantize model") ++ [10])
                     (banner ++ log) (Some kept)))
        end)
  | exe :: _ => refused exe
  | [] => UB
  end.
End Tool.
