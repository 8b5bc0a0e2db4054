(** What quantization ought to write to the log. *)
From Verif Require Import Base Vocab_model Loader_model Log_model Log_spec Says_spec Quantize_model Quantize_spec.
Local Open Scope N_scope.

(** [report kib qt s o m]: [m] tells that tensor [s] is written as [o]: whether it was
    converted, its dimensions, and its size before and after. *)
Inductive report (kib : N -> list N) (s : stored) (o : gty * list N) : message -> Prop :=
| report_converted : wanted s ->
    report kib s o (1%Z, st_name s ++ u ":" ++ [10] ++ u "  quantized = true" ++ [10] ++ u "  n_dims = 2" ++ [10] ++
                         u "  size = " ++ kib (nbytes (st_info s)) ++ u " KiB -> " ++ kib (N.of_nat (length (snd o))) ++ u " KiB")
| report_kept : ~ wanted s ->
    report kib s o (1%Z, st_name s ++ u ":" ++ [10] ++ u "  quantized = false" ++ [10] ++
                         u "  n_dims = " ++ decimal (ti_dims (st_info s)) ++ [10] ++
                         u "  size = " ++ kib (nbytes (st_info s)) ++ u " KiB -> " ++ kib (N.of_nat (length (snd o))) ++ u " KiB").

Definition total (l : list N) : N := fold_right N.add 0 l.

(** The summary: the sizes of all tensors before and after, and the histogram of what was
    converted. *)
Definition summary (mib : N -> list N) (before after : N) (histogram : list N) : list N :=
  u "========================================" ++ [10] ++
  u "original size  = " ++ decimal before ++ u " (" ++ mib before ++ u " MiB)" ++ [10] ++
  u "quantized size = " ++ decimal after ++ u " (" ++ mib after ++ u " MiB)" ++ [10] ++
  histogram ++ u "========================================".

(** The data converted, in order. *)
Inductive conversions : list stored -> list (gty * list N) -> list (list N) -> Prop :=
| conv_nil : conversions [] [] []
| conv_yes s o ts outs done : wanted s -> conversions ts outs done -> conversions (s :: ts) (o :: outs) (snd o :: done)
| conv_no s o ts outs done : ~ wanted s -> conversions ts outs done -> conversions (s :: ts) (o :: outs) done.
