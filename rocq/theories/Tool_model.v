(** The quantization tool: berts/examples/quant.cpp.

    Arguments are lists of bytes.  Printing is not modelled but for the table of
    show_usage.  The program does not call setlocale, so std::toupper is that of the "C"
    locale. *)
From Verif Require Import Base Loader_model.

(** quant.cpp:10-15; the bits per weight are the double [o_bits] / [o_per] *)
Record quant_option := mkopt { o_type : gty; o_name : list N; o_bits : N; o_per : N; o_about : list N }.

(** quant.cpp:17-31 *)
Definition quant_types : list quant_option := [
  mkopt TF32 (u "F32") 32 1 (u "32-bit float");
  mkopt TF16 (u "F16") 16 1 (u "16-bit float");
  mkopt TQ4_0 (u "Q4_0") (4 * 32 + 32) 32 (u "4-bit x 32 + 32-bit scale");
  mkopt TQ4_1 (u "Q4_1") (4 * 32 + 32 + 32) 32 (u "4-bit x 32 + 32-bit scale + 32-bit bias");
  mkopt TQ5_0 (u "Q5_0") (5 * 32 + 16) 32 (u "5-bit x 32 + 16-bit scale");
  mkopt TQ5_1 (u "Q5_1") (5 * 32 + 16 + 16) 32 (u "5-bit x 32 + 16-bit scale + 16-bit bias");
  mkopt TQ8_0 (u "Q8_0") (8 * 32 + 32) 32 (u "8-bit x 32 + 32-bit scale");
  mkopt TQ8_1 (u "Q8_1") (8 * 32 + 32 + 32) 32 (u "8-bit x 32 + 32-bit scale + 32-bit bias");
  mkopt TQ2_K (u "Q2_K") ((2 * 16 + 4 + 4) * 16 + 16 + 16) (16 * 16) (u "[2-bit x 16 + 4-bit scale + 4-bit bias] x 16 + 16-bit scale + 16-bit bias");
  mkopt TQ3_K (u "Q3_K") ((3 * 16 + 6) * 16 + 16) (16 * 16) (u "[3-bit x 16 + 6-bit scale] x 16 + 16-bit scale");
  mkopt TQ4_K (u "Q4_K") ((4 * 32 + 6 + 6) * 8 + 16 + 16) (32 * 8) (u "[4-bit x 32 + 6-bit scale + 6-bit bias] x 8 + 16-bit scale + 16-bit bias");
  mkopt TQ5_K (u "Q5_K") ((5 * 32 + 6 + 6) * 8 + 16 + 16) (32 * 8) (u "[5-bit x 32 + 6-bit scale + 6-bit bias] x 8 + 16-bit scale + 16-bit bias");
  mkopt TQ6_K (u "Q6_K") ((6 * 16 + 8) * 16 + 16) (16 * 16) (u "[6-bit x 16 + 8-bit scale] x 16 + 16-bit scale")]%N.

(** quant.cpp:33-40; types are compared by number *)
Fixpoint type_label (opts : list quant_option) (t : gty) : list N :=
  match opts with
  | [] => []
  | o :: rest => if (code (o_type o) =? code t)%N then o_name o else type_label rest t
  end.
Definition ftype_to_str (t : gty) : list N := type_label quant_types t.

(** quant.cpp:46: std::toupper of a (signed) char.  Undefined for negative values but
    EOF = -1; bytes 128-254 are negative. *)
Definition toupper (c : N) : outcome N :=
  if (c =? 255)%N then Ok 255%N
  else if (128 <=? c)%N then UB
  else if ((97 <=? c) && (c <=? 122))%N then Ok (c - 32)%N
  else Ok c.
Fixpoint upper (s : list N) : outcome (list N) :=
  match s with
  | [] => Ok []
  | c :: rest => obind (toupper c) (fun c => obind (upper rest) (fun cs => Ok (c :: cs)))
  end.

Definition digit (c : N) : bool := ((48 <=? c) && (c <=? 57))%N.

(** The longest prefix of digits, the number it makes, and the rest. *)
Fixpoint take_digits (acc : N) (s : list N) : nat * N * list N :=
  match s with
  | c :: rest =>
      if digit c then let '(n, v, r) := take_digits (10 * acc + (c - 48))%N rest in (S n, v, r)
      else (O, acc, s)
  | [] => (O, acc, [])
  end.

(** std::from_chars for int.  [Parsed v rest]; [NoNumber]: nothing consumed; [OutOfRange
    rest]: the value is left alone.  The variable was not initialised. *)
Inductive parsed := Parsed (v : Z) (rest : list N) | NoNumber (rest : list N) | OutOfRange (rest : list N).
Definition INT_MAX : Z := 2147483647.
Definition INT_MIN : Z := (-2147483648)%Z.
Definition from_chars (s : list N) : parsed :=
  let '(neg, body) := match s with 45%N :: r => (true, r) | _ => (false, s) end in
  let '(n, v, rest) := take_digits 0 body in
  if (n =? 0)%nat then NoNumber s
  else
    let z := if neg then (- Z.of_N v)%Z else Z.of_N v in
    if ((INT_MIN <=? z) && (z <=? INT_MAX))%Z then Parsed z rest else OutOfRange rest.

(** quant.cpp:48-54: the number; [None]: not initialised *)
Definition number_of (s : list N) : option Z :=
  match from_chars s with
  | Parsed v [] => Some v
  | OutOfRange [] => None
  | Parsed _ (_ :: _) | OutOfRange (_ :: _) => Some (-1)%Z
  | NoNumber [] => None
  | NoNumber (_ :: _) => Some (-1)%Z
  end.

(** quant.cpp:56-63.  Comparing a variable that was not initialised is undefined. *)
Fixpoint choose (opts : list quant_option) (name : list N) (number : option Z) : outcome (option gty) :=
  match opts with
  | [] => Ok None
  | o :: rest =>
      if list_N_eqb name (o_name o) then Ok (Some (o_type o))
      else
        match number with
        | None => UB
        | Some z => if (z =? Z.of_N (code (o_type o)))%Z then Ok (Some (o_type o)) else choose rest name number
        end
  end.

(** quant.cpp:42-66; [None] is (ggml_type)-1 *)
Definition parse_ftype (s : list N) : outcome (option gty) :=
  obind (upper s) (fun s => choose quant_types s (number_of s)).

(** quant.cpp:77-121: the exit status, and what was done.  [quantize input output type] is
    berts_model_quantize, [R] whatever it leaves behind. *)
Definition quant_main {R} (quantize : list N -> list N -> gty -> outcome (bool * R)) (argv : list (list N))
  : outcome (N * option R) :=
  match argv with
  | [_; input; type; output] =>
      if (length type =? 0)%nat then Ok (1%N, None)
      else
        obind (parse_ftype type) (fun t =>
        match t with
        | None => Ok (1%N, None)
        | Some t => obind (quantize input output t) (fun r => Ok (0%N, Some (snd r)))
        end)
  | _ => Ok (1%N, None)
  end.
