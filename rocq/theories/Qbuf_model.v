(** The buffers and the histogram of quantization: berts/models/quantize.cpp:15-33, 41-68,
    107-176 and 196-212, with the memory that Quantize_model leaves out.

    [chunk], [widen]: as in Quantize_model.  [count t bs]: what ggml_quantize_chunk adds to the
    16 counters while it writes [bs].  [ratio v s]: {:.3f} of v / s as floats. *)
From Verif Require Import Base Bert_model Vocab_model Bpe_model Roberta_model Loader_model Quantize_model.
From Verif Require Ggml_model.

(** quantize.cpp:15-33: the bytes of the floats, the bytes of the result, the counters *)
Record conv_buf := mkcb { cb_f : list N; cb_q : list N; cb_h : list N }.

(** quantize.cpp:19-21 *)
Definition conv_buf0 : conv_buf := mkcb [] [] (repeat 0%N 16).

(** std::vector::resize to more elements: the old ones stay, new ones are 0 *)
Definition grow (n : nat) (l : list N) : list N := l ++ repeat 0%N (n - length l).

(** quantize.cpp:22-29 *)
Definition reserve (n : nat) (b : conv_buf) : conv_buf :=
  mkcb (grow (4 * n) (cb_f b)) (grow (4 * n) (cb_q b)) (cb_h b).

(** Writing to the start of a buffer, and reading from it *)
Definition put (bs cells : list N) : outcome (list N) :=
  if (length cells <? length bs)%nat then UB else Ok (bs ++ skipn (length bs) cells).
Definition take (n : nat) (cells : list N) : outcome (list N) :=
  if (length cells <? n)%nat then UB else Ok (firstn n cells).

Fixpoint add_counts (h c : list N) : list N :=
  match h, c with
  | x :: h', y :: c' => (x + y)%N :: add_counts h' c'
  | _, _ => h
  end.

Section Qbuf.
Context (chunk : gty -> list N -> nat -> list N) (widen : list N -> list N) (count : gty -> list N -> list N).

(** quantize.cpp:41-68: the size of the result, which is at the start of [cb_q] *)
Definition quantize_buf (s : stored) (qt : gty) (b : conv_buf) : outcome (option (nat * conv_buf)) :=
  let t := st_info s in
  let n := elements t in
  let b := reserve n b in
  let to_type data b :=
    obind (take (4 * n) data) (fun data =>
    let out := if convertible qt then chunk qt data n else [] in
    obind (put out (cb_q b)) (fun q =>
    Ok (Some (length out, mkcb (cb_f b) q (add_counts (cb_h b) (count qt out)))))) in
  match ti_type t with
  | TF32 => to_type (st_bytes s) b
  | TF16 =>
      obind (take (2 * n) (st_bytes s)) (fun halves =>
      obind (put (widen halves) (cb_f b)) (fun f =>
      to_type f (mkcb f (cb_q b) (cb_h b))))
  | _ => Ok None
  end.

(** quantize.cpp:122-164, one tensor *)
Definition convert_one_buf (ts : list stored) (qt : gty) (n : list N) (ws : list winfo) (b : conv_buf)
  : outcome (option (list sop * list winfo * conv_buf)) :=
  match get_tensor st_name ts n with
  | None => UB
  | Some s =>
      let t := st_info s in
      let q := is_weight n && (ti_dims t =? 2)%N in
      obind (if q
             then obind (quantize_buf s qt b) (fun r =>
                    match r with
                    | None => Ok None
                    | Some (size, b') => obind (take size (cb_q b')) (fun bs => Ok (Some (bs, b')))
                    end)
             else Ok (Some (st_bytes s, b))) (fun r =>
      match r with
      | None => Ok None
      | Some (bs, b') =>
          let size := N.of_nat (length bs) in
          obind (set_tensor_type n (if q then qt else ti_type t) ws) (fun ws =>
          obind (set_tensor_data n size ws) (fun ws =>
          Ok (Some (Write bs :: zeros (pad32 size - size), ws, b'))))
      end)
  end.

(** quantize.cpp:121-176: the operations, the descriptions unless it returned false, and the
    buffers *)
Fixpoint convert_buf (ts : list stored) (qt : gty) (names : list (list N)) (ws : list winfo) (b : conv_buf)
  : outcome (list sop * option (list winfo) * conv_buf) :=
  match names with
  | [] => Ok ([], Some ws, b)
  | n :: rest =>
      obind (convert_one_buf ts qt n ws b) (fun r =>
      match r with
      | None => Ok ([], None, b)
      | Some (os, ws', b') =>
          obind (convert_buf ts qt rest ws' b') (fun '(os', r', b'') => Ok (os ++ os', r', b''))
      end)
  end.

(** quantize.cpp:204-211 *)
Context (ratio : N -> N -> list N).
Fixpoint bin_lines (i : nat) (sum : N) (h : list N) : list N :=
  match h with
  | [] => []
  | v :: h' => u "  bin #" ++ decimal (N.of_nat i) ++ u ": " ++ ratio v sum ++ [10%N] ++ bin_lines (S i) sum h'
  end.
Definition hist_text (h : list N) : list N :=
  let sum := fold_right N.add 0%N h in
  if (0 <? sum)%N then u "[histogram]" ++ [10%N] ++ bin_lines 0 sum h else [].
End Qbuf.
