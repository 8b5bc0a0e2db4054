(** Quantization: berts/models/quantize.cpp:15-218.

    The parts of ggml used are written out: gguf_init_empty, gguf_set_kv, gguf_add_tensor,
    gguf_set_tensor_type, gguf_set_tensor_data, gguf_get_meta_size, gguf_get_meta_data and
    the sizes returned by ggml_quantize_chunk.  The key/value section of the output is an
    arbitrary list of bytes ([kv]); it is complete before the size of the metadata is asked
    for (quantize.cpp:88-90) and not changed afterwards.  The numbers produced by
    ggml_quantize_chunk and ggml_fp16_to_fp32 are parameters.  The log is in
    Says_quantize_model, the histogram is not modelled. *)
From Verif Require Import Base Bert_model Vocab_model Bpe_model Roberta_model Loader_model.
From Verif Require Ggml_model.

(** ** The output stream *)

(** out.write / out.put of some bytes; out.seekp(0) *)
Inductive sop := Write (bs : list N) | Rewind.

(** A file being written: its bytes, the position, and the state of the stream *)
Record stream := mkstr { s_bytes : list N; s_pos : nat; s_bad : bool }.
Definition stream0 : stream := mkstr [] 0 false.

Definition overwrite (old : list N) (pos : nat) (bs : list N) : list N :=
  firstn pos old ++ bs ++ skipn (pos + length bs) old.

(** [ok]: how many of the bytes the device takes; taking fewer puts the stream into a
    failed state, in which nothing more is written and seekp does nothing. *)
Definition do_op (s : stream) (o : sop) (ok : nat) : stream :=
  if s_bad s then s
  else match o with
       | Rewind => mkstr (s_bytes s) 0 false
       | Write bs =>
           let taken := firstn ok bs in
           mkstr (overwrite (s_bytes s) (s_pos s) taken) (s_pos s + length taken) (length taken <? length bs)%nat
       end.

(** [dev i]: what the device takes of operation [i] *)
Fixpoint do_ops (s : stream) (i : nat) (dev : nat -> nat) (os : list sop) : stream :=
  match os with
  | [] => s
  | o :: os' => do_ops (do_op s o (dev i)) (S i) dev os'
  end.

(** quantize.cpp:35-39  write_zeros *)
Definition zeros (n : N) : list sop := repeat (Write [0%N]) (N.to_nat n).

(** ** The description written *)

Record winfo := mkwi {
  w_name : list N; w_type : gty; w_dims : N;
  w_ne0 : nat; w_ne1 : nat; w_ne2 : nat; w_ne3 : nat;
  w_offset : N; w_size : N
}.

(** GGUF_DEFAULT_ALIGNMENT: gguf_set_kv does not change the alignment of the new file *)
Definition ALIGN : N := 32.
Definition pad32 (n : N) : N := Ggml_model.pad_to ALIGN n.

(** gguf_add_tensor: extents beyond n_dims become 1 *)
Definition add_tensor (ws : list winfo) (s : stored) : list winfo :=
  let t := st_info s in
  let ne k e := if (ti_dims t <=? k)%N then 1%nat else e in
  let off := match rev ws with [] => 0%N | w :: _ => (w_offset w + pad32 (w_size w))%N end in
  ws ++ [mkwi (st_name s) (ti_type t) (ti_dims t) (ne 0%N (ti_ne0 t)) (ne 1%N (ti_ne1 t)) (ne 2%N (ti_ne2 t)) (ne 3%N (ti_ne3 t))
           off (nbytes t)].

(** gguf_find_tensor *)
Fixpoint find_index (n : list N) (ws : list winfo) : option nat :=
  match ws with
  | [] => None
  | w :: ws' => if list_N_eqb (w_name w) n then Some 0%nat else option_map S (find_index n ws')
  end.

Fixpoint update {A} (i : nat) (g : A -> A) (l : list A) : list A :=
  match l, i with
  | [], _ => []
  | x :: l', O => g x :: l'
  | x :: l', S i' => x :: update i' g l'
  end.

Definition set_type (t : gty) (w : winfo) : winfo :=
  mkwi (w_name w) t (w_dims w) (w_ne0 w) (w_ne1 w) (w_ne2 w) (w_ne3 w) (w_offset w) (w_size w).
Definition set_size (n : N) (w : winfo) : winfo :=
  mkwi (w_name w) (w_type w) (w_dims w) (w_ne0 w) (w_ne1 w) (w_ne2 w) (w_ne3 w) (w_offset w) n.
Definition set_offset (n : N) (w : winfo) : winfo :=
  mkwi (w_name w) (w_type w) (w_dims w) (w_ne0 w) (w_ne1 w) (w_ne2 w) (w_ne3 w) n (w_size w).

(** gguf_set_tensor_data: the offsets after tensor [i] are computed anew *)
Fixpoint relay (prev : winfo) (ws : list winfo) : list winfo :=
  match ws with
  | [] => []
  | w :: ws' => let w' := set_offset (w_offset prev + pad32 (w_size prev))%N w in w' :: relay w' ws'
  end.
Fixpoint relay_from (i : nat) (ws : list winfo) : list winfo :=
  match ws, i with
  | [], _ => []
  | w :: ws', O => w :: relay w ws'
  | w :: ws', S i' => w :: relay_from i' ws'
  end.

(** gguf_set_tensor_type; an unknown name stops the process (GGML_ASSERT) *)
Definition set_tensor_type (n : list N) (t : gty) (ws : list winfo) : outcome (list winfo) :=
  match find_index n ws with None => Abort | Some i => Ok (update i (set_type t) ws) end.
Definition set_tensor_data (n : list N) (size : N) (ws : list winfo) : outcome (list winfo) :=
  match find_index n ws with None => Abort | Some i => Ok (relay_from i (update i (set_size size) ws)) end.

(** gguf_write_to_buf with only_meta *)
Fixpoint le (k : nat) (n : N) : list N :=
  match k with O => [] | S k' => (n mod 256)%N :: le k' (n / 256)%N end.
Definition write_info (w : winfo) : list N :=
  le 8 (N.of_nat (length (w_name w))) ++ w_name w ++ le 4 (w_dims w) ++
  concat (map (fun n => le 8 (N.of_nat n)) (firstn (N.to_nat (w_dims w)) [w_ne0 w; w_ne1 w; w_ne2 w; w_ne3 w])) ++
  le 4 (code (w_type w)) ++ le 8 (w_offset w).
Definition GGUF : list N := u "GGUF".
Definition raw_meta (n_kv : N) (kv : list N) (ws : list winfo) : list N :=
  GGUF ++ le 4 3 ++ le 8 (N.of_nat (length ws)) ++ le 8 n_kv ++ kv ++ concat (map write_info ws).
Definition meta (n_kv : N) (kv : list N) (ws : list winfo) : list N :=
  let raw := raw_meta n_kv kv ws in
  raw ++ repeat 0%N (N.to_nat (pad32 (N.of_nat (length raw))) - length raw).
Definition meta_size (n_kv : N) (kv : list N) (ws : list winfo) : N := N.of_nat (length (meta n_kv kv ws)).

(** ** Conversion *)

Section Quantize.
(** [chunk t data n]: the bytes ggml_quantize_chunk makes of [n] floats; [widen]: F16 to F32 *)
Context (chunk : gty -> list N -> nat -> list N) (widen : list N -> list N).

(** The types of ggml_quantize_chunk; for others it only has assert(false), which NDEBUG
    removes, and returns 0. *)
Definition convertible (t : gty) : bool :=
  match t with
  | TF32 | TF16 | TQ4_0 | TQ4_1 | TQ5_0 | TQ5_1 | TQ8_0 | TQ2_K | TQ3_K | TQ4_K | TQ5_K | TQ6_K => true
  | _ => false
  end.

Definition elements (t : tinfo) : nat := (ti_ne0 t * ti_ne1 t * ti_ne2 t * ti_ne3 t)%nat.

(** quantize.cpp:41-68 *)
Definition quantize (s : stored) (qt : gty) : option (list N) :=
  let t := st_info s in
  let to_type data := if convertible qt then chunk qt data (elements t) else [] in
  match ti_type t with
  | TF32 => Some (to_type (st_bytes s))
  | TF16 => Some (to_type (widen (st_bytes s)))
  | _ => None
  end.

(** quantize.cpp:110-112,126-137: regex_match with ".*weight"; the dot does not match line
    terminators *)
Definition line_end (c : N) : bool := (c =? 10)%N || (c =? 13)%N.
Definition is_weight (n : list N) : bool :=
  let k := (length n - 6)%nat in
  (6 <=? length n)%nat && list_N_eqb (skipn k n) (u "weight") && forallb (fun c => negb (line_end c)) (firstn k n).

(** quantize.cpp:122-176, one tensor: operations and the new description; None: return false *)
Definition convert_one (ts : list stored) (qt : gty) (n : list N) (ws : list winfo) : outcome (option (list sop * list winfo)) :=
  match get_tensor st_name ts n with
  | None => UB
  | Some s =>
      let t := st_info s in
      let q := is_weight n && (ti_dims t =? 2)%N in
      let data := if q then quantize s qt else Some (st_bytes s) in
      match data with
      | None => Ok None
      | Some bs =>
          let size := N.of_nat (length bs) in
          obind (set_tensor_type n (if q then qt else ti_type t) ws) (fun ws =>
          obind (set_tensor_data n size ws) (fun ws =>
          Ok (Some (Write bs :: zeros (pad32 size - size), ws))))
      end
  end.

(** The loop: operations done, and the final description unless it returned false *)
Fixpoint convert (ts : list stored) (qt : gty) (names : list (list N)) (ws : list winfo) : outcome (list sop * option (list winfo)) :=
  match names with
  | [] => Ok ([], Some ws)
  | n :: rest =>
      obind (convert_one ts qt n ws) (fun r =>
      match r with
      | None => Ok ([], None)
      | Some (os, ws') => obind (convert ts qt rest ws') (fun r => Ok (os ++ fst r, snd r))
      end)
  end.

(** quantize.cpp:100-105.  A tensor not found is a null pointer given to gguf_add_tensor. *)
Fixpoint add_all (ts : list stored) (names : list (list N)) (ws : list winfo) : outcome (list winfo) :=
  match names with
  | [] => Ok ws
  | n :: rest =>
      match get_tensor st_name ts n with
      | None => UB
      | Some s => add_all ts rest (add_tensor ws s)
      end
  end.

(** quantize.cpp:94-188: everything done to the stream, and whether the end was reached *)
Definition program (n_kv : N) (kv : list N) (ts : list stored) (names : list (list N)) (qt : gty) : outcome (list sop * bool) :=
  obind (add_all ts names []) (fun ws =>
  let size := meta_size n_kv kv ws in
  obind (convert ts qt names ws) (fun r =>
  match snd r with
  | None => Ok (zeros size ++ fst r, false)
  | Some ws' => Ok (zeros size ++ fst r ++ [Rewind; Write (meta n_kv kv ws')], true)
  end)).

(** quantize.cpp:90-218.  [opens]: the output can be opened.  The result and the file
    ([None]: not touched).  The state of the stream is not tested. *)
Definition quantize_to (ts : list stored) (names : list (list N)) (opens : bool)
    (n_kv : N) (kv : list N) (dev : nat -> nat) (qt : gty) : outcome (bool * option (list N)) :=
  if negb opens then Ok (false, None)
  else obind (program n_kv kv ts names qt) (fun r =>
       Ok (snd r, Some (s_bytes (do_ops stream0 0 dev (fst r))))).

(** quantize.cpp:70-218.  The tensors of the loaded model are those the loader has read
    (gguf.cpp:192-212); the names are those of the file (quantize.cpp:100-102). *)
Context (L : Ggml_model.lib) (junk : nat -> N) {V : Type} (value : gty -> list N -> nat -> V).
Context (order : list (ustring * N) -> list (ustring * N)).
Definition berts_model_quantize (input : option file) (reopen opens : bool)
    (n_kv : N) (kv : list N) (dev : nat -> nat) (qt : gty) : outcome (bool * option (list N)) :=
  obind (type_to_str qt) (fun _ =>
  obind (load_from_file L junk value order input reopen) (fun r =>
  match r, input with
  | Loaded _, Some f =>
      obind (ctx_size L (f_tensors f) (f_tensors f)) (fun size =>
      obind (read_tensors L junk f size 0 false (f_tensors f)) (fun ts =>
      quantize_to ts (map ti_name (f_tensors f)) opens n_kv kv dev qt))
  | _, _ => Ok (false, None)
  end)).
End Quantize.
