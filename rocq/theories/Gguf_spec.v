(** The file format, described from the outside. *)
From Verif Require Import Base Bert_model Vocab_model Bpe_model Roberta_model Loader_model Loader_spec Quantize_model
  Quantize_spec Gguf_model.
From Verif Require Ggml_model.

(** Every element is a byte. *)
Definition byte_string (bs : list N) : Prop := Forall (fun b => (b < 256)%N) bs.

(** Fits a 64-bit count. *)
Definition fits64 (n : N) : Prop := (n < 18446744073709551616)%N.
Definition short (s : list N) : Prop := fits64 (N.of_nat (length s)).

(** The types of fixed size: u8 i8 u16 i16 u32 i32 f32 bool u64 i64 f64. *)
Definition fixed_types : list (N * N) :=
  [(0, 1); (1, 1); (2, 2); (3, 2); (4, 4); (5, 4); (6, 4); (7, 1); (10, 8); (11, 8); (12, 8)]%N.

(** A value the format can hold. *)
Definition wf_val (v : kval) : Prop :=
  match v with
  | VScalar t bs => In (t, N.of_nat (length bs)) fixed_types
  | VStr s => short s
  | VArr t n bs => fits64 n /\ exists k, In (t, k) fixed_types /\ N.of_nat (length bs) = (n * k)%N
  | VStrs l => fits64 (N.of_nat (length l)) /\ Forall short l
  end.
Definition wf_kv (x : kv) : Prop := short (k_key x) /\ ~ In 0%N (k_key x) /\ wf_val (k_val x).

(** A description the format can hold. *)
Record wf_info (w : winfo) : Prop := {
  wi_name : short (w_name w);
  wi_zero : ~ In 0%N (w_name w);
  wi_trimmed : trimmed (seen w);
  wi_ne0 : fits64 (N.of_nat (w_ne0 w)); wi_ne1 : fits64 (N.of_nat (w_ne1 w));
  wi_ne2 : fits64 (N.of_nat (w_ne2 w)); wi_ne3 : fits64 (N.of_nat (w_ne3 w));
  wi_offset : fits64 (w_offset w);
  wi_blocks : (N.of_nat (w_ne0 w * w_ne1 w * w_ne2 w * w_ne3 w) mod blck_size (w_type w) = 0)%N
}.

(** [v] is the value of the first pair of key [k]. *)
Definition first_pair (kvs : list kv) (k : list N) (v : kval) : Prop :=
  exists a x b, kvs = a ++ x :: b /\ k_key x = k /\ k_val x = v /\ ~ In k (map k_key a).
Definition no_pair (kvs : list kv) (k : list N) : Prop := ~ In k (map k_key kvs).

(** What looking up [k] should give, with a conversion [g] of values. *)
Definition looks_up {A} (g : kval -> A) (kvs : list kv) (k : list N) (r : option A) : Prop :=
  (exists v, first_pair kvs k v /\ r = Some (g v)) \/ (no_pair kvs k /\ r = None).

(** The alignment in force. *)
Definition aligned_to (kvs : list kv) (a : N) : Prop :=
  (no_pair kvs (u "general.alignment") /\ a = 32%N) \/
  (exists bs, first_pair kvs (u "general.alignment") (VScalar 4 bs) /\ bs = le 4 a /\ (0 < a < 4294967296)%N).

(** The meaning of a value: a number, a truth value, or only its type. *)
Inductive setting_of : kval -> sval -> Prop :=
| set_u32 n : (n < 4294967296)%N -> setting_of (VScalar 4 (le 4 n)) (SU32 n)
| set_f64 n : (n < 18446744073709551616)%N -> setting_of (VScalar 12 (le 8 n)) (SF64 n)
| set_str s : setting_of (VStr s) SStr.
Inductive tok_of : kval -> kvval -> Prop :=
| tok_u32 n : (n < 4294967296)%N -> tok_of (VScalar 4 (le 4 n)) (KU32 n)
| tok_false : tok_of (VScalar 7 [0%N]) (KBool false)
| tok_true : tok_of (VScalar 7 [1%N]) (KBool true).

(** ** Copying settings *)

(** What is left of a text after its first zero byte is lost. *)
Definition cut_at_zero (s s' : list N) : Prop :=
  ~ In 0%N s' /\ (s = s' \/ exists r, s = s' ++ 0%N :: r).

Definition touched : list (list N) := [u "general.quantization_version"; u "general.file_type"].

(** Keys are different. *)
Definition distinct_keys (kvs : list kv) : Prop := NoDup (map (fun x => cstr (k_key x)) kvs).
Definition known_types (kvs : list kv) : Prop := Forall (fun x => known (k_val x) = true) kvs.

(** The value of the first and of the last pair of a key, up to the first zero byte of the
    keys. *)
Definition first_of (kvs : list kv) (k : list N) (v : kval) : Prop :=
  exists a x b, kvs = a ++ x :: b /\ cut_at_zero (k_key x) k /\ k_val x = v /\ forall y, In y a -> ~ cut_at_zero (k_key y) k.
Definition last_of (kvs : list kv) (k : list N) (v : kval) : Prop :=
  exists a x b, kvs = a ++ x :: b /\ cut_at_zero (k_key x) k /\ k_val x = v /\ forall y, In y b -> ~ cut_at_zero (k_key y) k.
(** Keys may be repeated, if the first and the last value are the same. *)
Definition agreeing (kvs : list kv) : Prop := forall k v w, first_of kvs k v -> last_of kvs k w -> v = w.
(** A value and its copy. *)
Definition value_kept (v w : kval) : Prop :=
  match v, w with
  | VStr s, VStr s' => cut_at_zero s s'
  | VStrs l, VStrs l' => Forall2 cut_at_zero l l'
  | v, v' => v = v'
  end.

(** A pair and its copy. *)
Definition pair_kept (x y : kv) : Prop :=
  cut_at_zero (k_key x) (k_key y) /\
  match k_val x, k_val y with
  | VStr s, VStr s' => cut_at_zero s s'
  | VStrs l, VStrs l' => Forall2 cut_at_zero l l'
  | v, v' => v = v'
  end.
