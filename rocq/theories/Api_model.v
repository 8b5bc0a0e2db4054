(** The tokenizer part of the C API: berts/berts.cpp:65-197.

    Memory handed in by the caller is explicit: a pointer is [None] (null) or
    [Some cells], the cells being the whole object behind it; writing past its end
    is undefined behaviour.  A C string is the list of its bytes before the
    terminating zero.  The model behind the context is a record of what the
    virtual functions of internal::model return; ids pushed to a vector by a failing
    tokenize are not visible and not represented. *)
From Verif Require Import Base.
Local Open Scope N_scope.

Record api_model := mkam {
  m_cls : N; m_mask : N; m_pad : N; m_sep : N; m_unk : N; m_bos : N; m_eos : N;
  m_id_to_token : N -> outcome (list N);
  m_token_to_id : list N -> outcome N;
  m_count : N;
  m_tokenize : list N -> outcome (list N)
}.

(** A context pointer: null, a context without model (internal.cpp:96), or with. *)
Inductive context := NullCtx | NoModel | Loaded (m : api_model).

(** berts.cpp:76-90  check_model and BERTS_CHECK_MODEL_OR *)
Definition with_model {A} (c : context) (default : A) (f : api_model -> A) : A :=
  match c with Loaded m => f m | _ => default end.

(** berts.cpp:92-125 *)
Definition berts_cls_id (c : context) : N := with_model c INVALID m_cls.
Definition berts_mask_id (c : context) : N := with_model c INVALID m_mask.
Definition berts_pad_id (c : context) : N := with_model c INVALID m_pad.
Definition berts_sep_id (c : context) : N := with_model c INVALID m_sep.
Definition berts_unk_id (c : context) : N := with_model c INVALID m_unk.
Definition berts_bos_id (c : context) : N := with_model c INVALID m_bos.
Definition berts_eos_id (c : context) : N := with_model c INVALID m_eos.

(** std::copy of the first [n] elements of [src] to the object [dst] *)
Definition copy_out (src : list N) (n : nat) (dst : list N) : outcome (list N) :=
  if (length dst <? n)%nat then UB else Ok (firstn n src ++ skipn n dst).

(** What a call leaves behind: result, buffer, length cell. *)
Record returned := mkret { r_ok : bool; r_out : option (list N); r_len : option N }.

(** The block shared by berts.cpp:132-137 and 178-183: store the full size, copy
    what fits *)
Definition deliver (ok : bool) (src : list N) (out : option (list N)) (len : option N) : outcome returned :=
  match len with
  | None => Ok (mkret ok out None)
  | Some cap =>
      let size := N.of_nat (length src) in
      let n := N.to_nat (N.min cap size) in
      match out with
      | None => Ok (mkret ok None (Some size))
      | Some cells => obind (copy_out src n cells) (fun cells' => Ok (mkret ok (Some cells') (Some size)))
      end
  end.

(** berts.cpp:127-139 *)
Definition berts_id_to_token (c : context) (id : N) (out : option (list N)) (len : option N) : outcome returned :=
  with_model c (Ok (mkret false out len)) (fun m =>
    obind (m_id_to_token m id) (fun token =>
      deliver (negb (length token =? 0)%nat) token out len)).

(** berts.cpp:141-144: the default is [false], converted to the id 0.  A null
    token with a model constructs a std::string from null: UB. *)
Definition berts_token_to_id (c : context) (token : option (list N)) : outcome N :=
  with_model c (Ok 0) (fun m =>
    match token with None => UB | Some t => m_token_to_id m t end).

(** berts.cpp:146-149 *)
Definition berts_vocab_size (c : context) : N := with_model c 0 m_count.

(** berts.cpp:151-197.  strlen of a null text is undefined.  The warning about
    max_tokens (187-194) only logs. *)
Definition berts_tokenize (c : context) (text : option (list N)) (out : option (list N)) (len : option N) : outcome returned :=
  let failed := Ok (mkret false out len) in
  with_model c failed (fun m =>
    if m_cls m =? INVALID then failed
    else if m_sep m =? INVALID then failed
    else
      match text with
      | None => UB
      | Some t =>
          match m_tokenize m t with
          | Ok ids => deliver true ([m_cls m] ++ ids ++ [m_sep m]) out len
          | Fail => failed
          | UB => UB
          | Abort => Abort
          end
      end).
