(** Vocabulary storage and special ids: berts/models/model_base.hpp, the
    vocab::init functions of bert.cpp / roberta.cpp, and the writer in
    convert_hf_to_gguf.py.

    A byte is a number below 256, a token is its list of bytes.  The tensors are
    those of the gguf file, already read into memory by ggml (not modelled); for a
    one-dimensional I8 tensor ne[0] is the number of elements. *)
From Verif Require Import Base Utf_model Bert_model Assoc.
Local Open Scope N_scope.

(** ggml_tensor: n_dims, type, data; only the distinctions the code makes *)
Inductive ttype := T_I8 | T_I32 | T_other.
Record tensor := mkt { t_dims : N; t_type : ttype; t_data : list N }.

(** model_base.hpp:119-120  id_to_token_, token_to_id_ *)
Record voc := mkvoc { i2t : list (list N); t2i : list (list N * N) }.
Definition voc0 : voc := mkvoc [] [].

(** model_base.hpp:127-133 *)
Definition id_to_token (v : voc) (id : N) : list N :=
  if N.of_nat (length (i2t v)) <=? id then [] else nth (N.to_nat id) (i2t v) [].

(** model_base.hpp:135-142 *)
Definition token_to_id (v : voc) (t : list N) : N :=
  match lookup list_N_eqb t (t2i v) with Some i => i | None => INVALID end.

(** model_base.hpp:157-160 *)
Definition has_token (v : voc) (t : list N) : bool :=
  match lookup list_N_eqb t (t2i v) with Some _ => true | None => false end.

(** model_base.hpp:144-155; the size is cast to 32 bits *)
Definition add_token (v : voc) (t : list N) : option voc :=
  if has_token v t then None
  else Some (mkvoc (i2t v ++ [t])
                   (assign list_N_eqb t (N.of_nat (length (i2t v)) mod 4294967296) (t2i v))).

(** model_base.hpp:233-236  a stored length of 0 stands for 256 *)
Definition tok_len (b : N) : N := if b =? 0 then 256 else b.

(** model_base.hpp:232-245  the loop over the stored lengths.  The string is built
    from [&data[p], token_len] with no check; bytes outside the tensor are UB. *)
Fixpoint read_tokens (lens data : list N) (p : N) (v : voc) : outcome (N * voc) :=
  match lens with
  | [] => Ok (p, v)
  | b :: lens' =>
      let n := tok_len b in
      if N.of_nat (length data) <? p + n then UB
      else
        let t := firstn (N.to_nat n) (skipn (N.to_nat p) data) in
        match add_token v t with
        | None => Fail
        | Some v' => read_tokens lens' data (p + n) v'
        end
  end.

(** model_base.hpp:189-251  init_vocab up to the call of vocab->init.  The clearing
    of the half-built vocabulary is not visible: the context is deleted
    (internal.cpp:32-36). *)
Definition read_vocab (vsize vdata : option tensor) : outcome voc :=
  match vsize, vdata with
  | Some s, Some d =>
      if negb (t_dims s =? 1) || negb (t_dims d =? 1) then Fail
      else
        match t_type s, t_type d with
        | T_I8, T_I8 =>
            match read_tokens (t_data s) (t_data d) 0 voc0 with
            | Ok (p, v) => if p =? N.of_nat (length (t_data d)) then Ok v else Fail
            | Fail => Fail
            | UB => UB
            | Abort => Abort
            end
        | _, _ => Fail
        end
  | _, _ => Fail
  end.

(** gguf key/values.  gguf_get_val_u32 / _bool of ggml stop the process
    (GGML_ASSERT) when the stored type differs. *)
Inductive kvval := KU32 (n : N) | KBool (b : bool) | KOther.

(** keys.h:48-82 *)
Inductive key :=
| K_cls | K_mask | K_pad | K_sep | K_unk | K_bos | K_eos
| K_lower | K_basic | K_cjk | K_accent.

Definition gguf := key -> option kvval.

(** gguf.hpp:73-84  gguf_u32 / gguf_bool with a default *)
Definition gguf_u32 (g : gguf) (k : key) (d : N) : outcome N :=
  match g k with None => Ok d | Some (KU32 n) => Ok n | Some _ => Abort end.
Definition gguf_bool (g : gguf) (k : key) (d : bool) : outcome bool :=
  match g k with None => Ok d | Some (KBool b) => Ok b | Some _ => Abort end.

(** model_base.hpp:64-100  get_token_id; [alts] are alternate1 and, if given,
    alternate2 (the code never passes a null alternate1) *)
Fixpoint try_alternates (find : list N -> N) (alts : list (list N)) : N :=
  match alts with
  | [] => INVALID
  | a :: alts' => let id := find a in
                  if id =? INVALID then try_alternates find alts' else id
  end.

Definition get_token_id (g : gguf) (find : list N -> N) (k : key) (alts : list (list N)) : outcome N :=
  obind (gguf_u32 g k INVALID) (fun id =>
    if id =? INVALID then Ok (try_alternates find alts) else Ok id).

(** The spellings of bert.cpp:115-119 and roberta.cpp:133-139. *)
Definition s_CLS := u "[CLS]".   Definition s_s := u "<s>".
Definition s_MASK := u "[MASK]". Definition s_mask := u "<mask>".
Definition s_PAD := u "[PAD]".   Definition s_pad := u "<pad>".
Definition s_SEP := u "[SEP]".   Definition s_es := u "</s>".
Definition s_UNK := u "[UNK]".   Definition s_unk := u "<unk>".

(** bert.cpp:111-207  vocab::init; bert.cpp:72-75 build_trie succeeds iff the
    vocabulary is not empty, and reads every token as UTF-8 (a token that is not
    UTF-8 is undefined behaviour, see Ustr_model). *)
Definition bert_vocab_init (g : gguf) (v : voc) : outcome bvocab :=
  obind (get_token_id g (token_to_id v) K_cls [s_CLS; s_s]) (fun cls =>
  obind (get_token_id g (token_to_id v) K_mask [s_MASK; s_mask]) (fun mask =>
  obind (get_token_id g (token_to_id v) K_pad [s_PAD; s_pad]) (fun pad =>
  obind (get_token_id g (token_to_id v) K_sep [s_SEP; s_es]) (fun sep =>
  obind (get_token_id g (token_to_id v) K_unk [s_UNK; s_unk]) (fun unk =>
  if (cls =? INVALID) || (mask =? INVALID) || (pad =? INVALID) || (sep =? INVALID) || (unk =? INVALID)
  then Fail
  else
    obind (gguf_bool g K_lower true) (fun lower =>
    obind (gguf_bool g K_basic true) (fun basic =>
    obind (gguf_bool g K_cjk true) (fun cjk =>
    obind (gguf_bool g K_accent lower) (fun accents =>
    match all_some (map from_utf8 (i2t v)) with
    | None => UB
    | Some _ =>
        if (length (i2t v) =? 0)%nat then Fail
        else Ok (mkbv (i2t v) cls mask pad sep unk (make_info lower basic cjk accents))
    end))))))))).

(** model_base.hpp:189-262 for a BERT model *)
Definition bert_init_vocab (g : gguf) (vsize vdata : option tensor) : outcome bvocab :=
  obind (read_vocab vsize vdata) (bert_vocab_init g).

(** roberta.hpp:10-18 special_tokens, roberta.cpp:133-190: the seven special ids.
    [find] is roberta's token_to_id (119-127). *)
Record rspecial := mkrs { r_bos : N; r_eos : N; r_cls : N; r_mask : N; r_pad : N; r_sep : N; r_unk : N }.

Definition roberta_specials (g : gguf) (find : list N -> N) : outcome rspecial :=
  obind (get_token_id g find K_bos [s_s]) (fun bos =>
  obind (get_token_id g find K_eos [s_es]) (fun eos =>
  obind (get_token_id g find K_cls [s_s]) (fun cls =>
  obind (get_token_id g find K_mask [s_mask]) (fun mask =>
  obind (get_token_id g find K_pad [s_pad]) (fun pad =>
  obind (get_token_id g find K_sep [s_es]) (fun sep =>
  obind (get_token_id g find K_unk [s_unk]) (fun unk =>
  let bos := if bos =? INVALID then cls else bos in
  let eos := if eos =? INVALID then sep else eos in
  let cls := if cls =? INVALID then bos else cls in
  let sep := if sep =? INVALID then eos else sep in
  if (bos =? INVALID) || (eos =? INVALID) || (cls =? INVALID) || (mask =? INVALID)
     || (pad =? INVALID) || (sep =? INVALID) || (unk =? INVALID)
  then Fail
  else Ok (mkrs bos eos cls mask pad sep unk)))))))).

(** * The converter *)

(** Decimal digits, as in Python's f-string; the fuel is enough (Vocab_proofs). *)
Fixpoint digits (fuel : nat) (n : N) : list N :=
  match fuel with
  | O => []
  | S f => if n <? 10 then [48 + n] else digits f (n / 10) ++ [48 + n mod 10]
  end.

Definition decimal (n : N) : list N := digits (S (N.to_nat (N.size n))) n.

(** convert_hf_to_gguf.py:292,295  f'[unused{i}]' *)
Definition unused_name (i : N) : list N := u "[unused" ++ decimal i ++ u "]".

(** tokens[i] = t, None when the slot does not exist or is taken
    (convert_hf_to_gguf.py:280-283: assertion or IndexError) *)
Fixpoint put (i : nat) (t : list N) (slots : list (option (list N))) : option (list (option (list N))) :=
  match slots, i with
  | [], _ => None
  | None :: r, O => Some (Some t :: r)
  | Some _ :: _, O => None
  | s :: r, S i' => option_map (cons s) (put i' t r)
  end.

Fixpoint put_all (dict : list (list N * N)) (slots : list (option (list N))) : option (list (option (list N))) :=
  match dict with
  | [] => Some slots
  | (t, i) :: dict' =>
      match put (N.to_nat i) t slots with
      | None => None
      | Some slots' => put_all dict' slots'
      end
  end.

(** token in tokens *)
Definition slot_mem (t : list N) (slots : list (option (list N))) : bool :=
  existsb (fun s => match s with Some t' => list_N_eqb t t' | None => false end) slots.

(** convert_hf_to_gguf.py:292-295  the while loop: first index from [i] on whose
    name is not taken.  Running out of fuel stands for looping for ever. *)
Fixpoint next_unused (fuel : nat) (slots : list (option (list N))) (i : N) : option N :=
  match fuel with
  | O => None
  | S f => if slot_mem (unused_name i) slots then next_unused f slots (i + 1) else Some i
  end.

(** convert_hf_to_gguf.py:289-298  names for the empty slots *)
Fixpoint fill (all slots : list (option (list N))) (i : N) : option (list (list N)) :=
  match slots with
  | [] => Some []
  | Some t :: r => option_map (cons t) (fill all r i)
  | None :: r =>
      match next_unused (S (length all)) all i with
      | None => None
      | Some j => option_map (cons (unused_name j)) (fill all r (j + 1))
      end
  end.

(** convert_hf_to_gguf.py:301-308  one stored length; ValueError over 256 bytes *)
Definition stored_len (t : list N) : option N :=
  let n := N.of_nat (length t) in
  if n =? 256 then Some 0 else if 256 <? n then None else Some n.

(** convert_hf_to_gguf.py:287-315: the two tensors *)
Definition write_tokens (tokens : list (list N)) : option (tensor * tensor) :=
  match all_some (map stored_len tokens) with
  | None => None
  | Some lens => Some (mkt 1 T_I8 lens, mkt 1 T_I8 (concat tokens))
  end.

(** convert_hf_to_gguf.py:275-315  write_vocab.  [dict] is tokenizer.get_vocab()
    (tokens already in UTF-8), [n] the vocab_size of the configuration; None is an
    exception. *)
Definition write_vocab (n : nat) (dict : list (list N * N)) : option (tensor * tensor) :=
  match put_all dict (repeat None n) with
  | None => None
  | Some slots =>
      match fill slots slots 0 with
      | None => None
      | Some tokens => write_tokens tokens
      end
  end.
