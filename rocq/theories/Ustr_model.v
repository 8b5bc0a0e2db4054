(** Model of the string class berts::unicode::ustr (berts/models/unicode.cpp)
    at the level of its buffer: pointer, size field (possibly never written). *)
From Verif Require Import Base Utf_model.
Open Scope N_scope.

(** unicode.cpp:33-39  struct ustr_impl { UChar *str; int32_t size; UErrorCode e; }.
    [str = None] is the null pointer; [size = None] is an indeterminate value
    (the default constructor, lines 41-43, does not initialise it).  The error
    field does not influence the operations modelled here. *)
Record impl := mkimpl { str : option (list N); size : option N }.

(** unicode.cpp:41-43 *)
Definition impl_default : impl := mkimpl None None.

(** unicode.cpp:104-110  free(): null pointer, size 0 *)
Definition impl_free (a : impl) : impl := mkimpl None (Some 0).

(** unicode.cpp:96-102  alloc(n) followed by filling the buffer with [l], |l| = n *)
Definition impl_alloc_fill (l : list N) : impl :=
  match l with
  | [] => mkimpl None (Some 0)
  | _ => mkimpl (Some l) (Some (N.of_nat (length l)))
  end.

(** unicode.cpp:67-77  copy assignment (different objects) *)
Definition impl_copy (a other : impl) : outcome impl :=
  match str other with
  | None => Ok (impl_free a)
  | Some buf =>
      match size other with
      | None => UB
      | Some n => if n <=? N.of_nat (length buf) then Ok (impl_alloc_fill (firstn (N.to_nat n) buf)) else UB
      end
  end.

(** unicode.cpp:79-90  move assignment (different objects): (this, other) *)
Definition impl_move (a other : impl) : impl * impl :=
  (mkimpl (str other) (size other), mkimpl None (Some 0)).

(** Reading [n] units from a buffer pointer. *)
Definition read_units (p : option (list N)) (n : N) : outcome (list N) :=
  if n =? 0 then Ok []
  else match p with
       | None => UB
       | Some buf => if n <=? N.of_nat (length buf) then Ok (firstn (N.to_nat n) buf) else UB
       end.

(** The units [0..size) of an object; an indeterminate size is UB. *)
Definition contents (a : impl) : outcome (list N) :=
  match size a with None => UB | Some n => read_units (str a) n end.

(** unicode.cpp:313-331  operator+ *)
Definition impl_plus (a b : impl) : outcome impl :=
  obind (contents a) (fun l => obind (contents b) (fun r => Ok (impl_alloc_fill (l ++ r)))).

(** unicode.cpp:333-350  operator+=.  [a] and [b] may be the same object: both
    are read before [a] is overwritten. *)
Definition impl_plus_assign (a b : impl) : outcome impl :=
  match size b with
  | None => UB
  | Some 0 => Ok a
  | Some _ =>
      match size a with
      | None => UB
      | Some 0 => impl_copy a b
      | Some _ => obind (impl_plus a b) (fun r => impl_copy a r)
      end
  end.

(** unicode.cpp:352-362  operator== *)
Definition impl_eq (a b : impl) : outcome bool :=
  match size a, size b with
  | Some n, Some m =>
      if n =? m then
        if n =? 0 then Ok true
        else obind (read_units (str a) n) (fun l => obind (read_units (str b) n) (fun r =>
             Ok (list_N_eqb l r)))
      else Ok false
  | _, _ => UB
  end.

(** unicode.cpp:388-400  the loop of operator<=> on non-empty strings *)
Fixpoint cmp_units (l r : list N) : comparison :=
  match l, r with
  | [], [] => Eq
  | [], _ :: _ => Lt
  | _ :: _, [] => Gt
  | a :: l', b :: r' => if a =? b then cmp_units l' r' else (a ?= b)
  end.

(** unicode.cpp:364-401  operator<=> *)
Definition impl_cmp (a b : impl) : outcome comparison :=
  match size a, size b with
  | Some n, Some m =>
      if n =? 0 then Ok (if m =? 0 then Eq else Lt)
      else if m =? 0 then Ok Gt
      else obind (read_units (str a) n) (fun l => obind (read_units (str b) m) (fun r =>
           Ok (cmp_units l r)))
  | _, _ => UB
  end.

(** unicode.hpp:205-216  std::hash<ustr>: xor of the hashes of the units; begin()
    and end() are null for a null buffer. *)
Definition impl_hash (h : N -> N) (a : impl) : outcome N :=
  match str a with
  | None => Ok 0
  | Some _ => obind (contents a) (fun l => Ok (fold_left (fun v c => N.lxor v (h c)) l 0))
  end.

(** unicode.cpp:407-409  empty() *)
Definition impl_empty (a : impl) : bool := match str a with None => true | _ => false end.

(** Little-endian bytes of UTF-16 units, as memcmp sees them. *)
Definition unit_bytes (c : N) : list N := [c mod 256; c / 256].
Definition bytes_of (us : list N) : list N := flat_map unit_bytes us.

(** unicode.cpp:459-464  starts_with: memcmp over prefix.size BYTES. *)
Definition starts_with (s p : list N) : bool :=
  if Nat.ltb (length s) (length p) then false
  else list_N_eqb (firstn (length p) (bytes_of s)) (firstn (length p) (bytes_of p)).

(** unicode.cpp:466-472  ends_with *)
Definition ends_with (s p : list N) : bool :=
  if Nat.ltb (length s) (length p) then false
  else list_N_eqb (firstn (length p) (bytes_of (skipn (length s - length p) s)))
                  (firstn (length p) (bytes_of p)).

(** unicode.cpp:474-487  lstrip; [ws] is is_whitespace *)
Fixpoint drop_ws (ws : N -> bool) (cs : list N) : list N :=
  match cs with
  | [] => []
  | c :: cs' => if ws c then drop_ws ws cs' else cs
  end.

Definition lstrip (ws : N -> bool) (s : list N) : option (list N) :=
  from_utf32 (drop_ws ws (codepoints_of false s)).

(** unicode.cpp:489-502  rstrip: walk backwards over trailing whitespace *)
Definition rstrip (ws : N -> bool) (s : list N) : option (list N) :=
  from_utf32 (rev (drop_ws ws (rev (codepoints_of false s)))).

(** unicode.cpp:690-744  regex::split.  The engine's successive matches are the
    list [ms] of (start, end); a failing engine call makes the function return 0
    with the pieces found so far already appended ([None] in the list). *)
Fixpoint split_loop (s : list N) (current : nat) (ms : list (option (nat * nat))) : list (list N) * option nat :=
  match ms with
  | [] =>
      if Nat.ltb current (length s) then ([skipn current s], Some 1%nat) else ([], Some 0%nat)
  | None :: _ => ([], None)
  | Some (st, en) :: ms' =>
      let gap := if Nat.ltb current st then [firstn (st - current) (skipn current s)] else [] in
      let m := firstn (en - st) (skipn st s) in
      let '(ps, n) := split_loop s en ms' in
      (gap ++ m :: ps, option_map (fun k => (length gap + 1 + k)%nat) n)
  end.

(** Result: appended pieces and returned count (0 on error). *)
Definition regex_split (s : list N) (ms : list (option (nat * nat))) : list (list N) * nat :=
  let '(ps, n) := split_loop s 0 ms in (ps, match n with Some k => k | None => 0%nat end).

(** ** Programs over string objects *)

(** Objects are numbered; [None] = not (any longer) constructed. *)
Definition heap := nat -> option impl.
Definition upd {A} (h : nat -> option A) (i : nat) (v : option A) : nat -> option A :=
  fun k => if Nat.eqb k i then v else h k.

Inductive uop :=
| UDefault (i : nat)            (* ustr s{};                     unicode.cpp:251-252 *)
| UUnits (i : nat) (l : list N) (* ustr(const unic_t*, size_t)   unicode.cpp:266-270 *)
| UCopyNew (i j : nat)          (* ustr(const ustr&)             unicode.cpp:284-287 *)
| UMoveNew (i j : nat)          (* ustr(ustr&&)                  unicode.cpp:289-292 *)
| UAssign (i j : nat)           (* operator=(const ustr&)        unicode.cpp:303-306 *)
| UMoveAssign (i j : nat)       (* operator=(ustr&&)             unicode.cpp:308-311 *)
| UPlus (k i j : nat)           (* ustr k = i + j                unicode.cpp:313-331 *)
| UPlusAssign (i j : nat)       (* i += j                        unicode.cpp:333-350 *)
| UDispose (i : nat)            (* i.dispose()                   unicode.cpp:294-297 *)
| UDestroy (i : nat)            (* ~ustr                         unicode.cpp:299-301 *)
| UEq (i j : nat)
| UCmp (i j : nat)
| UEmpty (i : nat)
| USize (i : nat).              (* packsize                      unicode.cpp:428-430 *)

Inductive uout := ONone | OBool (b : bool) | OCmp (c : comparison) | OSize (n : N).

(** Using an object that is not constructed, or constructing over a live one, is
    a misuse of the language and modelled as [Fail] (ill-formed program). *)
Definition get {A} (h : nat -> option A) (i : nat) : outcome A :=
  match h i with Some a => Ok a | None => Fail end.
Definition fresh {A} (h : nat -> option A) (i : nat) : outcome unit :=
  match h i with Some _ => Fail | None => Ok tt end.

Definition ustep (h : heap) (o : uop) : outcome (heap * uout) :=
  match o with
  | UDefault i => obind (fresh h i) (fun _ => Ok (upd h i (Some impl_default), ONone))
  | UUnits i l => obind (fresh h i) (fun _ => Ok (upd h i (Some (impl_alloc_fill l)), ONone))
  | UCopyNew i j =>
      obind (fresh h i) (fun _ => obind (get h j) (fun b =>
      obind (impl_copy impl_default b) (fun a' => Ok (upd h i (Some a'), ONone))))
  | UMoveNew i j =>
      obind (fresh h i) (fun _ => obind (get h j) (fun b =>
      let '(a', b') := impl_move impl_default b in
      Ok (upd (upd h j (Some b')) i (Some a'), ONone)))
  | UAssign i j =>
      obind (get h i) (fun a => obind (get h j) (fun b =>
      if Nat.eqb i j then Ok (h, ONone)
      else obind (impl_copy a b) (fun a' => Ok (upd h i (Some a'), ONone))))
  | UMoveAssign i j =>
      obind (get h i) (fun a => obind (get h j) (fun b =>
      if Nat.eqb i j then Ok (h, ONone)
      else let '(a', b') := impl_move a b in Ok (upd (upd h j (Some b')) i (Some a'), ONone)))
  | UPlus k i j =>
      obind (fresh h k) (fun _ => obind (get h i) (fun a => obind (get h j) (fun b =>
      obind (impl_plus a b) (fun r => Ok (upd h k (Some r), ONone)))))
  | UPlusAssign i j =>
      obind (get h i) (fun a => obind (get h j) (fun b =>
      obind (impl_plus_assign a b) (fun a' => Ok (upd h i (Some a'), ONone))))
  | UDispose i => obind (get h i) (fun a => Ok (upd h i (Some (impl_free a)), ONone))
  | UDestroy i => obind (get h i) (fun _ => Ok (upd h i None, ONone))
  | UEq i j =>
      obind (get h i) (fun a => obind (get h j) (fun b =>
      obind (impl_eq a b) (fun r => Ok (h, OBool r))))
  | UCmp i j =>
      obind (get h i) (fun a => obind (get h j) (fun b =>
      obind (impl_cmp a b) (fun r => Ok (h, OCmp r))))
  | UEmpty i => obind (get h i) (fun a => Ok (h, OBool (impl_empty a)))
  | USize i => obind (get h i) (fun a =>
      match size a with None => UB | Some n => Ok (h, OSize n) end)
  end.

Fixpoint urun (h : heap) (os : list uop) : outcome (heap * list uout) :=
  match os with
  | [] => Ok (h, [])
  | o :: os' => obind (ustep h o) (fun '(h', x) =>
                obind (urun h' os') (fun '(h'', xs) => Ok (h'', x :: xs)))
  end.

(** ** Heap blocks holding the [ustr_impl] structures *)

(** Number of [new ustr_impl] executed by an operation: one per constructor run
    (unicode.cpp:251-252, all others delegate to it), including the local object
    of operator+ which is returned in place, and the local [result] of operator+=
    when neither operand is empty (line 346). *)
Definition impl_news (h : heap) (o : uop) : nat :=
  match o with
  | UDefault _ | UUnits _ _ | UCopyNew _ _ | UMoveNew _ _ | UPlus _ _ _ => 1
  | UPlusAssign i j =>
      match h i, h j with
      | Some a, Some b =>
          match size b, size a with
          | Some 0%N, _ => 0
          | _, Some 0%N => 0
          | _, _ => 1
          end
      | _, _ => 0
      end
  | _ => 0
  end%nat.

(** Number of [delete impl] executed: the destructor calls dispose(), which frees
    the character buffer only (unicode.cpp:294-301); there is no other delete. *)
Definition impl_deletes (h : heap) (o : uop) : nat := 0.

(** Live [ustr_impl] blocks after a run. *)
Fixpoint impl_blocks (h : heap) (os : list uop) (live : nat) : nat :=
  match os with
  | [] => live
  | o :: os' =>
      match ustep h o with
      | Ok (h', _) => impl_blocks h' os' (live + impl_news h o - impl_deletes h o)
      | _ => live
      end
  end.
