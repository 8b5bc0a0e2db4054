(** Scoped handles: berts/models/utils.hpp:15-91 (context_disposer, unique_ctx), and the
    pair gg_ctx (utils.hpp:161-185).

    A program is a sequence of operations on handle variables, numbered in order of
    construction.  Resources are numbered in order of creation.  A free of a freed resource
    and a use of a freed resource are undefined.  Operations on variables that do not exist
    (the language has no way to write them) do nothing. *)
From Verif Require Import Base.

(** A variable: out of scope, or holding a pointer (None is null). *)
Inductive cell := Gone | Live (p : option nat).

Record world := mkw {
  cells : list cell;
  next : nat;              (* resources created so far: 0 .. next - 1 *)
  freed : list nat;
  released : list nat;     (* given to the caller by release() *)
  lost : list nat          (* overwritten through ptr() *)
}.
Definition world0 : world := mkw [] 0 [] [] [].

Definition get (w : world) (h : nat) : cell := nth h (cells w) Gone.

Fixpoint put (cs : list cell) (h : nat) (c : cell) : list cell :=
  match cs, h with
  | [], _ => []
  | _ :: cs', O => c :: cs'
  | x :: cs', S h' => x :: put cs' h' c
  end.
Definition set (w : world) (h : nat) (c : cell) : world :=
  mkw (put (cells w) h c) (next w) (freed w) (released w) (lost w).

Definition mem (r : nat) (l : list nat) : bool := existsb (Nat.eqb r) l.

(** utils.hpp:20-24: the library's free function *)
Definition free_res (w : world) (r : nat) : outcome world :=
  if mem r (freed w) then UB else Ok (mkw (cells w) (next w) (r :: freed w) (released w) (lost w)).

Inductive op :=
| Construct (ok : bool)       (* from the pointer an external constructor returns *)
| MoveConstruct (h : nat)
| MoveAssign (h src : nat)
| Dispose (h : nat)
| Release (h : nat)
| Fill (h : nat)              (* an external function stores a new resource through ptr() *)
| Use (h : nat)               (* an external function is given the pointer *)
| Destroy (h : nat).

(** utils.hpp:67-73 *)
Definition dispose (w : world) (h : nat) : outcome world :=
  match get w h with
  | Live (Some r) => obind (free_res w r) (fun w' => Ok (set w' h (Live None)))
  | _ => Ok w
  end.

Definition step (w : world) (o : op) : outcome world :=
  match o with
  | Construct ok => (* utils.hpp:38-43 *)
      Ok (if ok then mkw (cells w ++ [Live (Some (next w))]) (S (next w)) (freed w) (released w) (lost w)
          else mkw (cells w ++ [Live None]) (next w) (freed w) (released w) (lost w))
  | MoveConstruct h => (* utils.hpp:47-50 *)
      match get w h with
      | Live p => Ok (mkw (put (cells w) h (Live None) ++ [Live p]) (next w) (freed w) (released w) (lost w))
      | Gone => Ok w
      end
  | MoveAssign h src => (* utils.hpp:54-61 *)
      match get w h, get w src with
      | Live _, Live _ =>
          if h =? src then Ok w
          else obind (dispose w h) (fun w' =>
               match get w' src with
               | Live p => Ok (set (set w' h (Live p)) src (Live None))
               | Gone => Ok w'
               end)
      | _, _ => Ok w
      end
  | Dispose h => dispose w h
  | Release h => (* utils.hpp:83-87 *)
      match get w h with
      | Live (Some r) =>
          Ok (set (mkw (cells w) (next w) (freed w) (r :: released w) (lost w)) h (Live None))
      | _ => Ok w
      end
  | Fill h => (* utils.hpp:79 and gg_ctx, utils.hpp:166-169 *)
      match get w h with
      | Live p =>
          Ok (set (mkw (cells w) (S (next w)) (freed w) (released w)
                       (match p with Some r => r :: lost w | None => lost w end)) h (Live (Some (next w))))
      | Gone => Ok w
      end
  | Use h => (* utils.hpp:75-77 *)
      match get w h with
      | Live (Some r) => if mem r (freed w) then UB else Ok w
      | _ => Ok w
      end
  | Destroy h => (* utils.hpp:63-65 *)
      match get w h with
      | Live _ => obind (dispose w h) (fun w' => Ok (set w' h Gone))
      | Gone => Ok w
      end
  end.

Fixpoint steps (w : world) (os : list op) : outcome world :=
  match os with
  | [] => Ok w
  | o :: os' => obind (step w o) (fun w' => steps w' os')
  end.

(** All variables go out of scope, the youngest first. *)
Definition end_of_scope (w : world) : outcome world :=
  steps w (map Destroy (rev (seq 0 (length (cells w))))).
