(** What the log should contain. *)
From Verif Require Import Base Log_model.

(** Text that fprintf prints as it is. *)
Definition harmless (m : list N) : Prop := ~ In 37%N m /\ ~ In 0%N m.

(** Every '%' is doubled: the texts fprintf accepts, and what it prints. *)
Inductive escaped : list N -> list N -> Prop :=
| esc_nil : escaped [] []
| esc_pair m o : escaped m o -> escaped (37 :: 37 :: m)%N (37%N :: o)
| esc_char b m o : b <> 37%N -> escaped m o -> escaped (b :: m) (b :: o).

(** The level in force after a history: the last one set. *)
Fixpoint level_after (l : Z) (cs : list log_call) : Z :=
  match cs with
  | [] => l
  | SetLevel l' :: cs' => level_after l' cs'
  | _ :: cs' => level_after l cs'
  end.

(** Documented order of the levels: a message of severity s is wanted at level l. *)
Definition wanted (l : Z) (s : severity) : Prop :=
  match s with Debug => l <= 0 | Info => l <= 1 | Warn => l <= 2 | Error => l <= 3 end%Z.
