(** Logging: berts/models/log.cpp, berts/models/log.hpp, berts/berts.h:52-60,
    berts/berts.cpp:38-52. *)
From Verif Require Import Base.

(** berts.h:52-60; the severities with which the library writes *)
Inductive severity := Debug | Info | Warn | Error.
Definition rank (s : severity) : Z :=
  match s with Debug => 0 | Info => 1 | Warn => 2 | Error => 3 end.
Definition LOG_ALL : Z := 0.
Definition LOG_DEFAULT : Z := 2.
Definition LOG_QUIET : Z := 10.

(** log.cpp:5-7: the level (any value can be set) and whether there is a file *)
Record log_state := mkls { lvl : Z; has_file : bool }.
Definition log_start : log_state := mkls LOG_DEFAULT true.

(** log.cpp:17-19 *)
Definition is_logging (st : log_state) (level : Z) : bool := (lvl st <=? level)%Z.

(** A C string ends at the first NUL. *)
Fixpoint c_str (m : list N) : list N :=
  match m with
  | [] => []
  | b :: m' => if (b =? 0)%N then [] else b :: c_str m'
  end.

(** fprintf(file, format) without further arguments (C17 7.21.6.1): "%%" prints '%',
    any other use of '%' takes an argument that is not there or is no conversion
    specification: undefined. *)
Fixpoint fprintf (f : list N) : outcome (list N) :=
  match f with
  | [] => Ok []
  | b :: f' =>
      if (b =? 37)%N then
        match f' with
        | c :: f'' => if (c =? 37)%N then obind (fprintf f'') (fun o => Ok (37%N :: o)) else UB
        | [] => UB
        end
      else obind (fprintf f') (fun o => Ok (b :: o))
  end.

(** log.cpp:29-35  write: what is appended to the log file *)
Definition write (st : log_state) (msg : list N) : outcome (list N) :=
  if has_file st then obind (fprintf (c_str msg)) (fun o => Ok (o ++ [10%N])) else Ok [].

(** log.cpp:37-58  debug, info, warn, error (one argument) *)
Definition plain (st : log_state) (s : severity) (msg : list N) : outcome (list N) :=
  if (lvl st <=? rank s)%Z then write st msg else Ok [].

(** log.hpp:39-65  the templates with arguments; [msg] is the formatted text (formatting
    only happens when the guard holds).  The guard of error tests the INFO level. *)
Definition guard (s : severity) : Z :=
  match s with Debug => 0 | Info => 1 | Warn => 2 | Error => 1 end.
Definition formatted (st : log_state) (s : severity) (msg : list N) : outcome (list N) :=
  if is_logging st (guard s) then plain st s msg else Ok [].

(** A program's calls. *)
Inductive log_call :=
| SetLevel (l : Z)
| SetFile (present : bool)
| Plain (s : severity) (msg : list N)
| Formatted (s : severity) (msg : list N).

Definition call (st : log_state) (c : log_call) : outcome (log_state * list N) :=
  match c with
  | SetLevel l => Ok (mkls l (has_file st), [])
  | SetFile f => Ok (mkls (lvl st) f, [])
  | Plain s m => obind (plain st s m) (fun o => Ok (st, o))
  | Formatted s m => obind (formatted st s m) (fun o => Ok (st, o))
  end.

Fixpoint calls (st : log_state) (cs : list log_call) : outcome (log_state * list N) :=
  match cs with
  | [] => Ok (st, [])
  | c :: cs' =>
      obind (call st c) (fun r => obind (calls (fst r) cs') (fun r' => Ok (fst r', snd r ++ snd r')))
  end.
