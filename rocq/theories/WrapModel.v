(** * Model of the Python entry point (python/genpybind/__init__.py) *)
From Coq Require Import ZArith.
From Verif Require Import Base.

(** How a process ended, waitpid(2). *)
Inductive ending := NotStarted | Exited (code : N) | Killed (signal : N).

(** subprocess.call: negative if killed by a signal, exception if not started. *)
Definition subprocess_call (run : str -> list str -> ending) (path : str) (args : list str) : option Z :=
  match run path args with NotStarted => None | Exited c => Some (Z.of_N c) | Killed s => Some (- Z.of_N s)%Z end.

(** Exit status after sys.exit with an integer: its lowest eight bits.  After an
    exception that is not handled it is 1. *)
Definition exit_status_of (r : option Z) : N := match r with Some z => Z.to_N (z mod 256) | None => 1%N end.

(** __init__.py L10-12 [tool]; [parent]: directory of the package, [argv]: sys.argv. *)
Definition entry_point (run : str -> list str -> ending) (parent : str) (argv : list str) : N :=
  exit_status_of (subprocess_call run (parent ++ $"/bin/genpybind-tool") (tl argv)).
