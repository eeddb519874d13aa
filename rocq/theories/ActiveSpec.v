(** * Specification of macros given on the command line *)
From Verif Require Import Base.

(** How clang reads its options up to the separator: each of them is followed by
    [arity] values. *)
Inductive reading (arity : str -> nat) : list str -> list (str * list str) -> Prop :=
| reading_end : reading arity [] []
| reading_separator l : reading arity ($"--" :: l) []
| reading_option a vs l os : a <> $"--" -> length vs = arity a -> reading arity l os -> reading arity (a :: vs ++ l) ((a, vs) :: os)
| reading_missing a vs : a <> $"--" -> length vs < arity a -> reading arity (a :: vs) [(a, vs)].

(** The option concerns the macro: -Dname, -Dname=text, -D name, ...; -Uname, -U name. *)
Definition given_as (flag name : str) (o : str * list str) : Prop :=
  exists m, (o = (flag ++ m, []) \/ o = (flag, [m])) /\ (m = name \/ exists text, m = name ++ $"=" ++ text).
Definition defines_macro (name : str) (o : str * list str) : Prop := given_as ($"-D") name o.
Definition undefines_macro (name : str) (o : str * list str) : Prop := given_as ($"-U") name o.

(** The last one of them counts. *)
Definition macro_defined (name : str) (os : list (str * list str)) : Prop :=
  exists before o after, os = before ++ o :: after /\ defines_macro name o /\ Forall (fun p => ~ undefines_macro name p) after.

(** As far as the options added by the program are concerned. *)
Definition arity_of_clang (arity : str -> nat) : Prop := (forall a, arity a <= 1) /\ arity ($"-Wno-everything") = 0 /\ arity ($"-D__GENPYBIND__") = 0.
