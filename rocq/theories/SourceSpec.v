(** * Specification of annotations in source files *)
From Verif Require Import Base ParserModel ParserSpec MacroModel MacroSpec.

(** The macro with the given text in parentheses. *)
Definition macro (src : str) : str := $"GENPYBIND(" ++ src ++ $")".

(** The text between the parentheses consists of the given annotations, with any
    white space and comments, and does not refer to other macros. *)
Definition annotates (defs : macros) (src : str) (l : list annotation) : Prop :=
  exists ts, written ts src /\ g_annotations ts l /\ forall n, In (SIdent n) ts -> no_macro defs n.
