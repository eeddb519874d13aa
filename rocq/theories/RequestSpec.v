(** * Specification of what a request for another include changes *)
From Verif Require Import Base AnnotModel CollectModel GraphModel EmitModel ModuleModel ToolModel ToolSpec.

(** The pragma is added to those of the header, after the pragmas [ps] and before [qs]. *)
Definition requesting (j : job) (ps : list pragma) (p : pragma) (qs : list pragma) : job :=
  mkJob (j_main j) (j_errors j) (ps ++ p :: qs) (j_unit j) (j_facts j) (j_found j) (j_implicit j) (j_iteration j).

(** The include directive follows [before], which consists of whole lines. *)
Definition included (before after h : str) (c : contents) : contents :=
  match c with
  | New text items => if str_eqb text (before ++ after) then New (before ++ ($"#include " ++ h ++ [ascii_of_N 10]) ++ after) items else c
  | Old bytes => Old bytes
  end.
