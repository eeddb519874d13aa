(** * Specification of the independence from the number and order of files *)
From Coq Require Import Sorting.Permutation.
From Verif Require Import Base ParserModel AnnotModel CollectModel GraphModel OrderModel InlineModel EmitModel EmitSpec ModuleModel ModuleSpec ImportSpec ExecSpec.

(** Functions defined. *)
Definition defined_in (files : list (list item)) : list str := flat_map (fun i => match i with IDefine n _ _ => [n] | _ => [] end) (concat files).

(** Result of compiling the files, linking them in any order and importing the
    module; [None]: several functions of the same name or modules, or the import fails. *)
Inductive linked (run : list (list item) -> item -> option (state * pystate)) (files : list (list item)) : option (state * pystate) -> Prop :=
| linked_ok objects m : Permutation files objects -> filter is_module (concat objects) = [m] -> NoDup (defined_in objects) -> linked run files (run objects m)
| linked_modules objects : Permutation files objects -> length (filter is_module (concat objects)) <> 1 -> linked run files None
| linked_twice objects : Permutation files objects -> ~ NoDup (defined_in objects) -> linked run files None.
