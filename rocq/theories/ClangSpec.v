(** * Specification of the search for clang *)
From Verif Require Import Base ParserModel ModuleModel MacroModel CommandSpec.

Section Installation.
Context (program : str -> option str) (real_path : str -> option str) (resources : str -> str).

(** A path without symbolic links, if it can be found out. *)
Definition resolves (path r : str) : Prop := real_path path = Some r \/ (real_path path = None /\ r = path).

(** The program for version [v] if there is one, otherwise the one without version;
    empty if there is none at all. *)
Inductive suits_version (v : N) : str -> Prop :=
| has_version p r : program ($"clang-" ++ decimal v) = Some p -> resolves p r -> suits_version v r
| any_version p r : program ($"clang-" ++ decimal v) = None -> program ($"clang") = Some p -> resolves p r -> suits_version v r
| no_clang : program ($"clang-" ++ decimal v) = None -> program ($"clang") = None -> suits_version v [].

(** Arguments with the resource directory of the program, in front of the separator
    if there is one; unless given already. *)
Definition uses_resources (path : str) (arguments result : list str) : Prop :=
  (resource_dir_given arguments -> result = arguments) /\
  (path = [] -> result = arguments) /\
  (~ resource_dir_given arguments -> path <> [] -> exists before after, arguments = before ++ after /\ ~ In ($"--") before /\
     (after = [] \/ exists r, after = $"--" :: r) /\ result = before ++ [$"-resource-dir=" ++ resources path] ++ after).
End Installation.

(** The version clang's headers define. *)
Definition version_defined (defs : macros) (v : N) : Prop := find_macro defs ($"CLANG_VERSION_MAJOR") = Some [(false, PNum (decimal v))].
