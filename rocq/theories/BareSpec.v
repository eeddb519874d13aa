(** * Specification of modules for headers without annotations *)
From Verif Require Import Base ParserModel AnnotModel AnnotSpec CollectModel GraphModel EmitModel ModuleModel.

(** No declaration has an annotation, not even an empty one. *)
Definition bare (u : unit) : Prop := forall i, ~ marked (u_decls u i).

(** A module to which nothing is added:
    [void expose_context(module &); PYBIND11_MODULE(name, root) { auto context = root; expose_context(context); }]
    and the empty definition of the function; the other files are empty. *)
Definition empty_module (name : str) (n : nat) : list (list item) :=
  [ IDeclare ($"context") PModule;
    IModule name [($"context", NAlias ($"root"))] [($"context", $"context")] [];
    IDefine ($"context") PModule [SUnused] ] :: repeat [] (pred n).
