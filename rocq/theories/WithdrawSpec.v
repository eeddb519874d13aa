(** * Specification of what hiding a single declaration changes in the outputs of the program *)
From Verif Require Import Base ParserModel AnnotModel AnnotSpec CollectModel GraphModel GraphSpec OrderModel InlineModel EmitModel EmitSpec ModuleModel ModuleSpec ToolModel LocalSpec HideSpec.

(** A compile command for the header in which the declaration is hidden (see [HideSpec]). *)
Definition hidden_job (i : nat) (j j' : job) : Prop :=
  exists texts a a',
    placed (j_unit j) /\ leaf (j_unit j) i /\ i <> u_root (j_unit j) /\
    valid_with (j_unit j) i a /\ valid_with (reannotated (j_unit j) i texts) i a' /\ hidden a a' /\ bound_by_itself a /\
    has_annotations (u_decls (reannotated (j_unit j) i texts) i) true = has_annotations (u_decls (j_unit j) i) true /\
    accompanied (j_unit j) (j_found j) (j_implicit j) i /\
    j' = mkJob (j_main j) (j_errors j) (j_pragmas j) (reannotated (j_unit j) i texts) (j_facts j) (j_found j) (j_implicit j) (j_iteration j).

(** Generated text without the bindings of the declaration. *)
Definition withdrawn (i : nat) (c : contents) : contents :=
  match c with New text items => New text (map (unbound_item i) items) | Old bytes => Old bytes end.
