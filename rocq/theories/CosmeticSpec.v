(** * Specification of cosmetic changes of headers *)
From Verif Require Import Base ParserModel AnnotModel AnnotSpec CollectModel GraphModel GraphSpec EmitModel ModuleModel ToolModel LocalSpec RewriteSpec ArrangeSpec LayoutSpec.

(** Any sequence of changes to the way annotations are written, to their order
    and to the layout. *)
Inductive cosmetic : unit -> unit -> Prop :=
| cosmetic_none u : cosmetic u u
| cosmetic_spelling u u' texts : cosmetic u u' ->
    (forall j, texts j = d_attrs (u_decls u' j) \/ same_annotations (u_decls u' j) (texts j)) -> cosmetic u (rewritten u' texts)
| cosmetic_order u u' texts : cosmetic u u' ->
    (forall j, texts j = d_attrs (u_decls u' j) \/ same_but_order (u_decls u' j) (texts j) /\ unobjectionable u' j) -> cosmetic u (rewritten u' texts)
| cosmetic_layout u u' location : cosmetic u u' -> same_sequence u' location -> cosmetic u (moved u' location).

(** Compile commands for the header after such changes. *)
Definition cosmetic_job (j j' : job) : Prop :=
  cosmetic (j_unit j) (j_unit j') /\
  j' = mkJob (j_main j) (j_errors j) (j_pragmas j) (j_unit j') (j_facts j) (j_found j) (j_implicit j) (j_iteration j).
