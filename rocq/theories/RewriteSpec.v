(** * Specification of different ways to write the same annotations *)
From Verif Require Import Base ParserModel AnnotModel AnnotSpec CollectModel GraphModel GraphSpec EmitModel ModuleModel LocalSpec.

(** Other texts for all declarations. *)
Definition rewritten (u : unit) (texts : nat -> list str) : unit :=
  mkUnit (fun j => with_texts (u_decls u j) (texts j))
    (u_top u) (u_root u) (u_contexts u) (u_lookup u) (u_dependent u) (u_canonical u) (u_qualified u) (u_name u) (u_hidden_access u) (u_location u).

(** The texts carry the same annotations (see ParserSpec.v for the grammar), however
    they are distributed among texts; the macro is used in both cases or in none. *)
Record same_annotations (d : decl) (texts : list str) : Prop := {
  sa_carried : exists ans, carried (d_attrs d) ans false /\ carried texts ans false;
  sa_marked : marked d <-> marked (with_texts d texts) }.

(** The same attributes result, with the same complaints. *)
Record same_attributes (u : unit) (texts : nat -> list str) : Prop := {
  st_inserted : forall j, AnnotModel.insert (u_decls u) j [] = AnnotModel.insert (u_decls (rewritten u texts)) j [];
  st_present : forall j, has_annotations (u_decls u j) true = has_annotations (u_decls (rewritten u texts) j) true }.
