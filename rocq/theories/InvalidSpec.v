(** * Specification of the fate of invalid annotations *)
From Verif Require Import Base ParserModel AnnotModel AnnotSpec CollectModel CollectSpec GraphModel GraphSpec OrderModel InlineModel EmitModel ModuleModel ModuleSpec AccessSpec.

(** All annotations of the declaration can be read and are acceptable there. *)
Definition valid_annotations (d : decl) : Prop :=
  ~ targetless_alias d /\ exists ans, carried (d_attrs d) ans false /\ forall k an, nth_error ans k = Some an -> accepted d (firstn k ans) an.

(** Declarations looked at before anything is emitted: those in the source, and
    what aliases with [expose_here] or [encourage] refer to. *)
Definition looked_at_early (u : unit) (i : nat) : Prop :=
  (In i (source_order u) /\ counts u i) \/ exists a, relocates u a i \/ encourages u a i.

(** Those looked at while emitting: declared in a context for which there are entries. *)
Definition looked_at_late (u : unit) (w : facts) (b : bstate) (all : list entry) (i : nat) : Prop :=
  d_skip (u_decls u i) = false /\ exists e, In e all /\ declared_in u w b (ex_context e) i.

(** Reports about annotations, by declaration. *)
Definition about_annotations (rs : list report) : list (nat * diag) :=
  flat_map (fun r => match r with RAnnotation i d => [(i, d)] | _ => [] end) rs.

(** What is reported about the annotations of the declarations, one after another. *)
Inductive reported_for (u : unit) : list nat -> list (nat * diag) -> Prop :=
| reported_nil : reported_for u [] []
| reported_cons i st ds l rs : counts u i -> insert (u_decls u) i [] = Some (st, ds) -> reported_for u l rs -> reported_for u (i :: l) (map (fun d => (i, d)) ds ++ rs)
| reported_skip i l rs : ~ counts u i -> reported_for u l rs -> reported_for u (i :: l) rs.
