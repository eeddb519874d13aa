(** * Specification of the order of annotations *)
From Coq Require Import Sorting.Permutation.
From Verif Require Import Base ParserModel AnnotModel AnnotSpec CollectModel GraphModel GraphSpec EmitModel ModuleModel LocalSpec RewriteSpec.

(** What an annotation is about, each named after an annotation about it:
    [hidden] is about visibility, [module] also about the name, and of
    [encourage] and [expose_here] there can be only one. *)
Definition concerns (an : annotation) : list akind :=
  match a_kind an with
  | Hidden => [Visible]
  | Encourage => [ExposeHere]
  | Module => [Module; ExposeAs]
  | k => [k]
  end.

(** Annotations about the same come in the same order. *)
Inductive about (k : akind) : list annotation -> list annotation -> Prop :=
| about_nil : about k [] []
| about_this an ans sel : In k (concerns an) -> about k ans sel -> about k (an :: ans) (an :: sel)
| about_other an ans sel : ~ In k (concerns an) -> about k ans sel -> about k (an :: ans) sel.

Definition rearranged (ans ans' : list annotation) : Prop := forall k sel, about k ans sel <-> about k ans' sel.

(** The texts carry the same annotations, possibly rearranged. *)
Record same_but_order (d : decl) (texts : list str) : Prop := {
  so_carried : exists ans ans', carried (d_attrs d) ans false /\ carried texts ans' false /\ rearranged ans ans';
  so_marked : marked d <-> marked (with_texts d texts) }.

(** Nothing is reported when the annotations of [j] are looked at. *)
Definition unobjectionable (u : unit) (j : nat) : Prop := exists st, AnnotModel.insert (u_decls u) j [] = Some (st, []).
