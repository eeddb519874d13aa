(** * Specification of the instantiation of annotated templates *)
From Verif Require Import Base TemplateModel.

(** Specialisations that are left as they are. *)
Definition untouched (k : tsk) : Prop := k = Specialization \/ k = InstantiationDefinition.

(** There is, or will be, something to look into. *)
Definition has_contents (m : statuses) (i : nat) : Prop := s_complete (m i) = true \/ ~ untouched (s_kind (m i)).

(** Asked for by an annotation, directly or within another one that is asked for. *)
Inductive needed (t : templates) (m : statuses) : nat -> Prop :=
| needed_root i : In i (t_roots t) -> needed t m i
| needed_member i k : needed t m i -> has_contents m i -> In k (t_mentions t i) -> needed t m k.

(** What the compiler guarantees: kinds and completeness agree. *)
Definition proper_statuses (m : statuses) : Prop := forall i,
  match s_kind (m i) with Undeclared => s_complete (m i) = false | Specialization => True | _ => s_complete (m i) = true end.

(** Nothing needed is undefined, and declarations needed are the definitions. *)
Definition instantiable (t : templates) (m : statuses) : Prop :=
  forall i, needed t m i -> t_definition t i = i /\ (s_kind (m i) = Undeclared -> t_defined t i = true).
