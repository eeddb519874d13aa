(** * Specification of which members are found in Python *)
From Verif Require Import Base ParserModel AnnotModel CollectModel GraphModel GraphSpec OrderModel InlineModel InlineSpec EmitModel EmitSpec ModuleModel ModuleSpec ImportSpec ExecSpec MroSpec.

(** ** Name lookup in C++ *)

(** Declarations in a class hide those in its bases. *)
Inductive sees (h : hierarchy) (declares : nat -> Prop) : nat -> nat -> Prop :=
| sees_own c : declares c -> sees h declares c c
| sees_base c s x : ~ declares c -> In s (h_direct h c) -> sees h declares (sp_base s) x -> sees h declares c x.

(** Lookup is ambiguous unless all other declarations that are seen are in (virtual)
    bases of the class.  It can also be ambiguous if the class is a base more than
    once, which is not considered here. *)
Definition finds (h : hierarchy) (declares : nat -> Prop) (c x : nat) : Prop :=
  sees h declares c x /\ forall y, sees h declares c y -> y = x \/ exists path, derives h x path y.

(** ** Hierarchies that are exposed as they are *)

Definition plain_hierarchy (u : unit) (st : storage) (h : hierarchy) (exposed : nat -> Prop) (c : nat) : Prop :=
  forall d s, (d = c \/ exists path, derives h c path d) -> In s (h_direct h d) ->
    sp_public s = true /\ exposed (sp_base s) /\ ~ requested u st d (sp_base s) /\ ~ hides u st d (sp_base s).

(** Classes are searched in the order determined when creating them. *)
Definition searched_in (mro : nat -> list nat) (ms : list (nat * list nat)) : Prop := forall c m, In (c, m) ms -> m = c :: mro c.
