(** * Specification of aliases in Python *)
From Verif Require Import Base ParserModel AnnotModel AnnotSpec CollectModel GraphModel GraphSpec OrderModel InlineModel EmitModel EmitSpec ModuleModel ModuleSpec ImportSpec ExecSpec AccessSpec ManualSpec AliasModel.

(** Alias [i] of the class or enumeration [t], annotated as visible and not moved
    here, with name [n]. *)
Definition shown_alias (u : unit) (w : facts) (i t : nat) (n : str) : Prop :=
  kind u i = KTypedef /\ AccessSpec.says u i (Some true) /\ x_tag (w_extra w) i = Some t /\
  exists a, own_attributes u i a /\ t_expose_here (at_typedef a) = false /\ called u a i [] n.

(** The classes registered by other modules may depend on the manual bindings
    executed before. *)
Definition known_elsewhere (elsewhere : list nat -> nat -> option nat) (before : list step) : nat -> option nat := elsewhere (map snd (manual_code before)).
