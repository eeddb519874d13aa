(** * Specification of the options of classes and enumerations in Python *)
From Verif Require Import Base ParserModel AnnotModel AnnotSpec CollectModel GraphModel EmitModel ModuleModel ModuleSpec ImportSpec ExecSpec StoreSpec.

(** ** Instances with further attributes *)

(** pybind11 (class_ with dynamic_attr, type_record::add_base): types whose instances
    have a dictionary of attributes, in addition to those in [l]. *)
Definition with_dictionary (l : list nat) (i : str * introducer) : list nat :=
  match snd i with
  | NClass t _ _ dynamic => if dynamic || existsb (fun b => existsb (Nat.eqb b) l) (ct_bases t) then ct_record t :: l else l
  | _ => l
  end.
Definition has_dictionary (intros : list (str * introducer)) (c : nat) : bool := existsb (Nat.eqb c) (fold_left with_dictionary intros []).

(** ** What is expected *)

(** The class or one of its bases in Python. *)
Inductive inherits (intros : list (str * introducer)) : nat -> nat -> Prop :=
| inherits_self c : inherits intros c c
| inherits_base id t parent n d b r : In (id, NClass t parent n d) intros -> In b (ct_bases t) -> inherits intros b r -> inherits intros (ct_record t) r.

(** By the last annotation that has a say. *)
Definition said_dynamic (u : unit) (c : nat) : Prop := exists ans, carried (d_attrs (u_decls u c)) ans false /\ latest (flag_of DynamicAttr) ans false true.

Definition open (u : unit) (intros : list (str * introducer)) (c : nat) : Prop :=
  exists r, inherits intros c r /\ introduced_class intros r /\ said_dynamic u r.

(** Options that classes and enumerations are introduced with. *)
Definition as_said (u : unit) (i : introducer) : Prop :=
  match i with
  | NClass t _ _ dynamic => exists ans, carried (d_attrs (u_decls u (ct_record t))) ans false /\
      latest (flag_of DynamicAttr) ans false dynamic /\ latest (string_of HolderType) ans [] (ct_holder t)
  | NEnum e _ _ arithmetic => exists ans, carried (d_attrs (u_decls u e)) ans false /\ latest (flag_of Arithmetic) ans false arithmetic
  | _ => True
  end.

(** Not part of a template. *)
Definition independent (u : unit) (intros : list (str * introducer)) : Prop :=
  forall id i, In (id, i) intros -> match i with NClass t _ _ _ => u_dependent u (ct_record t) = false | NEnum e _ _ _ => u_dependent u e = false | _ => True end.
