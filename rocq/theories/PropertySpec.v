(** * Specification of properties at run time *)
From Verif Require Import Base ParserModel AnnotModel AnnotSpec CollectModel GraphModel EmitModel EmitSpec ModuleModel ModuleSpec ImportSpec ExecSpec AccessSpec StoreSpec.

(** ** What is declared *)

(** [i] is visible in class [c] and named as the getter or setter of [k] by its
    annotations ([kd]: getter_for or setter_for). *)
Definition accessor (u : unit) (w : facts) (b : bstate) (name : str) (c : nat) (kd : akind) (i : nat) (k : str) : Prop :=
  declared_in u w b c i /\ visible_in u b name c i /\ exists ans, carried (d_attrs (u_decls u i)) ans false /\ named_by kd ans k.

(** An exposed class. *)
Definition exposed_class (u : unit) found implicit name (b : bstate) (c : nat) : Prop :=
  exists g vis, exposed u found implicit name g vis b /\ In c (g_nodes g) /\ kind u c = KRecord.

(** ** Calls of getters and setters *)

(** pybind11 is given a pointer to the function: it takes the object, unless it is
    static, and all parameters.  Default arguments are not known. *)
Definition arity (u : unit) (i : nat) : nat := (if d_static (u_decls u i) then 0 else 1) + length (d_params (u_decls u i)).

Section Calls.
Context {V : Type} (u : unit).
(** Getters are called with the object, setters also with the value ([body]: the
    effect of the functions); the number of arguments has to fit. *)
Definition with_object (body : nat -> nat -> memory V -> option V) (g o : nat) (m : memory V) : option V := if Nat.eqb (arity u g) 1 then body g o m else None.
Definition with_value (body : nat -> nat -> V -> memory V -> option (memory V)) (f o : nat) (v : V) (m : memory V) : option (memory V) :=
  if Nat.eqb (arity u f) 2 then body f o v m else None.
End Calls.

(** Manual bindings do not add properties. *)
Definition adds_no_properties (manual : nat -> object -> pystate -> option pystate) : Prop :=
  forall l o p p', manual l o p = Some p' ->
    (forall q k nm g s, own p' q k = Some (MValue (SProperty nm g s)) -> own p q k = Some (MValue (SProperty nm g s))) /\
    (forall e k nm g s, In (k, SProperty nm g s) (entries p' e) -> In (k, SProperty nm g s) (entries p e)).
