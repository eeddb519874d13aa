(** * Specification of the classes and enumerations to be found in Python *)
From Verif Require Import Base ParserModel AnnotModel AnnotSpec CollectModel CollectSpec GraphModel GraphSpec AccessSpec.

(** ** Visibility as written in the source *)

(** Visibility of a context given in the source: by its own annotations, those of
    the alias by which it is relocated, or by being encouraged.  The last one counts. *)
Inductive stated (u : unit) (c : nat) : option bool -> Prop :=
| stated_own v : (forall a, ~ relocates u a c) -> (forall a, ~ encourages u a c) -> In c (source_order u) -> counts u c -> says u c v -> stated u c v
| stated_nothing : (forall a, ~ relocates u a c) -> (forall a, ~ encourages u a c) -> ~ (In c (source_order u) /\ counts u c) -> stated u c None
| stated_relocated a v : relocates u a c -> (forall e, encourages u e c -> ~ precedes u a e) -> says u a v -> stated u c v
| stated_encouraged e : encourages u e c -> (forall a, relocates u a c -> precedes u a e) -> stated u c (Some true).

(** Otherwise protected and private members are hidden. *)
Definition decides (u : unit) (c : nat) (v : bool) : Prop :=
  stated u c (Some v) \/ (stated u c None /\ u_hidden_access u c = true /\ v = false).

(** The innermost context that decides counts, by default everything is hidden.
    [l] lists a context and the ones enclosing it. *)
Definition comes_out (u : unit) (l : list nat) (v : bool) : Prop :=
  (exists l1 n l2, l = l1 ++ n :: l2 /\ decides u n v /\ forall m w, In m l1 -> ~ decides u m w) \/
  (v = false /\ forall m w, In m l -> ~ decides u m w).

(** A namespace that is for other modules only. *)
Definition elsewhere (u : unit) (name : str) (m : nat) : Prop :=
  kind u m = KNamespace /\ In m (source_order u) /\ counts u m /\
  exists ans, carried (d_attrs (u_decls u m)) ans false /\ given OnlyExposeIn ans /\ ~ named_by OnlyExposeIn ans name.

(** A class or enumeration that is visible, as are all classes it is nested in, and
    not in a namespace for other modules. *)
Definition to_be_found (u : unit) (name : str) (c : nat) : Prop :=
  tag u c /\ exists l, path (place u) (u_root u) (c :: l) /\
    (forall l1 m l2, c :: l = l1 ++ m :: l2 -> tag u m -> comes_out u (m :: l2) true) /\
    forall m, In m (c :: l) -> ~ elsewhere u name m.
