(** * Specification of what can be accessed from Python *)
From Verif Require Import Base ParserModel AnnotModel AnnotSpec CollectModel GraphModel GraphSpec OrderModel InlineModel EmitModel EmitSpec ModuleModel ModuleSpec ImportSpec ExecSpec.

(** ** What annotations say *)

(** The visibility given by the annotations of a declaration: by the last one that
    has a say; otherwise visible if there is any annotation, else unspecified. *)
Definition says (u : unit) (i : nat) (v : option bool) : Prop :=
  d_skip (u_decls u i) = false /\
  exists ans bad default, carried (d_attrs (u_decls u i)) ans bad /\ default_visibility (u_decls u i) default /\ latest visibility_of ans default v.

(** A context that is visible in the module: by itself or by its ancestors, none
    of them is for other modules only. *)
Definition visible_context (u : unit) (b : bstate) (name : str) (c : nat) : Prop :=
  exists l, path (edge (bs_graph b)) (u_root u) (c :: l) /\ visible_along u (bs_annotations b) (c :: l) true /\
    ~ exists m, In m (c :: l) /\ foreign u (bs_annotations b) name m.

(** Visible in context [c]. *)
Definition visible_in (u : unit) (b : bstate) (name : str) (c i : nat) : Prop :=
  says u i (Some true) \/ (says u i None /\ visible_context u b name c).

(** [i] is among the declarations of context [c], which include those of inlined
    bases, operators and specialisations of templates. *)
Definition declared_in (u : unit) (w : facts) (b : bstate) (c i : nat) : Prop :=
  exists x, create u (bs_annotations b) (w_hierarchy w) c = Some x /\ In i (flat_map (expand (w_extra w)) (looked_up u w c x)).

(** ** Access *)

(** What an attribute of some object or a value of some enumeration leads to. *)
Definition accessible (p : pystate) (t : stmt) : Prop :=
  (exists o n m, own p o n = Some m /\ reaches m t) \/ exists e n, In (n, t) (entries p e).

(** A function, variable, member or value can be used from Python. *)
Definition usable (p : pystate) (i : nat) : Prop := exists t, accessible p t /\ mentions t i.

(** Manual bindings may remove something, but do not add what is counted here. *)
Definition adds_nothing (manual : nat -> object -> pystate -> option pystate) : Prop :=
  forall l o p p', manual l o p = Some p' -> forall t, accessible p' t -> accessible p t.

(** Name of the attribute for a statement, of a value or anything else. *)
Definition named_as (t : stmt) (n : str) : Prop := defines t = Some n \/ exists i, t = SValue n i.

(** ** Ordinary declarations *)

(** [i] with attributes [a] is bound in the context with name [n]. *)
Inductive ordinary (u : unit) (x : extra) (e : exposer) (i : nat) (a : attrs) : str -> Prop :=
| or_value k n : e = XEnum k -> x_enumerator x i = true -> called u a i [] n -> ordinary u x e i a n
| or_function n : (forall k, e <> XEnum k) -> supports_function (u_decls u i) = true -> kind u i <> KConstructor -> fi_deleted (x_fn x i) = false ->
    (supports_method (u_decls u i) = true -> ~ is_property a) -> (forall r p, e = XRecord r p -> supports_operator (u_decls u i) = false) ->
    called u a i (match fi_operator (x_fn x i) with Some OCall => $"__call__" | _ => [] end) n -> ordinary u x e i a n
| or_variable n : (forall k, e <> XEnum k) -> (forall r p, e <> XRecord r p) -> kind u i = KVar -> f_manual (at_field a) = None -> called u a i [] n -> ordinary u x e i a n
| or_member r p n : e = XRecord r p -> kind u i = KField \/ kind u i = KVar -> f_manual (at_field a) = None -> called u a i [] n -> ordinary u x e i a n
| or_constructor r p : e = XRecord r p -> kind u i = KConstructor -> fi_move (x_fn x i) = false -> fi_deleted (x_fn x i) = false -> x_abstract x r = false ->
    ordinary u x e i a ($"__init__").
