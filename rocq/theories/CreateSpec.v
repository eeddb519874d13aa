(** * Specification of the creation of objects in Python *)
From Coq Require Import Sorting.Sorted.
From Verif Require Import Base ParserModel AnnotModel AnnotSpec CollectModel GraphModel GraphSpec OrderModel EmitModel EmitSpec ModuleModel ModuleSpec ImportSpec ExecSpec AccessSpec DispatchSpec.

Definition init_name : str := $"__init__".

(** ** Python *)

Section Creation.
(** [self]: the object to be initialised. *)
Context {V : Type} (is_none : V -> bool) (default : nat -> nat -> V) (accepts : stmt -> nat -> bool -> V -> bool) (x : extra) (self : V).

(** R(...): the class is called, which calls __init__ for a new object.  pybind11 gives
    every class an __init__ of its own, that of bases is not inherited
    (make_new_python_type); it raises an exception as long as no constructor is defined
    (pybind11_object_init). *)
Definition creates (p : pystate) (r : nat) (pos : list V) (kw : keywords V) : option (stmt * binding V) :=
  match own p (Class r) init_name with
  | Some (MFunction _ l) => dispatch is_none default accepts x (Class r) l (self :: pos) kw
  | _ => None
  end.
End Creation.

(** ** What is expected *)

(** [i] is a visible constructor by which objects of class [r] can be created. *)
Record constructor_of (u : unit) (w : facts) (b : bstate) (name : str) (r i : nat) : Prop := {
  co_kind : kind u i = KConstructor;
  co_declared : declared_in u w b r i;
  co_visible : visible_in u b name r i;
  co_not_moved : fi_move (x_fn (w_extra w) i) = false;
  co_not_deleted : fi_deleted (x_fn (w_extra w) i) = false;
  co_concrete : x_abstract (w_extra w) r = false
}.

(** Constructors are not templates, and not found as operators. *)
Definition proper_constructors (u : unit) (w : facts) : Prop :=
  forall i, kind u i = KConstructor -> x_specializations (w_extra w) i = None /\ (forall j l, x_specializations (w_extra w) j = Some l -> ~ In i l) /\
    forall r k, ~ In i (x_adl (w_extra w) r k).

(** All of them, in the order of the source if they are not templates. *)
Definition constructors (u : unit) (w : facts) (b : bstate) (name : str) (r : nat) (l : list nat) : Prop :=
  (forall i, In i l <-> constructor_of u w b name r i) /\
  (proper_constructors u w -> StronglySorted (fun i j => (u_location u i <= u_location u j)%N) l).

(** ** Conditions *)

Definition intro_name (i : introducer) : option str := match i with NAlias _ => None | NSubmodule _ n | NEnum _ _ n _ | NClass _ _ n _ => Some n end.

(** Only constructors get this name in the generated code. *)
Definition only_constructors (files : list (list item)) : Prop :=
  (forall id q body t, In (IDefine id q body) (concat files) -> In t body -> named_as t init_name -> exists i types args a, t = SInit i types args a) /\
  (forall n intros calls post id k, In (IModule n intros calls post) (concat files) -> In (id, k) intros -> intro_name k <> Some init_name).

(** Manual bindings do not add or remove constructors. *)
Definition leaves_constructors (manual : nat -> object -> pystate -> option pystate) : Prop :=
  forall l o p p', manual l o p = Some p' -> forall r, own p' (Class r) init_name = own p (Class r) init_name.
