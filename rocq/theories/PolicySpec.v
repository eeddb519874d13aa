(** * Specification of how results of functions are handed over to Python *)
From Verif Require Import Base ParserModel AnnotModel AnnotSpec CollectModel CollectSpec GraphModel GraphSpec EmitModel EmitSpec ImportSpec ExecSpec InvalidSpec DispatchSpec.

(** ** pybind11 *)

(** [pybind11::return_value_policy]. *)
Inductive mode := Automatic | AutomaticReference | TakeOwnership | Copy | Move | Reference | ReferenceInternal.
Definition modes : list (str * mode) :=
  [($"automatic", Automatic); ($"automatic_reference", AutomaticReference); ($"take_ownership", TakeOwnership); ($"copy", Copy); ($"move", Move);
   ($"reference", Reference); ($"reference_internal", ReferenceInternal)].
Definition mode_named (n : str) : option mode := option_map snd (find (fun e => str_eqb (fst e) n) modes).
Definition mode_by (n : str) : option mode := match n with [] => Some Automatic | _ => mode_named n end.

(** The policy used for what a statement makes accessible; there is none if the code
    does not compile.  [def_readwrite], [def_property] etc. have defaults of their own. *)
Definition passed_mode (t : stmt) : option mode :=
  match t with
  | SFunction _ _ _ _ a | SInit _ _ _ a => mode_by (fn_policy a)
  | SProperty _ _ _ => Some ReferenceInternal
  | SMember static _ _ _ => Some (if static then Reference else ReferenceInternal)
  | _ => Some Automatic
  end.

Section Objects.
(** [V]: contents of objects; [copyable], [movable]: the class of the object at a
    location has the constructors; [moved]: what is left when an object is moved from. *)
Context {V : Type} (copyable movable : nat -> bool) (moved : V -> V).

(** What a C++ function returns: an object of an exposed class, or a reference or pointer
    to one, which is identified by its location, i.e. address and class. *)
Inductive handed := ByValue (v : V) | ByReference (a : nat) | ByPointer (a : option nat).
Definition location_of (h : handed) : option nat := match h with ByValue _ => None | ByReference a => Some a | ByPointer a => a end.

(** [return_value_policy_override], [type_caster_base::cast]. *)
Definition effective (m : mode) (h : handed) : mode :=
  match h, m with
  | ByValue _, _ => Move
  | ByReference _, (Automatic | AutomaticReference) => Copy
  | ByPointer _, Automatic => TakeOwnership
  | ByPointer _, AutomaticReference => Reference
  | _, _ => m
  end.

(** Objects in Python; those of exposed classes wrap the object at a location, which is
    destroyed with them if it is owned. *)
Inductive handle := Other | Wraps (a : nat) (owned : bool).

(** The objects in C++, those in Python, and which of those keep others alive. *)
Record runtime := mkRuntime { rt_memory : nat -> option V; rt_objects : nat -> option handle; rt_kept : list (nat * nat) }.
Definition at_start : runtime := mkRuntime (fun _ => None) (fun _ => None) [].

Definition put {A} (f : nat -> option A) (k : nat) (v : option A) : nat -> option A := fun j => if Nat.eqb k j then v else f j.
Definition registered (s : runtime) (a r : nat) : Prop := exists owned, rt_objects s r = Some (Wraps a owned).
Definition fresh (s : runtime) (r : nat) : Prop := rt_objects s r = None.
Definition unused (s : runtime) (b : nat) : Prop := rt_memory s b = None /\ forall r, ~ registered s b r.

(** The object in Python for a location, and the same with a new object in C++. *)
Definition wrapped (s : runtime) (r a : nat) (owned : bool) : runtime := mkRuntime (rt_memory s) (put (rt_objects s) r (Some (Wraps a owned))) (rt_kept s).
Definition constructed (s : runtime) (r b : nat) (v : V) : runtime := mkRuntime (put (rt_memory s) b (Some v)) (put (rt_objects s) r (Some (Wraps b true))) (rt_kept s).

(** [type_caster_generic::cast]: the object returned to Python ([None] for Python's own).
    Objects that are already known in Python are found first, whatever the policy is.
    [parent]: the first positional argument. *)
Inductive converted (m : mode) (parent : option nat) (s : runtime) : handed -> option nat -> runtime -> Prop :=
| cv_null : converted m parent s (ByPointer None) None s
| cv_value v r b : fresh s r -> unused s b -> converted m parent s (ByValue v) (Some r) (constructed s r b v)
| cv_known h a r : location_of h = Some a -> registered s a r -> converted m parent s h (Some r) s
| cv_copy h a v r b : location_of h = Some a -> (forall q, ~ registered s a q) -> effective m h = Copy -> copyable a = true -> rt_memory s a = Some v ->
    fresh s r -> unused s b -> converted m parent s h (Some r) (constructed s r b v)
| cv_move h a v r b : location_of h = Some a -> (forall q, ~ registered s a q) -> effective m h = Move -> movable a = true -> rt_memory s a = Some v ->
    fresh s r -> unused s b -> converted m parent s h (Some r) (constructed (mkRuntime (put (rt_memory s) a (Some (moved v))) (rt_objects s) (rt_kept s)) r b v)
| cv_move_copy h a v r b : location_of h = Some a -> (forall q, ~ registered s a q) -> effective m h = Move -> movable a = false -> copyable a = true -> rt_memory s a = Some v ->
    fresh s r -> unused s b -> converted m parent s h (Some r) (constructed s r b v)
| cv_own h a r : location_of h = Some a -> (forall q, ~ registered s a q) -> effective m h = TakeOwnership -> fresh s r ->
    converted m parent s h (Some r) (wrapped s r a true)
| cv_reference h a r : location_of h = Some a -> (forall q, ~ registered s a q) -> effective m h = Reference -> fresh s r ->
    converted m parent s h (Some r) (wrapped s r a false)
| cv_internal h a r q : location_of h = Some a -> (forall q, ~ registered s a q) -> effective m h = ReferenceInternal -> fresh s r -> parent = Some q ->
    converted m parent s h (Some r) (mkRuntime (rt_memory s) (rt_objects (wrapped s r a false)) ((r, q) :: rt_kept s)).

(** ** Programs *)

(** Python constructs objects of exposed classes and others, calls functions or reads
    attributes ([parent]: the first argument, or the object), sets the content of objects
    and drops them; C++ code creates objects, changes and destroys them. *)
Inductive event :=
| EConstruct (r b : nat) (v : V) | EOther (r : nat) | EReturn (t : stmt) (parent : option nat) (h : handed) (result : option nat)
| EWrite (r : nat) (v : V) | EDrop (r : nat) | ECreate (a : nat) (v : V) | EStore (a : nat) (v : V) | EDestroy (a : nat).

Inductive step (s : runtime) : event -> runtime -> Prop :=
| step_construct r b v : fresh s r -> unused s b -> step s (EConstruct r b v) (constructed s r b v)
| step_other r : fresh s r -> step s (EOther r) (mkRuntime (rt_memory s) (put (rt_objects s) r (Some Other)) (rt_kept s))
| step_return t m parent h result s' : passed_mode t = Some m -> (forall q, parent = Some q -> rt_objects s q <> None) -> converted m parent s h result s' -> step s (EReturn t parent h result) s'
| step_write r v a : registered s a r -> rt_memory s a <> None -> step s (EWrite r v) (mkRuntime (put (rt_memory s) a (Some v)) (rt_objects s) (rt_kept s))
| step_drop_other r : rt_objects s r = Some Other -> (forall q, ~ In (q, r) (rt_kept s)) ->
    step s (EDrop r) (mkRuntime (rt_memory s) (put (rt_objects s) r None) (filter (fun k => negb (Nat.eqb (fst k) r)) (rt_kept s)))
| step_drop r a owned : rt_objects s r = Some (Wraps a owned) -> (forall q, ~ In (q, r) (rt_kept s)) ->
    step s (EDrop r) (mkRuntime (if owned then put (rt_memory s) a None else rt_memory s) (put (rt_objects s) r None) (filter (fun k => negb (Nat.eqb (fst k) r)) (rt_kept s)))
| step_create a v : rt_memory s a = None -> step s (ECreate a v) (mkRuntime (put (rt_memory s) a (Some v)) (rt_objects s) (rt_kept s))
| step_store a v : rt_memory s a <> None -> step s (EStore a v) (mkRuntime (put (rt_memory s) a (Some v)) (rt_objects s) (rt_kept s))
| step_destroy a : rt_memory s a <> None -> step s (EDestroy a) (mkRuntime (put (rt_memory s) a None) (rt_objects s) (rt_kept s)).

Inductive steps : runtime -> list event -> runtime -> Prop :=
| steps_nil s : steps s [] s
| steps_cons s e s1 es s2 : step s e s1 -> steps s1 es s2 -> steps s (e :: es) s2.

(** ** What can be observed *)

(** The content of an object in Python. *)
Definition content (s : runtime) (r : nat) : option V := match rt_objects s r with Some (Wraps a _) => rt_memory s a | _ => None end.

(** Changes of the object in Python and of the one at [a] do not affect the other. *)
Definition independent (s : runtime) (a r : nat) : Prop :=
  (forall v s', step s (EWrite r v) s' -> rt_memory s' a = rt_memory s a) /\ (forall s', step s (EDrop r) s' -> rt_memory s' a = rt_memory s a) /\
  (forall v s', step s (EStore a v) s' -> content s' r = content s r) /\ (forall s', step s (EDestroy a) s' -> content s' r = content s r).

(** They are the same object. *)
Definition same_object_as (s : runtime) (a r : nat) : Prop :=
  content s r = rt_memory s a /\ (forall v s', step s (EWrite r v) s' -> rt_memory s' a = Some v) /\ (forall v s', step s (EStore a v) s' -> content s' r = Some v).

(** What happens to the one at [a] when the object in Python is dropped. *)
Definition left_alone (s : runtime) (a r : nat) : Prop := forall s', step s (EDrop r) s' -> rt_memory s' a = rt_memory s a.
Definition destroyed_with (s : runtime) (a r : nat) : Prop := forall s', step s (EDrop r) s' -> rt_memory s' a = None.

(** ** What is expected *)

Inductive treatment := Separate | Shared | Inside | Owned.

(** By the name of the policy, for references and for pointers
    (https://pybind11.readthedocs.io/en/stable/advanced/functions.html#return-value-policies). *)
Definition expectations : list (str * (treatment * treatment)) :=
  [([], (Separate, Owned)); ($"automatic", (Separate, Owned)); ($"automatic_reference", (Separate, Shared)); ($"take_ownership", (Owned, Owned)); ($"copy", (Separate, Separate));
   ($"move", (Separate, Separate)); ($"reference", (Shared, Shared)); ($"reference_internal", (Inside, Inside))].
Definition expected (n : str) (h : handed) (tr : treatment) : Prop :=
  match h with
  | ByValue _ => tr = Separate
  | ByReference _ => exists q, In (n, (tr, q)) expectations
  | ByPointer _ => exists q, In (n, (q, tr)) expectations
  end.

(** How an object handed over at state [s1] relates to its origin later on. *)
Definition treated (tr : treatment) (h : handed) (parent : option nat) (s1 s : runtime) (r : nat) : Prop :=
  match tr with
  | Separate => forall a, rt_memory s1 a <> None -> independent s a r
  | Shared => forall a, location_of h = Some a -> same_object_as s a r /\ left_alone s a r
  | Inside => forall a, location_of h = Some a -> same_object_as s a r /\ left_alone s a r /\ exists q, parent = Some q /\ rt_objects s q <> None
  | Owned => forall a, location_of h = Some a -> same_object_as s a r /\ destroyed_with s a r
  end.
End Objects.

Arguments handed : clear implicits.
Arguments runtime : clear implicits.
Arguments event : clear implicits.

(** Functions and data members of the module, and the policy that is to be used: the one
    named by the last annotation; data members are parts of their objects. *)
Inductive to_return (u : unit) (p : pystate) : stmt -> str -> Prop :=
| tr_function o k static l t f ans n : own p o k = Some (MFunction static l) -> In t l -> function_of t = Some f -> valid_annotations (u_decls u f) ->
    carried (d_attrs (u_decls u f)) ans false -> latest (string_of ReturnValuePolicy) ans [] n -> to_return u p t n
| tr_field c k readonly n i : own p (Class c) k = Some (MValue (SMember false readonly n i)) -> to_return u p (SMember false readonly n i) ($"reference_internal")
| tr_static c k readonly n i : own p (Class c) k = Some (MValue (SMember true readonly n i)) -> to_return u p (SMember true readonly n i) ($"reference").
