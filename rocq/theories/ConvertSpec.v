(** * Specification of implicit conversions at run time *)
From Verif Require Import Base ParserModel AnnotModel AnnotSpec CollectModel CollectSpec GraphModel GraphSpec EmitModel EmitSpec ModuleModel ModuleSpec ImportSpec ExecSpec AccessSpec DispatchSpec.

(** Statements executed by the module in order, apart from manual bindings. *)
Definition executed (files : list (list item)) (m : item) : list stmt :=
  match m with
  | IModule _ _ calls _ => flat_map (fun c => match body_named files (fst c) with Some body => body | None => [] end) calls
  | _ => []
  end.

Section Conversions.
(** [class_of]: the generated class of an object; [other n v]: values taken as they
    are for types that are not generated; [nested t v]: values accepted for
    parameters of the constructors called by conversions only after another
    conversion; [receiver], [elsewhere]: for objects methods are called for and for
    operators; [self]: the object to be initialised. *)
Context {V : Type} (is_none : V -> bool) (default : nat -> nat -> V) (mro : nat -> list nat) (class_of : V -> option nat).
Context (other : nat -> V -> bool) (nested : type -> V -> bool) (receiver : stmt -> V -> bool) (elsewhere : stmt -> nat -> bool -> V -> bool) (self : V).
Context (p : pystate) (x : extra) (ss : list stmt).

(** ** The casters of pybind11 *)

(** type_caster_generic::load_impl, first part: objects of the class or one derived
    from it. *)
Definition instance (r : nat) (v : V) : bool := match class_of v with Some c => existsb (Nat.eqb r) (c :: mro c) | None => false end.
Definition direct (t : type) (v : V) : bool := match ty_core t with CRecord r => instance r v | COther n => other n v end.
Definition inner (t : type) (convert : bool) (v : V) : bool := direct t v || (convert && nested t v).

(** Arguments by the types of the parameters; [pass]: the casters. *)
Definition takes (pass : type -> bool -> V -> bool) (o : object) (s : stmt) (k : nat) (convert : bool) (v : V) : bool :=
  match function_of s with
  | Some f =>
      match (if is_method_of o s then match k with 0 => None | S j => Some j end else Some k) with
      | None => match s with SInit _ _ _ _ => true | _ => receiver s v end
      | Some j => match nth_error (filter is_ordinary (fi_params (x_fn x f))) j with Some q => pass (pm_type q) convert v | None => true end
      end
  | None => elsewhere s k convert v
  end.

(** R(v) *)
Definition constructs (r : nat) (v : V) : option (stmt * binding V) :=
  match own p (Class r) ($"__init__") with
  | Some (MFunction _ l) => dispatch is_none default (takes inner (Class r)) x (Class r) l [self; v] []
  | _ => None
  end.

(** pybind11::implicitly_convertible: a caster for the class is registered, which
    takes what can be loaded without conversion and calls the class. *)
Definition conversions (r : nat) : list type :=
  flat_map (fun s => match s with SConvertible (Some t) r' => if Nat.eqb r' r then [t] else [] | _ => [] end) ss.
Definition converts (r : nat) (v : V) : bool := existsb (fun t => direct t v && match constructs r v with Some _ => true | None => false end) (conversions r).

(** Values accepted for parameters of functions and methods. *)
Definition load (t : type) (convert : bool) (v : V) : bool :=
  match ty_core t with
  | CRecord r => instance r v || (convert && converts r v)
  | COther _ => inner t convert v
  end.
End Conversions.

(** ** What is expected *)

(** By the last annotation that has a say. *)
Definition said_implicit (u : unit) (i : nat) (v : bool) : Prop := exists ans, carried (d_attrs (u_decls u i)) ans false /\ latest (flag_of ImplicitConversion) ans false v.

(** [i] is a visible constructor of class [r] with the only parameter [q] that is
    annotated to be used for implicit conversions. *)
Record converting (u : unit) (w : facts) (b : bstate) (name : str) (r i : nat) (q : param) : Prop := {
  cv_class : kind u r = KRecord;
  cv_kind : kind u i = KConstructor;
  cv_declared : declared_in u w b r i;
  cv_visible : visible_in u b name r i;
  cv_said : said_implicit u i true;
  cv_callable : fi_move (x_fn (w_extra w) i) = false /\ fi_deleted (x_fn (w_extra w) i) = false /\ x_abstract (w_extra w) r = false;
  cv_param : fi_params (x_fn (w_extra w) i) = [q]
}.

(** Values that are objects of the class already or that are taken as they are by
    such a constructor. *)
Definition convertible_to {V} (u : unit) (w : facts) (b : bstate) (name : str) (mro : nat -> list nat) (class_of : V -> option nat) (other : nat -> V -> bool) (r : nat) (v : V) : Prop :=
  instance mro class_of r v = true \/ exists i q, converting u w b name r i q /\ direct mro class_of other (pm_type q) v = true.
