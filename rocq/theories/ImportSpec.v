(** * Specification of importing the generated module in Python *)
From Verif Require Import Base ParserModel AnnotModel CollectModel GraphModel GraphSpec OrderModel InlineModel EmitModel EmitSpec ModuleModel ModuleSpec.

(** ** Effect of the module block *)

(** Modules are known by their name (that of a submodule consists of those of
    the enclosing modules), classes by the type that they stand for. *)
Inductive object := Mod (path : list str) | Class (r : nat) | Enum (i : nat).

Definition same_object (o p : object) : bool :=
  match o, p with
  | Mod a, Mod b => if list_eq_dec (list_eq_dec ascii_dec) a b then true else false
  | Class r, Class s | Enum r, Enum s => Nat.eqb r s
  | _, _ => false
  end.

(** Local variables, attributes of objects (latest first), registered types and
    whether instances are held in the default way. *)
Record state := mkState { s_variables : list (str * object); s_attributes : list (object * str * object); s_types : list (nat * bool) }.

Definition value (s : state) (n : str) : option object :=
  option_map snd (find (fun v => str_eqb (fst v) n) (s_variables s)).
Definition attribute (s : state) (o : object) (n : str) : option object :=
  option_map snd (find (fun a => same_object (fst (fst a)) o && str_eqb (snd (fst a)) n) (s_attributes s)).
Definition holding (s : state) (r : nat) : option bool := option_map snd (find (fun t => Nat.eqb (fst t) r) (s_types s)).

Section Execution.
(** Holder types by which instances are held in the default way: [std::unique_ptr]. *)
Context (default_holder : str -> bool).

(** Registration of a type by pybind11 (generic_type::initialize, add_base). *)
Definition register (s : state) (o : object) (n : str) (r : nat) (bases : list nat) (default : bool) (c : object) (id : str) : option state :=
  match attribute s o n, holding s r with
  | None, None =>
      if forallb (fun b => match holding s b with Some d => Bool.eqb d default | None => false end) bases
      then Some (mkState ((id, c) :: s_variables s) ((o, n, c) :: s_attributes s) ((r, default) :: s_types s))
      else None   (* unknown base, or with another kind of holder *)
  | _, _ => None  (* name in use or type already registered *)
  end.

(** auto id = ...; [None]: not valid, or exception during import. *)
Definition execute (s : state) (i : str * introducer) : option state :=
  match value s (fst i), value s (intro_parent (snd i)) with
  | None, Some o =>
      match snd i with
      | NAlias _ => Some (mkState ((fst i, o) :: s_variables s) (s_attributes s) (s_types s))
      | NSubmodule _ n =>
          match o with
          | Mod path => Some (mkState ((fst i, Mod (path ++ [n])) :: s_variables s) ((o, n, Mod (path ++ [n])) :: s_attributes s) (s_types s))
          | _ => None
          end
      | NEnum e _ n _ => register s o n e [] true (Enum e) (fst i)
      | NClass t _ n _ => register s o n (ct_record t) (ct_bases t) (default_holder (ct_holder t)) (Class (ct_record t)) (fst i)
      end
  | _, _ => None
  end.

Definition import (intros : list (str * introducer)) : option state := fold_opt execute intros (mkState [($"root", Mod [])] [] []).
End Execution.

(** What a sequence of names refers to. *)
Fixpoint resolve (s : state) (o : object) (names : list str) : option object :=
  match names with
  | [] => Some o
  | n :: r => match attribute s o n with Some p => resolve s p r | None => None end
  end.

(** ** What is expected *)

Definition is_submodule (u : unit) (st : storage) (c : nat) : Prop :=
  kind u c = KNamespace /\ exists a, lookup_attrs st c = Some a /\ ns_module (at_namespace a) = true.

(** Contexts with an object of their own. *)
Definition own_object (u : unit) (st : storage) (c : nat) : Prop := kind u c = KRecord \/ kind u c = KEnum \/ is_submodule u st c.

(** Object standing for a context. *)
Inductive located (u : unit) (st : storage) (g : graph) : nat -> object -> Prop :=
| located_root : located u st g (u_root u) (Mod [])
| located_class c : kind u c = KRecord -> located u st g c (Class c)
| located_enum c : kind u c = KEnum -> located u st g c (Enum c)
| located_module c p path n : is_submodule u st c -> scope_of u st g c p -> located u st g p (Mod path) -> named u st c n -> located u st g c (Mod (path ++ [n]))
| located_namespace c p o : kind u c = KNamespace -> ~ is_submodule u st c -> scope_of u st g c p -> located u st g p o -> located u st g c o.

(** [c] is to be an attribute of [o]. *)
Definition found_in (u : unit) (st : storage) (g : graph) (c : nat) (o : object) (n : str) : Prop :=
  In c (g_nodes g) /\ own_object u st c /\ (exists p, scope_of u st g c p /\ located u st g p o) /\ named u st c n.

(** Names of enclosing classes and namespaces that are modules, and of the context itself. *)
Inductive python_path (u : unit) (st : storage) (g : graph) : nat -> list str -> Prop :=
| python_root : python_path u st g (u_root u) []
| python_named c p l n : own_object u st c -> scope_of u st g c p -> python_path u st g p l -> named u st c n -> python_path u st g c (l ++ [n])
| python_namespace c p l : kind u c = KNamespace -> ~ is_submodule u st c -> scope_of u st g c p -> python_path u st g p l -> python_path u st g c l.

(** ** Conditions *)

(** Blocks of a namespace are enclosed by blocks of the same namespace. *)
Definition nested_blocks (u : unit) : Prop :=
  forall c d, same_namespace u c d -> u_name u c = u_name u d /\
    forall p q, nearest_context u c p -> nearest_context u d q -> p = q \/ same_namespace u p q.

(** They have the same annotations, compare C18 and C50. *)
Definition agreeing_blocks (u : unit) (st : storage) (g : graph) : Prop :=
  forall c d, In c (g_nodes g) -> In d (g_nodes g) -> same_namespace u c d -> lookup_attrs st c = lookup_attrs st d.

(** No two classes, enumerations or modules have to share a name. *)
Definition distinct_names (u : unit) (st : storage) (g : graph) : Prop :=
  forall c d o n, found_in u st g c o n -> found_in u st g d o n -> c = d \/ (kind u c = KNamespace /\ kind u d = KNamespace).

(** Bases that are listed are to be introduced before, compare C31, and have the
    same kind of holder. *)
Definition usable_bases (default_holder : str -> bool) (w : facts) (intros : list (str * introducer)) : Prop :=
  forall id t parent n d, In (id, NClass t parent n d) intros -> forall b, In b (ct_bases t) ->
    base_via (w_hierarchy w) (introduced_class intros) (ct_record t) b /\
    forall id' t' parent' n' d', In (id', NClass t' parent' n' d') intros -> ct_record t' = b -> default_holder (ct_holder t') = default_holder (ct_holder t).
