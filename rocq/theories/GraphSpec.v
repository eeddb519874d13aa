(** * Specification of the context graph and its processing *)
From Verif Require Import Base ParserModel AnnotModel AnnotSpec CollectModel CollectSpec GraphModel.

(** ** Places of exposure *)

(** The innermost enclosing context in which names can be looked up. *)
Definition nearest_context (u : unit) (i p : nat) : Prop :=
  exists l1 l2, u_contexts u i = l1 ++ p :: l2 /\ u_lookup u p = true /\ forall q, In q l1 -> u_lookup u q = false.

(** Attributes resulting from the annotations of a declaration itself. *)
Definition own_attributes (u : unit) (i : nat) (a : attrs) : Prop :=
  exists st ds, AnnotModel.insert (u_decls u) i [] = Some (st, ds) /\ lookup_attrs st i = Some a.

(** Alias [a] of the class or enumeration [t] whose annotations count, with
    attributes [x]. *)
Definition alias_of (u : unit) (a t : nat) (x : attrs) : Prop :=
  In a (source_order u) /\ kind u a = KTypedef /\ counts u a /\ d_target (u_decls u a) = Some t /\ own_attributes u a x.

(** ... annotated with [expose_here]; with [encourage]. *)
Definition relocates (u : unit) (a t : nat) : Prop := exists x, alias_of u a t x /\ t_expose_here (at_typedef x) = true.
Definition encourages (u : unit) (a t : nat) : Prop := exists x, alias_of u a t x /\ t_encourage (at_typedef x) = true.

(** Context [c] is to be exposed inside of [p]. *)
Definition place (u : unit) (p c : nat) : Prop :=
  (exists a, relocates u a c /\ nearest_context u a p) \/
  ((forall a, ~ relocates u a c) /\ In c (source_order u) /\ context_kind (kind u c) /\ d_skip (u_decls u c) = false /\ nearest_context u c p).

(** Facts about translation units that hold by construction of the language. *)
Record placed (u : unit) : Prop := {
  pl_sane : sane u;
  (* the translation unit is not a named declaration and encloses all others *)
  pl_root_kind : kind u (u_root u) = KOther;
  pl_root_lookup : u_lookup u (u_root u) = true;
  pl_root : forall i, In i (source_order u) -> In (u_root u) (u_contexts u i);
  (* the target of an alias outside of templates is a complete class or enumeration, and not dependent *)
  pl_target : forall a t, In a (source_order u) -> kind u a = KTypedef -> counts u a -> d_target (u_decls u a) = Some t ->
     is_tag_kind (kind u t) = true /\ d_skip (u_decls u t) = false
}.

(** ** Paths *)

(** [l] leads from its first element to the root, from child to parent. *)
Inductive path (E : nat -> nat -> Prop) (root : nat) : list nat -> Prop :=
| path_root : path E root [root]
| path_step p c l : path E root (p :: l) -> E p c -> path E root (c :: p :: l).

Definition edge (g : graph) (p c : nat) : Prop := In (p, c) (g_edges g).

(** Trees, except that some nodes may be detached from the root. *)
Record tree_like (g : graph) (root : nat) : Prop := {
  tl_parents : NoDup (map snd (g_edges g));
  tl_root : ~ In root (map snd (g_edges g));
  tl_nodes : NoDup (g_nodes g);
  tl_root_node : In root (g_nodes g);
  tl_ends : forall p c, edge g p c -> In p (g_nodes g) /\ In c (g_nodes g)
}.

Definition reachable (g : graph) (root n : nat) : Prop := exists l, path (edge g) root (n :: l).

(** Attributes that differ at most in name and visibility. *)
Definition same_but_named (y z : attrs) : Prop := exists n, y = set_named (fun _ => n) z.

(** ** Effective visibility *)

Definition explicit (st : storage) (n : nat) (v : bool) : Prop :=
  exists a, lookup_attrs st n = Some a /\ n_visible (at_named a) = Some v.

(** A context with explicit visibility or restricted access decides. *)
Definition decided (u : unit) (st : storage) (n : nat) (v : bool) : Prop :=
  explicit st n v \/ ((forall w, ~ explicit st n w) /\ u_hidden_access u n = true /\ v = false).

(** Visibility of the first element of [l], the others being its ancestors. *)
Definition visible_along (u : unit) (st : storage) (l : list nat) (v : bool) : Prop :=
  (exists l1 n l2, l = l1 ++ n :: l2 /\ decided u st n v /\ forall m w, In m l1 -> ~ decided u st m w) \/
  (v = false /\ forall m w, In m l -> ~ decided u st m w).

(** ** Python scopes *)

(** Annotated namespaces that are not modules. *)
Definition transparent (u : unit) (st : storage) (n : nat) : Prop :=
  kind u n = KNamespace /\ exists a, lookup_attrs st n = Some a /\ ns_module (at_namespace a) = false.

(** ** Contexts with something to expose *)

Section Content.
  Variables (u : unit) (st : storage) (found : nat -> list nat) (implicit : nat -> bool) (visible : nat -> bool) (g : graph).

  Definition tag (n : nat) : Prop := kind u n = KRecord \/ kind u n = KEnum.

  (** Visible class or enumeration, or visible declaration of another kind. *)
  Definition shows (n : nat) : Prop :=
    (exists c, edge g n c /\ tag c /\ visible c = true) \/
    (exists d, In d (found n) /\ implicit d = false /\ (explicit st d true \/ ((forall w, ~ explicit st d w) /\ visible n = true))).

  (** [m] is [n] or nested in it, not counting what is inside of hidden classes. *)
  Inductive within : nat -> nat -> Prop :=
  | within_self n : within n n
  | within_child n c m : edge g n c -> ~ (tag c /\ visible c = false) -> within c m -> within n m.

  Definition has_content (n : nat) : Prop := exists m, within n m /\ shows m.
End Content.

(** ** Namespaces for other modules *)

Definition foreign (u : unit) (st : storage) (module_name : str) (n : nat) : Prop :=
  kind u n = KNamespace /\ exists a, lookup_attrs st n = Some a /\ ns_only_expose_in (at_namespace a) <> [] /\
    ~ In module_name (ns_only_expose_in (at_namespace a)).

(** ** Nesting *)

(** Contexts are nested properly. *)
Definition well_nested (u : unit) : Prop := exists rank : nat -> nat, forall c p, nearest_context u c p -> rank p < rank c.

(** Enclosing contexts are looked at, too. *)
Definition no_orphans (u : unit) : Prop := forall p c, place u p c -> p = u_root u \/ exists q, place u q p.

(** At least one step from [n] to [m]. *)
Inductive leads (E : nat -> nat -> Prop) : nat -> nat -> list nat -> Prop :=
| leads_one n m : E n m -> leads E n m [m]
| leads_more n c m l : E n c -> leads E c m l -> leads E n m (c :: l).

(** ** Pruning *)

(** Visible class or enumeration, or non-empty namespace. *)
Definition preserved (u : unit) (contexts : list nat) (visible : nat -> bool) (n : nat) : Prop :=
  (tag u n /\ visible n = true) \/ (~ tag u n /\ In n contexts).

(** What a table of visibilities says. *)
Definition lookup_vis (vis : dmap bool) (n : nat) : bool := match dlookup vis n with Some b => b | None => false end.

(** Everything on the way to the root is to be preserved. *)
Definition kept_path (u : unit) (contexts : list nat) (vis : dmap bool) (g : graph) (l : list nat) : Prop :=
  path (edge g) (u_root u) l /\ forall m, In m l -> preserved u contexts (lookup_vis vis) m.
