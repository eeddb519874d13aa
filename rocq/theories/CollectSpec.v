(** * Specification of the collection of contexts and annotations *)
From Verif Require Import Base ParserModel AnnotModel AnnotSpec CollectModel.

(** Implementation namespaces are not looked into at all. *)
Definition ignored_namespace (u : unit) (i : nat) : bool :=
  is_namespace_kind (kind u i) && d_skip (u_decls u i).

(** Declarations in source order, without the content of ignored namespaces. *)
Fixpoint order (u : unit) (t : tree) : list nat :=
  match t with
  | Node i ts => if ignored_namespace u i then [] else i :: flat_map (order u) ts
  end.

Definition source_order (u : unit) : list nat := flat_map (order u) (u_top u).

(** [t'] is [t] or lies inside of it. *)
Inductive inside (u : unit) : tree -> tree -> Prop :=
| in_self t : inside u t t
| in_child i ts t t' : ignored_namespace u i = false -> In t ts -> inside u t t' -> inside u (Node i ts) t'.

(** A part of the translation unit that is looked at. *)
Definition part (u : unit) (t : tree) : Prop := exists t0, In t0 (u_top u) /\ inside u t0 t.

(** Declarations whose annotations count. *)
Definition counts (u : unit) (i : nat) : Prop :=
  marked (u_decls u i) /\ u_dependent u i = false /\ ~ (is_tag_kind (kind u i) = true /\ d_skip (u_decls u i) = true).

(** A namespace block that is annotated or contains annotated declarations. *)
Definition relevant_block (u : unit) (n : nat) : Prop :=
  exists ts, part u (Node n ts) /\ kind u n = KNamespace /\ exists j, In j (order u (Node n ts)) /\ counts u j.

Definition precedes (u : unit) (m n : nat) : Prop :=
  exists l1 l2 l3, source_order u = l1 ++ m :: l2 ++ n :: l3.

(** First block of the same namespace that is relevant. *)
Definition first_relevant (u : unit) (n m : nat) : Prop :=
  relevant_block u m /\ u_canonical u m = u_canonical u n /\
  forall m', relevant_block u m' -> u_canonical u m' = u_canonical u n -> m' = m \/ precedes u m m'.

(** Attributes relevant for namespaces, none if the block is not annotated. *)
Definition block_attributes (st : storage) (i : nat) : option (named_attrs * namespace_attrs) :=
  option_map (fun a => (at_named a, at_namespace a)) (lookup_attrs st i).

(** Facts about translation units that hold by construction of the language. *)
Record sane (u : unit) : Prop := {
  sane_nodup : NoDup (source_order u);
  (* a namespace cannot be reopened inside of itself *)
  sane_blocks : forall n ts m, part u (Node n ts) -> In m (flat_map (order u) ts) ->
    kind u n = KNamespace -> kind u m = KNamespace -> u_canonical u n <> u_canonical u m;
  (* only namespaces and tags are ever skipped, lookup_context_collector.h L61-76 *)
  sane_skip : forall i, d_skip (u_decls u i) = true -> is_namespace_kind (kind u i) = true \/ is_tag_kind (kind u i) = true
}.

(** Equality of attributes up to the order of sets. *)
Definition same_set {A} (x y : list A) : Prop := forall a, In a x <-> In a y.

Record same_attrs (d : decl) (a b : attrs) : Prop := {
  sa_named : at_named a = at_named b;
  sa_namespace : is_namespace d = true -> at_namespace a = at_namespace b;
  sa_enum : supports_enum d = true -> at_enum a = at_enum b;
  sa_record : supports_record d = true -> r_dynamic_attr (at_record a) = r_dynamic_attr (at_record b) /\
     same_set (r_hide_base (at_record a)) (r_hide_base (at_record b)) /\ same_set (r_inline_base (at_record a)) (r_inline_base (at_record b)) /\
     r_holder_type (at_record a) = r_holder_type (at_record b);
  sa_typedef : is_typedef d = true -> at_typedef a = at_typedef b;
  sa_field : supports_field d = true -> at_field a = at_field b;
  sa_method : supports_method d = true -> same_set (m_getter_for (at_method a)) (m_getter_for (at_method b)) /\
     same_set (m_setter_for (at_method a)) (m_setter_for (at_method b));
  sa_constructor : supports_constructor d = true -> at_implicit_conversion a = at_implicit_conversion b;
  sa_function : supports_function d = true -> fn_keep_alive (at_function a) = fn_keep_alive (at_function b) /\
     same_set (fn_noconvert (at_function a)) (fn_noconvert (at_function b)) /\ same_set (fn_required (at_function a)) (fn_required (at_function b)) /\
     fn_policy (at_function a) = fn_policy (at_function b)
}.


(** Kinds of declarations that form contexts of their own. *)
Definition context_kind (k : dkind) : Prop := k = KNamespace \/ k = KEnum \/ k = KRecord.

(** [a] occurs before [b]. *)
Definition before {A} (l : list A) (a b : A) : Prop := exists l1 l2 l3, l = l1 ++ a :: l2 ++ b :: l3.
