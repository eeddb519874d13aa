(** * Specification of what hiding a single declaration changes *)
From Verif Require Import Base ParserModel AnnotModel AnnotSpec CollectModel GraphModel GraphSpec OrderModel InlineModel EmitModel EmitSpec ModuleModel ModuleSpec LocalSpec.

(** Functions, data members, variables and enumerators: neither contexts, nor
    aliases, nor constructors, nor operators. *)
Definition leaf (u : unit) (i : nat) : Prop :=
  match kind u i with
  | KField | KVar | KFunction NoOperator | KFunction CallOperator | KMethod NoOperator | KMethod CallOperator | KOther => True
  | _ => False
  end.

(** Neither manual bindings, nor accessors of properties. *)
Definition bound_by_itself (a : attrs) : Prop :=
  f_manual (at_field a) = None /\ m_getter_for (at_method a) = [] /\ m_setter_for (at_method a) = [].

(** The same attributes, except that the declaration is hidden. *)
Definition hidden (a a' : attrs) : Prop :=
  n_visible (at_named a') = Some false /\ n_spelling (at_named a') = n_spelling (at_named a) /\
  at_namespace a' = at_namespace a /\ at_enum a' = at_enum a /\ at_record a' = at_record a /\ at_typedef a' = at_typedef a /\
  at_field a' = at_field a /\ at_method a' = at_method a /\ at_implicit_conversion a' = at_implicit_conversion a /\ at_function a' = at_function a.

Definition others (i : nat) (l : list nat) : list nat := filter (fun d => negb (Nat.eqb d i)) l.

(** Contexts in which [i] is found have something else to expose. *)
Definition accompanied (u : unit) (found : nat -> list nat) (implicit : nat -> bool) (i : nat) : Prop :=
  forall b visible, build_graph u = Done (true, b) ->
    (forall n l, path (edge (bs_graph b)) (u_root u) (n :: l) -> (visible n = true <-> visible_along u (bs_annotations b) (n :: l) true)) ->
    forall n, reachable (bs_graph b) (u_root u) n -> In i (found n) ->
      shows u (bs_annotations b) (fun c => others i (found c)) implicit visible (bs_graph b) n.

(** The statement binds [i]. *)
Definition binds (i : nat) (s : stmt) : bool :=
  match s with
  | SVariable _ j | SFunction _ _ j _ _ | SInit j _ _ _ | SOperator _ j _ | SMember _ _ _ j | SValue _ j => Nat.eqb j i
  | _ => false
  end.

(** The report is about a parameter of [i]. *)
Definition concerns (i : nat) (r : ereport) : bool := match r with ETrailingParameters f _ => Nat.eqb f i | _ => false end.

Definition unbound (i : nat) (body : list stmt) : list stmt := filter (fun s => negb (binds i s)) body.
Definition unconcerned (i : nat) (rs : list ereport) : list ereport := filter (fun r => negb (concerns i r)) rs.

Definition unbound_item (i : nat) (m : item) : item :=
  match m with IDefine id p body => IDefine id p (unbound i body) | m => m end.

(** The second run has the result of the first one without the bindings of [i]. *)
Definition same_without (i : nat) (r r' : run_result) : Prop :=
  match r, r' with
  | RStopped, RStopped => True
  | RGraph b (ECycle c), RGraph b' (ECycle c') => c' = c /\ bs_reports b' = bs_reports b
  | RGraph b (EWritten files rs _), RGraph b' (EWritten files' rs' _) =>
      files' = map (map (unbound_item i)) files /\ rs' = unconcerned i rs /\ bs_reports b' = bs_reports b
  | _, _ => False
  end.
