(** * Specification of lifetimes of objects *)
From Verif Require Import Base ParserModel AnnotModel AnnotSpec CollectModel CollectSpec GraphModel GraphSpec EmitModel EmitSpec ImportSpec ExecSpec InvalidSpec DispatchSpec.

Section Lifetimes.
(** [tuple], [dict]: what is passed for [pybind11::args] and [pybind11::kwargs];
    [referable]: pybind11 can find out when the object is destroyed, i.e. it is an
    instance of a generated class or supports weak references. *)
Context {V : Type} (is_none : V -> bool) (tuple : list V -> V) (dict : keywords V -> V) (referable : V -> bool) (x : extra).

(** ** keep_alive in pybind11 *)

(** [function_call::args]; for constructors the first one stands for the object to be
    initialised ([init_self]). *)
Definition passed (t : stmt) (b : binding V) : list V :=
  bi_values b ++ (if collects x is_args t then [tuple (bi_args b)] else []) ++ (if collects x is_kwargs t then [dict (bi_kwargs b)] else []).

(** [keep_alive_impl]: [None] is returned if it throws. *)
Definition slot_value (result : option V) (vs : list V) (k : nat) : option V := match k with 0 => result | S j => nth_error vs j end.
Definition activate (result : option V) (vs : list V) (k : nat * nat) : option (list (V * V)) :=
  match slot_value result vs (fst k), slot_value result vs (snd k) with
  | Some v, Some v' => if is_none v || is_none v' then Some [] else if referable v then Some [(v, v')] else None
  | _, _ => None
  end.

(** One after the other, up to the first that throws. *)
Fixpoint activate_all (result : option V) (vs : list V) (ks : list (nat * nat)) : list (V * V) * bool :=
  match ks with
  | [] => ([], true)
  | k :: r => match activate result vs k with Some l => let '(l', ok) := activate_all result vs r in (l ++ l', ok) | None => ([], false) end
  end.

Definition policies (t : stmt) : list (nat * nat) := match t with SFunction _ _ _ _ a | SInit _ _ _ a => fn_keep_alive a | _ => [] end.

(** [keep_alive::precall], [keep_alive::postcall]. *)
Definition early (k : nat * nat) : bool := negb (Nat.eqb (fst k) 0) && negb (Nat.eqb (snd k) 0).

(** A call: the function itself returns [result] or throws.  The pairs of objects of
    which the first keeps the second alive from then on, and what is returned to
    Python, if no exception is raised. *)
Definition called (t : stmt) (b : binding V) (result : option V) : list (V * V) * option V :=
  let '(l, ok) := activate_all None (passed t b) (filter early (policies t)) in
  if ok then
    match result with
    | None => (l, None)
    | Some r => let '(l', ok') := activate_all (Some r) (passed t b) (filter (fun k => negb (early k)) (policies t)) in (l ++ l', if ok' then Some r else None)
    end
  else (l, None).

(** ** Objects *)

(** Objects that have ever existed, those that still exist, and the objects kept
    alive by others. *)
Record heap := mkHeap { hp_seen : V -> Prop; hp_alive : V -> Prop; hp_keeps : V -> V -> Prop }.
Definition nothing : heap := mkHeap (fun _ => False) (fun _ => False) (fun _ _ => False).

(** Objects are created; functions are called; other pairs are registered, e.g.
    because of return value policies; objects are destroyed. *)
Inductive event := ENew (v : V) | ECall (o : object) (t : stmt) (pos : list V) (kw : keywords V) (b : binding V) (result : option V) | EOther (l : list (V * V)) | EDelete (v : V).

Definition pairs (e : event) : list (V * V) :=
  match e with
  | ECall _ t _ _ b result => fst (called t b result)
  | EOther l => l
  | _ => []
  end.

(** Objects are not used in calls before they exist and not destroyed while kept
    alive. *)
Inductive step (h : heap) : event -> heap -> Prop :=
| step_new v : ~ hp_seen h v -> step h (ENew v) (mkHeap (fun a => a = v \/ hp_seen h a) (fun a => a = v \/ hp_alive h a) (hp_keeps h))
| step_keep e : (forall v, e <> ENew v) -> (forall v, e <> EDelete v) -> (forall v v', In (v, v') (pairs e) -> hp_alive h v /\ hp_alive h v') ->
    step h e (mkHeap (hp_seen h) (hp_alive h) (fun v v' => In (v, v') (pairs e) \/ hp_keeps h v v'))
| step_delete v : hp_alive h v -> (forall v', ~ hp_keeps h v' v) ->
    step h (EDelete v) (mkHeap (hp_seen h) (fun a => hp_alive h a /\ a <> v) (fun a a' => hp_keeps h a a' /\ a <> v)).

Inductive steps : heap -> list event -> heap -> Prop :=
| steps_nil h : steps h [] h
| steps_cons h1 e h2 es h3 : step h1 e h2 -> steps h2 es h3 -> steps h1 (e :: es) h3.
End Lifetimes.

Arguments heap : clear implicits.
Arguments event : clear implicits.

(** ** What is expected *)

(** Functions that are called with an object, or are declared outside of classes. *)
Inductive ordinary_function (u : unit) (o : object) (f : nat) : Prop :=
| of_constructor : kind u f = KConstructor -> ordinary_function u o f
| of_method k : kind u f = KMethod k -> d_static (u_decls u f) = false -> in_class o = true -> ordinary_function u o f
| of_conversion : kind u f = KConversion -> d_static (u_decls u f) = false -> in_class o = true -> ordinary_function u o f
| of_function k : kind u f = KFunction k -> in_class o = false -> ordinary_function u o f.

(** Objects the names in annotations stand for in a call: the result, the object the
    function is called for, and the arguments for the parameters. *)
Inductive stands_for {V} (tuple : list V -> V) (dict : keywords V -> V) (default : nat -> nat -> V) (u : unit) (x : extra) (o : object) (f : nat)
    (pos : list V) (kw : keywords V) (b : binding V) (result : option V) : str -> V -> Prop :=
| sf_return v : result = Some v -> stands_for tuple dict default u x o f pos kw b result ($"return") v
| sf_this v : takes_self u o f -> (nth_error pos 0 = Some v \/ (pos = [] /\ In ($"self", v) kw)) -> stands_for tuple dict default u x o f pos kw b result ($"this") v
| sf_parameter n i q v before : first_index (map pm_name (fi_params (x_fn x f))) n i -> nth_error (fi_params (x_fn x f)) i = Some q -> is_ordinary q = true ->
    (takes_self u o f <-> before = 1) -> (~ takes_self u o f <-> before = 0) ->
    source pos kw (before + i) q (default f i) v -> stands_for tuple dict default u x o f pos kw b result n v
| sf_args n i q : first_index (map pm_name (fi_params (x_fn x f))) n i -> nth_error (fi_params (x_fn x f)) i = Some q -> is_args q = true ->
    stands_for tuple dict default u x o f pos kw b result n (tuple (bi_args b))
| sf_kwargs n i q : first_index (map pm_name (fi_params (x_fn x f))) n i -> nth_error (fi_params (x_fn x f)) i = Some q -> is_kwargs q = true ->
    stands_for tuple dict default u x o f pos kw b result n (dict (bi_kwargs b)).

(** keep_alive(n, m) among the annotations. *)
Definition annotated_alive (ans : list annotation) (n m : str) : Prop := exists an, In an ans /\ a_kind an = KeepAlive /\ a_args an = [LString n; LString m].

(** ... and the objects are not None. *)
Definition to_be_kept {V} (is_none : V -> bool) (tuple : list V -> V) (dict : keywords V -> V) (default : nat -> nat -> V) (u : unit) (x : extra) (o : object) (f : nat) (ans : list annotation)
    (pos : list V) (kw : keywords V) (b : binding V) (result : option V) (v v' : V) : Prop :=
  exists n m, annotated_alive ans n m /\ stands_for tuple dict default u x o f pos kw b result n v /\ stands_for tuple dict default u x o f pos kw b result m v' /\
    is_none v = false /\ is_none v' = false.

(** Functions as generated, called with suitable arguments. *)
Record proper_call {V} (is_none : V -> bool) (default : nat -> nat -> V) (accepts : stmt -> nat -> bool -> V -> bool) (u : unit) (x : extra) (p : pystate)
    (o : object) (t : stmt) (f : nat) (ans : list annotation) (pos : list V) (kw : keywords V) (b : binding V) : Prop := {
  pc_function : exists k static l, own p o k = Some (MFunction static l) /\ In t l;
  pc_declaration : function_of t = Some f;
  pc_ordinary : ordinary_function u o f;
  pc_consistent : consistent u x f;
  pc_valid : valid_annotations (u_decls u f);
  pc_annotations : carried (d_attrs (u_decls u f)) ans false;
  pc_variadic : variadic_last (fi_params (x_fn x f));
  pc_names : ~ In ($"return") (map pm_name (fi_params (x_fn x f))) /\ ~ In ($"this") (map pm_name (fi_params (x_fn x f)));
  pc_keywords : proper_keywords kw;
  pc_suits : exists convert, suits is_none default accepts x o convert pos kw t b
}.
