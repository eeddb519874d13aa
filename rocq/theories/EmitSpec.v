(** * Specification of the bindings emitted for one context *)
From Coq Require Import Sorting.Sorted.
From Verif Require Import Base ParserModel AnnotModel CollectModel GraphModel GraphSpec InlineModel EmitModel.

(** ** Visibility *)

(** Explicit visibility or, without one, the one of the context. *)
Definition shown (dv : bool) (a : attrs) : Prop := n_visible (at_named a) = Some true \/ (n_visible (at_named a) = None /\ dv = true).

(** ** Parameters *)

(** Parameters for which there is a descriptor. *)
Definition is_ordinary (p : param) : bool := match pm_variadic p with None => true | Some _ => false end.
Definition is_kwargs (p : param) : bool := match pm_variadic p with Some Kwargs => true | _ => false end.
Definition described_params (ps : list param) : list param := filter is_ordinary (take_while (fun p => negb (is_kwargs p)) ps).

(** Descriptors; positions are those among the described parameters. *)
Definition describes (a : function_attrs) (ps : list param) (args : list arg) : Prop :=
  length args = length (described_params ps) /\
  forall k p g, nth_error (described_params ps) k = Some p -> nth_error args k = Some g ->
    ar_name g = pm_name p /\ ar_default g = pm_default p /\
    (ar_noconvert g = true <-> In k (fn_noconvert a)) /\ (ar_required g = true <-> In k (fn_required a)).

(** The parameter at position [k] is keyword-variadic and the last such one
    before the first ordinary parameter that follows one. *)
Definition trailing (ps : list param) (k : nat) : Prop :=
  exists l1 p l2 q l3, ps = l1 ++ p :: l2 ++ q :: l3 /\ length l1 = k /\ is_kwargs p = true /\ is_ordinary q = true /\
    (forall r, In r l2 -> is_ordinary r = false /\ is_kwargs r = false) /\
    (forall m1 m m2 r, l1 = m1 ++ m :: m2 -> is_kwargs m = true -> In r m2 -> is_ordinary r = false).

(** ** Names *)
Definition called (u : unit) (a : attrs) (i : nat) (fallback n : str) : Prop :=
  (n_spelling (at_named a) <> [] /\ n = n_spelling (at_named a)) \/
  (n_spelling (at_named a) = [] /\ fallback <> [] /\ n = fallback) \/
  (n_spelling (at_named a) = [] /\ fallback = [] /\ n = u_name u i).

(** ** What is bound for a declaration *)

Definition is_property (a : attrs) : Prop := m_getter_for (at_method a) <> [] \/ m_setter_for (at_method a) <> [].

(** Ordinary functions, methods, call operators, conversion functions. *)
Inductive bound_function (u : unit) (x : extra) (i : nat) (a : attrs) : stmt -> Prop :=
| bound_def static n args :
    supports_function (u_decls u i) = true -> kind u i <> KConstructor ->
    (supports_method (u_decls u i) = true -> ~ is_property a) ->
    fi_deleted (x_fn x i) = false ->
    called u a i (match fi_operator (x_fn x i) with Some OCall => $"__call__" | _ => [] end) n ->
    (static = true <-> (exists o, kind u i = KMethod o \/ kind u i = KConversion) /\ d_static (u_decls u i) = true) ->
    describes (at_function a) (fi_params (x_fn x i)) args ->
    bound_function u x i a (SFunction static n i args (at_function a)).

Inductive bound_alias (u : unit) (x : extra) (i : nat) (a : attrs) : stmt -> Prop :=
| bound_attr v n t :
    kind u i = KTypedef -> n_visible (at_named a) = Some v -> t_expose_here (at_typedef a) = false -> x_tag x i = Some t -> called u a i [] n ->
    bound_alias u x i a (SAlias n t).

(** In namespaces and at global scope. *)
Inductive bound_in_namespace (u : unit) (x : extra) (i : nat) (a : attrs) : stmt -> Prop :=
| ns_function s : bound_function u x i a s -> bound_in_namespace u x i a s
| ns_alias s : bound_alias u x i a s -> bound_in_namespace u x i a s
| ns_variable n : kind u i = KVar -> f_manual (at_field a) = None -> called u a i [] n -> bound_in_namespace u x i a (SVariable n i)
| ns_manual l : kind u i = KVar \/ kind u i = KField -> f_manual (at_field a) = Some l -> f_postamble (at_field a) = false -> bound_in_namespace u x i a (SManual l).

Inductive bound_in_enum (u : unit) (x : extra) (i : nat) (a : attrs) : stmt -> Prop :=
| enum_value n : x_enumerator x i = true -> called u a i [] n -> bound_in_enum u x i a (SValue n i).

(** Operands of an operator used with class [r]. *)
Definition operands (u : unit) (x : extra) (r i : nat) (types : list type) : Prop :=
  exists params, params = map pm_type (fi_params (x_fn x i)) /\
    ((kind u i = KFunction OtherOperator /\ types = params) \/
     (kind u i = KMethod OtherOperator /\ types = mkType (CRecord r) (fi_const (x_fn x i)) true :: params)).

Inductive bound_in_record (u : unit) (x : extra) (r i : nat) (a : attrs) : stmt -> Prop :=
| rec_function s : supports_operator (u_decls u i) = false -> bound_function u x i a s -> bound_in_record u x r i a s
| rec_alias s : bound_alias u x i a s -> bound_in_record u x r i a s
| rec_manual l : kind u i = KVar \/ kind u i = KField -> f_manual (at_field a) = Some l -> bound_in_record u x r i a (SManual l)
| rec_member static readonly n :
    (kind u i = KField /\ static = false) \/ (kind u i = KVar /\ static = true) -> f_manual (at_field a) = None -> called u a i [] n ->
    (readonly = true <-> x_const x i = true \/ f_readonly (at_field a) = true) ->
    bound_in_record u x r i a (SMember static readonly n i)
| rec_init args :
    kind u i = KConstructor -> fi_move (x_fn x i) = false -> fi_deleted (x_fn x i) = false -> x_abstract x r = false ->
    describes (at_function a) (fi_params (x_fn x i)) args ->
    bound_in_record u x r i a (SInit i (map pm_type (fi_params (x_fn x i))) args (at_function a))
| rec_convertible p ps :
    kind u i = KConstructor -> fi_move (x_fn x i) = false -> fi_deleted (x_fn x i) = false -> x_abstract x r = false ->
    at_implicit_conversion a = true -> fi_params (x_fn x i) = p :: ps ->
    bound_in_record u x r i a (SConvertible (Some (pm_type p)) r)
| rec_print n :
    kind u i = KFunction OtherOperator -> fi_operator (x_fn x i) = Some OLessLess -> fi_deleted (x_fn x i) = false ->
    fi_pointee (x_fn x i) = Named true -> n_spelling (at_named a) = n -> n <> [] ->
    bound_in_record u x r i a (SPrint n r)
| rec_operator k types n l :
    fi_operator (x_fn x i) = Some k -> fi_deleted (x_fn x i) = false -> supports_operator (u_decls u i) = true ->
    ~ (k = OLessLess /\ kind u i = KFunction OtherOperator /\ fi_pointee (x_fn x i) = Named true) ->
    never_emitted k = false -> operands u x r i types -> ~ (length types = 1 /\ (k = OStar \/ k = OAmp)) ->
    l = mkLambda (match types with [lhs; rhs] => if core_eqb (ty_core lhs) (CRecord r) then [lhs; rhs] else [rhs; lhs] | _ => types end)
          (fi_result (x_fn x i)) k (match types with [lhs; rhs] => if core_eqb (ty_core lhs) (CRecord r) then [Lhs; Rhs] else [Rhs; Lhs] | _ => [Lhs] end) ->
    n = (match types with lhs :: _ :: _ => binary_name k (negb (core_eqb (ty_core lhs) (CRecord r))) | _ => unary_name k end) ->
    bound_in_record u x r i a (SOperator n i l).

Definition bound (u : unit) (x : extra) (e : exposer) (i : nat) (a : attrs) : stmt -> Prop :=
  match e with
  | XContext | XNamespace _ => bound_in_namespace u x i a
  | XEnum _ => bound_in_enum u x i a
  | XRecord r _ => bound_in_record u x r i a
  end.

(** ** What is emitted and reported for a declaration *)

Definition emitted_for (u : unit) (x : extra) (e : exposer) (dv : bool) (st : storage) (i : nat) (s : stmt) : Prop :=
  exists a, lookup_attrs st i = Some a /\ shown dv a /\ bound u x e i a s.

Definition binds_function (f : nat) (s : stmt) : Prop :=
  (exists static n args a, s = SFunction static n f args a) \/ (exists types args a, s = SInit f types args a).

Definition trailing_report (u : unit) (x : extra) (e : exposer) (dv : bool) (st : storage) (i : nat) (r : ereport) : Prop :=
  exists k s, emitted_for u x e dv st i s /\ binds_function i s /\ trailing (fi_params (x_fn x i)) k /\ r = ETrailingParameters i k.

(** Reports about the annotations of a declaration for which nothing has been stored yet. *)
Definition annotation_report (u : unit) (st : storage) (i : nat) (d : diag) : Prop :=
  (lookup_attrs st i = None \/ d_skip (u_decls u i) = true) /\ exists st' ds, insert (u_decls u) i [] = Some (st', ds) /\ In d ds.

(** ** Consistency of what clang says *)

Record consistent (u : unit) (x : extra) (i : nat) : Prop := {
  (* the same parameters *)
  cs_params : d_params (u_decls u i) = map pm_name (fi_params (x_fn x i));
  (* operators have one or two operands, including the object for methods *)
  cs_operator : supports_operator (u_decls u i) = true -> exists k, fi_operator (x_fn x i) = Some k /\ k <> OCall /\
    (never_emitted k = false -> forall types r, operands u x r i types -> length types = 1 \/ length types = 2)
}.

(** Declarations found in the right kind of context. *)
Definition in_place (u : unit) (e : exposer) (i : nat) : Prop :=
  match e with
  | XRecord _ _ => kind u i = KVar -> d_global (u_decls u i) = false
  | _ => kind u i <> KField /\ kind u i <> KConstructor
  end.

(** ** Properties *)

(** Uses of methods as getters ([false]) or setters ([true]). *)
Definition uses := list (nat * bool * str).
Definition users (us : uses) (n : str) (setter : bool) : list nat :=
  map (fun t => fst (fst t)) (filter (fun t => Bool.eqb (snd (fst t)) setter && str_eqb (snd t) n) us).
Definition last_of (l : list nat) : option nat := match rev l with [] => None | m :: _ => Some m end.

(** Order of strings: prefixes first, otherwise the first difference decides. *)
Inductive str_lt : str -> str -> Prop :=
| Lt_prefix p c r : str_lt p (p ++ c :: r)
| Lt_first p c d r t : (code c < code d)%N -> str_lt (p ++ c :: r) (p ++ d :: t).

(** Uses by one method: names in order, without duplicates, getters first. *)
Definition uses_by (m : nat) (a : method_attrs) (us : uses) : Prop :=
  exists gs ss, StronglySorted str_lt gs /\ (forall n, In n gs <-> In n (m_getter_for a)) /\
    StronglySorted str_lt ss /\ (forall n, In n ss <-> In n (m_setter_for a)) /\
    us = map (fun n => (m, false, n)) gs ++ map (fun n => (m, true, n)) ss.

(** Uses by a declaration: only by exposed methods, in classes. *)
Definition method_uses (u : unit) (e : exposer) (dv : bool) (st : storage) (i : nat) (us : uses) : Prop :=
  (forall r p a, e = XRecord r p -> lookup_attrs st i = Some a -> shown dv a -> supports_method (u_decls u i) = true -> uses_by i (at_method a) us) /\
  ((~ exists r p a, e = XRecord r p /\ lookup_attrs st i = Some a /\ shown dv a /\ supports_method (u_decls u i) = true) -> us = []).

(** ** Operators in Python *)

(** Python expressions by which a special method is invoked: the operator and
    whether the object whose method it is is the left operand.  Python data
    model, 3.3.1 (comparisons) and 3.3.8 (numeric types). *)
Inductive pyform := Unary (symbol : opkind) | Binary (symbol : opkind) (self_left : bool).

Definition special_methods : list (string * list pyform) :=
  [("__pos__", [Unary OPlus]); ("__neg__", [Unary OMinus]); ("__invert__", [Unary OTilde]);
   ("__add__", [Binary OPlus true]); ("__radd__", [Binary OPlus false]); ("__iadd__", [Binary OPlusEqual true]);
   ("__sub__", [Binary OMinus true]); ("__rsub__", [Binary OMinus false]); ("__isub__", [Binary OMinusEqual true]);
   ("__mul__", [Binary OStar true]); ("__rmul__", [Binary OStar false]); ("__imul__", [Binary OStarEqual true]);
   ("__truediv__", [Binary OSlash true]); ("__rtruediv__", [Binary OSlash false]); ("__itruediv__", [Binary OSlashEqual true]);
   ("__mod__", [Binary OPercent true]); ("__rmod__", [Binary OPercent false]); ("__imod__", [Binary OPercentEqual true]);
   ("__xor__", [Binary OCaret true]); ("__rxor__", [Binary OCaret false]); ("__ixor__", [Binary OCaretEqual true]);
   ("__and__", [Binary OAmp true]); ("__rand__", [Binary OAmp false]); ("__iand__", [Binary OAmpEqual true]);
   ("__or__", [Binary OPipe true]); ("__ror__", [Binary OPipe false]); ("__ior__", [Binary OPipeEqual true]);
   ("__lshift__", [Binary OLessLess true]); ("__rlshift__", [Binary OLessLess false]); ("__ilshift__", [Binary OLessLessEqual true]);
   ("__rshift__", [Binary OGreaterGreater true]); ("__rrshift__", [Binary OGreaterGreater false]); ("__irshift__", [Binary OGreaterGreaterEqual true]);
   ("__lt__", [Binary OLess true; Binary OGreater false]); ("__gt__", [Binary OGreater true; Binary OLess false]);
   ("__le__", [Binary OLessEqual true; Binary OGreaterEqual false]); ("__ge__", [Binary OGreaterEqual true; Binary OLessEqual false]);
   ("__eq__", [Binary OEqualEqual true; Binary OEqualEqual false]); ("__ne__", [Binary OExclaimEqual true; Binary OExclaimEqual false])]%string.

Definition invoked_by (n : str) (f : pyform) : Prop := exists s fs, In (s, fs) special_methods /\ n = list_ascii_of_string s /\ In f fs.

(** Value of the lambda for the object and the other operand; [meaning]: value
    of C++ expressions. *)
Definition run_lambda {V} (meaning : opkind -> list V -> V) (l : lambda) (self other : V) : V :=
  meaning (la_operator l) (map (fun n => match n with Lhs => self | Rhs => other end) (la_operands l)).

(** [a < b] may stand for [b > a], and so on. *)
Definition mirrored (k : opkind) : option opkind :=
  match k with
  | OLess => Some OGreater | OGreater => Some OLess | OLessEqual => Some OGreaterEqual | OGreaterEqual => Some OLessEqual
  | OEqualEqual => Some OEqualEqual | OExclaimEqual => Some OExclaimEqual
  | _ => None
  end.

(** Types of the operands of the C++ expression. *)
Definition operand_type (l : lambda) (n : name) : option type :=
  match n, la_types l with Lhs, t :: _ => Some t | Rhs, _ :: t :: _ => Some t | _, _ => None end.

(** Python evaluates [form] by calling the lambda with the object and the other
    operand; this is the C++ expression with the same operator and operands, or
    the equivalent mirrored comparison. *)
Definition computes {V} (meaning : opkind -> list V -> V) (l : lambda) (form : pyform) : Prop :=
  match form with
  | Unary k => forall self other, run_lambda meaning l self other = meaning k [self]
  | Binary k self_left => forall self other,
      let a := if self_left then self else other in
      let b := if self_left then other else self in
      run_lambda meaning l self other = meaning k [a; b] \/
      exists k', mirrored k = Some k' /\ run_lambda meaning l self other = meaning k' [b; a]
  end.

Definition symbol (form : pyform) : opkind := match form with Unary k | Binary k _ => k end.
Definition arity (form : pyform) : nat := match form with Unary _ => 1 | Binary _ _ => 2 end.

(** Kinds of operators that update their left operand. *)
Definition compound_assignment (k : opkind) : bool :=
  match k with
  | OPlusEqual | OMinusEqual | OStarEqual | OSlashEqual | OPercentEqual | OCaretEqual | OAmpEqual | OPipeEqual | OLessLessEqual | OGreaterGreaterEqual => true
  | _ => false
  end.

(** Kinds that can be overloaded with one resp. two operands. *)
Definition possible_unary (k : opkind) : bool :=
  match k with OPlus | OMinus | OStar | OAmp | OTilde | OExclaim | OPlusPlus | OMinusMinus | OArrow | OCoawait => true | _ => false end.
Definition possible_binary (k : opkind) : bool :=
  match k with
  | ONew | ODelete | OArrayNew | OArrayDelete | OTilde | OExclaim | OArrow | OCall | OConditional | OCoawait => false
  | _ => true
  end.

(** ** Faithful storage *)

(** The attributes stored for declarations other than classes and enumerations
    are those of their own annotations (those of classes and enumerations may
    have been changed by aliases). *)
Definition faithful (u : unit) (st : storage) : Prop :=
  forall i a, is_tag_kind (kind u i) = false -> lookup_attrs st i = Some a -> own_attributes u i a.

(** The declarations a statement is about. *)
Definition mentions (s : stmt) (i : nat) : Prop :=
  match s with
  | SVariable _ j | SFunction _ _ j _ _ | SInit j _ _ _ | SOperator _ j _ | SMember _ _ _ j | SValue _ j => i = j
  | SProperty _ g m => i = g \/ m = Some i
  | _ => False
  end.

Definition has_arguments (s : stmt) (f : nat) (args : list arg) : Prop :=
  (exists static n a, s = SFunction static n f args a) \/ (exists types a, s = SInit f types args a).

(** The language allows an operator of this kind with this number of operands. *)
Definition overloadable (u : unit) (x : extra) (f : nat) : Prop :=
  forall k r types, fi_operator (x_fn x f) = Some k -> operands u x r f types ->
    match length types with 1 => possible_unary k = true | 2 => possible_binary k = true | _ => True end.

(** The class of the first parameter of a free shift operator has a name. *)
Definition first_class_named (u : unit) (x : extra) (i : nat) : Prop :=
  kind u i = KFunction OtherOperator -> fi_operator (x_fn x i) = Some OLessLess -> fi_pointee (x_fn x i) <> Unnamed.

(** ** Operators in associated namespaces *)

(** Free operators with an operand of the class that are found by argument
    dependent lookup.  The three-way comparison has no counterpart in Python. *)
Definition associated (x : extra) (r i : nat) : Prop :=
  (exists k j, In j (x_adl x r k) /\ In i (expand x j) /\ (k = OSpaceship \/ exists n form, invoked_by n form /\ symbol form = k)) /\
  exists p, In p (fi_params (x_fn x i)) /\ ty_core (pm_type p) = CRecord r.

(** Specialisations are not templates themselves. *)
Definition templates_once (x : extra) : Prop := forall i l j, x_specializations x i = Some l -> In j l -> x_specializations x j = None.

(** The Python expression with the operands of the C++ operator in place. *)
Definition corresponds (r : nat) (k : opkind) (types : list type) (form : pyform) : Prop :=
  symbol form = k /\ arity form = length types /\
  match form, types with Binary _ self_left, t :: _ => (self_left = true <-> ty_core t = CRecord r) | _, _ => True end.
