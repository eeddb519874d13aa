(** * Specification of Python expressions with operators *)
From Verif Require Import Base ParserModel AnnotModel AnnotSpec CollectModel CollectSpec GraphModel GraphSpec EmitModel EmitSpec ModuleModel ModuleSpec ImportSpec ExecSpec AccessSpec DispatchSpec.

(** ** Python *)

Definition opkind_dec (a b : opkind) : {a = b} + {a <> b}.
Proof. decide equality. Defined.
Definition opkind_eqb (a b : opkind) : bool := if opkind_dec a b then true else false.
Definition form_eqb (a b : pyform) : bool :=
  match a, b with
  | Unary k, Unary l => opkind_eqb k l
  | Binary k s, Binary l t => opkind_eqb k l && Bool.eqb s t
  | _, _ => false
  end.

(** Name of the special method called for a form of expression. *)
Definition method_for (form : pyform) : option str :=
  option_map (fun e => list_ascii_of_string (fst e)) (find (fun e => existsb (form_eqb form) (snd e)) special_methods).

Definition is_comparison (k : opkind) : bool := match mirrored k with Some _ => true | None => false end.

(** [x += y] falls back to [x = x + y]. *)
Definition updating (k : opkind) : option opkind :=
  match k with
  | OPlusEqual => Some OPlus | OMinusEqual => Some OMinus | OStarEqual => Some OStar | OSlashEqual => Some OSlash | OPercentEqual => Some OPercent
  | OCaretEqual => Some OCaret | OAmpEqual => Some OAmp | OPipeEqual => Some OPipe | OLessLessEqual => Some OLessLess | OGreaterGreaterEqual => Some OGreaterGreater
  | _ => None
  end.

Section Expressions.
(** [class_of]: the generated class of an object; [foreign]: special methods of other
    objects that do not return [NotImplemented]. *)
Context {V : Type} (is_none : V -> bool) (default : nat -> nat -> V) (accepts : stmt -> nat -> bool -> V -> bool) (x : extra).
Context (mro : nat -> list nat) (p : pystate) (class_of : V -> option nat) (foreign : str -> V -> list V -> bool).

(** What a special method returns; only functions bound with
    [pybind11::is_operator] return [NotImplemented] if no overload suits. *)
Inductive py_result := Called (t : stmt) (bi : binding V) | Elsewhere | NotImplemented | Raises.

Definition is_operator (s : stmt) : bool := match s with SOperator _ _ _ => true | _ => false end.

Definition attempt (form : pyform) (self : V) (others : list V) : py_result :=
  match method_for form with
  | None => NotImplemented
  | Some n =>
      match class_of self with
      | None => if foreign n self others then Elsewhere else NotImplemented
      | Some r =>
          match getattr mro p (Class r) n with
          | None => NotImplemented
          | Some (MFunction _ l) =>
              match dispatch is_none default accepts x (Class r) l (self :: others) [] with
              | Some (t, bi) => Called t bi
              | None => if match l with s :: _ => is_operator s | [] => false end then NotImplemented else Raises
              end
          | Some _ => Raises
          end
      end
  end.

Definition orelse (a b : py_result) : py_result := match a with NotImplemented => b | _ => a end.

Definition same_class (a b : V) : bool := match class_of a, class_of b with Some r, Some s => Nat.eqb r s | None, None => true | _, _ => false end.

(** The class of [b] is derived from that of [a]. *)
Definition more_special (a b : V) : bool := match class_of a, class_of b with Some r, Some s => negb (Nat.eqb r s) && existsb (Nat.eqb r) (mro s) | _, _ => false end.

(** The class a method is found in. *)
Definition provider (r : nat) (n : str) : option nat := find (fun c => match own p (Class c) n with Some _ => true | None => false end) (r :: mro r).
Definition provides_another (form : pyform) (a b : V) : bool :=
  match method_for form, class_of a, class_of b with
  | Some n, Some r, Some s => negb (match provider r n, provider s n with Some c, Some d => Nat.eqb c d | None, None => true | _, _ => false end)
  | _, _, _ => false
  end.

(** Python data model, 3.3.1 and 3.3.8: methods of the right operand have priority if
    its class is derived from that of the left one; for operators other than
    comparisons, if the method is another one, and they are not tried for operands of
    the same class. *)
Definition binary_expression (k : opkind) (a b : V) : py_result :=
  let left := attempt (Binary k true) a [b] in
  let right := attempt (Binary k false) b [a] in
  if is_comparison k then (if more_special a b then orelse right left else orelse left right)
  else if same_class a b then left
  else if more_special a b && provides_another (Binary k false) a b then orelse right left else orelse left right.

Definition evaluate (k : opkind) (a b : V) : py_result :=
  match updating k with
  | Some k' => orelse (attempt (Binary k true) a [b]) (binary_expression k' a b)
  | None => binary_expression k a b
  end.

Definition evaluate_unary (k : opkind) (a : V) : py_result := attempt (Unary k) a [].
End Expressions.

Arguments py_result : clear implicits.

(** ** What is expected *)

(** Operands are passed according to their type. *)
Definition by_type {V} (pass : type -> bool -> V -> bool) (rest : stmt -> nat -> bool -> V -> bool) (s : stmt) (k : nat) (convert : bool) (v : V) : bool :=
  match s with
  | SOperator _ _ l => match nth_error (la_types l) k with Some t => pass t convert v | None => false end
  | _ => rest s k convert v
  end.

(** [i] is a visible operator with operands of these types, considered for class [r]. *)
Record operator_of (u : unit) (w : facts) (b : bstate) (name : str) (r i : nat) (k : opkind) (types : list type) : Prop := {
  op_class : kind u r = KRecord;
  op_declared : declared_in u w b r i;
  op_visible : visible_in u b name r i;
  op_kind : supports_operator (u_decls u i) = true;
  op_symbol : fi_operator (x_fn (w_extra w) i) = Some k;
  op_callable : fi_deleted (x_fn (w_extra w) i) = false;
  op_print : ~ (k = OLessLess /\ kind u i = KFunction OtherOperator /\ fi_pointee (x_fn (w_extra w) i) = Named true);
  op_operands : operands u (w_extra w) r i types
}.

(** The C++ operator called for a Python expression with two operands [a] and [b]:
    the same one, the mirrored comparison, or the one [+=] falls back to. *)
Inductive performed_as {V} (k : opkind) (a b : V) : opkind -> V -> V -> Prop :=
| in_order : performed_as k a b k a b
| mirrored_for k' : mirrored k = Some k' -> performed_as k a b k' b a
| updates k' : updating k = Some k' -> performed_as k a b k' a b.

(** Calling [t] is evaluating the C++ operator [k] for these operands, in order,
    passed according to their types [types]. *)
Definition calls {V} (pass : type -> bool -> V -> bool) (t : stmt) (bi : binding V) (i : nat) (k : opkind) (types : list type) (vs : list V) : Prop :=
  exists n l, t = SOperator n i l /\ la_operator l = k /\
    (forall (meaning : opkind -> list V -> V) d, run_lambda meaning l (nth 0 (bi_values bi) d) (nth 1 (bi_values bi) d) = meaning k vs) /\
    exists convert, Forall2 (fun t v => pass t convert v = true) types vs.

(** Attributes named like special methods are those for operators. *)
Definition only_operators (p : pystate) : Prop :=
  forall r n form m, own p (Class r) n = Some m -> invoked_by n form -> exists static s l, m = MFunction static (s :: l) /\ forall t, In t (s :: l) -> is_operator t = true.

(** Manual bindings may remove attributes, but do not set any. *)
Definition defines_nothing (manual : nat -> object -> pystate -> option pystate) : Prop :=
  forall l o p p', manual l o p = Some p' -> forall o' n m, own p' o' n = Some m -> own p o' n = Some m.

(** The expression has a value. *)
Definition returns_value {W} (r : py_result W) : Prop := match r with Called _ _ | Elsewhere => True | _ => False end.

(** The class is that of the left operand, or that of the right operand only, in
    expressions for which Python considers its methods. *)
Definition suitable {V} (class_of : V -> option nat) (r : nat) (k : opkind) (ta : type) (a c : V) : Prop :=
  (ty_core ta = CRecord r /\ class_of a = Some r /\ method_for (Binary k true) <> None) \/
  (ty_core ta <> CRecord r /\ class_of c = Some r /\ (is_comparison k = true \/ same_class class_of a c = false) /\ method_for (Binary k false) <> None).
