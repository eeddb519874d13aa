(** * Specification of the values of enumerations in Python *)
From Verif Require Import Base ParserModel AnnotModel AnnotSpec CollectModel GraphModel GraphSpec OrderModel EmitModel EmitSpec ModuleModel ModuleSpec ImportSpec ExecSpec StoreSpec OptionSpec AccessSpec DocSpec.
From Coq Require Import ZArith.

(** ** Values and operators *)

(** Values of enumerations are objects that hold an integer. *)
Inductive pyvalue := PInt (z : Z) | PMember (e : nat) (z : Z) | PNone.
Inductive pyresult := Bool (b : bool) | Int (z : Z) | TypeError.
Inductive reply := Returns (r : pyresult) | NotImplemented.

Inductive comparison := Equal | Different | Less | Greater | AtMost | AtLeast.
Inductive arithmetic_operator := BitAnd | BitOr | BitXor | Plus | Minus | Times.

Definition holds (op : comparison) (a b : Z) : bool :=
  match op with
  | Equal => Z.eqb a b | Different => negb (Z.eqb a b) | Less => Z.ltb a b | Greater => Z.ltb b a | AtMost => Z.leb a b | AtLeast => Z.leb b a
  end.
Definition mirrored (op : comparison) : comparison := match op with Less => Greater | Greater => Less | AtMost => AtLeast | AtLeast => AtMost | _ => op end.
Definition computed (op : arithmetic_operator) (a b : Z) : Z :=
  match op with BitAnd => Z.land a b | BitOr => Z.lor a b | BitXor => Z.lxor a b | Plus => a + b | Minus => a - b | Times => a * b end%Z.

(** ** pybind11 and Python *)

Section Interpreter.
Context (intros : list (str * introducer)) (scoped : nat -> bool).

(** Tag arithmetic() passed for [e]. *)
Definition tagged (e : nat) : bool := existsb (fun i => match snd i with NEnum k _ _ a => Nat.eqb k e && a | _ => false end) intros.

(** int(v) *)
Definition as_int (v : pyvalue) : option Z := match v with PInt z | PMember _ z => Some z | PNone => None end.

Definition int_method (op : comparison) (a : Z) (v : pyvalue) : reply := match v with PInt b => Returns (Bool (holds op a b)) | _ => NotImplemented end.

(** a == v for an integer: int.__eq__, then __eq__ of the other operand, which for
    an integer is compared as integer or, if the enumeration is scoped, different. *)
Definition equals_int (a : Z) (v : pyvalue) : bool :=
  match v with PInt b => Z.eqb a b | PMember e b => if scoped e then false else Z.eqb b a | PNone => false end.

(** pybind11 (enum_base::init): PYBIND11_ENUM_OP_CONV_LHS, PYBIND11_ENUM_OP_CONV for
    enumerations convertible to integers, PYBIND11_ENUM_OP_STRICT for the others.
    Without a method, those of object are used. *)
Definition member_method (op : comparison) (e : nat) (a : Z) (v : pyvalue) : reply :=
  if scoped e then
    match op with
    | Equal => Returns (Bool (match v with PMember k b => Nat.eqb k e && Z.eqb a b | _ => false end))
    | Different => Returns (Bool (match v with PMember k b => if Nat.eqb k e then negb (Z.eqb a b) else true | _ => true end))
    | _ => if tagged e then Returns (match v with PMember k b => if Nat.eqb k e then Bool (holds op a b) else TypeError | _ => TypeError end) else NotImplemented
    end
  else
    match op with
    | Equal => Returns (Bool (equals_int a v))
    | Different => Returns (Bool (match v with PNone => true | _ => negb (equals_int a v) end))
    | _ => if tagged e then Returns (match as_int v with Some b => Bool (holds op a b) | None => TypeError end) else NotImplemented
    end.

Definition none_method (op : comparison) (v : pyvalue) : reply :=
  match op, v with Equal, PNone => Returns (Bool true) | Different, PNone => Returns (Bool false) | _, _ => NotImplemented end.

Definition method (op : comparison) (v v' : pyvalue) : reply :=
  match v with PInt a => int_method op a v' | PMember e a => member_method op e a v' | PNone => none_method op v' end.

(** Python (do_richcompare) for operands of which none is an instance of a subclass
    of the type of the other one. *)
Definition compare (op : comparison) (v v' : pyvalue) : pyresult :=
  match method op v v' with
  | Returns r => r
  | NotImplemented =>
      match method (mirrored op) v' v with
      | Returns r => r
      | NotImplemented => match op with Equal => Bool false | Different => Bool true | _ => TypeError end
      end
  end.

(** pybind11 (enum_base::init): __and__, __or__, __xor__ and the ones with reflected
    operands, which do the same. *)
Definition slot (op : arithmetic_operator) (v v' : pyvalue) : reply :=
  match v with
  | PInt a => match v' with PInt b => Returns (Int (computed op a b)) | _ => NotImplemented end
  | PMember e a =>
      match op with
      | BitAnd | BitOr | BitXor =>
          if negb (scoped e) && tagged e then Returns (match as_int v' with Some b => Int (computed op a b) | None => TypeError end) else NotImplemented
      | _ => NotImplemented
      end
  | PNone => NotImplemented
  end.

Definition combine_values (op : arithmetic_operator) (v v' : pyvalue) : pyresult :=
  match slot op v v' with
  | Returns r => r
  | NotImplemented => match slot op v' v with Returns r => r | NotImplemented => TypeError end
  end.

(** ~v *)
Definition inverted (v : pyvalue) : pyresult :=
  match v with PInt a => Int (Z.lnot a) | PMember e a => if negb (scoped e) && tagged e then Int (Z.lnot a) else TypeError | PNone => TypeError end.

(** hash(v): the one of the integer. *)
Definition hashed (v : pyvalue) : option Z := as_int v.
End Interpreter.

(** v.name (enum_name): the entries are searched in order. *)
Definition name_shown (p : pystate) (constant : nat -> Z) (e : nat) (z : Z) : str :=
  match find (fun v => match snd v with SValue _ i => Z.eqb (constant i) z | _ => false end) (entries p e) with Some v => fst v | None => $"???" end.

(** ** C++ *)

(** Unscoped enumerations are converted to integers, of a type that has all values. *)
Definition promoted (scoped : nat -> bool) (v : pyvalue) : option Z :=
  match v with PInt z => Some z | PMember e z => if scoped e then None else Some z | PNone => None end.

(** v op v'; [None] if there is no such operator. *)
Definition cpp_compare (scoped : nat -> bool) (op : comparison) (v v' : pyvalue) : option bool :=
  match v, v' with
  | PMember e a, PMember k b => if Nat.eqb e k then Some (holds op a b) else if scoped e || scoped k then None else Some (holds op a b)
  | _, _ => match promoted scoped v, promoted scoped v' with Some a, Some b => Some (holds op a b) | _, _ => None end
  end.

Definition cpp_combine (scoped : nat -> bool) (op : arithmetic_operator) (v v' : pyvalue) : option Z :=
  match promoted scoped v, promoted scoped v' with Some a, Some b => Some (computed op a b) | _, _ => None end.

(** ** What is expected *)

(** Annotated as arithmetic: by the last annotation that has a say. *)
Definition said_arithmetic (u : unit) (v : pyvalue) : Prop :=
  match v with PMember e _ => exists ans, carried (d_attrs (u_decls u e)) ans false /\ latest (flag_of Arithmetic) ans false true | _ => False end.

(** Values of enumerations in the module. *)
Definition available (intros : list (str * introducer)) (v : pyvalue) : Prop :=
  match v with PMember e _ => exists id q n a, In (id, NEnum e q n a) intros | _ => True end.

Definition equality (op : comparison) : Prop := op = Equal \/ op = Different.
Definition bitwise (op : arithmetic_operator) : Prop := op = BitAnd \/ op = BitOr \/ op = BitXor.

(** [n] is the name of the first visible enumerator of [e] with value [z]. *)
Definition names_value (u : unit) (w : facts) (b : bstate) (name : str) (constant : nat -> Z) (e : nat) (z : Z) (n : str) : Prop :=
  exists l1 i l2 a, enumerators u w b e (l1 ++ i :: l2) /\ visible_in u b name e i /\ own_attributes u i a /\ called u a i [] n /\ constant i = z /\
    forall j, In j l1 -> visible_in u b name e j -> constant j <> z.

Definition unnamed_value (u : unit) (w : facts) (b : bstate) (name : str) (constant : nat -> Z) (e : nat) (z : Z) : Prop :=
  forall i, declared_in u w b e i -> x_enumerator (w_extra w) i = true -> visible_in u b name e i -> constant i <> z.
