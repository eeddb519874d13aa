(** * Value semantics of annotation argument values: no pointers, no heap. *)
From Verif Require Import Base ParserModel LiteralModel.

(** What a client may assume about a value.  [Hollow] is a value that claims
    to be a string but whose content has been moved away. *)
Inductive aval := Val (v : lit) | Hollow.

Definition akind_of (a : aval) : lkind :=
  match a with
  | Val LNothing => KNothing | Val (LString _) | Hollow => KString
  | Val (LUnsigned _) => KUnsigned | Val (LBool _) => KBoolean | Val LDefault => KDefault
  end.

(** [None]: destroyed. *)
Definition astate := list (option aval).

Definition aget (s : astate) (i : nat) : outcome aval :=
  match nth_error s i with Some (Some a) => Done a | _ => DeadObject end.

(** Pure value of a readable value. *)
Definition aread (a : aval) : outcome lit := match a with Val v => Done v | Hollow => UB end.

Definition aset (s : astate) (i : nat) (a : aval) : astate := upd s i (Some a).

Definition quiet (x : outcome astate) : outcome (astate * obs) := let! s := x in Done (s, ObsNone).

Definition lit_eqb (a b : lit) : bool :=
  match a, b with
  | LNothing, LNothing | LDefault, LDefault => true
  | LString x, LString y => str_eqb x y
  | LUnsigned x, LUnsigned y => N.eqb x y
  | LBool x, LBool y => Bool.eqb x y
  | _, _ => false
  end.

(** Overwriting assignment of the value of [j] to an existing [i]. *)
Definition aassign (s : astate) (i j : nat) : outcome astate :=
  let! _ := aget s i in
  let! b := aget s j in
  if Nat.eqb i j then Done s else let! v := aread b in Done (aset s i (Val v)).

Definition astep (s : astate) (o : op) : outcome (astate * obs) :=
  match o with
  | OpConstruct => Done (s ++ [Some (Val LNothing)], ObsNone)
  | OpCopyConstruct j => quiet (let! b := aget s j in let! v := aread b in Done (s ++ [Some (Val v)]))
  | OpMoveConstruct j =>
      (* the new value takes over; a moved-from string is 'nothing' *)
      quiet (let! b := aget s j in
             match b with
             | Val (LString _) | Hollow => Done (aset s j (Val LNothing) ++ [Some b])
             | _ => Done (s ++ [Some b])
             end)
  | OpCopyAssign i j => quiet (aassign s i j)
  | OpMoveAssign i j =>
      quiet (let! a := aget s i in
             let! b := aget s j in
             match b with
             | Val (LString _) | Hollow =>
                 match a with
                 | Val (LString _) | Hollow => Done (aset (aset s i b) j a)   (* exchanged *)
                 | _ => Done (aset (aset s i b) j Hollow)
                 end
             | _ => aassign s i j
             end)
  | OpSetNothing i => quiet (let! _ := aget s i in Done (aset s i (Val LNothing)))
  | OpSetString i t => quiet (let! _ := aget s i in Done (aset s i (Val (LString t))))
  | OpSetStringFrom i j =>
      quiet (let! _ := aget s i in
             let! b := aget s j in
             match b with
             | Val (LString t) => if Nat.eqb i j then UB else Done (aset s i (Val (LString t)))
             | Hollow => UB
             | _ => AssertFails
             end)
  | OpSetUnsigned i n => quiet (let! _ := aget s i in Done (aset s i (Val (LUnsigned n))))
  | OpSetBoolean i b => quiet (let! _ := aget s i in Done (aset s i (Val (LBool b))))
  | OpSetDefault i => quiet (let! _ := aget s i in Done (aset s i (Val LDefault)))
  | OpDestroy i => quiet (let! _ := aget s i in Done (upd s i None))
  | OpIsa i k => let! a := aget s i in Done (s, ObsBool (lkind_eqb (akind_of a) k))
  | OpGetString i =>
      let! a := aget s i in
      match a with Val (LString t) => Done (s, ObsStr t) | Hollow => UB | _ => AssertFails end
  | OpGetUnsigned i =>
      let! a := aget s i in match a with Val (LUnsigned n) => Done (s, ObsNum n) | _ => AssertFails end
  | OpGetBoolean i =>
      let! a := aget s i in match a with Val (LBool b) => Done (s, ObsBool b) | _ => AssertFails end
  | OpPrint i => let! a := aget s i in let! v := aread a in Done (s, ObsStr (print_lit v))
  | OpEqual i j =>
      let! a := aget s i in
      let! b := aget s j in
      match a, b with
      | Val v, Val w => Done (s, ObsBool (lit_eqb v w))
      | _, _ => if lkind_eqb (akind_of a) (akind_of b) then UB else Done (s, ObsBool false)
      end
  end.

Fixpoint arun_from (s : astate) (ops : list op) : outcome (astate * list obs) :=
  match ops with
  | [] => Done (s, [])
  | o :: ops' =>
      let! (s1, x) := astep s o in
      let! (s2, xs) := arun_from s1 ops' in
      Done (s2, x :: xs)
  end.

Definition arun (ops : list op) : outcome (astate * list obs) := arun_from [] ops.

(** Memory: [l] is allocated and not released. *)
Definition allocated (m : mem) (l : nat) : Prop := exists s, nth_error (m_heap m) l = Some (Some s).

(** The live value [i] points to the heap cell [l]. *)
Definition points_to (m : mem) (i l : nat) : Prop :=
  exists o, nth_error (m_vars m) i = Some (Some o) /\ o_kind o = KString /\ o_payload o = PPtr (Some l).

Definition all_destroyed (m : mem) : Prop := forall o, In o (m_vars m) -> o = None.

(** Operations naming a value (as source, target or subject). *)
Definition mentions (o : op) (i : nat) : bool :=
  match o with
  | OpConstruct => false
  | OpCopyConstruct j | OpMoveConstruct j => Nat.eqb i j
  | OpCopyAssign a b | OpMoveAssign a b | OpSetStringFrom a b | OpEqual a b => Nat.eqb i a || Nat.eqb i b
  | OpSetNothing a | OpSetString a _ | OpSetUnsigned a _ | OpSetBoolean a _ | OpSetDefault a
  | OpDestroy a | OpIsa a _ | OpGetString a | OpGetUnsigned a | OpGetBoolean a | OpPrint a => Nat.eqb i a
  end.

(** Operations that may change the value [i]: sources of copies and
    comparisons are not changed. *)
Definition may_change (o : op) (i : nat) : bool :=
  match o with
  | OpMoveConstruct j => Nat.eqb i j
  | OpMoveAssign a b => Nat.eqb i a || Nat.eqb i b
  | OpCopyAssign a _ | OpSetStringFrom a _ => Nat.eqb i a
  | OpSetNothing a | OpSetString a _ | OpSetUnsigned a _ | OpSetBoolean a _ | OpSetDefault a
  | OpDestroy a => Nat.eqb i a
  | _ => false
  end.

(** Sequences without the two hazards: move assignment, and setting a string
    from a reference into the value itself. *)
Definition hazard_free (o : op) : Prop :=
  match o with OpMoveAssign _ _ => False | OpSetStringFrom i j => i <> j | _ => True end.

(** Outcome of a sequence as seen by the client: only the observations. *)
Definition observed {A} (x : outcome (A * list obs)) : outcome (list obs) := let! (_, xs) := x in Done xs.

(** Observation made by operation [o] after the sequence [ops]. *)
Definition observe (ops : list op) (o : op) : outcome obs :=
  let! (m, _) := run ops in let! (_, x) := step m o in Done x.

(** Questions about a single value. *)
Inductive query := QIsa (k : lkind) | QString | QUnsigned | QBoolean | QPrint.
Definition ask (q : query) (i : nat) : op :=
  match q with
  | QIsa k => OpIsa i k | QString => OpGetString i | QUnsigned => OpGetUnsigned i
  | QBoolean => OpGetBoolean i | QPrint => OpPrint i
  end.

(** The use of value semantics that is undefined: a hollow value is read, or a
    string is set from a reference into the value itself. *)
Definition live (s : astate) (i : nat) : Prop := exists a, nth_error s i = Some (Some a).
Definition hollow (s : astate) (i : nat) : Prop := nth_error s i = Some (Some Hollow).
Definition holds_string (s : astate) (i : nat) : Prop := exists t, nth_error s i = Some (Some (Val (LString t))).

Definition misuse (s : astate) (o : op) : Prop :=
  match o with
  | OpCopyConstruct j | OpGetString j | OpPrint j => hollow s j
  | OpCopyAssign i j => i <> j /\ live s i /\ hollow s j
  | OpSetStringFrom i j => live s i /\ (hollow s j \/ i = j /\ holds_string s j)
  | OpEqual i j => hollow s i /\ (hollow s j \/ holds_string s j) \/ holds_string s i /\ hollow s j
  | _ => False
  end.
