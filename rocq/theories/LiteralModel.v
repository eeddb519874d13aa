(** * Memory model of [LiteralValue] (src/annotations/literal_value.cpp,
    include/genpybind/annotations/literal_value.h).

    A tagged union with an owning raw pointer.  Heap cells are never reused,
    so that "released" and "never allocated" are distinguishable: any access
    to or release of such a cell is undefined behaviour, and so are null
    dereferences and reads of an inactive union member.  Failing [assert]s are
    a separate outcome.  Allocation failure is not modelled. *)
From Verif Require Import Base ParserModel.

(** literal_value.h L26-32. *)
Inductive lkind := KNothing | KString | KUnsigned | KBoolean | KDefault.

Definition lkind_eqb (a b : lkind) : bool :=
  match a, b with
  | KNothing, KNothing | KString, KString | KUnsigned, KUnsigned
  | KBoolean, KBoolean | KDefault, KDefault => true
  | _, _ => false
  end.

(** literal_value.h L36-40: active member of the union. *)
Inductive payload := PPtr (p : option nat) | PInt (n : N) | PBool (b : bool).

Record obj := mkObj { o_kind : lkind; o_payload : payload }.

(** [m_heap]: heap cells holding a [std::string], [None] after [delete].
    [m_vars]: the values created so far, [None] after their destruction. *)
Record mem := mkMem { m_heap : list (option str); m_vars : list (option obj) }.

Inductive outcome (A : Type) :=
| Done (a : A)
| AssertFails      (* an [assert] of the code fails *)
| UB               (* undefined behaviour *)
| DeadObject.      (* the client uses a value outside of its lifetime *)
Arguments Done {A} a. Arguments AssertFails {A}. Arguments UB {A}. Arguments DeadObject {A}.

Definition bind {A B} (x : outcome A) (f : A -> outcome B) : outcome B :=
  match x with Done a => f a | AssertFails => AssertFails | UB => UB | DeadObject => DeadObject end.
Notation "'let!' x := a 'in' b" := (bind a (fun x => b)) (at level 200, x pattern, right associativity).

Definition upd {A} (l : list A) (i : nat) (x : A) : list A :=
  firstn i l ++ match skipn i l with [] => [] | _ :: r => x :: r end.

Definition get_var (m : mem) (i : nat) : outcome obj :=
  match nth_error (m_vars m) i with Some (Some o) => Done o | _ => DeadObject end.

Definition set_var (m : mem) (i : nat) (o : obj) : mem := mkMem (m_heap m) (upd (m_vars m) i (Some o)).

(** [delete p]: releasing a null pointer is fine. *)
Definition delete (m : mem) (p : option nat) : outcome mem :=
  match p with
  | None => Done m
  | Some l =>
      match nth_error (m_heap m) l with
      | Some (Some _) => Done (mkMem (upd (m_heap m) l None) (m_vars m))
      | _ => UB
      end
  end.

(** [*p]. *)
Definition deref (m : mem) (p : option nat) : outcome str :=
  match p with
  | None => UB
  | Some l => match nth_error (m_heap m) l with Some (Some s) => Done s | _ => UB end
  end.

(** Read of the union member [string]. *)
Definition read_ptr (o : obj) : outcome (option nat) :=
  match o_payload o with PPtr p => Done p | _ => UB end.

Definition is_string (o : obj) : bool := lkind_eqb (o_kind o) KString.

(** A [llvm::StringRef] argument: outside memory, or the string owned by a
    value (a reference obtained from [getString] before the call). *)
Inductive strref := External (s : str) | InHeap (p : option nat).

Definition read_ref (m : mem) (r : strref) : outcome str :=
  match r with External s => Done s | InHeap p => deref m p end.

(** literal_value.cpp L97-102 [setNothing]. *)
Definition set_nothing (m : mem) (i : nat) : outcome mem :=
  let! o := get_var m i in
  let! m1 := (if is_string o then let! p := read_ptr o in delete m p else Done m) in
  Done (set_var m1 i (mkObj KNothing (PPtr None))).

(** literal_value.cpp L104-108 [setString]: the argument is read after the
    old content has been released. *)
Definition set_string (m : mem) (i : nat) (r : strref) : outcome mem :=
  let! m1 := set_nothing m i in
  let! s := read_ref m1 r in
  let l := length (m_heap m1) in
  Done (set_var (mkMem (m_heap m1 ++ [Some s]) (m_vars m1)) i (mkObj KString (PPtr (Some l)))).

(** literal_value.cpp L110-114, L116-120, L122-125. *)
Definition set_unsigned (m : mem) (i : nat) (n : N) : outcome mem :=
  let! m1 := set_nothing m i in Done (set_var m1 i (mkObj KUnsigned (PInt n))).
Definition set_boolean (m : mem) (i : nat) (b : bool) : outcome mem :=
  let! m1 := set_nothing m i in Done (set_var m1 i (mkObj KBoolean (PBool b))).
Definition set_default (m : mem) (i : nat) : outcome mem :=
  let! m1 := set_nothing m i in
  let! o := get_var m1 i in Done (set_var m1 i (mkObj KDefault (o_payload o))).

(** literal_value.cpp L127-140: the reference returned by [getString], its
    content, [getUnsigned], [getBoolean]. *)
Definition get_string_ref (m : mem) (i : nat) : outcome (option nat) :=
  let! o := get_var m i in
  if is_string o then
    let! p := read_ptr o in
    match p with None => UB | Some _ => Done p end   (* binding a reference to null is undefined *)
  else AssertFails.
Definition get_string (m : mem) (i : nat) : outcome str :=
  let! p := get_string_ref m i in deref m p.
Definition get_unsigned (m : mem) (i : nat) : outcome N :=
  let! o := get_var m i in
  if lkind_eqb (o_kind o) KUnsigned then match o_payload o with PInt n => Done n | _ => UB end else AssertFails.
Definition get_boolean (m : mem) (i : nat) : outcome bool :=
  let! o := get_var m i in
  if lkind_eqb (o_kind o) KBoolean then match o_payload o with PBool b => Done b | _ => UB end else AssertFails.

(** literal_value.cpp L49-71: copy assignment [vi = vj]. *)
Definition copy_assign (m : mem) (i j : nat) : outcome mem :=
  let! _ := get_var m i in
  let! _ := get_var m j in
  if Nat.eqb i j then Done m
  else
    let! m1 := set_nothing m i in
    let! other := get_var m1 j in
    match o_kind other with
    | KNothing => Done m1
    | KString => let! p := get_string_ref m1 j in set_string m1 i (InHeap p)
    | KUnsigned => let! n := get_unsigned m1 j in set_unsigned m1 i n
    | KBoolean => let! b := get_boolean m1 j in set_boolean m1 i b
    | KDefault => set_default m1 i
    end.

(** literal_value.h L44: default constructor; the new value gets the next
    index.  The default initialiser of the union applies. *)
Definition construct (m : mem) : nat * mem :=
  (length (m_vars m), mkMem (m_heap m) (m_vars m ++ [Some (mkObj KNothing (PPtr None))])).

(** literal_value.cpp L45-47: copy constructor. *)
Definition copy_construct (m : mem) (j : nat) : outcome mem :=
  let! _ := get_var m j in
  let '(i, m1) := construct m in copy_assign m1 i j.

(** [std::swap(vi.string, vj.string)]. *)
Definition swap_ptr (m : mem) (i j : nat) : outcome mem :=
  let! oi := get_var m i in
  let! oj := get_var m j in
  let! pi := read_ptr oi in
  let! pj := read_ptr oj in
  let m1 := set_var m i (mkObj (o_kind oi) (PPtr pj)) in
  let! oj1 := get_var m1 j in
  Done (set_var m1 j (mkObj (o_kind oj1) (PPtr pi))).

Definition set_kind (m : mem) (i : nat) (k : lkind) : outcome mem :=
  let! o := get_var m i in Done (set_var m i (mkObj k (o_payload o))).

(** literal_value.cpp L73-82: move constructor. *)
Definition move_construct (m : mem) (j : nat) : outcome mem :=
  let! other := get_var m j in
  let '(i, m1) := construct m in
  if is_string other then
    let! m2 := set_kind m1 i KString in
    let! m3 := swap_ptr m2 i j in
    set_kind m3 j KNothing
  else copy_assign m1 i j.

(** literal_value.cpp L84-95: move assignment [vi = std::move(vj)]. *)
Definition move_assign (m : mem) (i j : nat) : outcome mem :=
  let! this := get_var m i in
  let! other := get_var m j in
  if is_string other then
    let m1 := if is_string this then m else set_var m i (mkObj KString (PPtr None)) in
    swap_ptr m1 i j
  else copy_assign m i j.

(** literal_value.cpp L16-19: destructor, end of lifetime. *)
Definition destroy (m : mem) (i : nat) : outcome mem :=
  let! o := get_var m i in
  let! m1 := (if is_string o then let! p := read_ptr o in delete m p else Done m) in
  Done (mkMem (m_heap m1) (upd (m_vars m1) i None)).

(** literal_value.cpp L142-162 [print], the text appended to the stream. *)
Definition print_value (m : mem) (i : nat) : outcome str :=
  let! o := get_var m i in
  match o_kind o with
  | KString => let! s := get_string m i in Done (print_lit (LString s))
  | KUnsigned => let! n := get_unsigned m i in Done (print_lit (LUnsigned n))
  | KBoolean => let! b := get_boolean m i in Done (print_lit (LBool b))
  | KNothing => Done (print_lit LNothing)
  | KDefault => Done (print_lit LDefault)
  end.

(** literal_value.cpp L164-179 [operator==]. *)
Definition values_equal (m : mem) (i j : nat) : outcome bool :=
  let! oi := get_var m i in
  let! oj := get_var m j in
  if lkind_eqb (o_kind oi) (o_kind oj) then
    match o_kind oi with
    | KString => let! a := get_string m i in let! b := get_string m j in Done (str_eqb a b)
    | KUnsigned => let! a := get_unsigned m i in let! b := get_unsigned m j in Done (N.eqb a b)
    | KBoolean => let! a := get_boolean m i in let! b := get_boolean m j in Done (Bool.eqb a b)
    | KNothing | KDefault => Done true
    end
  else Done false.

(** Operations available to clients.  Values are named by creation order. *)
Inductive op :=
| OpConstruct                         (* LiteralValue() *)
| OpCopyConstruct (j : nat)
| OpMoveConstruct (j : nat)
| OpCopyAssign (i j : nat)
| OpMoveAssign (i j : nat)
| OpSetNothing (i : nat)
| OpSetString (i : nat) (s : str)     (* from memory outside of any value *)
| OpSetStringFrom (i j : nat)         (* vi.setString(vj.getString()) *)
| OpSetUnsigned (i : nat) (n : N)
| OpSetBoolean (i : nat) (b : bool)
| OpSetDefault (i : nat)
| OpDestroy (i : nat)
| OpIsa (i : nat) (k : lkind)
| OpGetString (i : nat)
| OpGetUnsigned (i : nat)
| OpGetBoolean (i : nat)
| OpPrint (i : nat)
| OpEqual (i j : nat).

Inductive obs := ObsNone | ObsBool (b : bool) | ObsNum (n : N) | ObsStr (s : str).

Definition noobs (x : outcome mem) : outcome (mem * obs) := let! m := x in Done (m, ObsNone).

Definition step (m : mem) (o : op) : outcome (mem * obs) :=
  match o with
  | OpConstruct => Done (snd (construct m), ObsNone)
  | OpCopyConstruct j => noobs (copy_construct m j)
  | OpMoveConstruct j => noobs (move_construct m j)
  | OpCopyAssign i j => noobs (copy_assign m i j)
  | OpMoveAssign i j => noobs (move_assign m i j)
  | OpSetNothing i => noobs (set_nothing m i)
  | OpSetString i s => noobs (set_string m i (External s))
  | OpSetStringFrom i j =>
      noobs (let! _ := get_var m i in let! p := get_string_ref m j in set_string m i (InHeap p))
  | OpSetUnsigned i n => noobs (set_unsigned m i n)
  | OpSetBoolean i b => noobs (set_boolean m i b)
  | OpSetDefault i => noobs (set_default m i)
  | OpDestroy i => noobs (destroy m i)
  | OpIsa i k => let! o := get_var m i in Done (m, ObsBool (lkind_eqb (o_kind o) k))
  | OpGetString i => let! s := get_string m i in Done (m, ObsStr s)
  | OpGetUnsigned i => let! n := get_unsigned m i in Done (m, ObsNum n)
  | OpGetBoolean i => let! b := get_boolean m i in Done (m, ObsBool b)
  | OpPrint i => let! s := print_value m i in Done (m, ObsStr s)
  | OpEqual i j => let! b := values_equal m i j in Done (m, ObsBool b)
  end.

Definition init : mem := mkMem [] [].

Fixpoint run_from (m : mem) (ops : list op) : outcome (mem * list obs) :=
  match ops with
  | [] => Done (m, [])
  | o :: ops' =>
      let! (m1, x) := step m o in
      let! (m2, xs) := run_from m1 ops' in
      Done (m2, x :: xs)
  end.

Definition run (ops : list op) : outcome (mem * list obs) := run_from init ops.
