(** * Specification of reading and assigning variables and data members from Python *)
From Verif Require Import Base ParserModel AnnotModel AnnotSpec CollectModel GraphModel EmitModel EmitSpec ModuleModel ModuleSpec ImportSpec ExecSpec AccessSpec.

(** ** Attributes at run time *)

(** Where C++ keeps the value of a variable or of a data member of an object. *)
Inductive location := Variable_ (i : nat) | Field_ (object i : nat).
Definition declaration_at (l : location) : nat := match l with Variable_ i | Field_ _ i => i end.
Definition same_location (l k : location) : bool :=
  match l, k with Variable_ i, Variable_ j => Nat.eqb i j | Field_ o i, Field_ q j => Nat.eqb o q && Nat.eqb i j | _, _ => false end.

(** Objects of exposed classes, and modules, classes and enumerations. *)
Inductive target := Instance (o : nat) | Of (q : object).

Section Attributes.
Context {V : Type}.
Definition memory := location -> V.
Definition store (m : memory) (l : location) (v : V) : memory := fun k => if same_location l k then v else m k.

(** Attributes set by Python code, of modules and classes and of instances, latest
    first, and the memory. *)
Record world := mkWorld { wd_set : list (object * str * V); wd_dict : list (nat * str * V); wd_memory : memory }.

Inductive attribute_of := Given (v : V) | Member (m : member).

(** [p]: the module after import; [mro]: classes searched after the given one;
    [class_of]: of instances; [has_dict]: instances of the class may have further
    attributes; [initial]: values at the time of import; [convert]: to the type of
    the declaration; [getter], [setter]: effect of member functions, which may fail. *)
Context (p : pystate) (mro : nat -> list nat) (class_of : nat -> nat) (has_dict : nat -> bool) (initial : nat -> V) (convert : nat -> V -> option V).
Context (getter : nat -> nat -> memory -> option V) (setter : nat -> nat -> V -> memory -> option memory).

Definition attribute_in (w : world) (q : object) (n : str) : option attribute_of :=
  match find (fun a => same_object (fst (fst a)) q && str_eqb (snd (fst a)) n) (wd_set w) with
  | Some a => Some (Given (snd a))
  | None => option_map Member (own p q n)
  end.
Definition attribute_along (w : world) (c : nat) (n : str) : option attribute_of := first_some (fun d => attribute_in w (Class d) n) (c :: mro c).
Definition added (w : world) (o : nat) (n : str) : option V :=
  option_map snd (find (fun a => Nat.eqb (fst (fst a)) o && str_eqb (snd (fst a)) n) (wd_dict w)).

Inductive answer := Value (v : V) | Thing (m : member) | Accepted | Refused.

(** Attributes that are not managed by descriptors: values of variables have been
    converted when the module was imported. *)
Definition plain_answer (a : option attribute_of) : answer :=
  match a with
  | Some (Given v) => Value v
  | Some (Member (MValue (SVariable _ i))) => Value (initial i)
  | Some (Member m) => Thing m
  | None => Refused
  end.

Definition get_attr (w : world) (t : target) (n : str) : answer :=
  match t with
  | Instance o =>
      match attribute_along w (class_of o) n with
      | Some (Member (MValue (SMember static _ _ i))) => Value (wd_memory w (if static then Variable_ i else Field_ o i))
      | Some (Member (MValue (SProperty _ g _))) => match getter g o (wd_memory w) with Some v => Value v | None => Refused end
      | a => match added w o n with Some v => Value v | None => plain_answer a end
      end
  | Of (Class c) =>
      match attribute_along w c n with
      | Some (Member (MValue (SMember true _ _ i))) => Value (wd_memory w (Variable_ i))
      | a => plain_answer a
      end
  | Of q => plain_answer (attribute_in w q n)
  end.

(** Conversion to the type of the declaration may fail. *)
Definition assign (w : world) (l : location) (readonly : bool) (v : V) : world * answer :=
  if readonly then (w, Refused)
  else match convert (declaration_at l) v with
       | Some v' => (mkWorld (wd_set w) (wd_dict w) (store (wd_memory w) l v'), Accepted)
       | None => (w, Refused)
       end.

(** Data descriptors of the class take precedence; static properties are also used
    when an attribute of the class itself is set (pybind11's metaclass). *)
Definition set_attr (w : world) (t : target) (n : str) (v : V) : world * answer :=
  match t with
  | Instance o =>
      match attribute_along w (class_of o) n with
      | Some (Member (MValue (SMember static readonly _ i))) => assign w (if static then Variable_ i else Field_ o i) readonly v
      | Some (Member (MValue (SProperty _ _ (Some f)))) =>
          match setter f o v (wd_memory w) with Some m => (mkWorld (wd_set w) (wd_dict w) m, Accepted) | None => (w, Refused) end
      | Some (Member (MValue (SProperty _ _ None))) => (w, Refused)
      | _ => if has_dict (class_of o) then (mkWorld (wd_set w) ((o, n, v) :: wd_dict w) (wd_memory w), Accepted) else (w, Refused)
      end
  | Of (Class c) =>
      match attribute_along w c n with
      | Some (Member (MValue (SMember true readonly _ i))) => assign w (Variable_ i) readonly v
      | _ => (mkWorld ((Class c, n, v) :: wd_set w) (wd_dict w) (wd_memory w), Accepted)
      end
  | Of q => (mkWorld ((q, n, v) :: wd_set w) (wd_dict w) (wd_memory w), Accepted)
  end.

(** ** Programs *)

(** Python code reads and sets attributes and runs C++ code, by calls of functions. *)
Inductive action := Read (t : target) (n : str) | Assign (t : target) (n : str) (v : V) | Run (f : memory -> memory).
Definition act (w : world) (a : action) : world :=
  match a with
  | Read _ _ => w
  | Assign t n v => fst (set_attr w t n v)
  | Run f => mkWorld (wd_set w) (wd_dict w) (f (wd_memory w))
  end.

(** C++ code that is run, including setters, does not change a value. *)
Definition kept (l : location) (program : list action) : Prop :=
  (forall f, In (Run f) program -> forall m, f m l = m l) /\ (forall f o v m m', setter f o v m = Some m' -> m' l = m l).

(** The attribute that instances of class [c] have by the name [n] is that of class [d]. *)
Definition comes_from (w : world) (c d : nat) (n : str) : Prop :=
  (exists before after, c :: mro c = before ++ d :: after /\ (forall b, In b before -> own p (Class b) n = None) /\
    forall b, In b (before ++ [d]) -> forall v, ~ In (Class b, n, v) (wd_set w)).

(** An attribute for the member [i] of class [d], where its value is kept: members of
    objects are attributes of instances, static ones also those of classes. *)
Inductive holder (w : world) (d : nat) (n : str) (static : bool) (i : nat) : target -> location -> Prop :=
| of_object o : comes_from w (class_of o) d n -> static = false -> holder w d n static i (Instance o) (Field_ o i)
| of_static o : comes_from w (class_of o) d n -> static = true -> holder w d n static i (Instance o) (Variable_ i)
| of_class c : comes_from w c d n -> static = true -> holder w d n static i (Of (Class c)) (Variable_ i).
End Attributes.

Arguments memory : clear implicits.
Arguments world : clear implicits.
Arguments action : clear implicits.

(** ** What is declared *)

(** By the last annotation that has a say. *)
Definition said_readonly (u : unit) (i : nat) (v : bool) : Prop := exists ans, carried (d_attrs (u_decls u i)) ans false /\ latest (flag_of Readonly) ans false v.

(** A visible variable or data member of an exposed class. *)
Definition member_of (u : unit) (w : facts) found implicit name (b : bstate) (i : nat) (static : bool) : Prop :=
  exists g vis c, exposed u found implicit name g vis b /\ In c (g_nodes g) /\ kind u c = KRecord /\
    ((kind u i = KField /\ static = false) \/ (kind u i = KVar /\ static = true)) /\ declared_in u w b c i /\ visible_in u b name c i.
