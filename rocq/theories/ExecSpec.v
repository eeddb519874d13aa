(** * Specification of the effect of exposing functions in Python *)
From Verif Require Import Base ParserModel AnnotModel CollectModel GraphModel GraphSpec OrderModel InlineModel EmitModel EmitSpec ModuleModel ModuleSpec ImportSpec.

(** ** Attributes *)

(** Overloads are in the order of their definition, all static methods or none;
    other attributes are known by the statement that set them. *)
Inductive member := MObject (o : object) | MFunction (static : bool) (overloads : list stmt) | MValue (s : stmt).

(** Attributes (latest first) and values of enumerations known to pybind11. *)
Record pystate := mkPy { p_members : list (object * str * member); p_entries : list (nat * (str * stmt)) }.

Definition own (p : pystate) (o : object) (n : str) : option member :=
  option_map snd (find (fun a => same_object (fst (fst a)) o && str_eqb (snd (fst a)) n) (p_members p)).
Definition entries (p : pystate) (e : nat) : list (str * stmt) := map snd (filter (fun v => Nat.eqb (fst v) e) (p_entries p)).

(** Statements defining an overload, for static methods or others. *)
Definition overload (s : stmt) : option bool :=
  match s with SFunction static _ _ _ _ => Some static | SInit _ _ _ _ | SOperator _ _ _ | SPrint _ _ => Some false | _ => None end.
Definition static_member (m : member) : bool := match m with MValue (SMember static _ _ _) => static | _ => false end.
Definition private (n : str) : bool := match n with c :: _ => Ascii.eqb c "_" | [] => false end.

(** Names given by a statement. *)
Definition defines (s : stmt) : option str :=
  match s with
  | SAlias n _ | SVariable n _ | SFunction _ n _ _ _ | SOperator n _ _ | SPrint n _ | SProperty n _ _ | SMember _ _ n _ => Some n
  | SInit _ _ _ _ => Some ($"__init__")
  | _ => None
  end.

Section Execution.
(** [mro]: classes searched after the given one; [manual]: effect of manual
    bindings; [fails]: converting default arguments or the value to Python fails. *)
Context (mro : nat -> list nat) (manual : nat -> object -> pystate -> option pystate) (fails : stmt -> bool).

Definition first_some {A B} (f : A -> option B) : list A -> option B :=
  fix go l := match l with [] => None | a :: r => match f a with Some b => Some b | None => go r end end.
Definition inherited (p : pystate) (o : object) (n : str) : option member :=
  match o with Class r => first_some (fun b => own p (Class b) n) (mro r) | _ => None end.
Definition getattr (p : pystate) (o : object) (n : str) : option member := match own p o n with Some m => Some m | None => inherited p o n end.

(** Setting an attribute of a class with a static property of that name would
    call its setter instead, which is not modelled. *)
Definition setattr (p : pystate) (o : object) (n : str) (m : member) : option pystate :=
  let property := match o, getattr p o n with Class _, Some old => static_member old | _, _ => false end in
  if property && negb (static_member m) then None else Some (mkPy ((o, n, m) :: p_members p) (p_entries p)).

(** pybind11's cpp_function::initialize_generic: appends to the overloads of the
    object itself, of one kind only; hides functions of bases; fails for
    attributes that are not functions. *)
Definition define_function (p : pystate) (o : object) (n : str) (static : bool) (s : stmt) : option pystate :=
  match own p o n with
  | Some (MFunction st l) => if Bool.eqb st static then setattr p o n (MFunction static (l ++ [s])) else None
  | _ =>
      match getattr p o n with
      | None | Some (MFunction _ _) => setattr p o n (MFunction static [s])
      | Some _ => if private n then setattr p o n (MFunction static [s]) else None
      end
  end.

(** [types]: registered types; [scope]: of an enumeration. *)
Definition statement (types : list nat) (o : object) (scope : option object) (p : pystate) (s : stmt) : option pystate :=
  if fails s then None else
  match s with
  | SAlias n _ | SVariable n _ | SProperty n _ _ | SMember _ _ n _ => setattr p o n (MValue s)
  | SFunction static n _ _ _ => define_function p o n static s
  | SInit _ _ _ _ => define_function p o ($"__init__") false s
  | SOperator n _ _ | SPrint n _ => define_function p o n false s
  | SManual l => manual l o p
  | SConvertible _ r => if existsb (Nat.eqb r) types then Some p else None
  | SValue n _ =>
      match o with
      | Enum e => if existsb (fun v => str_eqb (fst v) n) (entries p e) then None
                  else option_map (fun q => mkPy (p_members q) (p_entries q ++ [(e, (n, s))])) (setattr p o n (MValue s))
      | _ => None
      end
  | SExportValues =>
      match o, scope with
      | Enum e, Some q => fold_opt (fun p v => setattr p q (fst v) (MValue (snd v))) (entries p e) p
      | _, _ => None
      end
  | SUnused => Some p
  end.

Definition body_named (files : list (list item)) (id : str) : option (list stmt) :=
  first_some (fun i => match i with IDefine n _ body => if str_eqb n id then Some body else None | _ => None end) (concat files).

(** Object in which the one held by a variable has been introduced. *)
Definition scope_in (intros : list (str * introducer)) (s : state) (id : str) : option object :=
  match find (fun i => str_eqb (fst i) id) intros with Some i => value s (intro_parent (snd i)) | None => None end.

(** function(variable); *)
Definition call (files : list (list item)) (intros : list (str * introducer)) (s : state) (p : pystate) (c : str * str) : option pystate :=
  match value s (snd c), body_named files (fst c) with
  | Some o, Some body => fold_opt (statement (map fst (s_types s)) o (scope_in intros s (snd c))) body p
  | _, _ => None
  end.

(** The whole module after its block has been executed. *)
Definition initial (s : state) : pystate := mkPy (map (fun a => (fst a, MObject (snd a))) (s_attributes s)) [].
Definition run_module (default_holder : str -> bool) (files : list (list item)) (m : item) : option (state * pystate) :=
  match m with
  | IModule _ intros calls post =>
      match import default_holder intros with
      | Some s =>
          match fold_opt (call files intros s) calls (initial s) with
          | Some p => option_map (fun q => (s, q)) (fold_opt (fun p l => manual l (Mod []) p) post p)
          | None => None
          end
      | None => None
      end
  | _ => None
  end.
End Execution.

(** ** What is expected *)

(** Attributes set by the body for a context with object [o] in scope [q]. *)
Definition values_of (body : list stmt) : list (str * stmt) := flat_map (fun s => match s with SValue n _ => [(n, s)] | _ => [] end) body.
Inductive contributes (o : object) (q : option object) : list stmt -> list stmt -> list (object * str * stmt) -> Prop :=
| con_nil before : contributes o q before [] []
| con_named before s n l r : defines s = Some n -> contributes o q (before ++ [s]) l r -> contributes o q before (s :: l) ((o, n, s) :: r)
| con_value before n i l r : contributes o q (before ++ [SValue n i]) l r -> contributes o q before (SValue n i :: l) ((o, n, SValue n i) :: r)
| con_export before k l r : q = Some k -> contributes o q (before ++ [SExportValues]) l r ->
    contributes o q before (SExportValues :: l) (map (fun v => (k, fst v, snd v)) (values_of before) ++ r)
| con_other before s l r : defines s = None -> (forall n i, s <> SValue n i) -> s <> SExportValues -> contributes o q (before ++ [s]) l r -> contributes o q before (s :: l) r.

Definition scope_object (u : unit) (st : storage) (g : graph) (c : nat) (q : option object) : Prop :=
  match q with Some k => exists p, scope_of u st g c p /\ located u st g p k | None => forall p, ~ scope_of u st g c p end.

Inductive contributions (u : unit) (st : storage) (g : graph) : list entry -> list (object * str * stmt) -> Prop :=
| contributions_nil : contributions u st g [] []
| contributions_cons e l o q cs r : located u st g (ex_context e) o -> scope_object u st g (ex_context e) q -> contributes o q [] (ex_body e) cs ->
    contributions u st g l r -> contributions u st g (e :: l) (cs ++ r).

Definition at_place (o : object) (n : str) (c : object * str * stmt) : bool := same_object (fst (fst c)) o && str_eqb (snd (fst c)) n.
Definition given (cs : list (object * str * stmt)) (o : object) (n : str) : list stmt := map snd (filter (at_place o n) cs).

(** ** Conditions *)

Record no_clashes (mro : nat -> list nat) (u : unit) (st : storage) (g : graph) (cs : list (object * str * stmt)) : Prop := {
  (* only functions may share a name, not static and other methods *)
  nc_overloads : forall l1 l2 l3 o n s s', cs = l1 ++ (o, n, s) :: l2 ++ (o, n, s') :: l3 -> overload s <> None /\ overload s = overload s';
  (* names differ from those of classes, enumerations and modules *)
  nc_objects : forall o n s, In (o, n, s) cs -> forall c, ~ found_in u st g c o n;
  (* functions do not hide attributes of bases that are not functions *)
  nc_inherited : forall r n s b, In (Class r, n, s) cs -> overload s <> None -> private n = false -> In b (mro r) ->
    (forall s', In (Class b, n, s') cs -> overload s' <> None) /\ forall c, ~ found_in u st g c (Class b) n;
  (* static members are hidden by static members only *)
  nc_static : forall r n s b readonly m i, In (Class r, n, s) cs -> In b (mro r) -> In (Class b, n, SMember true readonly m i) cs -> exists ro k j, s = SMember true ro k j
}.

(** Statements can be executed in their objects. *)
Definition executable (manual : nat -> object -> pystate -> option pystate) (fails : stmt -> bool) (all : list entry) (post : list nat) : Prop :=
  (forall e s, In e all -> In s (ex_body e) -> fails s = false) /\
  (forall l o p, In l post \/ (exists e, In e all /\ In (SManual l) (ex_body e)) -> manual l o p = Some p).

(** The attribute consists of what is given for it. *)
Definition consists (objects : option object) (l : list stmt) (m : option member) : Prop :=
  match m with
  | Some (MObject v) => objects = Some v /\ l = []
  | Some (MFunction static l') => objects = None /\ l' = l /\ l <> [] /\ forall s, In s l -> overload s = Some static
  | Some (MValue s) => objects = None /\ l = [s] /\ overload s = None
  | None => objects = None /\ l = []
  end.

(** An attribute gives access to what a statement defines. *)
Definition reaches (m : member) (s : stmt) : Prop := match m with MFunction _ l => In s l | MValue t => t = s | MObject _ => False end.
