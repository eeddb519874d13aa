(** * Specification of when manual bindings are executed *)
From Coq Require Import Sorting.Permutation Sorting.Sorted.
From Verif Require Import Base ParserModel AnnotModel AnnotSpec CollectModel GraphModel GraphSpec OrderModel InlineModel EmitModel EmitSpec ModuleModel ModuleSpec ImportSpec ExecSpec AccessSpec.

(** ** What is executed after the objects have been introduced *)

(** A statement of the function for some object, introduced in [scope], or a
    manual binding at the end of the module. *)
Inductive step := Statement (o : object) (scope : option object) (t : stmt) | Final (l : nat).

Definition called_steps (files : list (list item)) (intros : list (str * introducer)) (s : state) (c : str * str) : option (list step) :=
  match value s (snd c), body_named files (fst c) with
  | Some o, Some body => Some (map (Statement o (scope_in intros s (snd c))) body)
  | _, _ => None
  end.

(** The steps in order; [s]: variables after the introductions. *)
Fixpoint all_some {A B} (f : A -> option B) (l : list A) : option (list B) :=
  match l with
  | [] => Some []
  | a :: r => match f a, all_some f r with Some b, Some bs => Some (b :: bs) | _, _ => None end
  end.
Definition performed (files : list (list item)) (m : item) (s : state) : option (list step) :=
  match m with
  | IModule _ intros calls post => option_map (fun ls => concat ls ++ map Final post) (all_some (called_steps files intros s) calls)
  | _ => None
  end.

Section Effects.
Context (mro : nat -> list nat) (manual : nat -> object -> pystate -> option pystate) (fails : stmt -> bool) (types : list nat).

Definition perform (p : pystate) (x : step) : option pystate :=
  match x with Statement o q t => statement mro manual fails types o q p t | Final l => manual l (Mod []) p end.

Inductive effects : pystate -> list step -> pystate -> Prop :=
| effects_nil p : effects p [] p
| effects_cons p x p' l q : perform p x = Some p' -> effects p' l q -> effects p (x :: l) q.
End Effects.

(** The object passed to a manual binding and its code. *)
Definition manual_code (l : list step) : list (object * nat) :=
  flat_map (fun x => match x with Statement o _ (SManual c) => [(o, c)] | Final c => [(Mod [], c)] | _ => [] end) l.

(** ** What is expected *)

(** The variable [i] is visible in the context [c] and holds the manual bindings
    [l], that are not to be placed at the end (which is possible only at the top
    level). *)
Definition binding (u : unit) (b : bstate) (name : str) (c i l : nat) : Prop :=
  visible_in u b name c i /\ exists a, own_attributes u i a /\ f_manual (at_field a) = Some l /\ (kind u c = KRecord \/ f_postamble (at_field a) = false).

(** Manual bindings among the declarations, in order. *)
Inductive picks (P : nat -> nat -> Prop) : list nat -> list nat -> Prop :=
| picks_nil : picks P [] []
| picks_take i l ds ls : P i l -> picks P ds ls -> picks P (i :: ds) (l :: ls)
| picks_skip i ds ls : (forall l, ~ P i l) -> picks P ds ls -> picks P (i :: ds) ls.

Definition is_variable (u : unit) (i : nat) : bool := match kind u i with KVar | KField => true | _ => false end.

(** Manual bindings of a context are those of its variables and data members,
    including those of inlined bases, in the order of declaration. *)
Definition bindings_of (u : unit) (w : facts) (b : bstate) (name : str) (c : nat) (ls : list nat) : Prop :=
  exists x ds, create u (bs_annotations b) (w_hierarchy w) c = Some x /\
    Permutation (filter (is_variable u) (flat_map (expand (w_extra w)) (looked_up u w c x))) ds /\
    StronglySorted (fun i j => (u_location u i <= u_location u j)%N) ds /\
    picks (binding u b name c) ds ls.

(** ** Conditions *)

(** Function templates, their specialisations and what is found by argument
    dependent lookup are not variables; enumerations do not contain any. *)
Record no_variables (u : unit) (w : facts) : Prop := {
  nv_operators : forall r k i, In i (x_adl (w_extra w) r k) -> is_variable u i = false;
  nv_templates : forall i l, x_specializations (w_extra w) i = Some l -> is_variable u i = false /\ forall j, In j l -> is_variable u j = false;
  nv_enums : forall c x i, kind u c = KEnum -> In i (looked_up u w c x) -> is_variable u i = false
}.
