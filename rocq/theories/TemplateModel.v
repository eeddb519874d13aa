(** * Instantiation of annotated templates: model of
    src/instantiate_annotated_templates.cpp L23-118. *)
From Verif Require Import Base GraphModel.

(** [clang::TemplateSpecializationKind]. *)
Inductive tsk := Undeclared | Implicit | Specialization | InstantiationDeclaration | InstantiationDefinition.

(** What the compiler knows about declarations of class template
    specialisations, which are numbered.  [t_roots]: those visited with
    annotations, or named by annotated aliases visited, while traversing the
    translation unit, in this order (L97-118).  [t_mentions s]: likewise while traversing
    the definition of [s], which is the same each time.  [t_definition s]: the
    declaration that is the definition once there is one.  [t_defined s]: there is a
    definition of the template, so that [s] can be instantiated.
    [t_triggers s]: other specialisations that are instantiated implicitly when
    [s] or its members are. *)
Record templates := mkTemplates {
  t_roots : list nat; t_mentions : nat -> list nat; t_definition : nat -> nat; t_defined : nat -> bool; t_triggers : nat -> list nat }.

(** Kind of a specialisation and whether it is complete. *)
Record status := mkStatus { s_kind : tsk; s_complete : bool }.
Definition statuses := nat -> status.

Definition set_status (i : nat) (x : status) (m : statuses) : statuses := fun k => if Nat.eqb i k then x else m k.

(** Implicit instantiation by clang. *)
Definition trigger (t : templates) (m : statuses) (i : nat) : statuses :=
  match s_kind (m i) with
  | Undeclared => if t_defined t i then set_status i (mkStatus Implicit true) m else m
  | _ => m
  end.

Record tstate := mkTState {
  ts_status : statuses; ts_pending : list nat; ts_done : list nat;
  ts_added : list nat;            (* added to a declaration context *)
  ts_instantiated : list nat }.

(** L43-95 [instantiateSpecialization]; [None]: failing assertion. *)
Definition instantiate (t : templates) (i : nat) (s : tstate) : option tstate :=
  let st := ts_status s i in
  if s_complete st && negb (Nat.eqb (t_definition t i) i) then None                              (* L49 *)
  else
    match s_kind st with
    | Specialization | InstantiationDefinition => Some s                                         (* L62-65 *)
    | k =>
        let added := match k with InstantiationDeclaration => ts_added s | _ => ts_added s ++ [i] end in
        let complete := match k with Undeclared => t_defined t i | _ => s_complete st end in     (* L84-88 *)
        if complete then
          let m := set_status i (mkStatus InstantiationDefinition true) (ts_status s) in
          Some (mkTState (fold_left (trigger t) (t_triggers t i) m) (ts_pending s) (ts_done s) added (ts_instantiated s ++ [i]))
        else None                                                                                (* L92 *)
    end.

(** Visiting the definition, if there is one: L36 and L97-118. *)
Definition visit (found : list nat) (s : tstate) : tstate :=
  mkTState (ts_status s) (ts_pending s ++ filter (fun i => negb (mem i (ts_done s))) found) (ts_done s) (ts_added s) (ts_instantiated s).

(** One round of the loop L27-37, for the given front of the queue. *)
Definition round (t : templates) (i : nat) (pending : list nat) (s : tstate) : option tstate :=
  match instantiate t i (mkTState (ts_status s) pending (i :: ts_done s) (ts_added s) (ts_instantiated s)) with
  | None => None
  | Some s' => Some (visit (if s_complete (ts_status s' i) then t_mentions t i else []) s')
  end.

Inductive result := Finished (s : tstate) | Crash | OutOfFuel.

Fixpoint rounds (fuel : nat) (t : templates) (s : tstate) : result :=
  match ts_pending s with
  | [] => Finished s
  | i :: pending =>
      match fuel with
      | O => OutOfFuel
      | S fuel' =>
          match round t i pending s with
          | None => Crash
          | Some s' => rounds fuel' t s'
          end
      end
  end.

(** L23-38 [HandleTranslationUnit]. *)
Definition run_templates (fuel : nat) (t : templates) (m : statuses) : result := rounds fuel t (visit (t_roots t) (mkTState m [] [] [] [])).
