(** * Specification of several generated modules in one interpreter *)
From Verif Require Import Base ParserModel AnnotModel AnnotSpec CollectModel CollectSpec GraphModel GraphSpec OrderModel InlineModel EmitModel EmitSpec ModuleModel ModuleSpec ImportSpec ExecSpec FindSpec.

(** ** Modules *)

(** A module as it has been generated.  Declarations in shared headers have the
    same number in all translation units. *)
Record product := mkProduct {
  pd_unit : unit; pd_facts : facts; pd_found : nat -> list nat; pd_implicit : nat -> bool; pd_iteration : list nat -> list nat;
  pd_outputs : nat; pd_name : str; pd_builder : bstate; pd_files : list (list item); pd_reports : list ereport; pd_storage : storage;
  pd_block : item; pd_mro : nat -> list nat; pd_manual : nat -> object -> pystate -> option pystate; pd_fails : stmt -> bool
}.

Definition proper_product (d : product) : Prop :=
  setting (pd_unit d) (pd_facts d) (pd_iteration d) /\ 0 < pd_outputs d /\
  generate (pd_unit d) (pd_facts d) (pd_found d) (pd_implicit d) (pd_iteration d) (pd_outputs d) (pd_name d) =
    Some (RGraph (pd_builder d) (EWritten (pd_files d) (pd_reports d) (pd_storage d))) /\
  In (pd_block d) (concat (pd_files d)).

(** ** Import *)

Section Interpreter.
Context (default_holder : str -> bool).

(** As [import] and [run_module], with types registered by other modules before;
    pybind11 has one registry for all modules. *)
Definition import_into (registry : list (nat * bool)) (intros : list (str * introducer)) : option state :=
  fold_opt (execute default_holder) intros (mkState [($"root", Mod [])] [] registry).

Definition run_into (registry : list (nat * bool)) (d : product) : option (state * pystate) :=
  match pd_block d with
  | IModule _ intros calls post =>
      match import_into registry intros with
      | Some s =>
          match fold_opt (call (pd_mro d) (pd_manual d) (pd_fails d) (pd_files d) intros s) calls (initial s) with
          | Some p => option_map (fun q => (s, q)) (fold_opt (fun p l => pd_manual d l (Mod []) p) post p)
          | None => None
          end
      | None => None
      end
  | _ => None
  end.

(** Importing modules one after the other. *)
Inductive imports : list (nat * bool) -> list product -> list (state * pystate) -> Prop :=
| im_nil registry : imports registry [] []
| im_cons registry d ds s p rs : run_into registry d = Some (s, p) -> imports (s_types s) ds rs -> imports registry (d :: ds) ((s, p) :: rs).

(** The import on its own. *)
Definition alone (d : product) : option (state * pystate) := run_module (pd_mro d) (pd_manual d) (pd_fails d) default_holder (pd_files d) (pd_block d).

(** The same in Python. *)
Definition same_module (a b : state * pystate) : Prop :=
  s_variables (fst a) = s_variables (fst b) /\ s_attributes (fst a) = s_attributes (fst b) /\ snd a = snd b.
End Interpreter.

(** ** What is expected *)

(** Modules that both have class or enumeration [c]. *)
Definition in_both (d e : product) (c : nat) : Prop := to_be_found (pd_unit d) (pd_name d) c /\ to_be_found (pd_unit e) (pd_name e) c.

Definition kept_apart (ds : list product) : Prop :=
  forall l1 d l2 e l3, ds = l1 ++ d :: l2 ++ e :: l3 -> forall c, ~ in_both d e c.

(** [c] is in a namespace that is not for module [name]. *)
Definition reserved (u : unit) (name : str) (c : nat) : Prop :=
  forall l, path (place u) (u_root u) (c :: l) -> exists m, In m (c :: l) /\ elsewhere u name m.
