(** * Model of the instantiation of default arguments (instantiate_default_arguments.cpp) *)
From Verif Require Import Base.

(** State of the default argument of a parameter, clang::ParmVarDecl. *)
Inductive default := NoDefault | Unparsed | Uninstantiated | Parsed (e : nat).

(** Nodes visited by clang::RecursiveASTVisitor: parameters with the function
    they belong to if any, function and class templates, implicit declarations, and
    others.  Functions have their parameters as children.  Children are those
    visited if statements are not (instantiate_default_arguments.h L34-42). *)
Inductive node := NParam (f : option nat) | NTemplate | NImplicit | NOther.

(** What is fixed: nodes, invalid functions, functions of which the kind of
    specialisation is [TSK_Undeclared]. *)
Record source := mkSource { sr_node : nat -> node; sr_invalid : nat -> bool; sr_undeclared : nat -> bool }.
(** What instantiating changes: children and default arguments. *)
Record tree := mkTree { tr_children : nat -> list nat; tr_default : nat -> default }.

Section Run.
Context (sr : source).
(** clang::Sema::InstantiateDefaultArgument for a function and a parameter; tells
    whether it failed. *)
Context (sema : nat -> nat -> tree -> tree * bool).

Definition uninstantiated (t : tree) (p : nat) : bool := match tr_default t p with Uninstantiated => true | _ => false end.

(** instantiate_default_arguments.cpp L21-37 [VisitParmVarDecl].  Requests are
    logged with their outcome. *)
Definition visit (t : tree) (n : nat) : tree * list (nat * bool) :=
  match sr_node sr n with
  | NParam (Some f) =>
    if uninstantiated t n then
      if sr_invalid sr f then (t, [])
      else if sr_undeclared sr f then (t, [])
      else let (t1, failed) := sema f n t in (t1, [(n, failed)])
    else (t, [])
  | _ => (t, [])
  end.

(** RecursiveASTVisitor: nodes to be visited and the rest of the children of a node.
    Lists of declarations are followed as they grow, specialisations of templates
    are iterated over with an end fixed before. *)
Inductive task := Visit (n : nat) | Rest (n i : nat).

Fixpoint run (fuel : nat) (t : tree) (log : list (nat * bool)) (todo : list task) : option (tree * list (nat * bool)) :=
  match fuel with
  | 0 => None
  | S k =>
    match todo with
    | [] => Some (t, log)
    | Visit n :: r =>
      match sr_node sr n with
      | NImplicit => run k t log r     (* [shouldVisitImplicitCode] is false *)
      | NTemplate => run k t log (map Visit (tr_children t n) ++ r)
      | _ => let (t1, l) := visit t n in run k t1 (log ++ l) (Rest n 0 :: r)
      end
    | Rest n i :: r =>
      match nth_error (tr_children t n) i with
      | Some c => run k t log (Visit c :: Rest n (S i) :: r)
      | None => run k t log r
      end
    end
  end.

(** instantiate_default_arguments.cpp L16-19 [HandleTranslationUnit]. *)
Definition instantiate_defaults (fuel root : nat) (t : tree) : option (tree * list (nat * bool)) := run fuel t [] [Visit root].
End Run.
