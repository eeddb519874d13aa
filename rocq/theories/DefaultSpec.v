(** * Specification of the instantiation of default arguments *)
From Verif Require Import Base DefaultModel.

(** [n] is declared in [m], and neither it nor any declaration in between is implicit. *)
Inductive within (sr : source) (t : tree) : nat -> nat -> Prop :=
| within_self n : sr_node sr n <> NImplicit -> within sr t n n
| within_child m c n : sr_node sr m <> NImplicit -> In c (tr_children t m) -> within sr t c n -> within sr t m n.

(** What clang does: a default argument is instantiated or an error is reported;
    declarations may be added; other default arguments may be instantiated as well
    but are not changed once available. *)
Record sema_spec (sema : nat -> nat -> tree -> tree * bool) : Prop := {
  sm_result : forall f p t t1, sema f p t = (t1, false) -> exists e, tr_default t1 p = Parsed e;
  sm_children : forall f p t t1 b n, sema f p t = (t1, b) -> exists added, tr_children t1 n = tr_children t n ++ added;
  sm_default : forall f p t t1 b q, sema f p t = (t1, b) -> tr_default t1 q = tr_default t q \/ (tr_default t q = Uninstantiated /\ exists e, tr_default t1 q = Parsed e)
}.

(** Parameter of a valid function that is an instantiation. *)
Definition instantiated_parameter (sr : source) (p : nat) : Prop :=
  exists f, sr_node sr p = NParam (Some f) /\ sr_invalid sr f = false /\ sr_undeclared sr f = false.

(** clang::ParmVarDecl::getDefaultArg does not fail (expose.cpp L358). *)
Definition printable (t : tree) (p : nat) : Prop := tr_default t p <> Unparsed /\ tr_default t p <> Uninstantiated.
