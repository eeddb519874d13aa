(** * Specification of stream operators in Python *)
From Verif Require Import Base ParserModel AnnotModel AnnotSpec CollectModel CollectSpec GraphModel GraphSpec EmitModel EmitSpec ModuleModel ModuleSpec ImportSpec ExecSpec AccessSpec DispatchSpec.

Section Texts.
(** [class_of]: the generated class of an object; [cast r convert v]: the object can
    be passed as [const R &]; [rest]: the same for parameters of other functions;
    [insert r v]: characters written to a new [std::ostringstream] by [os << v] for
    [const R &v]. *)
Context {V : Type} (is_none : V -> bool) (default : nat -> nat -> V) (x : extra) (mro : nat -> list nat) (p : pystate).
Context (class_of : V -> option nat) (cast : nat -> bool -> V -> bool) (rest : stmt -> nat -> bool -> V -> bool) (insert : nat -> V -> str).

Definition by_class (s : stmt) (k : nat) (convert : bool) (v : V) : bool :=
  match s with SPrint _ r => cast r convert v | _ => rest s k convert v end.

(** Calling the method [n] of an object without arguments, as str and repr do for
    [__str__] and [__repr__]. *)
Definition invoke (n : str) (v : V) : option (stmt * binding V) :=
  match class_of v with
  | Some c =>
      match getattr mro p (Class c) n with
      | Some (MFunction _ l) => dispatch is_none default by_class x (Class c) l [v] []
      | _ => None
      end
  | None => None
  end.

(** binding-helpers.h L34-38 (string_from_lshift): the text returned, unless some
    other function is called. *)
Definition text (n : str) (v : V) : option str :=
  match invoke n v with
  | Some (SPrint _ r, bi) => match bi_values bi with [a] => Some (insert r a) | _ => None end
  | _ => None
  end.
End Texts.

(** ** What is expected *)

(** [i] is a visible stream operator considered for class [r], to be exposed as
    [n]. *)
Record stream_operator (u : unit) (w : facts) (b : bstate) (name : str) (r i : nat) (n : str) : Prop := {
  so_class : kind u r = KRecord;
  so_declared : declared_in u w b r i;
  so_visible : visible_in u b name r i;
  so_free : kind u i = KFunction OtherOperator;
  so_symbol : fi_operator (x_fn (w_extra w) i) = Some OLessLess;
  so_callable : fi_deleted (x_fn (w_extra w) i) = false;
  so_stream : fi_pointee (x_fn (w_extra w) i) = Named true;
  so_annotated : n <> [] /\ exists ans bad, carried (d_attrs (u_decls u i)) ans bad /\ latest (spelling_of (u_decls u i)) ans [] n
}.

(** Class [r] is the first one searched for the name. *)
Definition first_named (mro : nat -> list nat) (u : unit) (st : storage) (g : graph) (cs : list (object * str * stmt)) (c r : nat) (n : str) : Prop :=
  exists before after, c :: mro c = before ++ r :: after /\
    forall d, In d before -> (forall t, ~ In (Class d, n, t) cs) /\ forall y, ~ found_in u st g y (Class d) n.
