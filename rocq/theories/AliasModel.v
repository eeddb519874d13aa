(** * Model of the run-time support for aliases (public/genpybind/binding-helpers.h) *)
From Verif Require Import Base ParserModel AnnotModel CollectModel GraphModel OrderModel InlineModel EmitModel EmitSpec ModuleModel ModuleSpec ImportSpec ExecSpec.

(** Values of attributes: an object of this module, a class registered by another
    module, [None]. *)
Inductive pyvalue := PObject (o : object) | PForeign (c : nat) | PNone.

(** Python object for a type registered in this module: that of the variable
    holding it.  pybind11 keeps a map from types to Python objects. *)
Definition type_object (s : state) (t : nat) : option object :=
  match holding s t with
  | Some _ => Some (if existsb (fun v => match value s (fst v) with Some o => same_object o (Enum t) | None => false end) (s_variables s) then Enum t else Class t)
  | None => None
  end.

(** binding-helpers.h L19-32 [getObjectForType]; [elsewhere]: types registered by
    other modules.  The second component tells whether a warning is issued. *)
Definition object_for_type (s : state) (elsewhere : nat -> option nat) (t : nat) : pyvalue * bool :=
  match type_object s t with
  | Some o => (PObject o, false)
  | None => match elsewhere t with Some c => (PForeign c, false) | None => (PNone, true) end
  end.
