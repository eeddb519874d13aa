(** * Specification of the influence of the name of the module *)
From Verif Require Import Base ParserModel AnnotModel CollectModel GraphModel GraphSpec EmitModel ModuleModel.

(** The annotations [only_expose_in] do not tell the names apart. *)
Definition interchangeable (u : unit) (name name' : str) : Prop :=
  forall i a, kind u i = KNamespace -> own_attributes u i a -> (In name (ns_only_expose_in (at_namespace a)) <-> In name' (ns_only_expose_in (at_namespace a))).

(** The same code for a module of another name. *)
Definition retitled_item (name : str) (i : item) : item :=
  match i with
  | IModule _ introductions calls postamble => IModule name introductions calls postamble
  | i => i
  end.

Definition retitled (name : str) (r : run_result) : run_result :=
  match r with
  | RGraph b (EWritten streams reports st) => RGraph b (EWritten (map (map (retitled_item name)) streams) reports st)
  | r => r
  end.
