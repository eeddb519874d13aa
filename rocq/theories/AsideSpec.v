(** * Specification of what hiding a single declaration changes in Python *)
From Verif Require Import Base ParserModel AnnotModel CollectModel GraphModel OrderModel InlineModel EmitModel ModuleModel ImportSpec ExecSpec HideSpec.

(** Name given by a statement to what it binds. *)
Definition gives (s : stmt) (n : str) : Prop := defines s = Some n \/ exists j, s = SValue n j.

(** Names under which [i] is bound anywhere in the generated code. *)
Definition name_of (i : nat) (files : list (list item)) (n : str) : Prop :=
  exists id p body s, In (IDefine id p body) (concat files) /\ In s body /\ binds i s = true /\ gives s n.

(** All attributes of all objects are the same, except for those names; values
    of enumerations are the same, except for [i]. *)
Definition alike (i : nat) (names : str -> Prop) (p p' : pystate) : Prop :=
  (forall o n, ~ names n -> own p' o n = own p o n) /\
  p_entries p' = filter (fun v => negb (binds i (snd (snd v)))) (p_entries p) /\
  (forall v, In v (p_entries p) -> binds i (snd (snd v)) = true -> names (fst (snd v))).

(** Manual bindings do the same in both cases. *)
Definition indifferent (i : nat) (names : str -> Prop) (manual : nat -> object -> pystate -> option pystate) : Prop :=
  forall l o p p' q q', alike i names p p' -> manual l o p = Some q -> manual l o p' = Some q' -> alike i names q q'.
