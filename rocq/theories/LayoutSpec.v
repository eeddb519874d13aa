(** * Specification of the layout of headers *)
From Verif Require Import Base CollectModel GraphModel.

(** Declarations are moved to other positions, ... *)
Definition moved (u : unit) (location : nat -> N) : unit :=
  mkUnit (u_decls u) (u_top u) (u_root u) (u_contexts u) (u_lookup u) (u_dependent u) (u_canonical u) (u_qualified u) (u_name u) (u_hidden_access u) location.

(** ... without changing which one of two comes first. *)
Definition same_sequence (u : unit) (location : nat -> N) : Prop :=
  forall i j, (location i < location j)%N <-> (u_location u i < u_location u j)%N.
