(** * Specification of the order of exposition *)
From Verif Require Import Base ParserModel AnnotModel CollectModel GraphModel GraphSpec OrderModel.
From Coq Require Import Sorting.Permutation.

(** What is known about [std::priority_queue] with the comparison of locations:
    the top is an element no other one is located before. *)
Definition good_queue (location : nat -> N) (pop : queue -> option (nat * queue)) : Prop :=
  pop [] = None /\
  forall q, q <> [] -> exists x rest, pop q = Some (x, rest) /\ Permutation q (x :: rest) /\
    forall y, In y q -> (location x <= location y)%N.

(** [n] is to be exposed after [m]: [m] is its scope or an exposed direct public base. *)
Definition depends (u : unit) (public_bases : nat -> list nat) (g : graph) (scopes : dmap (option nat)) (m n : nat) : Prop :=
  In n (g_nodes g) /\ In m (g_nodes g) /\
  (dlookup scopes n = Some (Some m) \/ (kind u n = KRecord /\ In m (public_bases n))).

(** Each element after those it depends on. *)
Definition respects (E : nat -> nat -> Prop) (l : list nat) : Prop :=
  forall l1 n l2, l = l1 ++ n :: l2 -> forall m, E m n -> In m l1.

(** Complete orders that respect dependencies. *)
Definition valid_order (nodes : list nat) (E : nat -> nat -> Prop) (l : list nat) : Prop :=
  Permutation nodes l /\ respects E l.

(** Comparison by location, first difference first. *)
Inductive lex_le (location : nat -> N) : list nat -> list nat -> Prop :=
| lex_nil l : lex_le location [] l
| lex_less x y l l' : (location x < location y)%N -> lex_le location (x :: l) (y :: l')
| lex_same x l l' : lex_le location l l' -> lex_le location (x :: l) (x :: l').

Definition on_cycle (E : nat -> nat -> Prop) (n : nat) : Prop := exists l, leads E n n l.
Definition cyclic (E : nat -> nat -> Prop) : Prop := exists n, on_cycle E n.

(** On a cycle or (transitively) depending on one. *)
Definition stuck (E : nat -> nat -> Prop) (n : nat) : Prop :=
  exists c, on_cycle E c /\ (c = n \/ exists l, leads E c n l).
