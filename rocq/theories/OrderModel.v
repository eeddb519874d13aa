(** * Order of exposition: model of the second part of
    src/decl_context_graph_processing.cpp (L378-495). *)
From Verif Require Import Base ParserModel AnnotModel CollectModel GraphModel.

(** [std::priority_queue] is given by [pop], which returns the top and the
    remaining elements, or nothing if the queue is empty.  Which one of several
    equivalent elements is the top depends on the heap. *)
Definition queue := list nat.

Definition upd {A} (f : nat -> A) (i : nat) (x : A) : nat -> A := fun j => if Nat.eqb j i then x else f j.

(** [successors[other].push_back(node)]. *)
Fixpoint push_successor (other node : nat) (m : list (nat * list nat)) : list (nat * list nat) :=
  match m with
  | [] => [(other, [node])]
  | (k, l) :: m' => if Nat.eqb other k then (k, l ++ [node]) :: m' else (k, l) :: push_successor other node m'
  end.

Fixpoint find_successors (m : list (nat * list nat)) (i : nat) : option (list nat) :=
  match m with [] => None | (k, l) :: m' => if Nat.eqb i k then Some l else find_successors m' i end.

Definition erase_successors (i : nat) (m : list (nat * list nat)) : list (nat * list nat) :=
  filter (fun e => negb (Nat.eqb i (fst e))) m.

Record tstate := mkSort {
  t_counts : nat -> Z;                     (* [num_predecessors], entries default to 0 *)
  t_successors : list (nat * list nat);
  t_ready : queue;
  t_result : list nat
}.

Section TopologicalSort.
  Variables (pop : queue -> option (nat * queue)) (nodes : list nat) (preds : nat -> list nat).

  (** L402-405: the lambda [add_predecessor]. *)
  Definition add_predecessor (node : nat) (s : tstate) (other : nat) : tstate :=
    mkSort (upd (t_counts s) node (t_counts s node + 1)%Z) (push_successor other node (t_successors s)) (t_ready s) (t_result s).

  (** L401-409. *)
  Definition init_node (s : tstate) (node : nat) : tstate :=
    let s := fold_left (add_predecessor node) (preds node) s in
    if (t_counts s node =? 0)%Z then mkSort (t_counts s) (t_successors s) (t_ready s ++ [node]) (t_result s) else s.

  Definition init_sort : tstate := fold_left init_node nodes (mkSort (fun _ => 0%Z) [] [] []).

  (** L420-423. *)
  Definition release (s : tstate) (other : nat) : tstate :=
    let c := (t_counts s other - 1)%Z in
    mkSort (upd (t_counts s) other c) (t_successors s) (if (c =? 0)%Z then t_ready s ++ [other] else t_ready s) (t_result s).

  (** L414-428, one iteration with [node] popped. *)
  Definition sort_step (node : nat) (rest : queue) (s : tstate) : tstate :=
    let s := mkSort (t_counts s) (t_successors s) rest (t_result s) in
    let s := match find_successors (t_successors s) node with
             | Some l => let s := fold_left release l s in
                         mkSort (t_counts s) (erase_successors node (t_successors s)) (t_ready s) (t_result s)
             | None => s
             end in
    mkSort (t_counts s) (t_successors s) (t_ready s) (t_result s ++ [node]).

  Fixpoint run (fuel : nat) (s : tstate) : option tstate :=
    match pop (t_ready s) with
    | None => Some s
    | Some (node, rest) => match fuel with O => None | S fuel' => run fuel' (sort_step node rest s) end
    end.

  (** L388-441 [lexicographicalTopologicalSort]; [None]: out of fuel or a failing assertion. *)
  Definition topological_sort : option (list nat) :=
    match run (length nodes) init_sort with
    | None => None
    | Some s =>
        match t_successors s with
        | [] => Some (t_result s)
        | stuck =>
            match pop (map fst stuck) with
            | None => None
            | Some (node, _) =>
                let result := t_result s ++ [node] in
                if Nat.eqb (length result) (length nodes) then None else Some result
            end
        end
    end.
End TopologicalSort.

(** L448-471: the lambda [find_predecessors].  [public_bases]: definitions of the
    direct bases with public access, in order. *)
Definition predecessors (u : unit) (public_bases : nat -> list nat) (g : graph) (scopes : dmap (option nat)) (n : nat) : list nat :=
  match dlookup scopes n with Some (Some p) => [p] | _ => [] end ++
  match kind u n with KRecord => filter (has_node g) (public_bases n) | _ => [] end.

(** L443-495 [declContextsSortedByDependencies]: the order, or the reported
    declaration.  [nodes]: the nodes in the order of iteration. *)
Inductive ordering := Sorted (order : list nat) | CycleAt (n : nat).

Definition sort_contexts (pop : queue -> option (nat * queue)) (u : unit) (public_bases : nat -> list nat)
    (nodes : list nat) (g : graph) (scopes : dmap (option nat)) : option ordering :=
  if negb (forallb (fun n => match dlookup scopes n with Some (Some p) => has_node g p | _ => true end) nodes) then None
  else
    match topological_sort pop nodes (predecessors u public_bases g scopes) with
    | None => None
    | Some result =>
        if Nat.eqb (length result) (length nodes) then Some (Sorted result)
        else match rev result with [] => None | n :: _ => Some (CycleAt n) end
    end.

(** The queue for source locations, L475-481: the earliest element is the top;
    of several the one pushed first. *)
Fixpoint pop_min (u : unit) (best : nat) (seen l : list nat) : nat * queue :=
  match l with
  | [] => (best, rev seen)
  | i :: l' => if (u_location u i <? u_location u best)%N then pop_min u i (best :: seen) l' else pop_min u best (i :: seen) l'
  end.
Definition pop_first (u : unit) (q : queue) : option (nat * queue) :=
  match q with [] => None | i :: l => Some (pop_min u i [] l) end.
