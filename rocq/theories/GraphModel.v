(** * Context graph: model of include/genpybind/decl_context_graph.h,
    src/decl_context_graph.cpp, src/decl_context_graph_builder.cpp and the
    first part of src/decl_context_graph_processing.cpp. *)
From Verif Require Import Base ParserModel AnnotModel CollectModel.

(** ** Graphs (decl_context_graph.h L27-100) *)

(** Nodes are declarations.  [g_nodes]: keys of the map [nodes] (its iteration
    order is not specified, no result depends on the order of this list).
    [g_edges]: parent and child, in the order of the calls of [addChild]. *)
Record graph := mkGraph { g_nodes : list nat; g_edges : list (nat * nat) }.

Definition mem (i : nat) (l : list nat) : bool := existsb (Nat.eqb i) l.

(** decl_context_graph.cpp L11-12. *)
Definition new_graph (root : nat) : graph := mkGraph [root] [].

Definition has_node (g : graph) (i : nat) : bool := mem i (g_nodes g).

(** decl_context_graph.cpp L21-27 [getOrInsertNode]. *)
Definition insert_node (i : nat) (g : graph) : graph :=
  if has_node g i then g else mkGraph (g_nodes g ++ [i]) (g_edges g).

(** [getOrInsertNode(parent)->addChild(getOrInsertNode(child))]. *)
Definition add_edge (parent child : nat) (g : graph) : graph :=
  let g' := insert_node child (insert_node parent g) in
  mkGraph (g_nodes g') (g_edges g' ++ [(parent, child)]).

Definition children (g : graph) (i : nat) : list nat :=
  map snd (filter (fun e => Nat.eqb (fst e) i) (g_edges g)).

(** ** Construction (decl_context_graph_builder.cpp) *)

(** L21-26 [findLookupContextDecl], for the context of a declaration. *)
Definition lookup_context (u : unit) (i : nat) : option nat := find (u_lookup u) (u_contexts u i).

Record bstate := mkBuilder {
  bs_annotations : storage;
  bs_relocated : list (nat * nat);      (* [relocated_decls]: target and alias *)
  bs_graph : graph;
  bs_reports : list report
}.

Inductive outcome (A : Type) :=
| Done (a : A)
| NestedReport          (* a report while another one is in progress, see AnnotModel.v *)
| AssertFails.
Arguments Done {A} a. Arguments NestedReport {A}. Arguments AssertFails {A}.

(** annotated_decl.h L236-240 [update<NamedDeclAttrs>]. *)
Fixpoint update_named (i : nat) (f : attrs -> attrs) (st : storage) : storage :=
  match st with
  | [] => [(i, f default_attrs)]
  | (j, a) :: st' => if Nat.eqb i j then (j, f a) :: st' else (j, a) :: update_named i f st'
  end.

(** L28-46 [addEdgeForExposeHereAlias]: the flag is the returned value. *)
Definition add_edge_for_alias (u : unit) (alias target : nat) (s : bstate) : outcome (bool * bstate) :=
  match lookup_context u alias with
  | None => AssertFails
  | Some parent =>
      match assoc (bs_relocated s) target with
      | Some previous =>
          Done (false, mkBuilder (bs_annotations s) (bs_relocated s) (bs_graph s) (bs_reports s ++ [RAlreadyExposed alias previous]))
      | None =>
          Done (true, mkBuilder (bs_annotations s) (bs_relocated s ++ [(target, alias)]) (add_edge parent target (bs_graph s)) (bs_reports s))
      end
  end.

(** annotated_decl.cpp L533-566 [propagateAnnotations]. *)
Definition propagate (u : unit) (alias target : nat) (st : storage) : outcome storage :=
  if negb (has st target) then AssertFails
  else
    let attrs := match lookup_attrs st alias with Some a => a | None => default_attrs end in
    let spelling := match n_spelling (at_named attrs) with [] => u_name u alias | s => s end in
    let visible := mkAnnotation Visible [match n_visible (at_named attrs) with Some b => LBool b | None => LDefault end] in
    Done (update_named target
            (fun a => snd (fst (process_named (u_decls u target) visible (set_spelling spelling a)))) st).

(** L59-74: one alias. *)
Definition process_alias (u : unit) (alias : nat) (s : bstate) : outcome bstate :=
  match get_typedef u (bs_annotations s) alias with
  | None => AssertFails
  | Some attrs =>
      if negb (t_encourage attrs) && negb (t_expose_here attrs) then Done s
      else
        match d_target (u_decls u alias) with
        | None => AssertFails
        | Some target =>
            match AnnotModel.insert (u_decls u) target (bs_annotations s) with
            | None => NestedReport
            | Some (st, ds) =>
                let st1 := if t_encourage attrs then update_named target (set_visible (Some true)) st else st in
                let s1 := mkBuilder st1 (bs_relocated s) (bs_graph s) (bs_reports s ++ map (RAnnotation target) ds) in
                if t_expose_here attrs then
                  match add_edge_for_alias u alias target s1 with
                  | Done (true, s2) =>
                      match propagate u alias target (bs_annotations s2) with
                      | Done st2 => Done (mkBuilder st2 (bs_relocated s2) (bs_graph s2) (bs_reports s2))
                      | NestedReport => NestedReport
                      | AssertFails => AssertFails
                      end
                  | Done (false, s2) => Done s2
                  | NestedReport => NestedReport
                  | AssertFails => AssertFails
                  end
                else Done s1
            end
        end
  end.

Fixpoint process_aliases (u : unit) (aliases : list nat) (s : bstate) : outcome bstate :=
  match aliases with
  | [] => Done s
  | a :: aliases' =>
      match process_alias u a s with
      | Done s' => process_aliases u aliases' s'
      | NestedReport => NestedReport
      | AssertFails => AssertFails
      end
  end.

(** L81-89: one context. *)
Definition process_context (u : unit) (i : nat) (s : bstate) : outcome bstate :=
  match assoc (bs_relocated s) i with
  | Some _ => Done s
  | None =>
      match lookup_context u i with
      | None => AssertFails
      | Some parent => Done (mkBuilder (bs_annotations s) (bs_relocated s) (add_edge parent i (bs_graph s)) (bs_reports s))
      end
  end.

Fixpoint process_contexts (u : unit) (contexts : list nat) (s : bstate) : outcome bstate :=
  match contexts with
  | [] => Done s
  | i :: contexts' =>
      match process_context u i s with
      | Done s' => process_contexts u contexts' s'
      | NestedReport => NestedReport
      | AssertFails => AssertFails
      end
  end.

Definition errors_occurred (rs : list report) : bool := existsb is_error_report rs.

(** L48-92 [buildGraph]; the flag tells whether a graph is returned. *)
Definition build_graph (u : unit) : outcome (bool * bstate) :=
  match collect u with
  | None => NestedReport
  | Some s =>
      let b := mkBuilder (cs_annotations s) [] (new_graph (u_root u)) (cs_reports s) in
      if errors_occurred (bs_reports b) then Done (false, b)
      else
        match process_aliases u (cs_aliases s) b with
        | NestedReport => NestedReport
        | AssertFails => AssertFails
        | Done b1 =>
            if errors_occurred (bs_reports b1) then Done (false, b1)
            else
              match process_contexts u (cs_contexts s) b1 with
              | Done b2 => Done (true, b2)
              | NestedReport => NestedReport
              | AssertFails => AssertFails
              end
        end
  end.

(** ** Depth-first iteration (llvm/ADT/DepthFirstIterator.h) *)

(** [Visit path]: the iterator points to a node, the path starts with it and
    ends with the root.  [Completed n]: all children of [n] have been
    processed. *)
Inductive event := Visit (path : list nat) | Completed (n : nat).

(** [df_iterator::toNext] and, for nodes not satisfying [descend],
    [skipChildren].  The stack consists of nodes and their remaining children.
    [None]: out of fuel. *)
Fixpoint df (fuel : nat) (g : graph) (descend : nat -> bool) (visited : list nat)
    (stack : list (nat * list nat)) : option (list event) :=
  match fuel with
  | O => None
  | S fuel' =>
      match stack with
      | [] => Some []
      | (n, []) :: rest => option_map (cons (Completed n)) (df fuel' g descend visited rest)
      | (n, c :: cs) :: rest =>
          if mem c visited then df fuel' g descend visited ((n, cs) :: rest)
          else
            let stack' := (n, cs) :: rest in
            option_map (cons (Visit (c :: map fst stack')))
              (df fuel' g descend (c :: visited) (if descend c then (c, children g c) :: stack' else stack'))
      end
  end.

(** Iteration from the root. *)
Definition depth_first (g : graph) (root : nat) (descend : nat -> bool) : option (list event) :=
  option_map (cons (Visit [root]))
    (df (1 + 2 * length (g_nodes g) + length (g_edges g)) g descend [root]
        (if descend root then [(root, children g root)] else [])).

(** llvm/ADT/PostOrderIterator.h: the same machine, which delivers a node when
    its children are exhausted. *)
Definition completed_nodes (es : list event) : list nat :=
  flat_map (fun e => match e with Completed n => [n] | Visit _ => [] end) es.
Definition post_order (g : graph) (root : nat) : option (list nat) :=
  option_map completed_nodes (depth_first g root (fun _ => true)).

Definition visited_paths (es : list event) : list (list nat) :=
  flat_map (fun e => match e with Visit p => [p] | Completed _ => [] end) es.

(** ** Processing (decl_context_graph_processing.cpp) *)

(** [llvm::DenseMap]: the newest entry counts. *)
Definition dmap (A : Type) := list (nat * A).
Fixpoint dlookup {A} (m : dmap A) (i : nat) : option A :=
  match m with [] => None | (j, x) :: m' => if Nat.eqb i j then Some x else dlookup m' i end.
Definition dset {A} (i : nat) (x : A) (m : dmap A) : dmap A := (i, x) :: m.

(** Folds that may fail ([None]: a failing assertion). *)
Fixpoint fold_opt {A B} (f : B -> A -> option B) (l : list A) (b : B) : option B :=
  match l with
  | [] => Some b
  | a :: l' => match f b a with None => None | Some b' => fold_opt f l' b' end
  end.

Definition is_tag (u : unit) (i : nat) : bool := is_tag_kind (kind u i).

(** L60-66: the lambda [is_transparent]. *)
Definition is_transparent (u : unit) (st : storage) (i : nat) : bool :=
  match get_namespace u st i with Some a => negb (ns_module a) | None => false end.

(** L46-84 [findEnclosingScopes]; the root has no scope. *)
Definition scope_step (u : unit) (st : storage) (m : dmap (option nat)) (path : list nat) : option (dmap (option nat)) :=
  match path with
  | [] => None
  | [n] => Some (dset n None m)
  | n :: p :: _ =>
      if is_transparent u st p then
        match dlookup m p with
        | Some (Some s) => Some (dset n (Some s) m)
        | _ => None
        end
      else Some (dset n (Some p) m)
  end.

Definition find_enclosing_scopes (u : unit) (st : storage) (g : graph) : option (dmap (option nat)) :=
  match depth_first g (u_root u) (fun _ => true) with
  | None => None
  | Some es => fold_opt (scope_step u st) (visited_paths es) []
  end.

(** L86-130 [deriveEffectiveVisibility]. *)
Definition visibility_step (u : unit) (st : storage) (m : dmap bool) (path : list nat) : option (dmap bool) :=
  match path with
  | [] => None
  | n :: above =>
      match (match above with [] => Some false | p :: _ => dlookup m p end) with
      | None => None
      | Some inherited =>
          let is_visible := if u_hidden_access u n then false else inherited in
          let is_visible := match get_named u st n with
                            | Some a => match n_visible a with Some b => b | None => is_visible end
                            | None => is_visible
                            end in
          Some (dset n is_visible m)
      end
  end.

Definition derive_effective_visibility (u : unit) (st : storage) (g : graph) : option (dmap bool) :=
  match depth_first g (u_root u) (fun _ => true) with
  | None => None
  | Some es => fold_opt (visibility_step u st) (visited_paths es) []
  end.

(** L132-139 [reachableDeclContexts]. *)
Definition reachable_contexts (m : dmap bool) : list nat := map fst m.

(** [llvm::sort] with [IsBeforeInTranslationUnit] (sort_decls.cpp). *)
Fixpoint insert_sorted (u : unit) (i : nat) (l : list nat) : list nat :=
  match l with
  | [] => [i]
  | j :: l' => if (u_location u j <? u_location u i)%N then j :: insert_sorted u i l' else i :: l
  end.
Definition sort_by_location (u : unit) (l : list nat) : list nat := fold_right (insert_sorted u) [] l.

(** L141-166 [reportExposeHereCycles]: the reported aliases. *)
Definition expose_here_cycles (u : unit) (g : graph) (reachable : list nat) (relocated : list (nat * nat)) : list nat :=
  sort_by_location u
    (flat_map (fun n => if mem n reachable then []
                        else match assoc relocated n with Some alias => [alias] | None => [] end) (g_nodes g)).

(** L168-254 [declContextsWithVisibleNamedDecls].  [found] is the result of
    [collectVisibleDeclsFromDeclContext] (Sema's name lookup, see
    LookupModel.v), [implicit] is [Decl::isImplicit]. *)
Section VisibleDecls.
  Variables (u : unit) (st : storage) (found : nat -> list nat) (implicit : nat -> bool) (vis : dmap bool).

  (** L175-183; the assertion is that the visibility is known. *)
  Definition is_hidden_tag (n : nat) : option bool :=
    if negb (is_tag u n) then Some false
    else match dlookup vis n with Some b => Some (negb b) | None => None end.

  (** [llvm::any_of] with a condition that may fail. *)
  Fixpoint any_opt {A} (f : A -> option bool) (l : list A) : option bool :=
    match l with
    | [] => Some false
    | a :: l' => match f a with None => None | Some true => Some true | Some false => any_opt f l' end
    end.

  (** L185-192. *)
  Definition parent_of_nonempty (g : graph) (result : list nat) (n : nat) : option bool :=
    any_opt (fun c => if mem c result then option_map negb (is_hidden_tag c) else Some false) (children g n).

  (** L194-240. *)
  Definition contains_visible (g : graph) (n : nat) : option bool :=
    match any_opt (fun c => match dlookup vis c with None => None | Some b => Some (is_tag u c && b) end) (children g n) with
    | None => None
    | Some true => Some true
    | Some false =>
        match dlookup vis n with
        | None => None
        | Some default_visibility =>
            Some (existsb (fun d => negb (implicit d) &&
                    match get_named u st d with
                    | Some a => match n_visible a with Some b => b | None => default_visibility end
                    | None => default_visibility
                    end) (found n))
        end
    end.

  (** L242-251. *)
  Definition nonempty_step (g : graph) (result : list nat) (n : nat) : option (list nat) :=
    match parent_of_nonempty g result n with
    | None => None
    | Some true => Some (n :: result)
    | Some false => match contains_visible g n with
                    | None => None
                    | Some true => Some (n :: result)
                    | Some false => Some result
                    end
    end.

  Definition contexts_with_visible_decls (g : graph) : option (list nat) :=
    match post_order g (u_root u) with
    | None => None
    | Some ns => fold_opt (nonempty_step g) ns []
    end.
End VisibleDecls.

(** L256-315 [hideNamespacesBasedOnExposeInAnnotation]. *)
Definition for_different_module (u : unit) (st : storage) (module_name : str) (n : nat) : bool :=
  match get_namespace u st n with
  | Some a =>
      match ns_only_expose_in a with
      | [] => false
      | names => negb (existsb (str_eqb module_name) names)
      end
  | None => false
  end.

Record hstate := mkHide { h_dominator : option nat; h_contexts : list nat; h_visible : dmap bool }.

Definition hide_step (u : unit) (st : storage) (module_name : str) (s : hstate) (e : event) : hstate :=
  match e with
  | Completed n =>
      match h_dominator s with
      | Some d => if Nat.eqb d n then mkHide None (h_contexts s) (h_visible s) else s
      | None => s
      end
  | Visit [] => s
  | Visit (n :: _) =>
      let hide d := mkHide d (filter (fun i => negb (Nat.eqb i n)) (h_contexts s)) (dset n false (h_visible s)) in
      match h_dominator s with
      | Some d => hide (Some d)
      | None => if for_different_module u st module_name n then hide (Some n) else s
      end
  end.

Definition hide_namespaces (u : unit) (st : storage) (g : graph) (module_name : str)
    (contexts : list nat) (vis : dmap bool) : option (list nat * dmap bool) :=
  match depth_first g (u_root u) (fun _ => true) with
  | None => None
  | Some es => let s := fold_left (hide_step u st module_name) es (mkHide None contexts vis) in
               Some (h_contexts s, h_visible s)
  end.

(** L317-351 [pruneGraph]; [None]: the visibility of a node is not known. *)
Definition should_be_preserved (u : unit) (contexts : list nat) (vis : dmap bool) (n : nat) : option bool :=
  match dlookup vis n with
  | None => None
  | Some b => Some (if is_tag u n then b else mem n contexts)
  end.

Definition prune_step (u : unit) (contexts : list nat) (vis : dmap bool) (g : graph) (path : list nat) : option graph :=
  match path with
  | [] => None
  | n :: above =>
      match should_be_preserved u contexts vis n with
      | None => None
      | Some false => Some g
      | Some true => match above with [] => Some g | p :: _ => Some (add_edge p n g) end
      end
  end.

Definition prune_graph (u : unit) (g : graph) (contexts : list nat) (vis : dmap bool) : option graph :=
  match depth_first g (u_root u) (fun n => match should_be_preserved u contexts vis n with Some b => b | None => false end) with
  | None => None
  | Some es => fold_opt (prune_step u contexts vis) (visited_paths es) (new_graph (u_root u))
  end.

(** L353-376 [reportUnreachableVisibleDeclContexts]: the declarations warned
    about; the translation unit is not a named declaration. *)
Definition unreachable_visible (u : unit) (g : graph) (contexts : list nat) (relocated : list (nat * nat)) : list nat :=
  sort_by_location u
    (flat_map (fun n => if Nat.eqb n (u_root u) || has_node g n then []
                        else [match assoc relocated n with Some alias => alias | None => n end]) contexts).

(** tool.cpp L213-245 (part of [HandleTranslationUnit]): everything between
    parsing and emission. *)
Inductive processed :=
| NoGraph (rs : list report)                                  (* errors while building the graph *)
| Cycles (aliases : list nat)
| Pruned (g : graph) (contexts : list nat) (vis : dmap bool) (warned : list nat) (b : bstate).

Definition process (u : unit) (found : nat -> list nat) (implicit : nat -> bool) (module_name : str) : outcome processed :=
  match build_graph u with
  | NestedReport => NestedReport
  | AssertFails => AssertFails
  | Done (false, b) => Done (NoGraph (bs_reports b))
  | Done (true, b) =>
      let g := bs_graph b in let st := bs_annotations b in
      match derive_effective_visibility u st g with
      | None => AssertFails
      | Some vis =>
          match expose_here_cycles u g (reachable_contexts vis) (bs_relocated b) with
          | (_ :: _) as aliases => Done (Cycles aliases)
          | [] =>
              match contexts_with_visible_decls u st found implicit vis g with
              | None => AssertFails
              | Some contexts =>
                  match hide_namespaces u st g module_name contexts vis with
                  | None => AssertFails
                  | Some (contexts', vis') =>
                      match prune_graph u g contexts' vis' with
                      | None => AssertFails
                      | Some g' => Done (Pruned g' contexts' vis' (unreachable_visible u g' contexts' (bs_relocated b)) b)
                      end
                  end
              end
          end
      end
  end.
