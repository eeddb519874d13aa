(** * Printing of context graphs: model of src/inspect_graph.cpp L42-97 and
    L189-195, src/tool.cpp L135-157 and clang's [TextTreeStructure]. *)
From Verif Require Import Base ParserModel AnnotModel CollectModel GraphModel.

(** What clang tells about declarations: name of the kind
    ([Decl::getDeclKindName]), qualified name ([getNameForDisplay],
    diagnostics.cpp L14-28) and plain name. *)
Record names := mkNames { nm_kind : nat -> str; nm_display : nat -> str; nm_simple : nat -> str }.

Definition tick : str := [ascii_of_N 39].

(** L49-69 [getNodeLabel]; only used for named declarations, see [print_graph]. *)
Definition node_label (x : names) (u : unit) (st : storage) (n : nat) : str :=
  nm_kind x n ++ $" " ++ tick ++ nm_display x n ++ tick ++
  match get_named u st n with
  | None => []
  | Some a =>
      let spelling := match n_spelling a with [] => u_name u n | s => s end in
      if str_eqb spelling (nm_simple x n) then [] else $" as " ++ tick ++ spelling ++ tick
  end.

(** State of [TextTreeStructure]: text printed, [Prefix], [Pending] (the last
    element comes first; the function objects are given by their node) and
    [FirstChild]. *)
Record printer := mkPrinter { p_out : str; p_prefix : str; p_pending : list nat; p_first : bool }.

Inductive printed (A : Type) := Printed (a : A) | Undefined | NoFuel.
Arguments Printed {A} a. Arguments Undefined {A}. Arguments NoFuel {A}.

Definition bind {A B} (r : printed A) (f : A -> printed B) : printed B :=
  match r with Printed a => f a | Undefined => Undefined | NoFuel => NoFuel end.

Definition line_break : str := [ascii_of_N 10].

Section Print.
Context (x : names) (u : unit) (st : storage) (vis : dmap bool) (g : graph).

(** L71-77 [printNodeDescription]: the end of the map is dereferenced if there
    is no entry. *)
Definition description (n : nat) : printed str :=
  match dlookup vis n with
  | None => Undefined
  | Some b => Printed (if b then $"visible" else $"hidden")
  end.

(** [dump]: a function object, called with [IsLastChild]; its last part prints
    the children that are left.  [add_children]: the calls of [AddChild] for the
    children of a node (L83-85). *)
Fixpoint dump (fuel : nat) (n : nat) (is_last : bool) (p : printer) {struct fuel} : printed printer :=
  match fuel with
  | O => NoFuel
  | S fuel' =>
      let out := p_out p ++ line_break ++ p_prefix p ++ (if is_last then $"`" else $"|") ++ $"-" ++
                 match node_label x u st n with [] => [] | l => l ++ $": " end in
      let prefix := p_prefix p ++ (if is_last then $" " else $"|") ++ $" " in
      let depth := length (p_pending p) in
      bind (description n) (fun d =>
      bind (add_children fuel' (children g n) (mkPrinter (out ++ d) prefix (p_pending p) true)) (fun p1 =>
      bind (flush fuel' depth p1) (fun p2 =>
      Printed (mkPrinter (p_out p2) (firstn (length (p_prefix p2) - 2) (p_prefix p2)) (p_pending p2) (p_first p2)))))
  end
with flush (fuel : nat) (depth : nat) (p : printer) {struct fuel} : printed printer :=
  match fuel with
  | O => NoFuel
  | S fuel' =>
      if Nat.ltb depth (length (p_pending p)) then
        match p_pending p with
        | [] => Undefined
        | n :: _ =>
            bind (dump fuel' n true p) (fun p' =>
            flush fuel' depth (mkPrinter (p_out p') (p_prefix p') (tl (p_pending p')) (p_first p')))
        end
      else Printed p
  end
with add_children (fuel : nat) (cs : list nat) (p : printer) {struct fuel} : printed printer :=
  match fuel with
  | O => NoFuel
  | S fuel' =>
      match cs with
      | [] => Printed p
      | c :: cs' =>
          if p_first p then add_children fuel' cs' (mkPrinter (p_out p) (p_prefix p) (c :: p_pending p) false)
          else
            match p_pending p with
            | [] => Undefined
            | n :: _ =>
                bind (dump fuel' n false p) (fun p' =>
                add_children fuel' cs' (mkPrinter (p_out p') (p_prefix p') (c :: tl (p_pending p')) false))
            end
      end
  end.

(** L189-195 [printGraph]: the label of the root is not printed, as it is at the
    top level, neither is its description. *)
Definition print_graph (fuel : nat) (title : str) : printed str :=
  bind (add_children fuel (children g (u_root u)) (mkPrinter title [] [] true)) (fun p1 =>
  bind (flush fuel 0 p1) (fun p2 => Printed (p_out p2 ++ line_break))).

(** tool.cpp L145-157 [inspectGraph], [--dump-graph] only. *)
Definition inspect_graph (fuel : nat) (title : str) : printed str :=
  bind (print_graph fuel title) (fun s =>
  Printed (s ++ match g_nodes g with [_] => $"<no children>" ++ line_break | _ => [] end)).
End Print.

(** tool.cpp L135-143. *)
Definition visibility_title : str := $"Declaration context graph (unpruned) with visibility of all nodes:".
Definition pruned_title : str := $"Declaration context graph after pruning:".

(** tool.cpp L223-224 and L239-240, for [process]: what is printed for the two stages requested. *)
Definition inspect (fuel : nat) (x : names) (u : unit) (show_visibility show_pruned : bool) (found : nat -> list nat) (implicit : nat -> bool) (module_name : str) : printed str :=
  match process u found implicit module_name with
  | Done (Pruned g' _ vis' _ b) =>
      match derive_effective_visibility u (bs_annotations b) (bs_graph b) with
      | None => Undefined
      | Some vis =>
          bind (if show_visibility then inspect_graph x u (bs_annotations b) vis (bs_graph b) fuel visibility_title else Printed []) (fun s1 =>
          bind (if show_pruned then inspect_graph x u (bs_annotations b) vis' g' fuel pruned_title else Printed []) (fun s2 =>
          Printed (s1 ++ s2)))
      end
  | _ => Printed []
  end.
