(** * Graphical view of context graphs: model of src/inspect_graph.cpp L101-187,
    src/tool.cpp L68-93 and L145-157, and of LLVM's [GraphWriter] (recalled from
    llvm/Support/GraphWriter.h and GraphWriter.cpp). *)
From Verif Require Import Base ParserModel AnnotModel CollectModel GraphModel InspectModel.

(** [DOT::EscapeString]. *)
Definition escaped (c : ascii) : bool := existsb (Ascii.eqb c) ($"{}<>|" ++ [ascii_of_N 34]).
Definition backslash : ascii := ascii_of_N 92.
Definition horizontal_tab : ascii := ascii_of_N 9.
Fixpoint escape_string (s : str) : str :=
  match s with
  | [] => []
  | c :: r =>
      if Ascii.eqb c (ascii_of_N 10) then backslash :: "n"%char :: escape_string r
      else if Ascii.eqb c horizontal_tab then $"  " ++ escape_string r
      else if Ascii.eqb c backslash then
        match r with
        | "l"%char :: _ => c :: escape_string r
        | d :: r' => if existsb (Ascii.eqb d) ($"|{}") then d :: escape_string r' else backslash :: c :: escape_string r
        | [] => [backslash; c]
        end
      else if escaped c then backslash :: c :: escape_string r
      else c :: escape_string r
  end.

Section View.
(** [address]: text printed for the address of a node; [iteration]: order of the
    nodes in the [DenseMap]. *)
Context (x : names) (u : unit) (st : storage) (g : graph) (address : nat -> str) (iteration : list nat -> list nat).

Definition is_root (n : nat) : bool := Nat.eqb n (u_root u).

(** L128-144 [getNodeLabel]; the translation unit is the root. *)
Definition view_label (n : nat) : str :=
  if is_root n then $"*" else match nm_display x n with [] => $"<" ++ nm_kind x n ++ $">" | s => s end.

(** [annotations.get<NamedDeclAttrs>] finds nothing for the null pointer that
    [dyn_cast<NamedDecl>] returns for the translation unit. *)
Definition view_attrs (n : nat) : option named_attrs := if is_root n then None else get_named u st n.

(** L146-153 [getNodeDescription]. *)
Definition view_description (n : nat) : str := match view_attrs n with Some a => n_spelling a | None => [] end.

(** L155-178 [getNodeAttributes]. *)
Definition view_attributes (n : nat) : str :=
  $"style=""" ++
  match view_attrs n with
  | Some a => match n_visible a with None => $"dotted" | Some false => $"dashed" | Some true => [] end
  | None => []
  end ++
  (if is_root n then $",filled,bold"",shape=diamond,fillcolor=Seashell2"
   else match kind u n with KNamespace => $",filled,bold"",fillcolor=Seashell1" | _ => $"""" end).

(** [GraphWriter::writeEdge] and [emitEdge] without labels and attributes of edges. *)
Definition node_id (n : nat) : str := $"Node" ++ address n.
Definition write_edge (n c : nat) : str := [horizontal_tab] ++ node_id n ++ $" -> " ++ node_id c ++ $";" ++ line_break.

(** [GraphWriter::writeNode]. *)
Definition write_node (n : nat) : str :=
  [horizontal_tab] ++ node_id n ++ $" [shape=record," ++ view_attributes n ++ $",label=""{" ++ escape_string (view_label n) ++
  match view_description n with [] => [] | d => $"|" ++ escape_string d end ++ $"}""];" ++ line_break ++
  flat_map (write_edge n) (children g n).

(** [GraphWriter::writeGraph] without title and name. *)
Definition view_graph : str := $"digraph unnamed {" ++ line_break ++ line_break ++ flat_map write_node (iteration (g_nodes g)) ++ $"}" ++ line_break.
End View.

(** tool.cpp L68-93 and L145-157 [inspectGraph]: stages requested by [--inspect-graph]
    and [--dump-graph], which may be repeated; a graph that is displayed, or text on
    standard error. *)
Inductive stage := StageVisibility | StagePruned.
Definition stage_eqb (a b : stage) : bool := match a, b with StageVisibility, StageVisibility | StagePruned, StagePruned => true | _, _ => false end.
Inductive shown_graph := Displayed (dot : str) | Dumped (text : str).

Section Stages.
Context (x : names) (u : unit) (address : nat -> str) (iteration : list nat -> list nat) (views dumps : list stage).

Definition graph_title (s : stage) : str := match s with StageVisibility => visibility_title | StagePruned => pruned_title end.
Definition inspect_stage (fuel : nat) (st : storage) (vis : dmap bool) (g : graph) (s : stage) : printed (list shown_graph) :=
  bind (if existsb (stage_eqb s) dumps then bind (inspect_graph x u st vis g fuel (graph_title s)) (fun t => Printed [Dumped t]) else Printed []) (fun d =>
  Printed ((if existsb (stage_eqb s) views then [Displayed (view_graph x u st g address iteration)] else []) ++ d)).

(** tool.cpp L223-224 and L239-240. *)
Definition inspect_stages (fuel : nat) (found : nat -> list nat) (implicit : nat -> bool) (module_name : str) : printed (list shown_graph) :=
  match process u found implicit module_name with
  | Done (Pruned g' _ vis' _ b) =>
      match derive_effective_visibility u (bs_annotations b) (bs_graph b) with
      | None => Undefined
      | Some vis =>
          bind (inspect_stage fuel (bs_annotations b) vis (bs_graph b) StageVisibility) (fun l1 =>
          bind (inspect_stage fuel (bs_annotations b) vis' g' StagePruned) (fun l2 => Printed (l1 ++ l2)))
      end
  | _ => Printed []
  end.
End Stages.
