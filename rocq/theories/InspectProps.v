(** * Properties of printed context graphs (C60) *)
From Verif Require Import Base ParserModel AnnotModel CollectModel CollectSpec GraphModel GraphSpec GraphProps InspectModel InspectSpec InspectProofs.

(** For each of the two stages requested, printing ends and shows every context
    reachable in the graph exactly once: below the context it is exposed in, in
    the order of the graph, with its kind, its qualified name, the name in
    Python if it is another one, and its visibility.  An empty graph is said to
    have no children (for the first stage only if there are no detached
    contexts, either). *)
Theorem printed_graphs_show_all_contexts :
  forall u, placed u -> forall found implicit module_name g' contexts vis' warned b,
  process u found implicit module_name = Done (Pruned g' contexts vis' warned b) -> forall x,
  let g := bs_graph b in let st := bs_annotations b in let root := u_root u in
  exists ts ts' caption caption' text text' N,
    below g (CTree root ts) /\ below g' (CTree root ts') /\
    (NoDup (tree_nodes (CTree root ts)) /\ forall n, In n (tree_nodes (CTree root ts)) <-> reachable g root n) /\
    (NoDup (tree_nodes (CTree root ts')) /\ forall n, In n (tree_nodes (CTree root ts')) <-> In n (g_nodes g')) /\
    (forall n l, path (edge g) root (n :: l) -> exists v, visible_along u st (n :: l) v /\ captioned x u st n v (caption n)) /\
    (forall n, In n (g_nodes g') -> exists v, dlookup vis' n = Some v /\ captioned x u st n v (caption' n)) /\
    outlined ($"Declaration context graph (unpruned) with visibility of all nodes:") text (flat_map (outline caption 0) ts) /\
    outlined ($"Declaration context graph after pruning:") text' (flat_map (outline caption' 0) ts') /\
    forall show_visibility show_pruned fuel, N <= fuel ->
      inspect fuel x u show_visibility show_pruned found implicit module_name =
      Printed ((if show_visibility then text ++ (match g_nodes g with [_] => $"<no children>" ++ line_break | _ => [] end) else []) ++
               (if show_pruned then text' ++ (match ts' with [] => $"<no children>" ++ line_break | _ => [] end) else [])).
Proof. exact inspect_spec. Qed.
Print Assumptions printed_graphs_show_all_contexts.

(** Text is printed only if the graph has been pruned. *)
Theorem nothing_is_printed_after_errors :
  forall u found implicit module_name x fuel show_visibility show_pruned,
    (forall g' contexts vis' warned b, process u found implicit module_name <> Done (Pruned g' contexts vis' warned b)) ->
    inspect fuel x u show_visibility show_pruned found implicit module_name = Printed [].
Proof. exact inspect_nothing. Qed.
Print Assumptions nothing_is_printed_after_errors.

(** Nesting and captions can be read off the text, as captions are single lines. *)
Theorem printed_graphs_are_readable :
  forall title text ts ts' caption caption',
    outlined title text (flat_map (outline caption 0) ts) -> outlined title text (flat_map (outline caption' 0) ts') ->
    (forall n, In n (flat_map tree_nodes ts) -> single_line (caption n)) -> (forall n, In n (flat_map tree_nodes ts') -> single_line (caption' n)) ->
    map (labelled caption) ts = map (labelled caption') ts'.
Proof. exact text_tells. Qed.
Print Assumptions printed_graphs_are_readable.

Theorem captions_are_single_lines :
  forall x u b n visible s, placed u -> build_graph u = Done (true, b) -> plain_names x u ->
    captioned x u (bs_annotations b) n visible s -> single_line s.
Proof. exact captioned_plain. Qed.
Print Assumptions captions_are_single_lines.

Definition demo_names : names :=
  mkNames (fun i => match i with 1 | 6 => $"Namespace" | _ => $"CXXRecord" end)
          (fun i => match i with 1 => $"a" | 2 => $"a::B" | 4 => $"a::C" | 5 => $"a::C::D" | 6 => $"e" | _ => $"e::F" end)
          (fun i => match i with 2 => $"B" | _ => $"Other" end).

Definition unlines (l : list string) : str := flat_map (fun s => $s ++ line_break) l.

Example C60_example :
  placed demo /\ plain_names demo_names demo /\
  inspect 50 demo_names demo true true (fun _ => []) (fun _ => false) ($"other") = Printed (unlines [
    "Declaration context graph (unpruned) with visibility of all nodes:";
    "|-CXXRecord 'a::B' as 'Alias': visible";
    "|-Namespace 'a': visible";
    "| `-CXXRecord 'a::C': hidden";
    "|   `-CXXRecord 'a::C::D': visible";
    "`-Namespace 'e': hidden";
    "  `-CXXRecord 'e::F': visible";
    "Declaration context graph after pruning:";
    "|-CXXRecord 'a::B' as 'Alias': visible";
    "`-Namespace 'e': hidden";
    "  `-CXXRecord 'e::F': visible"])%string.
Proof.
  split; [exact demo_placed|]. split; [|vm_compute; reflexivity].
  intros n. do 8 (destruct n as [|n]; [repeat split; intros E; cbn in E; decompose [or] E; try discriminate; contradiction|]).
  repeat split; intros E; cbn in E; decompose [or] E; try discriminate; contradiction.
Qed.

(** Nothing left after pruning. *)
Example C60_example_empty :
  inspect 50 demo_names demo false true (fun _ => []) (fun _ => false) ($"other") <> inspect 50 demo_names demo false true (fun _ => []) (fun _ => false) ($"mine") /\
  inspect 50 demo_names (mkUnit (u_decls demo) [] 0 (u_contexts demo) (fun _ => true) (fun _ => false) (fun i => i) (fun _ => false) (u_name demo) (fun _ => false) N.of_nat)
    false true (fun _ => []) (fun _ => false) ($"m") = Printed (unlines ["Declaration context graph after pruning:"; "<no children>"])%string.
Proof. split; [vm_compute; discriminate|vm_compute; reflexivity]. Qed.
