(** * Properties of graphical views of context graphs (C95) *)
From Coq Require Import Sorting.Permutation.
From Verif Require Import Base ParserModel AnnotModel CollectModel CollectSpec GraphModel GraphSpec GraphProps InspectModel InspectSpec InspectProps ViewModel ViewSpec ViewProofs.

(** For each of the stages, the graph that is displayed on request has exactly one box
    for each context, with its name, and exactly one arrow for each edge; it does not
    matter in which order nodes are stored.  Each stage requested is displayed once, no
    matter how often it is requested, and text is printed just as without views (C60). *)
Theorem displayed_graphs_show_all_contexts :
  forall u, placed u -> forall found implicit module_name g' contexts vis' warned b,
  process u found implicit module_name = Done (Pruned g' contexts vis' warned b) -> forall x address iteration,
  showable_names x u -> proper_addresses address -> (forall l, Permutation (iteration l) l) ->
  exists dot dot' text text' N,
    depicts x u (bs_annotations b) (bs_graph b) dot /\ depicts x u (bs_annotations b) g' dot' /\
    (forall fuel, N <= fuel -> inspect fuel x u true false found implicit module_name = Printed text /\ inspect fuel x u false true found implicit module_name = Printed text') /\
    forall views dumps fuel, N <= fuel -> exists l l',
      inspect_stages x u address iteration views dumps fuel found implicit module_name = Printed (l ++ l') /\
      stage_output views dumps StageVisibility dot text l /\ stage_output views dumps StagePruned dot' text' l'.
Proof. exact stages_spec. Qed.
Print Assumptions displayed_graphs_show_all_contexts.

(** Graphs are displayed only if the graph has been pruned. *)
Theorem nothing_is_displayed_after_errors :
  forall u found implicit module_name x address iteration views dumps fuel,
    (forall g' contexts vis' warned b, process u found implicit module_name <> Done (Pruned g' contexts vis' warned b)) ->
    inspect_stages x u address iteration views dumps fuel found implicit module_name = Printed [].
Proof. exact stages_nothing. Qed.
Print Assumptions nothing_is_displayed_after_errors.

(** Names with characters that are special in labels, and a context without name. *)
Definition odd_names : names :=
  mkNames (nm_kind demo_names)
          (fun i => match i with 1 => $"a" | 2 => [] | 4 => $"a::C<'\n', '|', '""'>" | 5 => $"a::C<'\n', '|', '""'>::D" | 6 => $"e" | _ => $"e::F" end)
          (nm_simple demo_names).
Definition demo_address (n : nat) : str := $"0x" ++ repeat "a"%char n.

Lemma simple_checked s : forallb (fun c => negb (existsb (Ascii.eqb c) [ascii_of_N 9; ascii_of_N 10; ascii_of_N 92])) s = true -> simple_text s.
Proof.
  intros H c Hc. rewrite forallb_forall in H. specialize (H c Hc). apply negb_true_iff in H. cbn -[ascii_of_N] in H. rewrite !orb_false_iff in H.
  destruct H as (H1 & H2 & H3 & _). repeat split; intros ->; rewrite Ascii.eqb_refl in *; discriminate.
Qed.
Fixpoint pairs_fine (s : str) : bool :=
  match s with c :: r => negb (Ascii.eqb c (ascii_of_N 92) && existsb (fun d => existsb (Ascii.eqb d) ($"l|{}")) (firstn 1 r)) && pairs_fine r | [] => true end.
Lemma showable_checked s : forallb (fun c => negb (existsb (Ascii.eqb c) [ascii_of_N 9; ascii_of_N 10])) s = true -> pairs_fine s = true -> showable s.
Proof.
  intros H H'. split.
  - intros c Hc. rewrite forallb_forall in H. specialize (H c Hc). apply negb_true_iff in H. cbn -[ascii_of_N] in H. rewrite !orb_false_iff in H.
    destruct H as (H1 & H2 & _). repeat split; intros ->; rewrite Ascii.eqb_refl in *; discriminate.
  - clear H. rename H' into Hs. intros a d b ->. induction a as [|c a IH].
    + cbn [app pairs_fine firstn existsb] in Hs. rewrite Ascii.eqb_refl, orb_false_r in Hs. apply andb_prop in Hs as (Hs & _). cbn [andb] in Hs. apply negb_true_iff in Hs. intros Hi.
      change (existsb (Ascii.eqb d) ($"l|{}") = false) in Hs. enough (existsb (Ascii.eqb d) ($"l|{}") = true) by congruence. apply existsb_exists. exists d. split; [exact Hi|apply Ascii.eqb_refl].
    + apply IH. cbn [app pairs_fine] in Hs. apply andb_prop in Hs as (_ & Hs). exact Hs.
Qed.

Example C95_example :
  placed demo /\ showable_names odd_names demo /\ proper_addresses demo_address /\
  (exists g' contexts vis' warned b, process demo (fun _ => []) (fun _ => false) ($"other") = Done (Pruned g' contexts vis' warned b)) /\
  (exists dot dot' text, inspect_stages odd_names demo demo_address (@rev nat) [StagePruned; StageVisibility; StagePruned] [StagePruned] 50 (fun _ => []) (fun _ => false) ($"other")
    = Printed [Displayed dot; Displayed dot'; Dumped text] /\
    In (Box ($"Node0xaaaa") [($"shape", $"record"); ($"style", $"dashed"); ($"label", $"{a::C\<'\\n', '\|', '""'\>}")]) (match dot_graph dot with Some l => l | None => [] end) /\
    record_label ($"{a::C\<'\\n', '\|', '""'\>}") = Some [$"a::C<'\n', '|', '""'>"] /\
    option_map (fun l => (boxes l, arrows l)) (dot_graph dot') = Some
      ([($"Node0xaaaaaaa", [($"shape", $"record"); ($"style", []); ($"label", $"{e::F}")]);
        ($"Node0xaaaaaa", [($"shape", $"record"); ($"style", $"dotted,filled,bold"); ($"fillcolor", $"Seashell1"); ($"label", $"{e}")]);
        ($"Node0xaa", [($"shape", $"record"); ($"style", []); ($"label", $"{\<CXXRecord\>|Alias}")]);
        ($"Node0x", [($"shape", $"record"); ($"style", $",filled,bold"); ($"shape", $"diamond"); ($"fillcolor", $"Seashell2"); ($"label", $"{*}")])],
       [($"Node0xaaaaaa", $"Node0xaaaaaaa"); ($"Node0x", $"Node0xaa"); ($"Node0x", $"Node0xaaaaaa")])).
Proof.
  split; [exact demo_placed|]. split.
  { intros n. do 8 (destruct n as [|n]; [split; [apply simple_checked; reflexivity|split; [apply showable_checked; reflexivity|apply simple_checked; reflexivity]]|]).
    split; [apply simple_checked; reflexivity|split; [apply showable_checked; reflexivity|apply simple_checked; reflexivity]]. }
  split.
  { split.
    - intros n. unfold demo_address. rewrite forallb_app. cbn. induction n; [reflexivity|assumption].
    - intros n m H. unfold demo_address in H. apply app_inv_head in H. rewrite <- (repeat_length "a"%char n), H, repeat_length. reflexivity. }
  split.
  { vm_compute. do 5 eexists. reflexivity. }
  do 3 eexists. split; [vm_compute; reflexivity|]. split; [|split; vm_compute; reflexivity].
  vm_compute. do 4 right. repeat first [left; reflexivity|right].
Qed.
