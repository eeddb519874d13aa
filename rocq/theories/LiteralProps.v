(** * Properties of annotation argument values (C07 - C09). *)
From Verif Require Import Base ParserModel LiteralModel LiteralSpec LiteralProofs.

(** C07: for every sequence of operations the pointer implementation shows
    exactly the behaviour of plain values, including when it is undefined. *)
Theorem literal_values_have_value_semantics :
  forall ops, observed (run ops) = observed (arun ops).
Proof. exact value_semantics. Qed.
Print Assumptions literal_values_have_value_semantics.

(** C07: after every sequence of operations each heap string is owned by
    exactly one live value, no live value points to released memory, and once
    all values are destroyed nothing remains allocated. *)
Theorem heap_strings_owned_exactly_once :
  forall ops m xs, run ops = Done (m, xs) ->
    (forall l, allocated m l <-> exists i, points_to m i l) /\
    (forall i j l, points_to m i l -> points_to m j l -> i = j) /\
    (all_destroyed m -> forall l, ~ allocated m l).
Proof. exact heap_ownership. Qed.
Print Assumptions heap_strings_owned_exactly_once.

(** C07: undefined behaviour (double release, use after release, null
    dereference, wrong union member) arises exactly if a hollow moved-from
    string is read, or a string is set from a reference into itself. *)
Theorem undefined_behaviour_exactly_on_misuse :
  forall ops, run ops = UB <->
    exists pre o post s xs, ops = pre ++ o :: post /\ arun pre = Done (s, xs) /\ misuse s o.
Proof. exact ub_exactly_misuse. Qed.
Print Assumptions undefined_behaviour_exactly_on_misuse.

(** C07: in particular never without move assignments and self-setting. *)
Theorem no_undefined_behaviour_without_hazards :
  forall ops, Forall hazard_free ops -> run ops <> UB.
Proof. exact no_ub_without_hazards. Qed.
Print Assumptions no_undefined_behaviour_without_hazards.

(** C07: setting a string value from its own content is a use after free. *)
Theorem set_string_from_itself_refuted :
  exists ops m xs i t, run ops = Done (m, xs) /\ observe ops (OpGetString i) = Done (ObsStr t) /\
    run (ops ++ [OpSetStringFrom i i]) = UB.
Proof. exact self_set_string_refuted. Qed.
Print Assumptions set_string_from_itself_refuted.

Example C07_example : exists m xs,
  run [OpConstruct; OpSetString 0 $"a"; OpCopyConstruct 0; OpMoveConstruct 1; OpCopyAssign 0 2;
       OpSetUnsigned 2 7; OpDestroy 0; OpDestroy 1; OpDestroy 2] = Done (m, xs) /\ all_destroyed m /\ m_heap m <> [].
Proof.
  eexists _, _. split; [vm_compute; reflexivity|]. split; [|discriminate].
  intros o H. cbn in H. intuition congruence.
Qed.

(** C08: after move construction the source can be read. *)
Theorem moved_from_by_construction_readable :
  forall ops m xs j, run (ops ++ [OpMoveConstruct j]) = Done (m, xs) ->
    exists x, observe (ops ++ [OpMoveConstruct j]) (OpPrint j) = Done x.
Proof. exact move_construct_readable. Qed.
Print Assumptions moved_from_by_construction_readable.

(** C08: also after move assignment onto a string. *)
Theorem moved_from_by_assignment_onto_string_readable :
  forall ops i j x y, observe ops (OpPrint j) = Done x -> observe ops (OpGetString i) = Done y ->
    exists z, observe (ops ++ [OpMoveAssign i j]) (OpPrint j) = Done z.
Proof. exact move_assign_onto_string_readable. Qed.
Print Assumptions moved_from_by_assignment_onto_string_readable.

(** C08: the target receives the value. *)
Theorem move_assignment_transfers_the_value :
  forall ops i j x m xs, observe ops (OpPrint j) = Done x -> i <> j ->
    run (ops ++ [OpMoveAssign i j]) = Done (m, xs) ->
    observe (ops ++ [OpMoveAssign i j]) (OpPrint i) = Done x.
Proof. exact move_assign_takes. Qed.
Print Assumptions move_assignment_transfers_the_value.

(** C08 fails in general: after move assignment of a string onto a value of
    another kind the source still claims to be a string, but reading it
    dereferences a null pointer. *)
Theorem moved_from_readable_refuted :
  exists ops m xs x j, run ops = Done (m, xs) /\ observe ops (OpIsa j KString) = Done x /\ x = ObsBool true /\
    (exists i, last ops OpConstruct = OpMoveAssign i j) /\ observe ops (OpPrint j) = UB.
Proof. exact moved_from_refuted. Qed.
Print Assumptions moved_from_readable_refuted.

Example C08_example : exists x y,
  let ops := [OpConstruct; OpSetString 0 $"a"; OpConstruct; OpSetString 1 $"b"] in
  observe ops (OpPrint 1) = Done x /\ observe ops (OpGetString 0) = Done y.
Proof. eexists _, _. cbv zeta. split; vm_compute; reflexivity. Qed.

(** C09: a copy is equal to the original and answers all questions alike. *)
Theorem copy_equals_original :
  forall ops i j x m xs, observe ops (OpPrint j) = Done x -> run (ops ++ [OpCopyAssign i j]) = Done (m, xs) ->
    observe (ops ++ [OpCopyAssign i j]) (OpEqual i j) = Done (ObsBool true) /\
    forall q, observe (ops ++ [OpCopyAssign i j]) (ask q i) = observe ops (ask q j) /\
      observe (ops ++ [OpCopyAssign i j]) (ask q j) = observe ops (ask q j).
Proof. exact copy_is_equal. Qed.
Print Assumptions copy_equals_original.

Theorem copy_construction_equals_original :
  forall ops j x m xs, observe ops (OpPrint j) = Done x -> run ops = Done (m, xs) ->
    let i := length (m_vars m) in
    observe (ops ++ [OpCopyConstruct j]) (OpEqual i j) = Done (ObsBool true) /\
    observe (ops ++ [OpCopyConstruct j]) (OpPrint i) = Done x /\
    observe (ops ++ [OpCopyConstruct j]) (OpPrint j) = Done x.
Proof. exact copy_construct_equal. Qed.
Print Assumptions copy_construction_equals_original.

(** C09: no later operation on other values changes what is observed. *)
Theorem values_are_independent :
  forall ops later i q m xs x, Forall (fun o => may_change o i = false) later ->
    run (ops ++ later) = Done (m, xs) -> observe ops (ask q i) = Done x ->
    observe (ops ++ later) (ask q i) = Done x.
Proof. exact independent. Qed.
Print Assumptions values_are_independent.

(** C09: equality is an equivalence relation on readable values. *)
Theorem value_equality_is_equivalence :
  forall ops i j k,
    (forall x, observe ops (OpPrint i) = Done x -> observe ops (OpEqual i i) = Done (ObsBool true)) /\
    (observe ops (OpEqual i j) = Done (ObsBool true) -> observe ops (OpEqual j i) = Done (ObsBool true)) /\
    (observe ops (OpEqual i j) = Done (ObsBool true) -> observe ops (OpEqual j k) = Done (ObsBool true) ->
     observe ops (OpEqual i k) = Done (ObsBool true)).
Proof. exact equality_equivalence. Qed.
Print Assumptions value_equality_is_equivalence.

Example C09_example :
  let ops := [OpConstruct; OpSetString 0 $"a"; OpConstruct; OpCopyAssign 1 0] in
  let later := [OpSetString 0 $"b"; OpDestroy 0] in
  Forall (fun o => may_change o 1 = false) later /\ (exists m xs, run (ops ++ later) = Done (m, xs)) /\
  observe ops (ask QString 1) = Done (ObsStr $"a").
Proof.
  cbv zeta. split; [repeat constructor|]. split; [eexists _, _; vm_compute; reflexivity|]. vm_compute. reflexivity.
Qed.
