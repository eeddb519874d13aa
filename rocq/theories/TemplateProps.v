(** * Properties of the instantiation of annotated templates *)
From Verif Require Import Base GraphModel TemplateModel TemplateSpec TemplateProofs.

(** ** C43 *)

(** Instantiation finishes exactly if finitely many specialisations are asked
    for.  Missing: declarations of undefined templates, and forward declarations of
    explicit specialisations, see below. *)
Theorem instantiation_finishes_iff_finite_partial : forall t m, proper_statuses m -> instantiable t m ->
  ((exists l, forall i, needed t m i -> In i l) <-> exists n s, forall fuel, n <= fuel -> run_templates fuel t m = Finished s).
Proof. exact terminates_iff. Qed.
Print Assumptions instantiation_finishes_iff_finite_partial.

(** No assertion fails in the meantime, even if it does not finish. *)
Theorem instantiation_hits_no_assertion_partial : forall t m, proper_statuses m -> instantiable t m -> forall fuel, run_templates fuel t m <> Crash.
Proof. exact never_crashes. Qed.
Print Assumptions instantiation_hits_no_assertion_partial.

(** Everything asked for is instantiated once, and complete in the end; it is
    made visible to the later passes once if it was not declared explicitly; nothing
    else is instantiated explicitly. *)
Theorem needed_templates_are_instantiated_once : forall t m fuel s, run_templates fuel t m = Finished s ->
  NoDup (ts_instantiated s) /\ (forall i, In i (ts_instantiated s) <-> needed t m i /\ ~ untouched (s_kind (m i))) /\
  (forall i, needed t m i -> ~ untouched (s_kind (m i)) -> ts_status s i = mkStatus InstantiationDefinition true) /\
  NoDup (ts_added s) /\ (forall i, In i (ts_added s) <-> needed t m i /\ (s_kind (m i) = Undeclared \/ s_kind (m i) = Implicit)) /\
  (forall i, ~ needed t m i \/ untouched (s_kind (m i)) -> ts_status s i = m i \/ (s_kind (m i) = Undeclared /\ ts_status s i = mkStatus Implicit true)).
Proof. exact finished_spec. Qed.
Print Assumptions needed_templates_are_instantiated_once.

(** Two aliases of specialisation 0, whose members name 1 and 2 and itself; 1 is
    explicitly specialised and names 3, which has been instantiated implicitly
    before; 2 names 0; instantiating 0 triggers 2 and 5. *)
Definition example_templates : templates := mkTemplates [0; 1; 0]
  (fun i => match i with 0 => [1; 2; 0] | 1 => [3] | 2 => [0] | _ => [] end) (fun i => i) (fun _ => true)
  (fun i => match i with 0 => [2; 5] | _ => [] end).
Definition example_statuses : statuses := fun i => match i with 1 => mkStatus Specialization true | 3 => mkStatus Implicit true | _ => mkStatus Undeclared false end.

Example C43_example : proper_statuses example_statuses /\ instantiable example_templates example_statuses /\
  exists s, run_templates 20 example_templates example_statuses = Finished s /\ ts_instantiated s = [0; 2; 3] /\ ts_added s = [0; 2; 3] /\
    map (fun i => s_kind (ts_status s i)) [0; 1; 2; 3; 4; 5] =
      [InstantiationDefinition; Specialization; InstantiationDefinition; InstantiationDefinition; Undeclared; Implicit].
Proof.
  split; [intros [|[|[|[|i]]]]; cbn; auto|]. split; [intros i _; split; [reflexivity|intros _; reflexivity]|]. eexists. split; [vm_compute; reflexivity|]. repeat split.
Qed.

(** An annotated alias of a specialisation of a template that is only declared
    hits an assertion. *)
Theorem undefined_templates_are_tolerated_refuted : exists t m, proper_statuses m /\ (forall i, t_definition t i = i) /\
  forall fuel, 1 <= fuel -> run_templates fuel t m = Crash.
Proof.
  exists (mkTemplates [0] (fun _ => []) (fun i => i) (fun _ => false) (fun _ => [])), (fun _ => mkStatus Undeclared false). split; [intros i; reflexivity|]. split; [reflexivity|].
  intros [|fuel] H; [inversion H|reflexivity].
Qed.
Print Assumptions undefined_templates_are_tolerated_refuted.

(** So does an annotated forward declaration of an explicit specialisation. *)
Theorem forward_declarations_are_tolerated_refuted : exists t m, proper_statuses m /\ (forall i, t_defined t i = true) /\ s_kind (m 0) = Specialization /\
  forall fuel, 1 <= fuel -> run_templates fuel t m = Crash.
Proof.
  exists (mkTemplates [0] (fun _ => []) (fun _ => 1) (fun _ => true) (fun _ => [])), (fun _ => mkStatus Specialization true). split; [intros i; exact I|]. split; [reflexivity|]. split; [reflexivity|].
  intros [|fuel] H; [inversion H|reflexivity].
Qed.
Print Assumptions forward_declarations_are_tolerated_refuted.

(** A template [A<N>] with an annotated alias of [A<N + 1>] is instantiated for
    ever: annotated aliases are followed although the alias alone would not
    instantiate anything. *)
Theorem instantiation_finishes_refuted : exists t m, proper_statuses m /\ instantiable t m /\ forall fuel s, run_templates fuel t m <> Finished s.
Proof. exact endless. Qed.
Print Assumptions instantiation_finishes_refuted.
