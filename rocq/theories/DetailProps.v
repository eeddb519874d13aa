(** * Properties of what generated code may depend on *)
From Coq Require Import Sorting.Permutation.
From Verif Require Import Base ParserModel StringModel StringSpec AnnotModel AnnotSpec CollectModel CollectSpec GraphModel GraphSpec GraphWalk GraphPlace GraphFinal GraphProps
  OrderModel OrderSpec OrderProofs OrderProps InlineModel InlineSpec InlineProofs EmitModel EmitSpec EmitProofs EmitFinal EmitProps ModuleModel ModuleSpec ModuleChunks ModuleProofs ModuleFinal ModuleProps
  ImportSpec ImportProofs ImportProps ExecSpec ExecProofs ExecProps AccessSpec AccessProofs AccessProps DetailSpec DetailProofs.

(** ** C101 *)

(** The result, including everything reported, depends on the signatures, types
    and initialisers of those declarations only that are visible in a context of
    the module.  Operators found by argument dependent lookup are looked for by the
    classes among their parameters, visible or not. *)
Theorem only_details_of_visible_declarations_matter : forall u w w' found implicit iteration n name, setting u w iteration ->
  (forall g vis b, exposed u found implicit name g vis b -> same_where_used u w w' g b name) ->
  generate u w found implicit iteration n name = generate u w' found implicit iteration n name.
Proof. exact generate_same. Qed.
Print Assumptions only_details_of_visible_declarations_matter.

(** Any change to one declaration that is not visible leaves the result as it is;
    an operator has to keep the classes among its parameters. *)
Theorem invisible_declarations_can_be_changed : forall u w found implicit iteration n name i f const tag enumerator, setting u w iteration ->
  (forall g vis b, exposed u found implicit name g vis b -> ~ in_use u w g b name i) ->
  (forall c k d, kind u c = KRecord -> In d (x_adl (w_extra w) c k) -> In i (expand (w_extra w) d) ->
     (takes_class (w_extra w) c i <-> exists q, In q (fi_params f) /\ has_type_of_record c q = true)) ->
  generate u w found implicit iteration n name = generate u (changed w i f const tag enumerator) found implicit iteration n name.
Proof. exact changed_same. Qed.
Print Assumptions invisible_declarations_can_be_changed.

(** In particular everything annotated with [hidden]. *)
Theorem hidden_declarations_are_not_used : forall u w g b name i, AccessSpec.says u i (Some false) -> ~ in_use u w g b name i.
Proof. exact hidden_not_used. Qed.
Print Assumptions hidden_declarations_are_not_used.

(** ** Examples *)

(** h of the example of C72 is not visible by default. *)
Lemma vault_h_unused g vis b : exposed vault vault_found (fun _ => false) ($"m") g vis b -> ~ in_use vault vault_facts g b ($"m") 8.
Proof.
  intros X (c & Hc & (x & Hx & Hi) & [V|[_ V]]).
  - assert (S8 : AccessSpec.says vault 8 None) by (apply attributes_say; vm_compute; reflexivity). discriminate (says_unique _ _ _ _ V S8).
  - apply (lookup_visible _ _ _ _ _ _ _ _ _ vault_setting X c Hc) in V. destruct X as (contexts & warned & E).
    assert (K : match process vault vault_found (fun _ => false) ($"m") with
      | Done (Pruned g _ vis _ b) => forallb (fun c => negb (lookup_vis vis c) ||
          match create vault (bs_annotations b) (w_hierarchy vault_facts) c with
          | Some x => negb (existsb (Nat.eqb 8) (flat_map (expand (w_extra vault_facts)) (looked_up vault vault_facts c x)))
          | None => false
          end) (g_nodes g)
      | _ => false
      end = true) by (vm_compute; reflexivity).
    rewrite E in K. rewrite forallb_forall in K. specialize (K c Hc). rewrite V, Hx in K. cbn [negb orb] in K. apply negb_true_iff in K.
    assert (K' : existsb (Nat.eqb 8) (flat_map (expand (w_extra vault_facts)) (looked_up vault vault_facts c x)) = true) by (apply existsb_exists; exists 8; split; [exact Hi|reflexivity]).
    congruence.
Qed.

(** The hidden function g(3), the hidden field y(6) and the function h(8) in a
    namespace that is not visible can be changed, but not f(2). *)
Example invisible_declarations_can_be_changed_example :
  (forall i f const tag enumerator, In i [3; 6; 8] ->
    generate vault vault_facts vault_found (fun _ => false) (@rev nat) 1 ($"m") =
    generate vault (changed vault_facts i f const tag enumerator) vault_found (fun _ => false) (@rev nat) 1 ($"m")) /\
  generate vault vault_facts vault_found (fun _ => false) (@rev nat) 1 ($"m") <>
  generate vault (changed vault_facts 2 (a_fn [a_param "x" (plain_type 1)] None) false None false) vault_found (fun _ => false) (@rev nat) 1 ($"m").
Proof.
  split.
  - intros i f const tag enumerator Hi. apply invisible_declarations_can_be_changed; [exact vault_setting| |intros c k d _ []].
    intros g vis b X. cbn in Hi. destruct Hi as [<-|[<-|[<-|[]]]]; [| |exact (vault_h_unused g vis b X)];
      apply hidden_declarations_are_not_used, attributes_say; vm_compute; reflexivity.
  - intros E. apply (f_equal (fun r => match r with Some (RGraph _ (EWritten files _ _)) => Some (length (flat_map (fun t => match t with SFunction _ _ _ args _ => args | _ => [] end)
      (flat_map (fun t => match t with IDefine _ _ body => body | _ => [] end) (concat files)))) | _ => None end)) in E. vm_compute in E. discriminate E.
Qed.
