(** * Properties of modules for headers without annotations *)
From Coq Require Import Sorting.Permutation.
From Verif Require Import Base ParserModel StringModel AnnotModel AnnotSpec CollectModel CollectSpec GraphModel GraphSpec GraphWalk GraphPlace GraphProps
  OrderModel OrderSpec OrderProofs OrderProps InlineModel InlineSpec EmitModel EmitSpec EmitProps ModuleModel ModuleSpec ModuleProofs ModuleFinal ModuleProps ImportSpec ImportProofs ImportProps ExecSpec ExecProps AccessSpec AccessProps
  FindSpec FindProofs FindProps LocalSpec RewriteSpec BareSpec BareProofs.

(** ** C109 *)

(** The run succeeds without any error and without reports about annotations; the
    module is empty, whatever the headers declare. *)
Theorem nothing_is_exposed_without_annotations : forall u w found implicit iteration n name, setting u w iteration -> bare u -> 0 < n ->
  exists b rs st', generate u w found implicit iteration n name = Some (RGraph b (EWritten (empty_module name n) rs st')) /\
    bs_reports b = [] /\ forall r, In r rs -> exists i, r = EAnnotation i DInvalidAssumption /\ d_skip (u_decls u i) = true.
Proof. intros u w found implicit iteration n name S B. exact (bare_generate u (se_placed _ _ _ S) B w found implicit iteration n name S). Qed.
Print Assumptions nothing_is_exposed_without_annotations.

(** No header is rejected for what is declared in it: removing the annotations is
    always enough, and leaves nothing behind. *)
Theorem removing_annotations_removes_everything : forall u w found implicit iteration n name texts, setting u w iteration -> bare (rewritten u texts) -> 0 < n ->
  exists b rs st', generate (rewritten u texts) w found implicit iteration n name = Some (RGraph b (EWritten (empty_module name n) rs st')) /\
    bs_reports b = [] /\ forall r, In r rs -> exists i, r = EAnnotation i DInvalidAssumption /\ d_skip (u_decls u i) = true.
Proof.
  intros u w found implicit iteration n name texts S B Hn. apply stripped_setting with (texts := texts) in S; [|exact B].
  exact (nothing_is_exposed_without_annotations _ w found implicit iteration n name S B Hn).
Qed.
Print Assumptions removing_annotations_removes_everything.

(** The example of C81, with two output files: with the annotations something is
    generated, without them nothing is, even if other attributes are left. *)
Example removing_annotations_removes_everything_example :
  let u := rewritten shelf (fun i => match i with 2 => [$"visible"] | _ => [] end) in
  setting u shelf_facts (@rev nat) /\ bare u /\
  written (generate u shelf_facts (fun _ => []) (fun _ => false) (@rev nat) 2 ($"m")) = Some (empty_module ($"m") 2) /\
  written (generate shelf shelf_facts (fun _ => []) (fun _ => false) (@rev nat) 2 ($"m")) <> Some (empty_module ($"m") 2).
Proof.
  cbv zeta. assert (B : bare (rewritten shelf (fun i => match i with 2 => [$"visible"] | _ => [] end))).
  { intros i [rest Hin]. do 3 (destruct i as [|i]; [cbn in Hin; try contradiction; destruct Hin as [E|[]]; discriminate E|]). destruct Hin. }
  split; [|split; [exact B|split]].
  - apply stripped_setting; [exact B|exact shelf_setting].
  - vm_compute. reflexivity.
  - intros E. vm_compute in E. discriminate E.
Qed.
