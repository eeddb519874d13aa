(** * Properties of different ways to write the same annotations *)
From Coq Require Import Sorting.Permutation.
From Verif Require Import Base ParserModel ParserSpec ParserProofs ParserProps StringModel StringSpec AnnotModel AnnotSpec CollectModel CollectSpec GraphModel GraphSpec GraphWalk GraphPlace GraphFinal GraphProps
  OrderModel OrderSpec OrderProofs OrderProps InlineModel InlineSpec InlineProofs EmitModel EmitSpec EmitProofs EmitFinal EmitProps ModuleModel ModuleSpec ModuleChunks ModuleProofs ModuleFinal ModuleProps
  ImportSpec ImportProofs ImportProps ExecSpec ExecProofs ExecProps AccessSpec AccessProofs AccessProps LocalSpec RewriteSpec RewriteProofs.

(** ** C104 *)

(** If all declarations carry the same annotations in the same order, then it does
    not matter how these are written and distributed among uses of the macro: the
    result is the same, including everything reported and stored. *)
Theorem the_way_annotations_are_written_does_not_matter : forall u texts w found implicit iteration n name,
  (forall j, texts j = d_attrs (u_decls u j) \/ same_annotations (u_decls u j) (texts j)) ->
  generate (rewritten u texts) w found implicit iteration n name = generate u w found implicit iteration n name.
Proof. exact same_annotations_same_code. Qed.
Print Assumptions the_way_annotations_are_written_does_not_matter.

(** More generally, annotations matter only in so far as they result in attributes
    or complaints (and by being there). *)
Theorem annotations_matter_through_attributes_only : forall u texts w found implicit iteration n name, same_attributes u texts ->
  generate (rewritten u texts) w found implicit iteration n name = generate u w found implicit iteration n name.
Proof. intros u texts w found implicit iteration n name H. exact (rw_generate u texts H w found implicit iteration n name). Qed.
Print Assumptions annotations_matter_through_attributes_only.

(** ** Examples *)

Lemma denotes_text text l : parse_annotations text = ROk l -> ParserSpec.denotes text l.
Proof. apply parser_accepts_exactly_the_grammar. Qed.

(** In the example of C72, [GENPYBIND(hidden, visible)] of k(9) can be written as
    [GENPYBIND(hidden) GENPYBIND() \[\[other\]\] GENPYBIND( visible())], which carries
    the same annotations;  [GENPYBIND(visible, hidden)] does not. *)
Definition vault_texts (last : list str) (j : nat) : list str := if Nat.eqb j 9 then last else d_attrs (u_decls vault j).

Example the_way_annotations_are_written_does_not_matter_example :
  generate (rewritten vault (vault_texts [lozenge ++ $"hidden"; lozenge; $"other"; lozenge ++ $" visible()"])) vault_facts vault_found (fun _ => false) (@rev nat) 1 ($"m") =
  generate vault vault_facts vault_found (fun _ => false) (@rev nat) 1 ($"m") /\
  generate (rewritten vault (vault_texts [lozenge ++ $"visible, hidden"])) vault_facts vault_found (fun _ => false) (@rev nat) 1 ($"m") <>
  generate vault vault_facts vault_found (fun _ => false) (@rev nat) 1 ($"m").
Proof.
  split.
  - apply the_way_annotations_are_written_does_not_matter. intros j. unfold vault_texts. destruct (Nat.eqb j 9) eqn:E; [|left; reflexivity]. apply Nat.eqb_eq in E. subst j. right.
    constructor.
    + exists [mkAnnotation Hidden []; mkAnnotation Visible []]. split.
      * apply (ca_good ($"hidden, visible") [mkAnnotation Hidden []; mkAnnotation Visible []] [] [] false); [|constructor]. apply denotes_text. vm_compute. reflexivity.
      * apply (ca_good ($"hidden") [mkAnnotation Hidden []] _ [mkAnnotation Visible []] false); [apply denotes_text; vm_compute; reflexivity|].
        apply (ca_good [] [] _ [mkAnnotation Visible []] false); [apply denotes_text; vm_compute; reflexivity|].
        apply ca_other; [intros rest; discriminate|].
        apply (ca_good ($" visible()") [mkAnnotation Visible []] [] [] false); [|constructor]. apply denotes_text. vm_compute. reflexivity.
    + split; intros _; [exists ($"hidden")|exists ($"hidden, visible")]; left; reflexivity.
  - intros E. apply (f_equal (fun r => match r with Some (RGraph _ (EWritten files _ _)) => Some (length (concat files)) | _ => None end)) in E. vm_compute in E. discriminate E.
Qed.
