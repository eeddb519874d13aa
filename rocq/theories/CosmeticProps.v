(** * Properties of cosmetic changes of headers *)
From Coq Require Import Lia Sorting.Permutation.
From Verif Require Import Base ParserModel ParserSpec ParserProofs ParserProps StringModel StringSpec AnnotModel AnnotSpec CollectModel CollectSpec GraphModel GraphSpec GraphWalk GraphPlace GraphFinal GraphProps
  OrderModel OrderSpec OrderProofs OrderProps InlineModel InlineSpec InlineProofs EmitModel EmitSpec EmitProofs EmitFinal EmitProps ModuleModel ModuleSpec ModuleChunks ModuleProofs ModuleFinal ModuleProps ToolModel
  ImportSpec ImportProofs ImportProps ExecSpec ExecProofs ExecProps AccessSpec AccessProofs AccessProps LocalSpec RewriteSpec RewriteProofs RewriteProps ArrangeSpec ArrangeProofs ArrangeProps LayoutSpec LayoutProofs CosmeticSpec CosmeticProofs.

(** ** C107 *)

(** After any number of cosmetic changes the program leaves the same files, writes
    the same to standard output and exits with the same status. *)
Theorem cosmetic_changes_do_not_affect_outputs : forall env outputs keep xfail name jobs jobs' fs, Forall2 cosmetic_job jobs jobs' ->
  main env outputs keep xfail name jobs' fs = main env outputs keep xfail name jobs fs.
Proof. exact cosmetic_main. Qed.
Print Assumptions cosmetic_changes_do_not_affect_outputs.

(** ** Example *)

(** The example of C72 with k(9) and y(6) annotated differently, and blank lines. *)
Definition vault_spelled : unit := rewritten vault (vault_texts [lozenge ++ $"hidden"; lozenge; $"other"; lozenge ++ $" visible()"]).
Definition vault_ordered : unit := rewritten vault_spelled (fun j => if Nat.eqb j 6 then [lozenge ++ $"hidden, readonly"] else d_attrs (u_decls vault_spelled j)).
Definition vault_spaced : unit := moved vault_ordered (fun i => 8000 + 160 * N.of_nat i)%N.

Definition vault_job (u : unit) : job := mkJob ($"/src/vault.h") false [] u vault_facts vault_found (fun _ => false) (@rev nat).

Lemma vault_cosmetic : cosmetic_job (vault_job vault) (vault_job vault_spaced).
Proof.
  split; [|reflexivity]. cbn [j_unit vault_job]. apply cosmetic_layout.
  - apply cosmetic_order.
    + apply cosmetic_spelling; [apply cosmetic_none|]. intros j. unfold vault_texts. destruct (Nat.eqb j 9) eqn:E; [|left; reflexivity]. apply Nat.eqb_eq in E. subst j. right. constructor.
      * exists [mkAnnotation Hidden []; mkAnnotation Visible []]. split; [apply (one_text ($"hidden, visible")); vm_compute; reflexivity|].
        apply (ca_good ($"hidden") [mkAnnotation Hidden []] _ [mkAnnotation Visible []] false); [apply denotes_text; vm_compute; reflexivity|].
        apply (ca_good [] [] _ [mkAnnotation Visible []] false); [apply denotes_text; vm_compute; reflexivity|].
        apply ca_other; [intros rest; discriminate|]. apply (one_text ($" visible()")). vm_compute. reflexivity.
      * split; intros _; [exists ($"hidden")|exists ($"hidden, visible")]; left; reflexivity.
    + intros j. destruct (Nat.eqb j 6) eqn:E; [|left; reflexivity]. apply Nat.eqb_eq in E. subst j. right. split.
      * constructor.
        -- exists [mkAnnotation Readonly []; mkAnnotation Hidden []], [mkAnnotation Hidden []; mkAnnotation Readonly []].
           split; [apply (one_text ($"readonly, hidden")); vm_compute; reflexivity|]. split; [apply (one_text ($"hidden, readonly")); vm_compute; reflexivity|].
           apply two_annotations. intros k [<-|[]] [H|[]]. discriminate H.
        -- split; intros _; [exists ($"hidden, readonly")|exists ($"readonly, hidden")]; left; reflexivity.
      * eexists. vm_compute. reflexivity.
  - intros i j. change (u_location vault_ordered) with N.of_nat. lia.
Qed.

(** The program succeeds and leaves the same files behind. *)
Example cosmetic_changes_do_not_affect_outputs_example :
  let env := mkEnvironment (fun _ => true) (fun _ => true) in
  main env [$"/out/vault.cpp"] false false ($"vault") [vault_job vault_spaced] (fun _ => None) = main env [$"/out/vault.cpp"] false false ($"vault") [vault_job vault] (fun _ => None) /\
  exists fs out text items, main env [$"/out/vault.cpp"] false false ($"vault") [vault_job vault] (fun _ => None) = Some (fs, out, 0%N) /\ fs ($"/out/vault.cpp") = Some (New text items).
Proof.
  split; [apply cosmetic_changes_do_not_affect_outputs; constructor; [exact vault_cosmetic|constructor]|].
  do 4 eexists. split; [vm_compute; reflexivity|]. vm_compute. reflexivity.
Qed.
