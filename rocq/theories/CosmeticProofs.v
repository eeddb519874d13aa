(** * Proofs about cosmetic changes of headers *)
From Verif Require Import Base ParserModel StringModel AnnotModel AnnotSpec AnnotStore CollectModel GraphModel GraphSpec OrderModel InlineModel EmitModel EmitSpec ModuleModel ModuleSpec ToolModel
  LocalSpec LocalProofs RewriteSpec RewriteProofs ArrangeSpec ArrangeProofs LayoutSpec LayoutProofs CosmeticSpec.

Record alike (u u' : unit) : Prop := {
  al_process : forall found implicit name, process u' found implicit name = process u found implicit name;
  al_emit : forall w g vis st nodes n name, emit_module u' w g vis st nodes n name = emit_module u w g vis st nodes n name }.

Lemma alike_trans u u' u'' : alike u u' -> alike u' u'' -> alike u u''.
Proof. intros [P E] [P' E']. constructor; intros; [rewrite P'|rewrite E']; auto. Qed.

Lemma cosmetic_alike u u' : cosmetic u u' -> alike u u'.
Proof.
  induction 1 as [u|u u' texts _ IH H|u u' texts _ IH H|u u' location _ IH H]; [constructor; reflexivity| | |]; apply (alike_trans u u' _ IH).
  - pose proof (annotations_attributes u' texts H) as S. constructor; intros; [apply rw_process|apply rw_emit]; exact S.
  - pose proof (rearranged_attributes u' texts H) as S. constructor; intros; [apply rw_process|apply rw_emit]; exact S.
  - constructor; intros; [apply mv_process|apply mv_emit]; exact H.
Qed.

Lemma cosmetic_handled env outputs name includes j j' : cosmetic_job j j' -> handle_unit env outputs name includes j' = handle_unit env outputs name includes j.
Proof.
  intros [C ->]. apply cosmetic_alike in C as [P E]. unfold handle_unit. cbn [j_unit j_facts j_found j_implicit j_iteration j_main]. rewrite P.
  destruct (process (j_unit j) (j_found j) (j_implicit j) name) as [[rs|l|g contexts vis warned b]| |]; try reflexivity. destruct (open_outputs env outputs) as [l [|]]; [reflexivity|]. rewrite E. reflexivity.
Qed.

Lemma cosmetic_run env o w j j' : cosmetic_job j j' -> run_job env o w j' = run_job env o w j.
Proof.
  intros C. unfold run_job. pose proof C as [_ E]. assert (M : j_main j' = j_main j) by (rewrite E; reflexivity). assert (Q : j_pragmas j' = j_pragmas j) by (rewrite E; reflexivity).
  assert (R : j_errors j' = j_errors j) by (rewrite E; reflexivity). rewrite M, Q, R. destruct (handle_pragmas (j_pragmas j) []). rewrite (cosmetic_handled _ _ _ _ _ _ C). reflexivity.
Qed.

Lemma cosmetic_main env outputs keep xfail name jobs jobs' fs : Forall2 cosmetic_job jobs jobs' ->
  main env outputs keep xfail name jobs' fs = main env outputs keep xfail name jobs fs.
Proof.
  intros H. unfold main. destruct (parse_options outputs keep xfail name) as [o|]; [|reflexivity]. unfold run_jobs.
  assert (F : forall w, fold_opt (run_job env o) jobs' w = fold_opt (run_job env o) jobs w).
  { induction H as [|j j' js js' C _ IH]; intros w; [reflexivity|]. cbn [fold_opt]. rewrite (cosmetic_run env o w j j' C). destruct (run_job env o w j); [apply IH|reflexivity]. }
  rewrite F. destruct (fold_opt (run_job env o) jobs _) as [w|]; [|reflexivity]. inversion H; reflexivity.
Qed.
