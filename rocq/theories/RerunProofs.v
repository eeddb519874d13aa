(** * Proofs about runs that find the outputs of previous ones *)
From Verif Require Import Base ParserModel StringModel AnnotModel CollectModel GraphModel EmitModel ModuleModel ToolModel ToolSpec ToolProofs.

Section Rerun.
Variables a b : files.

(** The same contents, or those of before. *)
Definition agree (fs fs2 : files) : Prop := forall p, fs2 p = fs p \/ (fs p = a p /\ fs2 p = b p).

Lemma agree_set p c fs fs2 : agree fs fs2 -> agree (set_file p c fs) (set_file p c fs2).
Proof. intros H q. unfold set_file. destruct (str_eqb p q); [left; reflexivity|apply H]. Qed.

Lemma agree_clear env erase : forall l fs fs2 out fs' out' e, agree fs fs2 -> clear_outputs env erase l fs out = (fs', out', e) ->
  exists fs2', clear_outputs env erase l fs2 out = (fs2', out', e) /\ agree fs' fs2'.
Proof.
  induction l as [|[q c] l IH]; intros fs fs2 out fs' out' e H E; cbn [clear_outputs] in E |- *.
  - injection E as <- <- <-. exists fs2. auto.
  - destruct (str_eqb q ($"-")); [exact (IH _ _ _ _ _ _ H E)|]. destruct erase; [exact (IH _ _ _ _ _ _ (agree_set _ _ _ _ H) E)|].
    destruct (can_rename env q); [exact (IH _ _ _ _ _ _ (agree_set _ _ _ _ H) E)|].
    destruct (clear_outputs env false l fs out) as [[fs1 out1] e1] eqn:C. injection E as <- <- <-. destruct (IH _ _ _ _ _ _ H C) as (fs2' & -> & R). exists fs2'. auto.
Qed.

Definition agreeing (w w2 : world) : Prop := agree (wd_files w) (wd_files w2) /\ wd_stdout w2 = wd_stdout w /\ wd_module w2 = wd_module w /\ wd_failed w2 = wd_failed w.

Lemma agree_job env o w w2 j w' : agreeing w w2 -> run_job env o w j = Some w' -> exists w2', run_job env o w2 j = Some w2' /\ agreeing w' w2'.
Proof.
  intros (H & E1 & E2 & E3). unfold run_job. rewrite E1, E2, E3. destruct (handle_pragmas (j_pragmas j) []) as [includes pe].
  destruct (handle_unit env (op_outputs o) _ includes j) as [[l e]|]; [|discriminate].
  destruct (clear_outputs env _ l (wd_files w) (wd_stdout w)) as [[fs' out'] e'] eqn:C. intros [= <-].
  destruct (agree_clear _ _ _ _ _ _ _ _ _ H C) as (fs2' & -> & R). eexists. split; [reflexivity|]. split; [exact R|auto].
Qed.

Lemma agree_jobs env o : forall jobs w w2 w', agreeing w w2 -> fold_opt (run_job env o) jobs w = Some w' -> exists w2', fold_opt (run_job env o) jobs w2 = Some w2' /\ agreeing w' w2'.
Proof.
  induction jobs as [|j jobs IH]; intros w w2 w' H E; cbn [fold_opt] in E |- *; [injection E as <-; exists w2; auto|].
  destruct (run_job env o w j) as [w1|] eqn:R; [|discriminate E]. destruct (agree_job _ _ _ _ _ _ H R) as (w3 & -> & H3). exact (IH _ _ _ H3 E).
Qed.

Lemma agree_main env outputs keep xfail name jobs a' out code : main env outputs keep xfail name jobs a = Some (a', out, code) ->
  exists b', main env outputs keep xfail name jobs b = Some (b', out, code) /\ agree a' b'.
Proof.
  unfold main. destruct (parse_options outputs keep xfail name) as [o|].
  - unfold run_jobs. destruct (fold_opt (run_job env o) jobs (mkWorld a [] (op_module o) false)) as [w|] eqn:F; [|discriminate]. intros [= <- <- <-].
    destruct (agree_jobs env o jobs (mkWorld a [] (op_module o) false) (mkWorld b [] (op_module o) false) _ ltac:(split; [intros p; right; auto|auto]) F) as (w2 & -> & (H & E1 & E2 & E3)). rewrite E1, E3. eexists. split; [reflexivity|exact H].
  - intros [= <- <- <-]. exists b. split; [reflexivity|]. intros p. right. auto.
Qed.
End Rerun.

Lemma main_again env outputs keep xfail name jobs fs fs' out code : main env outputs keep xfail name jobs fs = Some (fs', out, code) ->
  exists fs'', main env outputs keep xfail name jobs fs' = Some (fs'', out, code) /\ forall p, fs'' p = fs' p.
Proof.
  intros H. destruct (agree_main fs fs' env outputs keep xfail name jobs fs' out code H) as (fs'' & E & A). exists fs''. split; [exact E|]. intros p. destruct (A p) as [K|[_ K]]; exact K.
Qed.
