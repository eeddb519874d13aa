(** * Proofs about the options for failing runs *)
From Verif Require Import Base ParserModel StringModel AnnotModel CollectModel GraphModel EmitModel ModuleModel ToolModel ToolSpec ToolProofs RunsProofs.

(** ** --xfail *)

Lemma main_xfail env outputs keep name jobs fs : acceptable outputs ->
  main env outputs keep true name jobs fs =
  match main env outputs keep false name jobs fs with
  | Some (fs', out, code) => Some (fs', out, if (code =? 0)%N then 1%N else 0%N)
  | None => None
  end.
Proof.
  intros A. unfold main. rewrite !(proj1 (parse_options_spec _ _ _ _) A). cbn [op_module op_xfail].
  change (run_jobs env (mkOptions (effective outputs) keep true name) jobs) with (run_jobs env (mkOptions (effective outputs) keep false name) jobs).
  destruct (run_jobs env (mkOptions (effective outputs) keep false name) jobs (mkWorld fs [] name false)) as [[w code]|]; reflexivity.
Qed.

(** ** --keep-output-files *)

(** Files erased in the first case only. *)
Definition erased_from (fs fs2 : files) : Prop := forall p, fs2 p = fs p \/ fs p = None.

Lemma erased_set p c fs fs2 : erased_from fs fs2 -> erased_from (set_file p c fs) (set_file p c fs2).
Proof. intros H q. unfold set_file. destruct (str_eqb p q); [left; reflexivity|apply H]. Qed.

Lemma erased_none p fs fs2 : erased_from fs fs2 -> erased_from (set_file p None fs) fs2.
Proof. intros H q. unfold set_file. destruct (str_eqb p q); [right; reflexivity|apply H]. Qed.

Lemma erased_none_set p c fs fs2 : erased_from fs fs2 -> erased_from (set_file p None fs) (set_file p c fs2).
Proof. intros H q. unfold set_file. destruct (str_eqb p q); [right; reflexivity|apply H]. Qed.

Lemma clear_same env : forall l fs fs2 out fs' out' e, erased_from fs fs2 -> clear_outputs env false l fs out = (fs', out', e) ->
  exists fs2', clear_outputs env false l fs2 out = (fs2', out', e) /\ erased_from fs' fs2'.
Proof.
  induction l as [|[q c] l IH]; intros fs fs2 out fs' out' e H E; cbn [clear_outputs] in E |- *; [injection E as <- <- <-; exists fs2; auto|].
  destruct (str_eqb q ($"-")); [exact (IH _ _ _ _ _ _ H E)|]. destruct (can_rename env q); [exact (IH _ _ _ _ _ _ (erased_set _ _ _ _ H) E)|].
  destruct (clear_outputs env false l fs out) as [[fs1 out1] e1] eqn:C. injection E as <- <- <-. destruct (IH _ _ _ _ _ _ H C) as (fs2' & -> & R). exists fs2'. auto.
Qed.

Lemma clear_kept env : forall l fs fs2 out fs' out' e, erased_from fs fs2 -> clear_outputs env true l fs out = (fs', out', e) ->
  exists fs2' e2, clear_outputs env false l fs2 out = (fs2', out', e2) /\ erased_from fs' fs2'.
Proof.
  induction l as [|[q c] l IH]; intros fs fs2 out fs' out' e H E; cbn [clear_outputs] in E |- *; [injection E as <- <- <-; exists fs2, false; auto|].
  destruct (str_eqb q ($"-")); [exact (IH _ _ _ _ _ _ H E)|]. destruct (can_rename env q); [exact (IH _ _ _ _ _ _ (erased_none_set _ _ _ _ H) E)|].
  destruct (IH _ _ _ _ _ _ (erased_none q _ _ H) E) as (fs2' & e2 & -> & R). exists fs2', true. auto.
Qed.

Definition keeping (w w2 : world) : Prop := erased_from (wd_files w) (wd_files w2) /\ wd_stdout w2 = wd_stdout w /\ wd_module w2 = wd_module w /\ wd_failed w2 = wd_failed w /\
  (wd_failed w = false -> forall p, wd_files w2 p = wd_files w p).

Lemma clear_equal env : forall l fs fs2 out fs' out' e, (forall p, fs2 p = fs p) -> clear_outputs env false l fs out = (fs', out', e) ->
  forall fs2' out2 e2, clear_outputs env false l fs2 out = (fs2', out2, e2) -> forall p, fs2' p = fs' p.
Proof.
  induction l as [|[q c] l IH]; intros fs fs2 out fs' out' e H E fs2' out2 e2 E2; cbn [clear_outputs] in E, E2; [injection E as <- <- <-; injection E2 as <- <- <-; exact H|].
  destruct (str_eqb q ($"-")); [exact (IH _ _ _ _ _ _ H E _ _ _ E2)|]. destruct (can_rename env q).
  - refine (IH _ _ _ _ _ _ _ E _ _ _ E2). intros p. unfold set_file. destruct (str_eqb q p); [reflexivity|apply H].
  - destruct (clear_outputs env false l fs out) as [[fs1 out1] e1] eqn:C. destruct (clear_outputs env false l fs2 out) as [[fs3 out3] e3] eqn:C2. injection E as <- <- <-. injection E2 as <- <- <-. exact (IH _ _ _ _ _ _ H C _ _ _ C2).
Qed.

Lemma keep_job env outputs xfail name w w2 j w' : keeping w w2 -> run_job env (mkOptions outputs false xfail name) w j = Some w' ->
  exists w2', run_job env (mkOptions outputs true xfail name) w2 j = Some w2' /\ keeping w' w2'.
Proof.
  intros (H & E1 & E2 & E3 & E4). unfold run_job. cbn [op_outputs op_keep]. rewrite E1, E2, E3. destruct (handle_pragmas (j_pragmas j) []) as [includes pe].
  destruct (handle_unit env outputs _ includes j) as [[l e]|]; [|discriminate]. cbn [negb andb].
  destruct (j_errors j || pe || e).
  - destruct (clear_outputs env true l (wd_files w) (wd_stdout w)) as [[fs' out'] e'] eqn:C. intros [= <-]. destruct (clear_kept _ _ _ _ _ _ _ _ H C) as (fs2' & e2 & -> & R).
    eexists. split; [reflexivity|]. unfold keeping. cbn [wd_files wd_stdout wd_module wd_failed]. rewrite !Bool.orb_true_r. cbn [orb]. split; [exact R|]. repeat (split; [reflexivity|]). discriminate.
  - destruct (clear_outputs env false l (wd_files w) (wd_stdout w)) as [[fs' out'] e'] eqn:C. intros [= <-]. destruct (clear_same _ _ _ _ _ _ _ _ H C) as (fs2' & C2 & R). rewrite C2.
    eexists. split; [reflexivity|]. unfold keeping. cbn [wd_files wd_stdout wd_module wd_failed]. split; [exact R|]. repeat (split; [reflexivity|]).
    intros F. apply Bool.orb_false_iff in F. destruct F as [F _]. apply Bool.orb_false_iff in F. exact (clear_equal _ _ _ _ _ _ _ _ (E4 (proj1 F)) C _ _ _ C2).
Qed.

Lemma keep_jobs env outputs xfail name : forall jobs w w2 w', keeping w w2 -> fold_opt (run_job env (mkOptions outputs false xfail name)) jobs w = Some w' ->
  exists w2', fold_opt (run_job env (mkOptions outputs true xfail name)) jobs w2 = Some w2' /\ keeping w' w2'.
Proof.
  induction jobs as [|j jobs IH]; intros w w2 w' H E; cbn [fold_opt] in E |- *; [injection E as <-; exists w2; auto|].
  destruct (run_job env (mkOptions outputs false xfail name) w j) as [w1|] eqn:R; [|discriminate E]. destruct (keep_job _ _ _ _ _ _ _ _ H R) as (w3 & -> & H3). exact (IH _ _ _ H3 E).
Qed.

Lemma main_keep env outputs xfail name jobs fs fs' out code : main env outputs false xfail name jobs fs = Some (fs', out, code) ->
  exists fs2, main env outputs true xfail name jobs fs = Some (fs2, out, code) /\ (forall p, fs2 p = fs' p \/ (In p outputs /\ fs' p = None)) /\
    (code = 0%N -> xfail = false -> forall p, fs2 p = fs' p).
Proof.
  unfold main, parse_options. destruct (map_opt parse_output outputs) as [l|] eqn:Po.
  2:{ intros [= <- <- <-]. exists fs. split; [reflexivity|]. split; [auto|intros K; discriminate K]. }
  match goal with |- context [mkOptions ?x false xfail name] => set (l' := x) end. unfold run_jobs. cbn [op_module op_xfail].
  destruct (fold_opt (run_job env (mkOptions l' false xfail name)) jobs (mkWorld fs [] name false)) as [w|] eqn:F; [|intros K; discriminate K]. intros [= <- <- <-].
  destruct (keep_jobs env l' xfail name jobs _ (mkWorld fs [] name false) _ ltac:(split; [intros p; left; reflexivity|auto]) F) as (w2 & F2 & (H & E1 & E2 & E3 & E4)). rewrite F2, E1, E3.
  exists (wd_files w2). split; [reflexivity|]. split.
  - intros p. destruct (H p) as [K|K]; [left; exact K|]. destruct (in_dec (list_eq_dec Ascii.ascii_dec) p outputs) as [Hp|Hp]; [right; auto|left].
    assert (M1 : main env outputs false xfail name jobs fs = Some (wd_files w, wd_stdout w, if xfail then if ((if wd_failed w then 1 else match jobs with [] => 2 | _ => 0 end) =? 0)%N then 1%N else 0%N else if wd_failed w then 1%N else match jobs with [] => 2%N | _ => 0%N end))
      by (unfold main, parse_options, run_jobs; rewrite Po; fold l'; cbn [op_module op_xfail]; rewrite F; reflexivity).
    assert (M2 : main env outputs true xfail name jobs fs = Some (wd_files w2, wd_stdout w2, if xfail then if ((if wd_failed w2 then 1 else match jobs with [] => 2 | _ => 0 end) =? 0)%N then 1%N else 0%N else if wd_failed w2 then 1%N else match jobs with [] => 2%N | _ => 0%N end))
      by (unfold main, parse_options, run_jobs; rewrite Po; fold l'; cbn [op_module op_xfail]; rewrite F2; reflexivity).
    rewrite (RunsProofs.others_kept _ _ _ _ _ _ _ _ _ _ M1 p (or_intror Hp)), (RunsProofs.others_kept _ _ _ _ _ _ _ _ _ _ M2 p (or_intror Hp)). reflexivity.
  - intros Hc -> p. apply E4. destruct (wd_failed w); [discriminate Hc|reflexivity].
Qed.

(** ** --module-name *)

Lemma default_name_again m main_file : default_name (default_name m main_file) main_file = default_name m main_file.
Proof. unfold default_name. destruct m as [|c m]; [|reflexivity]. destruct (make_valid_identifier (stem main_file)); reflexivity. Qed.

Lemma main_default_name env outputs keep xfail j jobs fs :
  main env outputs keep xfail (default_name [] (j_main j)) (j :: jobs) fs = main env outputs keep xfail [] (j :: jobs) fs.
Proof.
  unfold main, parse_options. destruct (map_opt parse_output outputs) as [l|]; [|reflexivity]. unfold run_jobs. cbn [fold_opt op_module op_xfail].
  match goal with |- context [run_job env (mkOptions ?x keep xfail (default_name [] (j_main j)))] => set (l' := x) end.
  assert (E : run_job env (mkOptions l' keep xfail (default_name [] (j_main j))) (mkWorld fs [] (default_name [] (j_main j)) false) j = run_job env (mkOptions l' keep xfail []) (mkWorld fs [] [] false) j)
    by (unfold run_job; cbn [wd_module op_outputs op_keep wd_files wd_stdout wd_failed]; rewrite default_name_again; reflexivity).
  rewrite E. reflexivity.
Qed.
