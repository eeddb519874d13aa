(** * Levels of messages: proofs *)
From Verif Require Import Base ParserModel StringModel StringSpec AnnotModel AnnotSpec CollectModel CollectSpec GraphModel GraphSpec GraphProps
  OrderModel InlineModel EmitModel ModuleModel ModuleSpec ToolModel ToolSpec ToolProofs ToolProps LevelSpec.

Lemma diag_level d : is_error d = true <-> severe_diag d.
Proof. split; [destruct d; intros H; try discriminate H; constructor|destruct 1; reflexivity]. Qed.

Lemma report_level r : is_error_report r = true <-> severe r.
Proof.
  split.
  - destruct r; cbn; intros H; try discriminate H; constructor. now apply diag_level.
  - destruct 1 as [i d H| | |]; try reflexivity. now apply diag_level.
Qed.

Lemma late_level r : is_error_ereport r = false <-> ~ severe_late r.
Proof.
  assert (E : is_error_ereport r = true <-> severe_late r).
  { split.
    - destruct r; cbn; intros H; try discriminate H; constructor. now apply diag_level.
    - destruct 1 as [i d H| | |]; try reflexivity. now apply diag_level. }
  destruct (is_error_ereport r); split; intros H; try discriminate; try reflexivity.
  - destruct H. now apply E.
  - intros S. apply E in S. discriminate.
Qed.

Lemma no_graph_level u : placed u -> forall ok b, build_graph u = Done (ok, b) -> (ok = false <-> exists r, In r (bs_reports b) /\ severe r).
Proof.
  intros P ok b B. destruct (no_graph_only_after_errors u P) as (_ & _ & H). rewrite (H ok b B).
  split; intros (r & Hr & L); exists r; (split; [exact Hr|apply report_level, L]).
Qed.

Lemma stopped_level u found implicit name rs : placed u -> process u found implicit name = Done (NoGraph rs) -> exists r, In r rs /\ severe r.
Proof.
  intros P E. pose proof (processing_never_asserts u P found implicit name) as H. rewrite E in H.
  destruct H as (r & Hr & L). exists r. split; [exact Hr|apply report_level, L].
Qed.

Lemma graph_level u w found implicit iteration n name b e : placed u -> generate u w found implicit iteration n name = Some (RGraph b e) ->
  forall r, In r (bs_reports b) -> ~ severe r.
Proof.
  intros P E r Hr S. unfold generate in E. pose proof (processing_never_asserts u P found implicit name) as H.
  destruct (process u found implicit name) as [[rs|aliases|g c v wn b']| |]; try discriminate E.
  destruct (emit_module u w g v (bs_annotations b') (iteration (g_nodes g)) n name); [|discriminate E]. cbn in E. injection E as -> _.
  destruct H as (vis & contexts & B & _). pose proof (proj2 (no_graph_level u P _ _ B) (Logic.ex_intro _ r (conj Hr S))). discriminate.
Qed.

Lemma status_level env outputs keep name j fs fs' out code : main env outputs keep false name [j] fs = Some (fs', out, code) -> acceptable outputs -> placed (j_unit j) ->
  j_errors j = false -> snd (handle_pragmas (j_pragmas j) []) = false ->
  (forall p, In p (effective outputs) -> can_open env p = true /\ (p <> $"-" -> can_rename env p = true)) ->
  let result := generate (j_unit j) (j_facts j) (j_found j) (j_implicit j) (j_iteration j) (length (effective outputs)) (default_name name (j_main j)) in
  (result = Some RStopped -> code <> 0%N) /\
  (forall b parts reports st, result = Some (RGraph b (EWritten parts reports st)) ->
     (code = 0%N <-> (forall r, In r (bs_reports b) -> ~ severe r) /\ forall r, In r reports -> ~ severe_late r)).
Proof.
  intros M A P Ej Ep Ho. cbn zeta.
  assert (Hn : names name [j] [default_name name (j_main j)]).
  { apply names_cons; [|intros ->; reflexivity|constructor]. intros N. unfold default_name. destruct name; [destruct N; reflexivity|reflexivity]. }
  pose proof (exit_status_tells_success _ _ _ _ _ _ _ _ _ _ _ M A Hn) as X.
  assert (Y : code = 0%N <-> exists parts, succeeds env (effective outputs) (default_name name (j_main j)) j parts).
  { rewrite X. split.
    - intros [H _]. destruct (H eq_refl) as [_ F]. inversion F; subst. assumption.
    - intros H. split; [|reflexivity]. intros _. split; [discriminate|]. constructor; [exact H|constructor]. }
  clear X. split.
  - intros E C. apply Y in C. destruct C as (parts & [_ _ _ _ (reports & (b & st & G) & _)]). rewrite E in G. discriminate.
  - intros b parts reports st E. rewrite Y. split.
    + intros (parts' & [_ _ _ _ (reports' & (b' & st' & G) & N)]). rewrite E in G. injection G as <- <- <- <-.
      split; [exact (graph_level _ _ _ _ _ _ _ _ _ P E)|]. intros r Hr. apply late_level, N, Hr.
    + intros [_ N]. exists parts. constructor; [exact Ej|exact Ep|intros p Hp; apply Ho, Hp|intros p Hp; apply Ho, Hp|].
      exists reports. split; [exists b, st; exact E|]. intros r Hr. apply late_level, N, Hr.
Qed.

Lemma clean_level env outputs n j : placed (j_unit j) -> j_errors j = false -> snd (handle_pragmas (j_pragmas j) []) = false ->
  (forall p, In p outputs -> can_open env p = true /\ (p <> $"-" -> can_rename env p = true)) ->
  (exists parts, succeeds env outputs n j parts) <->
  exists b parts reports st, generate (j_unit j) (j_facts j) (j_found j) (j_implicit j) (j_iteration j) (length outputs) n = Some (RGraph b (EWritten parts reports st)) /\
    (forall r, In r (bs_reports b) -> ~ severe r) /\ forall r, In r reports -> ~ severe_late r.
Proof.
  intros P Ej Ep Ho. split.
  - intros (parts & [_ _ _ _ (reports & (b & st & G) & N)]). exists b, parts, reports, st. split; [exact G|].
    split; [exact (graph_level _ _ _ _ _ _ _ _ _ P G)|]. intros r Hr. apply late_level, N, Hr.
  - intros (b & parts & reports & st & G & _ & N). exists parts. constructor; [exact Ej|exact Ep|intros p Hp; apply Ho, Hp|intros p Hp; apply Ho, Hp|].
    exists reports. split; [exists b, st; exact G|]. intros r Hr. apply late_level, N, Hr.
Qed.

Lemma statuses_level env outputs keep name jobs ns fs fs' out code : main env outputs keep false name jobs fs = Some (fs', out, code) -> acceptable outputs -> names name jobs ns ->
  Forall (fun j => placed (j_unit j) /\ j_errors j = false /\ snd (handle_pragmas (j_pragmas j) []) = false) jobs ->
  (forall p, In p (effective outputs) -> can_open env p = true /\ (p <> $"-" -> can_rename env p = true)) ->
  (code = 0%N <-> jobs <> [] /\ Forall2 (fun n j => exists b parts reports st,
     generate (j_unit j) (j_facts j) (j_found j) (j_implicit j) (j_iteration j) (length (effective outputs)) n = Some (RGraph b (EWritten parts reports st)) /\
     (forall r, In r (bs_reports b) -> ~ severe r) /\ forall r, In r reports -> ~ severe_late r) ns jobs).
Proof.
  intros M A Hn F Ho. rewrite (exit_status_tells_success _ _ _ _ _ _ _ _ _ _ _ M A Hn). clear M A Hn.
  assert (E : Forall2 (fun n j => exists parts, succeeds env (effective outputs) n j parts) ns jobs <->
    Forall2 (fun n j => exists b parts reports st,
     generate (j_unit j) (j_facts j) (j_found j) (j_implicit j) (j_iteration j) (length (effective outputs)) n = Some (RGraph b (EWritten parts reports st)) /\
     (forall r, In r (bs_reports b) -> ~ severe r) /\ forall r, In r reports -> ~ severe_late r) ns jobs).
  { split; intros H; induction H as [|n j ns jobs H _ IH]; constructor; apply Forall_cons_iff in F; destruct F as [(P & Ej & Ep) F];
      try (apply (clean_level env (effective outputs) n j P Ej Ep Ho), H); apply IH, F. }
  rewrite E. intuition congruence.
Qed.
