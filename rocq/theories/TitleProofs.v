(** * Proofs about the influence of the name of the module *)
From Verif Require Import Base ParserModel StringModel AnnotModel AnnotSpec AnnotStore CollectModel CollectProofs GraphModel GraphSpec GraphProofs OrderModel InlineModel EmitModel EmitSpec EmitFinal ModuleModel ModuleSpec TitleSpec.

Section Title.
Variables (u : unit) (name name' : str).
Hypotheses (P : placed u) (H : interchangeable u name name').

Lemma ti_different b n : build_graph u = Done (true, b) -> for_different_module u (bs_annotations b) name' n = for_different_module u (bs_annotations b) name n.
Proof.
  intros B. unfold for_different_module, get_namespace, get. destruct (is_namespace (u_decls u n)) eqn:K; [|reflexivity].
  destruct (lookup_attrs (bs_annotations b) n) as [a|] eqn:L; [|reflexivity]. cbn [option_map].
  assert (Kn : kind u n = KNamespace) by (unfold kind; unfold is_namespace in K; destruct (d_kind (u_decls u n)); try discriminate K; reflexivity).
  assert (O : own_attributes u n a) by (apply (graph_faithful u b P B); [rewrite Kn; reflexivity|exact L]). pose proof (H n a Kn O) as E.
  destruct (ns_only_expose_in (at_namespace a)) as [|m ms]; [reflexivity|]. f_equal. apply Bool.eq_true_iff_eq. rewrite !existsb_exists. setoid_rewrite str_eqb_eq. split.
  - intros (x & Hx & <-). exists name. split; [now apply E|reflexivity].
  - intros (x & Hx & <-). exists name'. split; [now apply E|reflexivity].
Qed.

Lemma ti_hide b contexts vis : build_graph u = Done (true, b) -> hide_namespaces u (bs_annotations b) (bs_graph b) name' contexts vis = hide_namespaces u (bs_annotations b) (bs_graph b) name contexts vis.
Proof.
  intros B. unfold hide_namespaces. destruct (depth_first _ _ _) as [es|]; [|reflexivity].
  assert (F : forall s, fold_left (hide_step u (bs_annotations b) name') es s = fold_left (hide_step u (bs_annotations b) name) es s).
  { induction es as [|e es IH]; intros s; [reflexivity|]. cbn [fold_left]. rewrite IH. f_equal. unfold hide_step. destruct e as [[|n l]|n]; try reflexivity. rewrite (ti_different b n B). reflexivity. }
  rewrite F. reflexivity.
Qed.

Lemma ti_process found implicit : process u found implicit name' = process u found implicit name.
Proof.
  unfold process. destruct (build_graph u) as [[[|] b]| |] eqn:B; try reflexivity. destruct (derive_effective_visibility _ _ _) as [vis|]; [|reflexivity].
  destruct (expose_here_cycles _ _ _ _); [|reflexivity]. destruct (contexts_with_visible_decls _ _ _ _ _ _) as [contexts|]; [|reflexivity]. rewrite (ti_hide b contexts vis B). reflexivity.
Qed.
End Title.

Definition retitled_output (name : str) (o : output) : output := mkOutput (o_storage o) (o_index o) (map (map (retitled_item name)) (o_streams o)) (o_reports o).

Lemma write_retitled name items : map (retitled_item name) items = items -> forall streams k,
  write_to k items (map (map (retitled_item name)) streams) = option_map (map (map (retitled_item name))) (write_to k items streams).
Proof.
  intros E. induction streams as [|s streams IH]; intros k; [destruct k; reflexivity|]. destruct k as [|k]; cbn [map write_to option_map].
  - rewrite map_app, E. reflexivity.
  - rewrite IH. destruct (write_to k items streams); reflexivity.
Qed.

Lemma step_retitled u w g vis total name o t : define_step u w g vis total (retitled_output name o) t = option_map (retitled_output name) (define_step u w g vis total o t).
Proof.
  unfold define_step, retitled_output. cbn [o_index o_streams o_storage o_reports]. rewrite map_length.
  destruct (define_context u w g vis _ (o_storage o) t) as [[[st items] rs]|] eqn:E; [|reflexivity]. rewrite write_retitled.
  - destruct (write_to _ items (o_streams o)); reflexivity.
  - unfold define_context in E. destruct (parameter_of _ _ _ _ _); [|discriminate E]. destruct (define _ _ _ _ _ _) as [[[? ?] ?]|]; [|discriminate E]. injection E as _ <- _. destruct (Nat.eqb _ 0); reflexivity.
Qed.

Lemma fold_retitled u w g vis total name l : forall o,
  fold_opt (define_step u w g vis total) l (retitled_output name o) = option_map (retitled_output name) (fold_opt (define_step u w g vis total) l o).
Proof.
  induction l as [|t l IH]; intros o; [reflexivity|]. cbn [fold_opt]. rewrite step_retitled. destruct (define_step u w g vis total o t); [apply IH|reflexivity].
Qed.

Lemma declare_retitled u w g st name l : forall ds, map_opt (declare u w g st) l = Some ds -> map (retitled_item name) ds = ds.
Proof.
  induction l as [|t l IH]; intros ds E; cbn in E; [injection E as <-; reflexivity|]. destruct (declare u w g st t) as [d|] eqn:D; [|discriminate E]. destruct (map_opt _ l) as [ds'|]; [|discriminate E].
  injection E as <-. cbn [map]. rewrite (IH _ eq_refl). f_equal. unfold declare in D. destruct (parameter_of _ _ _ _ _); [|discriminate D]. injection D as <-. reflexivity.
Qed.

Lemma emit_retitled u w g vis st nodes n name name' :
  emit_module u w g vis st nodes n name' =
  option_map (fun e => match e with EWritten streams reports st => EWritten (map (map (retitled_item name')) streams) reports st | e => e end) (emit_module u w g vis st nodes n name).
Proof.
  unfold emit_module. destruct n as [|n]; [reflexivity|]. destruct (find_enclosing_scopes u st g) as [scopes|]; [|reflexivity].
  destruct (sort_contexts _ _ _ _ _ _) as [[order|c]|]; try reflexivity. destruct (make_plan u w st order) as [p|]; [|reflexivity].
  destruct (map_opt (declare u w g st) (pl_work p)) as [ds|] eqn:D; [|reflexivity]. destruct (map_opt (introduce u w g st scopes (pl_identifiers p)) (pl_work p)) as [is|]; [|reflexivity]. cbv zeta.
  pose proof (fold_retitled u w g vis (length (pl_work p)) name' (pl_work p)
    (mkOutput st 0 ((ds ++ [IModule name is (map (fun t => (wk_identifier t, wk_identifier t)) (pl_work p)) (postamble u w st)]) :: repeat [] (pred (S n))) [])) as F.
  unfold retitled_output at 1 in F. cbn [o_storage o_index o_streams o_reports map] in F. rewrite map_app, (declare_retitled u w g st name' _ _ D) in F. cbn [map retitled_item] in F.
  assert (R : forall k, map (map (retitled_item name')) (repeat [] k) = repeat [] k) by (induction k as [|k IH]; [reflexivity|]; cbn; rewrite IH; reflexivity). rewrite R in F. rewrite F.
  match goal with |- context [option_map (retitled_output name') ?x] => destruct x end; reflexivity.
Qed.

Lemma generate_retitled u w found implicit iteration n name name' : placed u -> interchangeable u name name' ->
  generate u w found implicit iteration n name' = option_map (retitled name') (generate u w found implicit iteration n name).
Proof.
  intros P H. unfold generate. rewrite (ti_process u name name' P H). destruct (process u found implicit name) as [[rs|l|g contexts vis warned b]| |]; try reflexivity.
  rewrite (emit_retitled u w g vis (bs_annotations b) (iteration (g_nodes g)) n name name'). destruct (emit_module u w g vis (bs_annotations b) (iteration (g_nodes g)) n name) as [[c|streams reports st]|]; reflexivity.
Qed.
