(** * Proofs about different ways to write the same annotations *)
From Coq Require Import Lia.
From Verif Require Import Base ParserModel StringModel AnnotModel AnnotSpec AnnotProofs AnnotStore AnnotFinal CollectModel CollectProofs GraphModel GraphSpec OrderModel InlineModel EmitModel EmitSpec ModuleModel ModuleSpec LocalSpec LocalProofs RewriteSpec.

Section Rewrite.
Variables (u : unit) (texts : nat -> list str).
Notation u' := (rewritten u texts).
Hypothesis H : same_attributes u texts.

Lemma rw_kind j : kind u' j = kind u j.
Proof. reflexivity. Qed.

Lemma rw_insert j st : AnnotModel.insert (u_decls u') j st = AnnotModel.insert (u_decls u) j st.
Proof.
  pose proof (st_inserted _ _ H j) as E. unfold AnnotModel.insert in *. cbn [u_decls rewritten with_texts d_skip] in *. destruct (d_skip (u_decls u j)); [reflexivity|].
  destruct (has st j); [reflexivity|]. cbn in E. destruct (compute_attrs (u_decls u j)) as [[a ds]|]; (destruct (compute_attrs (with_texts (u_decls u j) (texts j))) as [[a' ds']|]; try discriminate E).
  - injection E as -> ->. reflexivity.
  - reflexivity.
Qed.

Lemma rw_present j : has_annotations (u_decls u' j) true = has_annotations (u_decls u j) true.
Proof. symmetry. apply (st_present _ _ H). Qed.

Lemma rw_get {A} st (sup : decl -> bool) (proj : attrs -> A) j : (forall d t, sup (with_texts d t) = sup d) -> get u' st sup proj j = get u st sup proj j.
Proof. intros E. unfold get. cbn [u_decls rewritten]. rewrite E. reflexivity. Qed.

Lemma rw_equal st j k : equal u' st j k = equal u st j k.
Proof. reflexivity. Qed.

Lemma rw_visit j s : visit u' j s = visit u j s.
Proof.
  unfold visit, visit_named, visit_typedef. rewrite rw_present, rw_insert. reflexivity.
Qed.

Lemma rw_traverse t : forall s, traverse u' t s = traverse u t s.
Proof.
  induction t as [j ts IH] using tree_ind'. intros s. rewrite !traverse_eq, rw_visit, rw_kind. change (d_skip (u_decls u' j)) with (d_skip (u_decls u j)).
  assert (A : forall s, traverse_all u' ts s = traverse_all u ts s).
  { clear s. induction IH as [|t ts Ht _ IH]; intros s; [reflexivity|]. cbn [traverse_all]. rewrite Ht. destruct (traverse u t s); [apply IH|reflexivity]. }
  destruct (visit u j s); [rewrite A|]; reflexivity.
Qed.

Lemma rw_collect : collect u' = collect u.
Proof.
  unfold collect. change (u_top u') with (u_top u). generalize init_state. induction (u_top u) as [|t ts IH]; intros s; [reflexivity|]. cbn [traverse_all]. rewrite rw_traverse.
  destruct (traverse u t s); [apply IH|reflexivity].
Qed.

Lemma rw_process_alias a b : process_alias u' a b = process_alias u a b.
Proof. unfold process_alias. change (d_target (u_decls u' a)) with (d_target (u_decls u a)). destruct (d_target (u_decls u a)) as [t|]; [rewrite rw_insert|]; reflexivity. Qed.

Lemma rw_build_graph : build_graph u' = build_graph u.
Proof.
  unfold build_graph. rewrite rw_collect. destruct (collect u) as [s|]; [|reflexivity]. change (u_root u') with (u_root u).
  match goal with |- context [process_aliases u' (cs_aliases s) ?b] => replace (process_aliases u' (cs_aliases s) b) with (process_aliases u (cs_aliases s) b) end.
  2:{ match goal with |- process_aliases u (cs_aliases s) ?b = _ => generalize b end. induction (cs_aliases s) as [|a l IH]; intros b; [reflexivity|]. cbn [process_aliases]. rewrite rw_process_alias.
      destruct (process_alias u a b); [apply IH|reflexivity|reflexivity]. }
  destruct (errors_occurred _); [reflexivity|]. destruct (process_aliases u (cs_aliases s) _) as [b| |]; try reflexivity. destruct (errors_occurred (bs_reports b)); [reflexivity|].
  replace (process_contexts u' (cs_contexts s) b) with (process_contexts u (cs_contexts s) b); [reflexivity|].
  revert b. induction (cs_contexts s) as [|c l IH]; intros b; [reflexivity|]. cbn [process_contexts]. change (process_context u' c b) with (process_context u c b).
  destruct (process_context u c b); [apply IH|reflexivity|reflexivity].
Qed.

Lemma rw_sort l : sort_by_location u' l = sort_by_location u l.
Proof.
  assert (I : forall j l, insert_sorted u' j l = insert_sorted u j l).
  { intros j k. induction k as [|n k IH]; [reflexivity|]. cbn [insert_sorted]. rewrite IH. reflexivity. }
  unfold sort_by_location. induction l as [|j l IH]; [reflexivity|]. cbn [fold_right]. rewrite IH. apply I.
Qed.

Lemma rw_process found implicit name : process u' found implicit name = process u found implicit name.
Proof.
  unfold process, expose_here_cycles, unreachable_visible. rewrite rw_build_graph. destruct (build_graph u) as [[[|] b]| |]; try reflexivity.
  change (derive_effective_visibility u' (bs_annotations b) (bs_graph b)) with (derive_effective_visibility u (bs_annotations b) (bs_graph b)).
  destruct (derive_effective_visibility u (bs_annotations b) (bs_graph b)) as [vis|]; [|reflexivity]. rewrite rw_sort.
  destruct (sort_by_location u _); [|reflexivity].
  change (contexts_with_visible_decls u' (bs_annotations b) found implicit vis (bs_graph b)) with (contexts_with_visible_decls u (bs_annotations b) found implicit vis (bs_graph b)).
  destruct (contexts_with_visible_decls u (bs_annotations b) found implicit vis (bs_graph b)) as [contexts|]; [|reflexivity].
  change (hide_namespaces u' (bs_annotations b) (bs_graph b) name contexts vis) with (hide_namespaces u (bs_annotations b) (bs_graph b) name contexts vis).
  destruct (hide_namespaces u (bs_annotations b) (bs_graph b) name contexts vis) as [[contexts' vis']|]; [|reflexivity].
  change (prune_graph u' (bs_graph b) contexts' vis') with (prune_graph u (bs_graph b) contexts' vis').
  destruct (prune_graph u (bs_graph b) contexts' vis') as [g'|]; [|reflexivity]. rewrite rw_sort. reflexivity.
Qed.

Lemma rw_gather st : forall fuel remaining candidates hidden, gather fuel u' st remaining candidates hidden = gather fuel u st remaining candidates hidden.
Proof.
  induction fuel as [|fuel IH]; intros remaining candidates hidden; (destruct remaining as [|d remaining]; [reflexivity|]); [reflexivity|]. cbn [gather].
  change (get_record u' st d) with (get_record u st d). destruct (get_record u st d) as [r|]; [|apply IH].
  destruct (fold_left _ (r_inline_base r) (remaining, candidates)). apply IH.
Qed.

Lemma rw_create st h c : create u' st h c = create u st h c.
Proof. unfold create, create_policy, gather_all. rewrite rw_gather. reflexivity. Qed.

Lemma rw_plan w st order : make_plan u' w st order = make_plan u w st order.
Proof. unfold make_plan. apply fold_same. intros p c. unfold plan_context. rewrite rw_create. reflexivity. Qed.

Lemma rw_handle_decl x e dv s j : handle_decl u' x e dv s j = handle_decl u x e dv s j.
Proof. unfold handle_decl. rewrite rw_insert. reflexivity. Qed.

Lemma rw_define x e dv decls st : define u' x e dv decls st = define u x e dv decls st.
Proof.
  unfold define. rewrite (fold_same (handle_decl u' x e dv) (handle_decl u x e dv) (fun s t => rw_handle_decl x e dv s t)). reflexivity.
Qed.

Lemma rw_define_step w g vis total o t : define_step u' w g vis total o t = define_step u w g vis total o t.
Proof. unfold define_step, define_context, declarations. rewrite rw_sort, rw_define. reflexivity. Qed.

Lemma rw_emit w g vis st nodes n name : emit_module u' w g vis st nodes n name = emit_module u w g vis st nodes n name.
Proof.
  unfold emit_module. destruct n as [|n]; [reflexivity|]. change (find_enclosing_scopes u' st g) with (find_enclosing_scopes u st g).
  destruct (find_enclosing_scopes u st g) as [scopes|]; [|reflexivity].
  change (sort_contexts (w_pop w) u' (public_bases_of (w_hierarchy w)) nodes g scopes) with (sort_contexts (w_pop w) u (public_bases_of (w_hierarchy w)) nodes g scopes).
  destruct (sort_contexts (w_pop w) u (public_bases_of (w_hierarchy w)) nodes g scopes) as [[order|c]|]; try reflexivity.
  rewrite rw_plan. destruct (make_plan u w st order) as [p|]; [|reflexivity].
  rewrite (map_opt_same (declare u' w g st) (declare u w g st)) by reflexivity.
  rewrite (map_opt_same (introduce u' w g st scopes (pl_identifiers p)) (introduce u w g st scopes (pl_identifiers p))) by reflexivity.
  destruct (map_opt (declare u w g st) (pl_work p)) as [ds|]; [|reflexivity]. destruct (map_opt (introduce u w g st scopes (pl_identifiers p)) (pl_work p)) as [is|]; [|reflexivity].
  rewrite (fold_same (define_step u' w g vis (length (pl_work p))) (define_step u w g vis (length (pl_work p))) (fun s t => rw_define_step w g vis _ s t)). reflexivity.
Qed.

Lemma rw_generate w found implicit iteration n name : generate u' w found implicit iteration n name = generate u w found implicit iteration n name.
Proof.
  unfold generate. rewrite rw_process. destruct (process u found implicit name) as [[rs|l|g contexts vis warned b]| |]; try reflexivity. rewrite rw_emit. reflexivity.
Qed.
End Rewrite.

(** ** Attributes *)

Lemma handlers_texts d t : handlers (with_texts d t) = handlers d.
Proof. reflexivity. Qed.

Lemma process_texts d t ans : supports_typedef_diags (with_texts d t) = supports_typedef_diags d ->
  forall a, process_annotations (with_texts d t) ans a = process_annotations d ans a.
Proof.
  intros E. induction ans as [|an ans IH]; intros a; [reflexivity|]. cbn [process_annotations].
  assert (P : process_annotation (with_texts d t) an a = process_annotation d an a) by (unfold process_annotation; rewrite handlers_texts, E; reflexivity).
  rewrite P. destruct (process_annotation d an a) as [[a1 ds]|]; [rewrite IH|]; reflexivity.
Qed.

Lemma compute_texts d t : parse_attrs (d_attrs d) [] = parse_attrs t [] -> has_annotations d true = has_annotations (with_texts d t) true ->
  has_annotations d false = has_annotations (with_texts d t) false -> compute_attrs (with_texts d t) = compute_attrs d.
Proof.
  intros E E1 E2. assert (T : supports_typedef_diags (with_texts d t) = supports_typedef_diags d) by (unfold supports_typedef_diags; rewrite <- E1; reflexivity).
  unfold compute_attrs, initial_attrs. rewrite <- E2, T. change (d_attrs (with_texts d t)) with t. rewrite <- E. destruct (parse_attrs (d_attrs d) []) as [ans ds].
  change (is_namespace (with_texts d t)) with (is_namespace d). rewrite (process_texts d t ans T). reflexivity.
Qed.

Lemma carried_parse texts ans : carried texts ans false -> parse_attrs texts [] = (ans, []).
Proof.
  intros C. destruct (parse_attrs texts []) as [l ds] eqn:E. destruct (parse_attrs_carried _ _ _ _ E) as (l' & -> & C' & _).
  destruct (carried_unique _ _ _ C _ _ C') as [<- B]. destruct ds; [reflexivity|discriminate B].
Qed.

Lemma annotations_attributes u texts : (forall j, texts j = d_attrs (u_decls u j) \/ same_annotations (u_decls u j) (texts j)) -> same_attributes u texts.
Proof.
  intros A. assert (P : forall j, has_annotations (u_decls u j) true = has_annotations (with_texts (u_decls u j) (texts j)) true).
  { intros j. destruct (A j) as [-> | [_ M]]; [destruct (u_decls u j); reflexivity|]. apply eq_true_iff_eq. rewrite !has_annotations_true. exact M. }
  constructor; intros j; [|apply P]. unfold AnnotModel.insert. cbn [u_decls rewritten with_texts d_skip].
  destruct (d_skip (u_decls u j)); [reflexivity|]. cbn [has lookup_attrs].
  destruct (A j) as [-> | [(ans & C & C') M]]; [destruct (u_decls u j); reflexivity|].
  rewrite (compute_texts (u_decls u j) (texts j)); [reflexivity| |apply P|].
  - rewrite (carried_parse _ _ C), (carried_parse _ _ C'). reflexivity.
  - apply eq_true_iff_eq. rewrite !has_annotations_false, (annotated_iff_nonempty _ _ C), (annotated_iff_nonempty (with_texts (u_decls u j) (texts j)) ans C'). reflexivity.
Qed.

Lemma same_annotations_same_code u texts w found implicit iteration n name : (forall j, texts j = d_attrs (u_decls u j) \/ same_annotations (u_decls u j) (texts j)) ->
  generate (rewritten u texts) w found implicit iteration n name = generate u w found implicit iteration n name.
Proof. intros A. apply rw_generate, annotations_attributes, A. Qed.
