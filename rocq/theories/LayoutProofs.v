(** * Proofs about the layout of headers *)
From Coq Require Import Lia.
From Verif Require Import Base ParserModel StringModel AnnotModel AnnotSpec AnnotProofs AnnotStore AnnotFinal CollectModel CollectProofs GraphModel GraphSpec OrderModel OrderSpec InlineModel EmitModel EmitSpec ModuleModel ModuleSpec LocalProofs LayoutSpec.

Section Layout.
Variables (u : unit) (location : nat -> N).
Notation u' := (moved u location).
Hypothesis H : same_sequence u location.

Lemma mv_kind j : kind u' j = kind u j.
Proof. reflexivity. Qed.

Lemma mv_insert j st : AnnotModel.insert (u_decls u') j st = AnnotModel.insert (u_decls u) j st.
Proof. reflexivity. Qed.

Lemma mv_present j : has_annotations (u_decls u' j) true = has_annotations (u_decls u j) true.
Proof. reflexivity. Qed.

Lemma mv_equal st j k : equal u' st j k = equal u st j k.
Proof. reflexivity. Qed.

Lemma mv_visit j s : visit u' j s = visit u j s.
Proof.
  unfold visit, visit_named, visit_typedef. rewrite mv_present, mv_insert. reflexivity.
Qed.

Lemma mv_traverse t : forall s, traverse u' t s = traverse u t s.
Proof.
  induction t as [j ts IH] using tree_ind'. intros s. rewrite !traverse_eq, mv_visit, mv_kind. change (d_skip (u_decls u' j)) with (d_skip (u_decls u j)).
  assert (A : forall s, traverse_all u' ts s = traverse_all u ts s).
  { clear s. induction IH as [|t ts Ht _ IH]; intros s; [reflexivity|]. cbn [traverse_all]. rewrite Ht. destruct (traverse u t s); [apply IH|reflexivity]. }
  destruct (visit u j s); [rewrite A|]; reflexivity.
Qed.

Lemma mv_collect : collect u' = collect u.
Proof.
  unfold collect. change (u_top u') with (u_top u). generalize init_state. induction (u_top u) as [|t ts IH]; intros s; [reflexivity|]. cbn [traverse_all]. rewrite mv_traverse.
  destruct (traverse u t s); [apply IH|reflexivity].
Qed.

Lemma mv_process_alias a b : process_alias u' a b = process_alias u a b.
Proof. unfold process_alias. change (d_target (u_decls u' a)) with (d_target (u_decls u a)). destruct (d_target (u_decls u a)) as [t|]; [rewrite mv_insert|]; reflexivity. Qed.

Lemma mv_build_graph : build_graph u' = build_graph u.
Proof.
  unfold build_graph. rewrite mv_collect. destruct (collect u) as [s|]; [|reflexivity]. change (u_root u') with (u_root u).
  match goal with |- context [process_aliases u' (cs_aliases s) ?b] => replace (process_aliases u' (cs_aliases s) b) with (process_aliases u (cs_aliases s) b) end.
  2:{ match goal with |- process_aliases u (cs_aliases s) ?b = _ => generalize b end. induction (cs_aliases s) as [|a l IH]; intros b; [reflexivity|]. cbn [process_aliases]. rewrite mv_process_alias.
      destruct (process_alias u a b); [apply IH|reflexivity|reflexivity]. }
  destruct (errors_occurred _); [reflexivity|]. destruct (process_aliases u (cs_aliases s) _) as [b| |]; try reflexivity. destruct (errors_occurred (bs_reports b)); [reflexivity|].
  replace (process_contexts u' (cs_contexts s) b) with (process_contexts u (cs_contexts s) b); [reflexivity|].
  revert b. induction (cs_contexts s) as [|c l IH]; intros b; [reflexivity|]. cbn [process_contexts]. change (process_context u' c b) with (process_context u c b).
  destruct (process_context u c b); [apply IH|reflexivity|reflexivity].
Qed.

Lemma mv_sort l : sort_by_location u' l = sort_by_location u l.
Proof.
  assert (I : forall j l, insert_sorted u' j l = insert_sorted u j l).
  { intros j k. induction k as [|n k IH]; [reflexivity|]. cbn [insert_sorted]. rewrite IH. cbn [u_location moved].
    replace (location n <? location j)%N with (u_location u n <? u_location u j)%N; [reflexivity|]. apply Bool.eq_true_iff_eq. rewrite !N.ltb_lt. symmetry. apply H. }
  unfold sort_by_location. induction l as [|j l IH]; [reflexivity|]. cbn [fold_right]. rewrite IH. apply I.
Qed.

Lemma mv_process found implicit name : process u' found implicit name = process u found implicit name.
Proof.
  unfold process, expose_here_cycles, unreachable_visible. rewrite mv_build_graph. destruct (build_graph u) as [[[|] b]| |]; try reflexivity.
  change (derive_effective_visibility u' (bs_annotations b) (bs_graph b)) with (derive_effective_visibility u (bs_annotations b) (bs_graph b)).
  destruct (derive_effective_visibility u (bs_annotations b) (bs_graph b)) as [vis|]; [|reflexivity]. rewrite mv_sort.
  destruct (sort_by_location u _); [|reflexivity].
  change (contexts_with_visible_decls u' (bs_annotations b) found implicit vis (bs_graph b)) with (contexts_with_visible_decls u (bs_annotations b) found implicit vis (bs_graph b)).
  destruct (contexts_with_visible_decls u (bs_annotations b) found implicit vis (bs_graph b)) as [contexts|]; [|reflexivity].
  change (hide_namespaces u' (bs_annotations b) (bs_graph b) name contexts vis) with (hide_namespaces u (bs_annotations b) (bs_graph b) name contexts vis).
  destruct (hide_namespaces u (bs_annotations b) (bs_graph b) name contexts vis) as [[contexts' vis']|]; [|reflexivity].
  change (prune_graph u' (bs_graph b) contexts' vis') with (prune_graph u (bs_graph b) contexts' vis').
  destruct (prune_graph u (bs_graph b) contexts' vis') as [g'|]; [|reflexivity]. rewrite mv_sort. reflexivity.
Qed.

Lemma mv_gather st : forall fuel remaining candidates hidden, gather fuel u' st remaining candidates hidden = gather fuel u st remaining candidates hidden.
Proof.
  induction fuel as [|fuel IH]; intros remaining candidates hidden; (destruct remaining as [|d remaining]; [reflexivity|]); [reflexivity|]. cbn [gather].
  change (get_record u' st d) with (get_record u st d). destruct (get_record u st d) as [r|]; [|apply IH].
  destruct (fold_left _ (r_inline_base r) (remaining, candidates)). apply IH.
Qed.

Lemma mv_create st h c : create u' st h c = create u st h c.
Proof. unfold create, create_policy, gather_all. rewrite mv_gather. reflexivity. Qed.

Lemma mv_plan w st order : make_plan u' w st order = make_plan u w st order.
Proof. unfold make_plan. apply fold_same. intros p c. unfold plan_context. rewrite mv_create. reflexivity. Qed.

Lemma mv_handle_decl x e dv s j : handle_decl u' x e dv s j = handle_decl u x e dv s j.
Proof. unfold handle_decl. rewrite mv_insert. reflexivity. Qed.

Lemma mv_define x e dv decls st : define u' x e dv decls st = define u x e dv decls st.
Proof.
  unfold define. rewrite (fold_same (handle_decl u' x e dv) (handle_decl u x e dv) (fun s t => mv_handle_decl x e dv s t)). reflexivity.
Qed.

Lemma mv_define_step w g vis total o t : define_step u' w g vis total o t = define_step u w g vis total o t.
Proof. unfold define_step, define_context, declarations. rewrite mv_sort, mv_define. reflexivity. Qed.

Lemma mv_emit w g vis st nodes n name : emit_module u' w g vis st nodes n name = emit_module u w g vis st nodes n name.
Proof.
  unfold emit_module. destruct n as [|n]; [reflexivity|]. change (find_enclosing_scopes u' st g) with (find_enclosing_scopes u st g).
  destruct (find_enclosing_scopes u st g) as [scopes|]; [|reflexivity].
  change (sort_contexts (w_pop w) u' (public_bases_of (w_hierarchy w)) nodes g scopes) with (sort_contexts (w_pop w) u (public_bases_of (w_hierarchy w)) nodes g scopes).
  destruct (sort_contexts (w_pop w) u (public_bases_of (w_hierarchy w)) nodes g scopes) as [[order|c]|]; try reflexivity.
  rewrite mv_plan. destruct (make_plan u w st order) as [p|]; [|reflexivity].
  rewrite (map_opt_same (declare u' w g st) (declare u w g st)) by reflexivity.
  rewrite (map_opt_same (introduce u' w g st scopes (pl_identifiers p)) (introduce u w g st scopes (pl_identifiers p))) by reflexivity.
  destruct (map_opt (declare u w g st) (pl_work p)) as [ds|]; [|reflexivity]. destruct (map_opt (introduce u w g st scopes (pl_identifiers p)) (pl_work p)) as [is|]; [|reflexivity].
  rewrite (fold_same (define_step u' w g vis (length (pl_work p))) (define_step u w g vis (length (pl_work p))) (fun s t => mv_define_step w g vis _ s t)). reflexivity.
Qed.

Lemma mv_generate w found implicit iteration n name : generate u' w found implicit iteration n name = generate u w found implicit iteration n name.
Proof.
  unfold generate. rewrite mv_process. destruct (process u found implicit name) as [[rs|l|g contexts vis warned b]| |]; try reflexivity. rewrite mv_emit. reflexivity.
Qed.
End Layout.

Lemma moved_queue u location pop : same_sequence u location -> (good_queue location pop <-> good_queue (u_location u) pop).
Proof.
  intros H. assert (E : forall i j, (location i <= location j)%N <-> (u_location u i <= u_location u j)%N) by (intros i j; rewrite !N.le_ngt; pose proof (H j i); tauto).
  unfold good_queue. setoid_rewrite E. reflexivity.
Qed.
