(** * Proofs about translation units with fewer declarations *)
From Coq Require Import Sorting.Permutation Sorting.Sorted Lia.
From Verif Require Import Base ParserModel StringModel AnnotModel AnnotSpec AnnotProofs AnnotStore AnnotFinal CollectModel CollectSpec CollectProofs GraphModel GraphSpec GraphWalk GraphProofs GraphPlace GraphFinal
  OrderModel OrderSpec OrderProofs InlineModel InlineProofs EmitModel EmitSpec EmitProofs EmitFold EmitFinal ModuleModel ModuleSpec ModuleProofs ModuleFinal ImportSpec ExecSpec AccessSpec AccessProofs LocalProofs BareProofs ToolModel AbsentSpec.

(** ** Leaving declarations out of the source *)

Section Cut.
Variables (drop : nat -> bool) (u : unit).
Notation u' := (without drop u).
Hypotheses (Sk : sane u) (D : forall i, drop i = true -> plain u i).

Lemma dr_skip i : drop i = true -> d_skip (u_decls u i) = false.
Proof.
  intros Hd. destruct (d_skip (u_decls u i)) eqn:E; [|reflexivity]. exfalso. destruct (D i Hd) as [_ N]. apply N. unfold context_kind.
  destruct (sane_skip u Sk i E) as [K|K]; destruct (kind u i); try discriminate K; auto.
Qed.

Lemma dr_has i allow : drop i = true -> has_annotations (u_decls u i) allow = false.
Proof.
  intros Hd. destruct (has_annotations (u_decls u i) allow) eqn:E; [|reflexivity]. exfalso. apply (proj1 (D i Hd)). destruct allow.
  - now apply has_annotations_true.
  - apply has_annotations_false in E. destruct E as (rest & c & Hin & _). exists rest. exact Hin.
Qed.

Lemma dr_attrs i : drop i = true -> compute_attrs (u_decls u i) = Some (default_attrs, []).
Proof.
  intros Hd. unfold compute_attrs. rewrite bare_parse by (intros rest Hin; apply (proj1 (D i Hd)); exists rest; exact Hin). cbn [process_annotations].
  unfold initial_attrs. rewrite dr_has, Bool.andb_false_r by exact Hd. unfold supports_typedef_diags. rewrite dr_has by exact Hd. destruct (is_typedef _); [destruct (d_target _)|]; reflexivity.
Qed.

Lemma dr_own i a : drop i = true -> own_attributes u i a -> a = default_attrs.
Proof.
  intros Hd (st & ds & Hi & Hl). unfold insert in Hi. rewrite (dr_skip i Hd) in Hi. cbn in Hi. rewrite (dr_attrs i Hd) in Hi. injection Hi as <- <-. cbn in Hl. rewrite Nat.eqb_refl in Hl. now injection Hl as <-.
Qed.

Lemma dr_tag i : drop i = true -> is_tag_kind (kind u i) = false.
Proof. intros Hd. destruct (D i Hd) as [_ N]. destruct (kind u i); try reflexivity; exfalso; apply N; unfold context_kind; auto. Qed.

Lemma dr_namespace i : drop i = true -> is_namespace_kind (kind u i) = false.
Proof. intros Hd. destruct (D i Hd) as [_ N]. destruct (kind u i); try reflexivity; exfalso; apply N; unfold context_kind; auto. Qed.

Lemma dr_visit i s : drop i = true -> visit u i s = Some s.
Proof.
  intros Hd. unfold visit, visit_named. rewrite (dr_has i true Hd), Bool.orb_true_r. destruct (D i Hd) as [_ N]. unfold visit_typedef. rewrite (dr_has i true Hd). cbn [negb orb].
  destruct (kind u i); try reflexivity; exfalso; apply N; unfold context_kind; auto.
Qed.

Lemma ct_visit j s : visit u' j s = visit u j s.
Proof. reflexivity. Qed.

Lemma traverse_all_app v l l' : forall s, traverse_all v (l ++ l') s = match traverse_all v l s with Some s' => traverse_all v l' s' | None => None end.
Proof. induction l as [|t l IH]; intros s; [reflexivity|]. cbn [app traverse_all]. destruct (traverse v t s); [apply IH|reflexivity]. Qed.

Lemma traverse_all_one v t s : traverse_all v [t] s = traverse v t s.
Proof. cbn [traverse_all]. destruct (traverse v t s); reflexivity. Qed.

Lemma ct_traverse t : forall s, traverse_all u' (cut drop t) s = traverse u t s.
Proof.
  induction t as [j ts IH] using tree_ind'. intros s. cbn [cut].
  assert (A : forall s, traverse_all u' (flat_map (cut drop) ts) s = traverse_all u ts s).
  { clear s. induction IH as [|t ts Ht _ IH]; intros s; [reflexivity|]. cbn [flat_map traverse_all]. rewrite traverse_all_app, Ht. destruct (traverse u t s); [apply IH|reflexivity]. }
  destruct (drop j) eqn:Hd.
  - rewrite A, traverse_eq, (dr_namespace j Hd), (dr_visit j s Hd). reflexivity.
  - rewrite traverse_all_one, !traverse_eq, ct_visit. change (kind u' j) with (kind u j). change (d_skip (u_decls u' j)) with (d_skip (u_decls u j)).
    destruct (visit u j s); [rewrite A|]; reflexivity.
Qed.

Lemma ct_collect : collect u' = collect u.
Proof.
  unfold collect. change (u_top u') with (flat_map (cut drop) (u_top u)). generalize init_state. induction (u_top u) as [|t ts IH]; intros s; [reflexivity|]. cbn [flat_map traverse_all]. rewrite traverse_all_app, ct_traverse.
  destruct (traverse u t s); [apply IH|reflexivity].
Qed.

Lemma ct_process_alias a b : process_alias u' a b = process_alias u a b.
Proof. reflexivity. Qed.

Lemma ct_build_graph : build_graph u' = build_graph u.
Proof.
  unfold build_graph. rewrite ct_collect. destruct (collect u) as [s|]; [|reflexivity]. change (u_root u') with (u_root u).
  match goal with |- context [process_aliases u' (cs_aliases s) ?b] => replace (process_aliases u' (cs_aliases s) b) with (process_aliases u (cs_aliases s) b) end.
  2:{ match goal with |- process_aliases u (cs_aliases s) ?b = _ => generalize b end. induction (cs_aliases s) as [|a l IH]; intros b; [reflexivity|]. cbn [process_aliases]. rewrite ct_process_alias.
      destruct (process_alias u a b); [apply IH|reflexivity|reflexivity]. }
  destruct (errors_occurred _); [reflexivity|]. destruct (process_aliases u (cs_aliases s) _) as [b| |]; try reflexivity. destruct (errors_occurred (bs_reports b)); [reflexivity|].
  replace (process_contexts u' (cs_contexts s) b) with (process_contexts u (cs_contexts s) b); [reflexivity|].
  revert b. induction (cs_contexts s) as [|c l IH]; intros b; [reflexivity|]. cbn [process_contexts]. change (process_context u' c b) with (process_context u c b).
  destruct (process_context u c b); [apply IH|reflexivity|reflexivity].
Qed.

Lemma ct_sort l : sort_by_location u' l = sort_by_location u l.
Proof.
  assert (I : forall j l, insert_sorted u' j l = insert_sorted u j l).
  { intros j k. induction k as [|n k IH]; [reflexivity|]. cbn [insert_sorted]. rewrite IH. reflexivity. }
  unfold sort_by_location. induction l as [|j l IH]; [reflexivity|]. cbn [fold_right]. rewrite IH. apply I.
Qed.

Lemma ct_process found implicit name : process u' found implicit name = process u found implicit name.
Proof.
  unfold process, expose_here_cycles, unreachable_visible. rewrite ct_build_graph. destruct (build_graph u) as [[[|] b]| |]; try reflexivity.
  change (derive_effective_visibility u' (bs_annotations b) (bs_graph b)) with (derive_effective_visibility u (bs_annotations b) (bs_graph b)).
  destruct (derive_effective_visibility u (bs_annotations b) (bs_graph b)) as [vis|]; [|reflexivity]. rewrite ct_sort.
  destruct (sort_by_location u _); [|reflexivity].
  change (contexts_with_visible_decls u' (bs_annotations b) found implicit vis (bs_graph b)) with (contexts_with_visible_decls u (bs_annotations b) found implicit vis (bs_graph b)).
  destruct (contexts_with_visible_decls u (bs_annotations b) found implicit vis (bs_graph b)) as [contexts|]; [|reflexivity].
  change (hide_namespaces u' (bs_annotations b) (bs_graph b) name contexts vis) with (hide_namespaces u (bs_annotations b) (bs_graph b) name contexts vis).
  destruct (hide_namespaces u (bs_annotations b) (bs_graph b) name contexts vis) as [[contexts' vis']|]; [|reflexivity].
  change (prune_graph u' (bs_graph b) contexts' vis') with (prune_graph u (bs_graph b) contexts' vis').
  destruct (prune_graph u (bs_graph b) contexts' vis') as [g'|]; [|reflexivity]. rewrite ct_sort. reflexivity.
Qed.

Lemma ct_gather st : forall fuel remaining candidates hidden, gather fuel u' st remaining candidates hidden = gather fuel u st remaining candidates hidden.
Proof.
  induction fuel as [|fuel IH]; intros remaining candidates hidden; (destruct remaining as [|d remaining]; [reflexivity|]); [reflexivity|]. cbn [gather].
  change (get_record u' st d) with (get_record u st d). destruct (get_record u st d) as [r|]; [|apply IH].
  destruct (fold_left _ (r_inline_base r) (remaining, candidates)). apply IH.
Qed.

Lemma ct_create st h c : create u' st h c = create u st h c.
Proof. unfold create, create_policy, gather_all. rewrite ct_gather. reflexivity. Qed.

Lemma ct_plan w st order : make_plan u' w st order = make_plan u w st order.
Proof. unfold make_plan. apply fold_same. intros p c. unfold plan_context. rewrite ct_create. reflexivity. Qed.

Lemma ct_define_step w g vis total o t : define_step u' w g vis total o t = define_step u w g vis total o t.
Proof. unfold define_step, define_context, declarations. rewrite ct_sort. reflexivity. Qed.

Lemma ct_emit w g vis st nodes n name : emit_module u' w g vis st nodes n name = emit_module u w g vis st nodes n name.
Proof.
  unfold emit_module. destruct n as [|n]; [reflexivity|]. change (find_enclosing_scopes u' st g) with (find_enclosing_scopes u st g).
  destruct (find_enclosing_scopes u st g) as [scopes|]; [|reflexivity].
  change (sort_contexts (w_pop w) u' (public_bases_of (w_hierarchy w)) nodes g scopes) with (sort_contexts (w_pop w) u (public_bases_of (w_hierarchy w)) nodes g scopes).
  destruct (sort_contexts (w_pop w) u (public_bases_of (w_hierarchy w)) nodes g scopes) as [[order|c]|]; try reflexivity.
  rewrite ct_plan. destruct (make_plan u w st order) as [p|]; [|reflexivity].
  rewrite (map_opt_same (declare u' w g st) (declare u w g st)) by reflexivity.
  rewrite (map_opt_same (introduce u' w g st scopes (pl_identifiers p)) (introduce u w g st scopes (pl_identifiers p))) by reflexivity.
  destruct (map_opt (declare u w g st) (pl_work p)) as [ds|]; [|reflexivity]. destruct (map_opt (introduce u w g st scopes (pl_identifiers p)) (pl_work p)) as [is|]; [|reflexivity].
  rewrite (fold_same (define_step u' w g vis (length (pl_work p))) (define_step u w g vis (length (pl_work p))) (fun s t => ct_define_step w g vis _ s t)). reflexivity.
Qed.

Lemma ct_generate w found implicit iteration n name : generate u' w found implicit iteration n name = generate u w found implicit iteration n name.
Proof.
  unfold generate. rewrite ct_process. destruct (process u found implicit name) as [[rs|l|g contexts vis warned b]| |]; try reflexivity. rewrite ct_emit. reflexivity.
Qed.
End Cut.

(** ** Finding fewer declarations *)

Lemma filter_insert u p i l : StronglySorted (loc_le u) l -> filter p (insert_sorted u i l) = if p i then insert_sorted u i (filter p l) else filter p l.
Proof.
  induction 1 as [|j l Hs IH Hj]; cbn [insert_sorted filter]; [destruct (p i); reflexivity|]. destruct (u_location u j <? u_location u i)%N eqn:E.
  - cbn [filter]. rewrite IH. destruct (p i), (p j); try reflexivity. cbn [insert_sorted]. now rewrite E.
  - cbn [filter]. destruct (p i); [|reflexivity]. destruct (p j); [cbn [insert_sorted]; now rewrite E|].
    apply N.ltb_ge in E. assert (Hall : forall k, In k (filter p l) -> (u_location u i <= u_location u k)%N).
    { intros k Hk. apply filter_In in Hk. rewrite Forall_forall in Hj. specialize (Hj k (proj1 Hk)). unfold loc_le in Hj. lia. }
    destruct (filter p l) as [|k l']; [reflexivity|]. cbn [insert_sorted]. specialize (Hall k (or_introl eq_refl)). destruct (_ <? _)%N eqn:E2; [apply N.ltb_lt in E2; lia|reflexivity].
Qed.

Lemma filter_sort u p l : filter p (sort_by_location u l) = sort_by_location u (filter p l).
Proof.
  induction l as [|i l IH]; [reflexivity|]. change (sort_by_location u (i :: l)) with (insert_sorted u i (sort_by_location u l)). rewrite filter_insert by apply sort_sorted. cbn [filter]. rewrite IH.
  destruct (p i); reflexivity.
Qed.

Lemma filter_flat_map {A B} (p : B -> bool) (f : A -> list B) l : filter p (flat_map f l) = flat_map (fun a => filter p (f a)) l.
Proof. induction l as [|a l IH]; [reflexivity|]. cbn [flat_map]. now rewrite filter_app, IH. Qed.

Lemma filter_swap {A} (p q : A -> bool) l : filter p (filter q l) = filter q (filter p l).
Proof. induction l as [|a l IH]; [reflexivity|]. cbn [filter]. destruct (p a) eqn:P, (q a) eqn:Q; cbn [filter]; rewrite ?P, ?Q, IH; reflexivity. Qed.

Section Fewer.
Variables (drop : nat -> bool) (w : facts).
Notation w' := (facts_without drop w).
Notation keep := (kept drop).

Lemma fw_visible p c : visible_decls (w_members w) p (w_results w' c) = filter keep (visible_decls (w_members w) p (w_results w c)).
Proof.
  unfold visible_decls. cbn [w_results facts_without]. change (@nil nat) with (filter keep []) at 1. generalize (@nil nat) as acc. induction (w_results w c) as [|f l IH]; intros acc; [reflexivity|]. cbn [fold_left filter].
  destruct (keep (refers w f)) eqn:K.
  - cbn [fold_left]. rewrite <- IH. f_equal. unfold found_decl. destruct (_ || _); [reflexivity|]. destruct (_ && _); [reflexivity|]. fold (refers w f). destruct (mb_context _); [reflexivity|]. destruct (negb (mb_located _)); [reflexivity|].
    rewrite filter_app. cbn [filter]. now rewrite K.
  - rewrite <- IH. f_equal. unfold found_decl. destruct (_ || _); [reflexivity|]. destruct (_ && _); [reflexivity|]. fold (refers w f). destruct (mb_context _); [reflexivity|]. destruct (negb (mb_located _)); [reflexivity|].
    rewrite filter_app. cbn [filter]. now rewrite K, app_nil_r.
Qed.

Hypothesis T : forall i j, drop i = true -> In j (expand (w_extra w) i) -> drop j = true.

Lemma fw_expand l : flat_map (expand (w_extra w')) (filter keep l) = filter keep (flat_map (expand (w_extra w)) l).
Proof.
  rewrite filter_flat_map. induction l as [|d l IH]; [reflexivity|]. cbn [filter flat_map]. destruct (keep d) eqn:K.
  - cbn [flat_map]. rewrite IH. f_equal. unfold expand. cbn [w_extra facts_without x_specializations]. destruct (x_specializations (w_extra w) d); [reflexivity|]. cbn [option_map filter]. now rewrite K.
  - rewrite IH. replace (filter keep (expand (w_extra w) d)) with (@nil nat); [reflexivity|]. unfold kept in K. apply Bool.negb_false_iff in K. pose proof (T d) as Td. induction (expand (w_extra w) d) as [|j l' IH']; [reflexivity|]. cbn [filter].
    unfold kept at 1. rewrite (Td j K (or_introl eq_refl)). cbn [negb]. apply IH'. intros j' H Hin. apply Td; [exact H|now right].
Qed.

Lemma fw_adl r : flat_map (x_adl (w_extra w') r) adl_kinds = filter keep (flat_map (x_adl (w_extra w) r) adl_kinds).
Proof. rewrite filter_flat_map. reflexivity. Qed.

Lemma fw_operators r : associated_operators (w_extra w') r = filter keep (associated_operators (w_extra w) r).
Proof. unfold associated_operators. rewrite fw_adl, fw_expand, (filter_swap keep). reflexivity. Qed.

Lemma fw_looked_up u c x : looked_up u w' c x = filter keep (looked_up u w c x).
Proof.
  unfold looked_up, declarations. change (w_members w') with (w_members w). rewrite fw_visible, filter_app, filter_sort. f_equal. destruct (kind u c); try reflexivity. apply fw_operators.
Qed.
End Fewer.

Lemma handle_lookup u x st st' e i ps : lookup_attrs st i = lookup_attrs st' i -> handle_impl u x st e i ps = handle_impl u x st' e i ps.
Proof.
  intros E. assert (G : forall A s (p : attrs -> A), get u st s p i = get u st' s p i) by (intros; unfold get; now rewrite E).
  assert (Ge : handle_generic u x st i = handle_generic u x st' i).
  { unfold handle_generic, has, get_typedef, spelling, lookup_or. rewrite E, !G. reflexivity. }
  destruct e as [|j|j|r p]; cbn [handle_impl]; try (now rewrite Ge).
  - unfold handle_enum, spelling, lookup_or. now rewrite !G.
  - unfold handle_record, handle_constructor, handle_operator, get_named, spelling, lookup_or. now rewrite !G, Ge.
Qed.

Definition both {A B} (R : A -> B -> Prop) (a : option A) (b : option B) : Prop :=
  match a, b with Some a, Some b => R a b | None, None => True | _, _ => False end.

Section Same.
Variables (drop : nat -> bool) (u : unit) (w : facts) (found : nat -> list nat) (implicit : nat -> bool) (iteration : list nat -> list nat).
Notation w' := (facts_without drop w).
Notation found' := (fun c => filter (kept drop) (found c)).
Hypotheses (S : setting u w iteration) (D : dispensable drop u w found implicit).

Lemma sm_sane : sane u.
Proof. exact (pl_sane u (se_placed _ _ _ S)). Qed.

(** *** Processing *)

Lemma sm_nonempty b vis : build_graph u = Done (true, b) -> derive_effective_visibility u (bs_annotations b) (bs_graph b) = Some vis ->
  contexts_with_visible_decls u (bs_annotations b) found' implicit vis (bs_graph b) = contexts_with_visible_decls u (bs_annotations b) found implicit vis (bs_graph b).
Proof.
  intros Hb Hv. pose proof (se_placed _ _ _ S) as Pl. destruct (one_place u Pl b Hb) as (T & _). destruct (visibility_spec u (bs_annotations b) (bs_graph b) T) as (m & Em & K1 & K2). rewrite Hv in Em. injection Em as <-.
  pose proof (graph_faithful u b Pl Hb) as F. unfold contexts_with_visible_decls. destruct (post_order _ _) as [ns|]; [|reflexivity]. apply fold_same. intros s n. unfold nonempty_step.
  change (parent_of_nonempty u vis (bs_graph b) s n) with (parent_of_nonempty u vis (bs_graph b) s n). destruct (parent_of_nonempty u vis (bs_graph b) s n) as [[|]|]; try reflexivity.
  replace (contains_visible u (bs_annotations b) found' implicit vis (bs_graph b) n) with (contains_visible u (bs_annotations b) found implicit vis (bs_graph b) n); [reflexivity|].
  unfold contains_visible. destruct (any_opt _ _) as [[|]|]; try reflexivity. destruct (dlookup vis n) as [dv|] eqn:L; [|reflexivity]. f_equal.
  assert (Sight : forall d, drop d = true -> In d (found n) -> implicit d = true \/ dv = false).
  { intros d Hd Hin. destruct dv; [left|right; reflexivity]. assert (R : reachable (bs_graph b) (u_root u) n) by (apply K1; now exists true). destruct R as [l R].
    exact (proj1 (di_sight _ _ _ _ _ D d Hd b Hb n l R (proj1 (K2 n l true R) L)) Hin). }
  clear L. induction (found n) as [|d l IH]; [reflexivity|]. cbn [existsb filter]. unfold kept at 1. rewrite IH by (intros d' H Hin; apply Sight; [exact H|now right]). destruct (drop d) eqn:Hd; cbn [negb]; [|reflexivity].
  replace (negb (implicit d) && _) with false; [reflexivity|]. symmetry. destruct (Sight d Hd (or_introl eq_refl)) as [-> | ->]; [reflexivity|]. rewrite Bool.andb_comm. unfold get_named, get.
  destruct (lookup_attrs (bs_annotations b) d) as [a|] eqn:L; [|reflexivity]. rewrite (dr_own drop u sm_sane (di_plain _ _ _ _ _ D) d a Hd (F d a (dr_tag drop u (di_plain _ _ _ _ _ D) d Hd) L)). reflexivity.
Qed.

Lemma sm_process name : process u found' implicit name = process u found implicit name.
Proof.
  unfold process. destruct (build_graph u) as [[[|] b]| |] eqn:Hb; try reflexivity. destruct (derive_effective_visibility u (bs_annotations b) (bs_graph b)) as [vis|] eqn:Hv; [|reflexivity].
  destruct (expose_here_cycles _ _ _ _); [|reflexivity]. rewrite (sm_nonempty b vis Hb Hv). reflexivity.
Qed.

(** *** Emission *)

Definition agree (st st' : storage) : Prop := forall j, drop j = false -> lookup_attrs st j = lookup_attrs st' j.

Lemma agree_get {A} st st' s (p : attrs -> A) j : agree st st' -> drop j = false -> get u st s p j = get u st' s p j.
Proof. intros H Hj. unfold get. now rewrite H. Qed.

Lemma insert_agree i st st' : agree st st' -> drop i = false ->
  match insert (u_decls u) i st, insert (u_decls u) i st' with
  | Some (st1, ds), Some (st1', ds') => ds = ds' /\ agree st1 st1'
  | None, None => True
  | _, _ => False
  end.
Proof.
  intros H Hi. destruct (insert (u_decls u) i st) as [[st1 ds]|] eqn:E1, (insert (u_decls u) i st') as [[st2 ds']|] eqn:E2.
  - assert (Ed : ds = ds' /\ lookup_attrs st1 i = lookup_attrs st2 i).
    { revert E1 E2. unfold insert. destruct (d_skip _); [intros [= <- <-] [= <- <-]; auto|]. unfold has. rewrite (H i Hi). destruct (lookup_attrs st' i) eqn:L; [intros [= <- <-] [= <- <-]; rewrite (H i Hi), L; auto|].
      destruct (compute_attrs _) as [[a d]|]; [|discriminate]. intros [= <- <-] [= <- <-]. split; [reflexivity|]. rewrite !lookup_app, (H i Hi), L. reflexivity. }
    destruct Ed as [-> El]. split; [reflexivity|]. intros j Hj. destruct (Nat.eq_dec j i) as [->|Ne]; [exact El|].
    destruct (insert_spec _ _ _ _ _ E1) as (H1 & _). destruct (insert_spec _ _ _ _ _ E2) as (H2 & _). rewrite H1, H2 by exact Ne. exact (H j Hj).
  - revert E1 E2. unfold insert, has. rewrite (H i Hi). destruct (d_skip _); [discriminate|]. destruct (lookup_attrs st' i); [discriminate|]. destruct (compute_attrs _) as [[? ?]|]; discriminate.
  - revert E1 E2. unfold insert, has. rewrite (H i Hi). destruct (d_skip _); [discriminate|]. destruct (lookup_attrs st' i); [discriminate|]. destruct (compute_attrs _) as [[? ?]|]; discriminate.
  - exact I.
Qed.

Lemma insert_dropped i st : drop i = true -> exists st', insert (u_decls u) i st = Some (st', []) /\ forall j, j <> i -> lookup_attrs st' j = lookup_attrs st j.
Proof.
  intros Hi. assert (E : exists st', insert (u_decls u) i st = Some (st', [])).
  { unfold insert. rewrite (dr_skip drop u sm_sane (di_plain _ _ _ _ _ D) i Hi). destruct (has st i); [now exists st|]. rewrite (dr_attrs drop u (di_plain _ _ _ _ _ D) i Hi). eexists. reflexivity. }
  destruct E as [st' E]. exists st'. split; [exact E|]. exact (proj1 (insert_spec _ _ _ _ _ E)).
Qed.

Definition states (s s' : EmitModel.state) : Prop :=
  agree (em_storage s) (em_storage s') /\ faithful u (em_storage s) /\ em_stmts s = em_stmts s' /\ em_reports s = em_reports s' /\ em_properties s = em_properties s'.

Lemma sm_fold e dv l : (dv = true -> forall i, In i l -> drop i = false) -> forall s s', states s s' ->
  both states (fold_opt (handle_decl u (w_extra w) e dv) l s) (fold_opt (handle_decl u (w_extra w') e dv) (filter (kept drop) l) s').
Proof.
  induction l as [|i l IH]; intros Hdv s s' (A & F & E1 & E2 & E3); cbn [fold_opt filter]; [repeat split; assumption|].
  assert (Hdv' : dv = true -> forall j, In j l -> drop j = false) by (intros V j Hj; apply Hdv; [exact V|now right]). specialize (IH Hdv').
  unfold kept at 1. destruct (drop i) eqn:Hi; cbn [negb].
  - assert (V : dv = false) by (destruct dv; [|reflexivity]; rewrite (Hdv eq_refl i (or_introl eq_refl)) in Hi; discriminate Hi).
    destruct (insert_dropped i (em_storage s) Hi) as (st & Ei & Hst). unfold handle_decl at 1. rewrite Ei. pose proof (insert_faithful _ _ _ _ _ Ei F) as F1.
    assert (N : is_visible u st dv i = false).
    { rewrite V. unfold is_visible, get_named, get. destruct (lookup_attrs st i) as [a|] eqn:L; [|reflexivity].
      rewrite (dr_own drop u sm_sane (di_plain _ _ _ _ _ D) i a Hi (F1 i a (dr_tag drop u (di_plain _ _ _ _ _ D) i Hi) L)). reflexivity. }
    rewrite N. apply IH. cbn [map]. rewrite app_nil_r. split; [|split; [exact F1|auto]]. intros j Hj. cbn [em_storage]. rewrite Hst by congruence. exact (A j Hj).
  - cbn [fold_opt]. unfold handle_decl at 1 3. pose proof (insert_agree i _ _ A Hi) as Hin. destruct (insert (u_decls u) i (em_storage s)) as [[st ds]|] eqn:Ei, (insert (u_decls u) i (em_storage s')) as [[st' ds']|] eqn:Ei'; try contradiction; [|exact I].
    destruct Hin as [<- A1]. pose proof (insert_faithful _ _ _ _ _ Ei F) as F1. unfold is_visible, get_named. rewrite (agree_get st st' _ at_named i A1 Hi). fold (get_named u st' i) (is_visible u st' dv i). destruct (is_visible u st' dv i).
    + rewrite <- E3. change (handle_impl u (w_extra w') st' e i (em_properties s)) with (handle_impl u (w_extra w) st' e i (em_properties s)). rewrite (handle_lookup u (w_extra w) st st' e i (em_properties s) (A1 i Hi)).
      destruct (handle_impl u (w_extra w) st' e i (em_properties s)) as [[[ss rs] ps]|]; [|exact I]. apply IH. split; [exact A1|split; [exact F1|]]. cbn [em_stmts em_reports em_properties]. rewrite E1, E2. auto.
    + apply IH. split; [exact A1|split; [exact F1|]]. cbn [em_stmts em_reports em_properties]. rewrite E1, E2. auto.
Qed.

Section Emit.
Variables (name : str) (g : graph) (vis : dmap bool) (b : bstate).
Hypothesis X : exposed u found implicit name g vis b.

Lemma sm_kept_exposer c e : create u (bs_annotations b) (w_hierarchy w) c = Some e -> match e with XEnum i | XRecord i _ => drop i = false | _ => True end.
Proof.
  intros Hx. assert (N : forall k, kind u c = k -> context_kind k -> drop c = false).
  { intros k Hk Hc. destruct (drop c) eqn:Hd; [|reflexivity]. destruct (di_plain _ _ _ _ _ D c Hd) as [_ N]. rewrite Hk in N. contradiction. }
  unfold create in Hx. destruct (kind u c) eqn:K; try discriminate Hx; try (injection Hx as <-; first [exact I | exact (N _ eq_refl (or_introl eq_refl)) | exact (N _ eq_refl (or_intror (or_introl eq_refl)))]).
  destruct (create_policy u (bs_annotations b) (w_hierarchy w) c); [|discriminate Hx]. injection Hx as <-. exact (N _ eq_refl (or_intror (or_intror eq_refl))).
Qed.

Lemma sm_built : build_graph u = Done (true, b).
Proof. destruct X as (contexts & warned & E). assert (H := process_spec u (se_placed _ _ _ S) found implicit name). rewrite E in H. cbn zeta in H. now destruct H as (vis0 & contexts0 & Hb & _). Qed.

Lemma sm_define c e st st' : In c (g_nodes g) -> create u (bs_annotations b) (w_hierarchy w) c = Some e -> agree st st' -> faithful u st ->
  match define u (w_extra w) e (lookup_vis vis c) (looked_up u w c e) st, define u (w_extra w') e (lookup_vis vis c) (looked_up u w' c e) st' with
  | Some (st1, ss, rs), Some (st1', ss', rs') => agree st1 st1' /\ faithful u st1 /\ ss = ss' /\ rs = rs'
  | None, None => True
  | _, _ => False
  end.
Proof.
  intros Hc Hx A F. unfold define. rewrite (fw_looked_up drop w (di_templates _ _ _ _ _ D)), (fw_expand drop w (di_templates _ _ _ _ _ D)).
  assert (Hdv : lookup_vis vis c = true -> forall i, In i (flat_map (expand (w_extra w)) (looked_up u w c e)) -> drop i = false).
  { intros V i Hi. destruct (drop i) eqn:Hd; [|reflexivity]. exfalso. apply (proj1 (lookup_visible u w iteration found implicit name g vis b S X c Hc)) in V. destruct V as (l & Hp & Hv & _).
    apply (proj2 (di_sight _ _ _ _ _ D i Hd b sm_built c l Hp Hv)). exists e. auto. }
  pose proof (sm_fold e (lookup_vis vis c) _ Hdv (EmitModel.mkState st [] [] []) (EmitModel.mkState st' [] [] []) (conj A (conj F (conj eq_refl (conj eq_refl eq_refl))))) as H.
  destruct (fold_opt (handle_decl u (w_extra w) e (lookup_vis vis c)) _ _) as [s|], (fold_opt (handle_decl u (w_extra w') e (lookup_vis vis c)) _ _) as [s'|]; try contradiction; [|exact I].
  cbn [both] in H. destruct H as (A1 & F1 & E1 & E2 & E3).
  replace (EmitModel.finalize u (w_extra w') (em_storage s') e (em_properties s')) with (EmitModel.finalize u (w_extra w) (em_storage s) e (em_properties s)).
  - destruct (EmitModel.finalize _ _ _ _ _) as [ss rs]. rewrite E1, E2. auto.
  - rewrite <- E3. pose proof (sm_kept_exposer c e Hx) as K. destruct e as [|j|j|r p]; try reflexivity. cbn [EmitModel.finalize]. rewrite (agree_get _ _ supports_enum at_enum j A1 K). reflexivity.
Qed.

Lemma sm_parameter c e st st' : create u (bs_annotations b) (w_hierarchy w) c = Some e -> agree st st' -> parameter_of u w g st e = parameter_of u w' g st' e.
Proof.
  intros Hx A. pose proof (sm_kept_exposer c e Hx) as K. destruct e as [|j|j|r p]; try reflexivity. cbn [parameter_of]. unfold class_of. rewrite (agree_get st st' supports_record at_record r A K). reflexivity.
Qed.

Lemma sm_postamble : postamble u w' (bs_annotations b) = postamble u w (bs_annotations b).
Proof.
  pose proof (graph_faithful u b (se_placed _ _ _ S) sm_built) as F. unfold postamble. cbn [w_variables facts_without]. induction (w_variables w) as [|i l IH]; [reflexivity|]. cbn [filter flat_map]. unfold kept at 1.
  destruct (drop i) eqn:Hd; cbn [negb flat_map]; rewrite IH; [|reflexivity].
  replace (lookup_or u (bs_annotations b) supports_field at_field i) with (at_field default_attrs); [reflexivity|]. unfold lookup_or, get. destruct (supports_field _); [|reflexivity].
  destruct (lookup_attrs (bs_annotations b) i) as [a|] eqn:L; [|reflexivity]. rewrite (dr_own drop u sm_sane (di_plain _ _ _ _ _ D) i a Hd (F i a (dr_tag drop u (di_plain _ _ _ _ _ D) i Hd) L)). reflexivity.
Qed.

Definition same_emission (r r' : option emission) : Prop :=
  match r, r' with
  | Some (EWritten files rs _), Some (EWritten files' rs' _) => files = files' /\ rs = rs'
  | r, r' => r = r'
  end.

Definition outputs (o o' : output) : Prop := agree (o_storage o) (o_storage o') /\ faithful u (o_storage o) /\ o_index o = o_index o' /\ o_streams o = o_streams o' /\ o_reports o = o_reports o'.

Lemma sm_steps total l : (forall t, In t l -> In (wk_context t) (g_nodes g) /\ create u (bs_annotations b) (w_hierarchy w) (wk_context t) = Some (wk_exposer t)) -> forall o o', outputs o o' ->
  both outputs (fold_opt (define_step u w g vis total) l o) (fold_opt (define_step u w' g vis total) l o').
Proof.
  induction l as [|t l IH]; intros Hl o o' O; cbn [fold_opt]; [exact O|]. destruct O as (A & F & E1 & E2 & E3). destruct (Hl t (or_introl eq_refl)) as [Hc Hx].
  unfold define_step at 1 3. unfold define_context. rewrite <- E1, <- E2. rewrite <- (sm_parameter (wk_context t) (wk_exposer t) (o_storage o) (o_storage o') Hx A).
  destruct (parameter_of u w g (o_storage o) (wk_exposer t)) as [p|]; [|exact I].
  pose proof (sm_define (wk_context t) (wk_exposer t) (o_storage o) (o_storage o') Hc Hx A F) as H. unfold looked_up, lookup_vis in H. change (w_members w') with (w_members w) in H. change (w_members w') with (w_members w).
  destruct (define u (w_extra w) _ _ _ (o_storage o)) as [[[st1 ss] rs]|], (define u (w_extra w') _ _ _ (o_storage o')) as [[[st1' ss'] rs']|]; try contradiction; [|exact I].
  destruct H as (A1 & F1 & <- & <-). destruct (write_to _ _ _) as [streams|]; [|exact I]. apply IH; [intros t' Ht'; apply Hl; now right|].
  split; [exact A1|split; [exact F1|]]. cbn [o_index o_streams o_reports]. rewrite E1, E3. auto.
Qed.

Lemma sm_emit n : same_emission (emit_module u w' g vis (bs_annotations b) (iteration (g_nodes g)) n name) (emit_module u w g vis (bs_annotations b) (iteration (g_nodes g)) n name).
Proof.
  destruct n as [|n]; [reflexivity|]. destruct S as [Hp L [loc Q] P] eqn:ES.
  destruct (exposed_graph u w found implicit iteration S name g vis b X) as (T & K & R & Fa & _).
  destruct (emit_core u w g vis (bs_annotations b) (iteration (g_nodes g)) loc T K R L Q (P _) (Datatypes.S n) name (Nat.lt_0_succ n)) as (scopes & Es & r & Er & Hc).
  unfold emit_module. rewrite Es. change (w_pop w') with (w_pop w). change (w_hierarchy w') with (w_hierarchy w). rewrite Er. destruct r as [order|c]; [|reflexivity].
  destruct Hc as (Ho & _ & p & Ep & Hpl & _). change (make_plan u w' (bs_annotations b) order) with (make_plan u w (bs_annotations b) order). rewrite Ep.
  rewrite (map_opt_same (declare u w' g (bs_annotations b)) (declare u w g (bs_annotations b))) by reflexivity.
  rewrite (map_opt_same (introduce u w' g (bs_annotations b) scopes (pl_identifiers p)) (introduce u w g (bs_annotations b) scopes (pl_identifiers p))) by reflexivity.
  destruct (map_opt (declare u w g (bs_annotations b)) (pl_work p)) as [ds|]; [|reflexivity]. destruct (map_opt (introduce u w g (bs_annotations b) scopes (pl_identifiers p)) (pl_work p)) as [is|]; [|reflexivity].
  rewrite sm_postamble.
  assert (Hl : forall t, In t (pl_work p) -> In (wk_context t) (g_nodes g) /\ create u (bs_annotations b) (w_hierarchy w) (wk_context t) = Some (wk_exposer t)).
  { intros t Ht. split; [apply (proj1 (node_iff u w g scopes order Ho _)); eapply work_in; eassumption|exact (po_create _ _ _ _ _ Hpl t Ht)]. }
  match goal with |- context [fold_opt (define_step u w g vis (length (pl_work p))) (pl_work p) ?x] => pose proof (sm_steps (length (pl_work p)) (pl_work p) Hl x x (conj (fun j _ => eq_refl) (conj Fa (conj eq_refl (conj eq_refl eq_refl))))) as H end.
  destruct (fold_opt (define_step u w g vis (length (pl_work p))) (pl_work p) _) as [o|], (fold_opt (define_step u w' g vis (length (pl_work p))) (pl_work p) _) as [o'|]; try contradiction; [|reflexivity].
  cbn [both] in H. destruct H as (_ & _ & _ & E2 & E3). cbn [option_map same_emission]. auto.
Qed.
End Emit.

Lemma sm_generate n name : same_result (generate (without drop u) w' found' implicit iteration n name) (generate u w found implicit iteration n name).
Proof.
  rewrite (ct_generate drop u (di_plain _ _ _ _ _ D)). unfold generate. rewrite sm_process. destruct (process u found implicit name) as [[rs|l|g contexts vis warned b]| |] eqn:E; try reflexivity.
  pose proof (sm_emit name g vis b (Logic.ex_intro _ contexts (Logic.ex_intro _ warned E)) n) as H.
  destruct (emit_module u w' g vis _ _ _ _) as [[c|files rs st]|], (emit_module u w g vis _ _ _ _) as [[c'|files' rs' st']|]; cbn [same_emission option_map same_result] in *; try discriminate H; try congruence.
  destruct H as [-> ->]. auto.
Qed.
End Same.

(** ** The global scope *)

Lemma sight_lookup u w found implicit i : placed u ->
  (forall b vis, build_graph u = Done (true, b) -> derive_effective_visibility u (bs_annotations b) (bs_graph b) = Some vis -> forall c, dlookup vis c = Some true ->
    (In i (found c) -> implicit i = true) /\ ~ declared_in u w b c i) -> out_of_sight u w found implicit i.
Proof.
  intros Pl H b Hb c l Hp Hv. destruct (one_place u Pl b Hb) as (T & _). destruct (visibility_spec u (bs_annotations b) (bs_graph b) T) as (vis & Ev & _ & K2).
  exact (H b vis Hb Ev c (proj2 (K2 c l true Hp) Hv)).
Qed.

Lemma global_out_of_sight u w found implicit i : placed u -> ~ marked (u_decls u (u_root u)) -> only_global u w found i -> out_of_sight u w found implicit i.
Proof.
  intros Pl M [G1 G2] b Hb c l Hp Hv.
  assert (N : c <> u_root u).
  { intros ->. destruct (one_place u Pl b Hb) as (T & _). pose proof (graph_faithful u b Pl Hb) as F.
    assert (El : l = []).
    { inversion Hp as [|x c0 l0 Ee Hp0]; subst; [reflexivity|]. exfalso. apply (tl_root _ _ T). apply in_map_iff. exists (x, u_root u). auto. }
    subst l. destruct Hv as [(l1 & n & l2 & E & Dc & _)|[E _]]; [|discriminate E]. destruct l1 as [|m l1]; [|destruct l1; discriminate E]. injection E as <- <-.
    destruct Dc as [(a & L & V)|(_ & _ & E)]; [|discriminate E]. pose proof (F _ a (f_equal is_tag_kind (pl_root_kind u Pl)) L) as O.
    assert (Es : d_skip (u_decls u (u_root u)) = false).
    { destruct O as (st & ds & Hi & Hl). destruct (d_skip (u_decls u (u_root u))) eqn:Es; [|reflexivity]. unfold insert in Hi. rewrite Es in Hi. injection Hi as <- <-. discriminate Hl. }
    destruct O as (st & ds & Hi & Hl). unfold insert in Hi. rewrite Es in Hi. cbn [has lookup_attrs] in Hi.
    assert (Hd : forall j, Nat.eqb (u_root u) j = true -> plain u j).
    { intros j Hj. apply Nat.eqb_eq in Hj. subst j. split; [exact M|]. rewrite (pl_root_kind u Pl). intros [K|[K|K]]; discriminate K. }
    rewrite (dr_attrs (Nat.eqb (u_root u)) u Hd (u_root u) (Nat.eqb_refl _)) in Hi. injection Hi as <- <-. cbn in Hl. rewrite Nat.eqb_refl in Hl. injection Hl as <-. discriminate V. }
  split; [intros Hin; contradiction (N (G1 c Hin))|]. intros Hd. contradiction (N (G2 b c Hd)).
Qed.

Lemma global_generate drop u w found implicit iteration n name : setting u w iteration -> ~ marked (u_decls u (u_root u)) ->
  (forall i, drop i = true -> plain u i /\ only_global u w found i) -> (forall i j, drop i = true -> In j (expand (w_extra w) i) -> drop j = true) ->
  same_result (generate (without drop u) (facts_without drop w) (fun c => filter (kept drop) (found c)) implicit iteration n name) (generate u w found implicit iteration n name).
Proof.
  intros S M H T. apply sm_generate; [exact S|]. constructor; [intros i Hi; exact (proj1 (H i Hi))| |exact T]. intros i Hi. exact (global_out_of_sight u w found implicit i (se_placed _ _ _ S) M (proj2 (H i Hi))).
Qed.

(** ** The whole program *)

Lemma reduced_handled env outputs name includes j j' : reduced_job j j' -> handle_unit env outputs name includes j' = handle_unit env outputs name includes j.
Proof.
  intros (drop & S & D & ->). unfold handle_unit. cbn [j_unit j_facts j_found j_implicit j_iteration j_main]. rewrite (ct_process drop _ (di_plain _ _ _ _ _ D)), (sm_process drop _ _ _ _ _ S D).
  destruct (process (j_unit j) (j_found j) (j_implicit j) name) as [[rs|l|g contexts vis warned b]| |] eqn:E; try reflexivity. destruct (open_outputs env outputs) as [l [|]]; [reflexivity|].
  rewrite ct_emit. pose proof (sm_emit drop _ _ _ _ _ S D name g vis b (Logic.ex_intro _ contexts (Logic.ex_intro _ warned E)) (length l)) as H.
  destruct (emit_module (j_unit j) (facts_without drop (j_facts j)) g vis _ _ _ _) as [[c|files rs st]|], (emit_module (j_unit j) (j_facts j) g vis _ _ _ _) as [[c'|files' rs' st']|]; cbn [same_emission] in H; try discriminate H; try reflexivity.
  destruct H as [-> ->]. reflexivity.
Qed.

Lemma reduced_run env o w j j' : reduced_job j j' -> run_job env o w j' = run_job env o w j.
Proof.
  intros C. pose proof C as (drop & _ & _ & E). assert (M : j_main j' = j_main j /\ j_pragmas j' = j_pragmas j /\ j_errors j' = j_errors j) by (rewrite E; auto). destruct M as (M & Q & R).
  unfold run_job. rewrite M, Q, R. destruct (handle_pragmas (j_pragmas j) []). rewrite (reduced_handled _ _ _ _ _ _ C). reflexivity.
Qed.

Lemma reduced_main env outputs keep xfail name jobs jobs' fs : Forall2 reduced_job jobs jobs' ->
  main env outputs keep xfail name jobs' fs = main env outputs keep xfail name jobs fs.
Proof.
  intros H. unfold main. destruct (parse_options outputs keep xfail name) as [o|]; [|reflexivity]. unfold run_jobs.
  assert (F : forall w, fold_opt (run_job env o) jobs' w = fold_opt (run_job env o) jobs w).
  { induction H as [|j j' js js' C _ IH]; intros w; [reflexivity|]. cbn [fold_opt]. rewrite (reduced_run env o w j j' C). destruct (run_job env o w j); [apply IH|reflexivity]. }
  rewrite F. destruct (fold_opt (run_job env o) jobs _) as [w|]; [|reflexivity]. inversion H; reflexivity.
Qed.
