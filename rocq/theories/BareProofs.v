(** * Proofs about modules for headers without annotations *)
From Coq Require Import Sorting.Permutation.
From Verif Require Import Base ParserModel StringModel AnnotModel AnnotSpec AnnotStore CollectModel CollectSpec CollectProofs GraphModel GraphSpec GraphWalk GraphProofs GraphPlace GraphFinal
  OrderModel OrderSpec OrderProofs OrderProps GraphProps InlineModel EmitModel EmitSpec EmitFinal ModuleModel ModuleSpec ModuleProofs LocalSpec RewriteSpec BareSpec.

Section Bare.
Variable u : unit.
Hypotheses (P : placed u) (B : bare u).

Lemma bare_has i allow : has_annotations (u_decls u i) allow = false.
Proof.
  destruct (has_annotations (u_decls u i) allow) eqn:E; [|reflexivity]. exfalso. apply (B i). destruct allow.
  - now apply has_annotations_true.
  - apply has_annotations_false in E. destruct E as (rest & c & Hin & _). exists rest. exact Hin.
Qed.

Lemma bare_parse texts acc : (forall rest, ~ In (lozenge ++ rest) texts) -> parse_attrs texts acc = (acc, []).
Proof.
  induction texts as [|t texts IH]; intros N; [reflexivity|]. cbn [parse_attrs]. destruct (consume_front lozenge t) as [rest|] eqn:E.
  - apply consume_front_some in E. subst t. exfalso. apply (N rest). left. reflexivity.
  - apply IH. intros rest Hin. apply (N rest). right. exact Hin.
Qed.

Lemma bare_attrs i : compute_attrs (u_decls u i) = Some (default_attrs, []).
Proof.
  unfold compute_attrs. rewrite bare_parse by (intros rest Hin; apply (B i); exists rest; exact Hin). cbn [process_annotations].
  unfold initial_attrs. rewrite bare_has, Bool.andb_false_r. unfold supports_typedef_diags. rewrite bare_has. destruct (is_typedef _); [destruct (d_target _)|]; reflexivity.
Qed.

(** Storages with nothing in them that is not the default. *)
Definition blank (st : storage) : Prop := Forall (fun p => snd p = default_attrs) st.

Lemma blank_lookup st i a : blank st -> lookup_attrs st i = Some a -> a = default_attrs.
Proof.
  induction 1 as [|[j a'] st E _ IH]; cbn [lookup_attrs]; [discriminate|]. destruct (Nat.eqb i j); [intros [= <-]; exact E|exact IH].
Qed.

Lemma bare_insert i st : blank st -> exists st' ds, insert (u_decls u) i st = Some (st', ds) /\ blank st' /\ (forall d, In d ds -> d = DInvalidAssumption /\ d_skip (u_decls u i) = true).
Proof.
  intros Hb. unfold insert. destruct (d_skip (u_decls u i)) eqn:S; [exists st, [DInvalidAssumption]; split; [reflexivity|split; [exact Hb|]]; intros d [<-|[]]; auto|].
  destruct (has st i); [exists st, []; split; [reflexivity|split; [exact Hb|intros d []]]|]. rewrite bare_attrs. exists (st ++ [(i, default_attrs)]), []. split; [reflexivity|split; [|intros d []]].
  apply Forall_app. split; [exact Hb|]. constructor; [reflexivity|constructor].
Qed.

(** ** Collecting and building *)

Definition untouched (s : cstate) : Prop := cs_annotations s = [] /\ cs_reports s = [] /\ cs_aliases s = [].

Lemma bare_visit i s : untouched s -> exists s', visit u i s = Some s' /\ untouched s'.
Proof.
  intros (E1 & E2 & E3). unfold visit, visit_named. rewrite bare_has. rewrite Bool.orb_true_r. eexists. split; [reflexivity|].
  unfold visit_typedef, visit_context. rewrite bare_has. cbn [negb orb].
  destruct (kind u i); try (now split); destruct (d_skip _); now split.
Qed.

Lemma bare_traverse t : forall s, untouched s -> exists s', traverse u t s = Some s' /\ untouched s'.
Proof.
  induction t as [i ts IH] using tree_ind'. intros s U. rewrite traverse_eq.
  assert (All : forall s, untouched s -> exists s', traverse_all u ts s = Some s' /\ untouched s').
  { clear U s. induction IH as [|t ts H _ IH]; intros s U; cbn [traverse_all]; [now exists s|]. destruct (H s U) as (s1 & -> & U1). exact (IH s1 U1). }
  destruct (is_namespace_kind _); [destruct (d_skip _); [now exists s|]|]; destruct (bare_visit i s U) as (s1 & -> & U1); destruct (All s1 U1) as (s2 & -> & U2).
  - rewrite (proj1 U), (proj1 U2). cbn. now exists s2.
  - now exists s2.
Qed.

Lemma bare_collect : exists s, collect u = Some s /\ untouched s.
Proof.
  unfold collect. assert (U : untouched init_state) by (repeat split). revert U. generalize init_state as s.
  induction (u_top u) as [|t ts IH]; intros s U; cbn [traverse_all]; [now exists s|]. destruct (bare_traverse t s U) as (s1 & -> & U1). exact (IH s1 U1).
Qed.

Lemma bare_contexts l : forall s b, process_contexts u l s = Done b -> bs_annotations b = bs_annotations s /\ bs_relocated b = bs_relocated s /\ bs_reports b = bs_reports s.
Proof.
  induction l as [|i l IH]; intros s b E; cbn [process_contexts] in E; [injection E as <-; auto|]. destruct (process_context u i s) as [s1| |] eqn:E1; try discriminate E.
  destruct (IH s1 b E) as (-> & -> & ->). unfold process_context in E1. destruct (assoc _ _); [injection E1 as <-; auto|]. destruct (lookup_context u i); [|discriminate E1]. injection E1 as <-. auto.
Qed.

Lemma bare_build : exists b, build_graph u = Done (true, b) /\ bs_annotations b = [] /\ bs_relocated b = [] /\ bs_reports b = [].
Proof.
  destruct (no_graph_only_after_errors u P) as (NA & NN & _). destruct bare_collect as (s & C & E1 & E2 & E3). revert NA NN. unfold build_graph. rewrite C. cbn [bs_reports]. rewrite E2. cbn [errors_occurred existsb]. rewrite E3.
  cbn [process_aliases bs_reports errors_occurred existsb]. destruct (process_contexts u _ _) as [b| |] eqn:Ep; intros NA NN.
  - exists b. split; [reflexivity|]. destruct (bare_contexts _ _ _ Ep) as (-> & -> & ->). rewrite E1. auto.
  - destruct (NN) as [NN' _]. specialize (NN' eq_refl). discriminate NN'.
  - contradiction NA. reflexivity.
Qed.

(** ** Processing *)

Lemma bare_process found implicit name : exists g contexts vis warned b, process u found implicit name = Done (Pruned g contexts vis warned b) /\
  bs_annotations b = [] /\ bs_reports b = [] /\ g_nodes g = [u_root u] /\ lookup_vis vis (u_root u) = false /\ tree_like g (u_root u) /\ warned = [].
Proof.
  destruct bare_build as (b & Eb & E1 & E2 & E3). pose proof (processing_never_asserts u P found implicit name) as H.
  destruct (process u found implicit name) as [[rs|aliases|g contexts vis warned b']| |] eqn:Ep.
  - exfalso. unfold process in Ep. rewrite Eb in Ep. destruct (derive_effective_visibility _ _ _); [|discriminate Ep]. destruct (expose_here_cycles _ _ _ _); [|discriminate Ep].
    destruct (contexts_with_visible_decls _ _ _ _ _ _); [|discriminate Ep]. destruct (hide_namespaces _ _ _ _ _ _) as [[? ?]|]; [|discriminate Ep]. destruct (prune_graph _ _ _ _); discriminate Ep.
  - exfalso. destruct H as (Ne & b' & vis & Eb' & _ & ->). rewrite Eb in Eb'. injection Eb' as <-. apply Ne. rewrite E2. unfold expose_here_cycles.
    assert (F : forall l, flat_map (fun n => if mem n (reachable_contexts vis) then [] else match assoc [] n with Some alias => [alias] | None => [] end) l = []).
    { induction l as [|n l IH]; [reflexivity|]. cbn [flat_map assoc]. destruct (mem _ _); exact IH. }
    rewrite F. reflexivity.
  - exists g, contexts, vis, warned, b'. pose proof (lost_contexts_are_warned_about u P found implicit name g contexts vis warned b' Ep) as W. cbn zeta in W, H.
    destruct H as (vis0 & contexts0 & Eb' & Ev & Ec & Ex & Eh & Epr & _). rewrite Eb in Eb'. injection Eb' as <-. split; [reflexivity|]. split; [exact E1|split; [exact E3|]].
    rewrite E1 in *. destruct (every_context_has_one_place u P b Eb) as (T & _).
    destruct (visibility_comes_from_nearest_deciding_context u [] (bs_graph b) T) as (vis1 & Ev1 & K1 & K2). rewrite Ev in Ev1. injection Ev1 as <-.
    assert (V0 : forall n, lookup_vis vis0 n = false).
    { intros n. unfold lookup_vis. destruct (dlookup vis0 n) as [v|] eqn:L; [|reflexivity]. assert (R : reachable (bs_graph b) (u_root u) n) by (apply K1; now exists v). destruct R as [l R].
      apply (K2 n l v R) in L. destruct L as [(l1 & m & l2 & _ & D & _)|[-> _]]; [|reflexivity]. destruct D as [(a & L & _)|(_ & _ & ->)]; [discriminate L|reflexivity]. }
    destruct (contexts_to_expose_have_content u [] found implicit vis0 (bs_graph b) T (fun n R => proj2 (K1 n) R)) as (ns & Ex1 & Hns). rewrite Ex in Ex1. injection Ex1 as <-.
    assert (N0 : contexts0 = []).
    { destruct contexts0 as [|n ns]; [reflexivity|]. exfalso. destruct (proj1 (Hns n) (or_introl eq_refl)) as (_ & m & _ & [(c & _ & _ & V)|(d & _ & _ & [(a & L & _)|[_ V]])]); [rewrite V0 in V; discriminate V|discriminate L|rewrite V0 in V; discriminate V]. }
    subst contexts0. destruct (only_expose_in_hides_foreign_parts u [] name (bs_graph b) T [] vis0) as (contexts1 & vis1 & Eh1 & H1 & H2). rewrite Eh in Eh1. injection Eh1 as <- <-.
    assert (V1 : forall n, lookup_vis vis n = false /\ ~ In n contexts).
    { assert (NF : forall n l, ~ exists m, In m (n :: l) /\ foreign u [] name m) by (intros n l (m & _ & _ & a & L & _); discriminate L).
      intros n. destruct (dlookup vis0 n) as [v|] eqn:L.
      - assert (R : reachable (bs_graph b) (u_root u) n) by (apply K1; now exists v). destruct R as [l R]. destruct (H1 n l R) as (I & _ & D). unfold lookup_vis. rewrite (D (NF n l)).
        split; [exact (V0 n)|]. intros Hin. apply I in Hin. exact (proj1 Hin).
      - assert (R : ~ reachable (bs_graph b) (u_root u) n) by (intros R; apply K1 in R; destruct R as [v R]; rewrite L in R; discriminate R). destruct (H2 n R) as (I & D). unfold lookup_vis. rewrite D.
        split; [exact (V0 n)|]. intros Hin. apply I in Hin. exact Hin. }
    assert (KV : forall n, reachable (bs_graph b) (u_root u) n -> exists v, dlookup vis n = Some v).
    { intros n [l R]. destruct (H1 n l R) as (_ & _ & D). rewrite D by (intros (m & _ & _ & a & L & _); discriminate L). apply K1. now exists l. }
    destruct (pruning_keeps_what_is_exposed u contexts vis (bs_graph b) T KV) as (g' & Epr1 & T' & _ & Nodes & _). rewrite Epr in Epr1. injection Epr1 as <-.
    assert (Only : forall n, In n (g_nodes g) -> n = u_root u).
    { intros n Hn. apply Nodes in Hn. destruct Hn as [->|[l [_ Hp]]]; [reflexivity|]. exfalso. destruct (Hp n (or_introl eq_refl)) as [[_ V]|[_ V]]; [rewrite (proj1 (V1 n)) in V; discriminate V|exact (proj2 (V1 n) V)]. }
    split; [|split; [exact (proj1 (V1 (u_root u)))|split; [exact T'|]]].
    + pose proof (tl_nodes _ _ T') as N. pose proof (tl_root_node _ _ T') as R. destruct (g_nodes g) as [|m [|m' l]]; [destruct R|now rewrite (Only m (or_introl eq_refl))|].
      exfalso. inversion N as [|? ? N1 _]. apply N1. left. now rewrite (Only m (or_introl eq_refl)), (Only m' (or_intror (or_introl eq_refl))).
    + destruct warned as [|x warned]; [reflexivity|]. exfalso. destruct (proj1 (proj1 W x) (or_introl eq_refl)) as (n & Hin & _). exact (proj2 (V1 n) Hin).
  - exfalso. destruct bare_collect as (s & C & _). rewrite C in H. discriminate H.
  - contradiction H.
Qed.

(** ** Emission *)

Lemma bare_define x e l : forall s, blank (em_storage s) -> exists s', fold_opt (handle_decl u x e false) l s = Some s' /\ blank (em_storage s') /\ em_stmts s' = em_stmts s /\ em_properties s' = em_properties s /\
  forall r, In r (em_reports s') -> In r (em_reports s) \/ exists i, In i l /\ r = EAnnotation i DInvalidAssumption /\ d_skip (u_decls u i) = true.
Proof.
  induction l as [|i l IH]; intros s Hb; cbn [fold_opt]; [exists s; auto 6|]. unfold handle_decl at 1.
  destruct (bare_insert i (em_storage s) Hb) as (st & ds & -> & Hb' & Hds).
  assert (V : is_visible u st false i = false).
  { unfold is_visible, get_named, get. destruct (lookup_attrs st i) as [a|] eqn:L; [|reflexivity]. now rewrite (blank_lookup st i a Hb' L). }
  rewrite V. destruct (IH (EmitModel.mkState st (em_stmts s) (em_reports s ++ map (EAnnotation i) ds) (em_properties s)) Hb') as (s' & E & Hb'' & Es & Ep & Er).
  exists s'. split; [exact E|split; [exact Hb''|split; [exact Es|split; [exact Ep|]]]]. intros r Hr. destruct (Er r Hr) as [Hr'|(j & Hj & Hr')].
  - cbn [em_reports] in Hr'. apply in_app_iff in Hr'. destruct Hr' as [Hr'|Hr']; [left; exact Hr'|]. apply in_map_iff in Hr'. destruct Hr' as (d & <- & Hd). destruct (Hds d Hd) as [-> S]. right. exists i. split; [left; reflexivity|auto].
  - right. exists j. split; [right; exact Hj|exact Hr'].
Qed.

Lemma bare_generate w found implicit iteration n name : setting u w iteration -> 0 < n -> exists b rs st', generate u w found implicit iteration n name = Some (RGraph b (EWritten (empty_module name n) rs st')) /\
  bs_reports b = [] /\ forall r, In r rs -> exists i, r = EAnnotation i DInvalidAssumption /\ d_skip (u_decls u i) = true.
Proof.
  intros S Hn. destruct (bare_process found implicit name) as (g & contexts & vis & warned & b & Ep & E1 & E2 & En & V & T & _). unfold generate. rewrite Ep, E1, En.
  destruct n as [|n]; [inversion Hn|]. pose proof (pl_root_kind _ P) as K. unfold emit_module.
  destruct (scope_is_nearest_module_or_class u [] g T K) as (scopes & Esc & Ks & Kr & _). rewrite Esc. destruct (se_queue _ _ _ S) as [location Q].
  assert (Pm : Permutation (g_nodes g) (iteration [u_root u])) by (rewrite En; apply (se_iteration _ _ _ S)).
  assert (Ir : forall r, ~ In r (public_bases_of (w_hierarchy w) r)).
  { intros r. exact (public_bases_proper _ r (la_acyclic _ _ (se_language _ _ _ S))). }
  destruct (order_respects_dependencies_or_cycle_is_reported u [] g T K (public_bases_of (w_hierarchy w)) Ir scopes Esc _ Pm location (w_pop w) Q) as (r & -> & Hr).
  destruct r as [order|c].
  - destruct Hr as [[Pe _] _]. rewrite En in Pe. apply Permutation_length_1_inv in Pe. subst order.
    assert (Epl : make_plan u w [] [u_root u] = Some (mkPlan [(u_root u, $"context")] [] [($"context", 1%N)] [mkWork (u_root u) XContext ($"context")])).
    { unfold make_plan. cbn [fold_opt]. unfold plan_context, create, context_name. rewrite K. reflexivity. }
    rewrite Epl. cbn [pl_work pl_identifiers map_opt]. unfold declare at 1. cbn [wk_exposer wk_identifier parameter_of option_map]. unfold introduce at 1. cbn [wk_context wk_exposer wk_identifier]. rewrite Kr, Nat.eqb_refl.
    cbn [xorb negb introducer_of option_map].
    assert (Ps : postamble u w [] = []).
    { unfold postamble. induction (w_variables w) as [|i l IH]; [reflexivity|]. cbn [flat_map]. rewrite IH. unfold lookup_or, get. cbn [lookup_attrs]. now destruct (supports_field _). }
    rewrite Ps. cbn [fold_opt length]. unfold define_step at 1. cbn [o_index o_streams o_storage o_reports]. rewrite Nat.mul_0_l. change (0 / 1) with 0. cbn [Nat.eqb].
    unfold define_context at 1. cbn [wk_context wk_exposer wk_identifier parameter_of]. unfold lookup_vis in V. rewrite V. unfold define at 1.
    destruct (bare_define (w_extra w) XContext (flat_map (expand (w_extra w)) (declarations u (w_extra w) (u_root u) (visible_decls (w_members w) (policy_of XContext) (w_results w (u_root u))))) (EmitModel.mkState [] [] [] []) (Forall_nil _)) as (s & -> & _ & Es & _ & Er).
    cbn [finalize]. cbn [em_stmts] in Es. rewrite Es. cbn [app write_to map option_map o_streams o_reports o_storage]. exists b. eexists _, _. split; [reflexivity|split; [exact E2|]].
    intros r Hr. rewrite app_nil_r in Hr. destruct (Er r Hr) as [[]|(i & _ & Hi)]. now exists i.
  - exfalso. destruct Hr as [(m & l & C) _]. assert (D : forall x y, ~ depends u (public_bases_of (w_hierarchy w)) g scopes x y).
    { intros x y (Hy & Hx & D). rewrite En in Hx, Hy. destruct Hx as [<-|[]], Hy as [<-|[]]. destruct D as [D|[D _]]; [rewrite Kr in D; discriminate D|rewrite K in D; discriminate D]. }
    inversion C as [? ? D1|? ? ? ? D1 _]; exact (D _ _ D1).
Qed.
End Bare.

(** ** Removing annotations *)

Section Stripped.
Variables (u : unit) (texts : nat -> list str).
Notation u' := (rewritten u texts).

Lemma st_order t : order u' t = order u t.
Proof.
  induction t as [i ts IH] using tree_ind'. cbn [order]. change (ignored_namespace u' i) with (ignored_namespace u i). destruct (ignored_namespace u i); [reflexivity|]. f_equal.
  induction IH as [|t ts E _ IH]; [reflexivity|]. cbn [flat_map]. now rewrite E, IH.
Qed.

Lemma st_orders ts : flat_map (order u') ts = flat_map (order u) ts.
Proof. induction ts as [|t ts IH]; [reflexivity|]. cbn [flat_map]. now rewrite st_order, IH. Qed.

Lemma st_inside t t' : inside u' t t' -> inside u t t'.
Proof. induction 1; econstructor; eassumption. Qed.

Lemma stripped_setting w iteration : bare u' -> setting u w iteration -> setting u' w iteration.
Proof.
  intros Bu [[[N Bl Sk] Rk Rl Ro Tg] [L1 L2 L3 L4 L5 L6] Q I]. constructor; [|constructor; assumption|exact Q|exact I].
  constructor; [constructor| | | | ].
  - unfold source_order. rewrite st_orders. exact N.
  - intros n ts m Hp Hm. apply (Bl n ts m); [destruct Hp as (t & Ht & Hp); exists t; split; [exact Ht|apply st_inside; exact Hp]|]. rewrite <- st_orders. exact Hm.
  - exact Sk.
  - exact Rk.
  - exact Rl.
  - intros i Hi. apply Ro. unfold source_order in *. rewrite <- st_orders. exact Hi.
  - intros a t _ _ [M _]. contradiction (Bu a M).
Qed.
End Stripped.
