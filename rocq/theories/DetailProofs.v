(** * Proofs about what generated code may depend on *)
From Coq Require Import Sorting.Permutation Lia.
From Verif Require Import Base ParserModel AnnotModel AnnotSpec CollectModel CollectProofs GraphModel GraphSpec GraphBuild OrderModel OrderSpec OrderProofs InlineModel InlineSpec InlineProofs EmitModel EmitSpec EmitProofs EmitFold EmitFinal ModuleModel ModuleSpec ModuleProofs ModuleFinal AccessSpec AccessProofs DetailSpec.

Lemma fold_opt_ext {A B} (P : A -> Prop) (f f' : A -> B -> option A) l : (forall s t, In t l -> P s -> f s t = f' s t) ->
  (forall s t s', In t l -> P s -> f s t = Some s' -> P s') -> forall s, P s -> fold_opt f l s = fold_opt f' l s.
Proof.
  induction l as [|t l IH]; intros He Hp s Hs; [reflexivity|]. cbn [fold_opt]. rewrite <- (He s t) by (auto; left; reflexivity).
  destruct (f s t) as [s'|] eqn:E; [|reflexivity]. apply IH; [intros; apply He; auto; right; assumption|intros; eapply Hp; eauto; right; assumption|].
  eapply Hp; [left; reflexivity|exact Hs|exact E].
Qed.

Lemma generic_same u x x' st i : same_details x x' i -> handle_generic u x st i = handle_generic u x' st i.
Proof. intros [H1 _ H3 _]. unfold handle_generic, parameters. rewrite H1, H3. reflexivity. Qed.

Lemma operator_same u x x' st r i : same_details x x' i -> handle_operator u x st r i = handle_operator u x' st r i.
Proof.
  intros [H1 _ _ _]. unfold handle_operator, is_ostream_operator, emit_operator, operand_types. rewrite H1. reflexivity.
Qed.

Lemma constructor_same u x x' st r i im : same_details x x' i -> x_abstract x r = x_abstract x' r ->
  handle_constructor u x st r i im = handle_constructor u x' st r i im.
Proof. intros [H1 _ _ _] Ha. unfold handle_constructor, parameters. rewrite H1, Ha. reflexivity. Qed.

Lemma handle_same u x x' st e i ps : same_details x x' i -> (forall r p, e = XRecord r p -> x_abstract x r = x_abstract x' r) ->
  handle_impl u x st e i ps = handle_impl u x' st e i ps.
Proof.
  intros H Ha. destruct e as [|j|j|r p]; cbn [handle_impl]; try (rewrite (generic_same u x x' st i H); reflexivity).
  - unfold handle_enum. rewrite (sd_enumerator _ _ _ H). reflexivity.
  - unfold handle_record. rewrite (generic_same u x x' st i H), (operator_same u x x' st r i H), (sd_const _ _ _ H).
    destruct (get u st supports_constructor at_implicit_conversion i); [|reflexivity]. rewrite (constructor_same u x x' st r i b H (Ha _ _ eq_refl)). reflexivity.
Qed.

Lemma takes_iff x r i : existsb (has_type_of_record r) (fi_params (x_fn x i)) = true <-> takes_class x r i.
Proof. apply existsb_exists. Qed.

Section Same.
Variables (u : unit) (w w' : facts) (found : nat -> list nat) (implicit : nat -> bool) (iteration : list nat -> list nat) (name : str).
Hypothesis S : setting u w iteration.
Variables (g : graph) (vis : dmap bool) (b : bstate).
Hypothesis X : exposed u found implicit name g vis b.
Hypothesis H : same_where_used u w w' g b name.

Lemma expand_same i : expand (w_extra w) i = expand (w_extra w') i.
Proof. unfold expand. rewrite (su_templates _ _ _ _ _ _ H). reflexivity. Qed.

Lemma flat_expand_same l : flat_map (expand (w_extra w)) l = flat_map (expand (w_extra w')) l.
Proof. apply flat_map_ext, expand_same. Qed.

Lemma operators_same c : In c (g_nodes g) -> kind u c = KRecord -> associated_operators (w_extra w) c = associated_operators (w_extra w') c.
Proof.
  intros Hc Hk. destruct (su_contexts _ _ _ _ _ _ H c Hc) as [_ _ _ _ Ho Ha]. specialize (Ho Hk). specialize (Ha Hk). unfold associated_operators.
  rewrite <- flat_expand_same, <- (flat_map_ext (x_adl (w_extra w) c) (x_adl (w_extra w') c) Ho). apply filter_ext_in.
  intros i Hi. apply in_flat_map in Hi as (d & Hd & Hi). apply in_flat_map in Hd as (k & _ & Hd). specialize (Ha i k d Hd Hi).
  apply eq_true_iff_eq. rewrite !takes_iff. exact Ha.
Qed.

Lemma looked_up_same c x : In c (g_nodes g) -> looked_up u w c x = looked_up u w' c x.
Proof.
  intros Hc. unfold looked_up, declarations. rewrite <- (su_members _ _ _ _ _ _ H), <- (sc_results _ _ _ _ (su_contexts _ _ _ _ _ _ H c Hc)).
  f_equal. destruct (kind u c) eqn:Hk; try reflexivity. apply operators_same; assumption.
Qed.

Lemma shown_visible c i a : In c (g_nodes g) -> own_attributes u i a -> shown (lookup_vis vis c) a -> visible_in u b name c i.
Proof.
  intros Hc Ho Sh. apply own_says in Ho. destruct Sh as [V|[V Dv]]; rewrite V in Ho; [left; exact Ho|right]. split; [exact Ho|]. eapply lookup_visible; eassumption.
Qed.

Lemma define_same c x st : In c (g_nodes g) -> create u (bs_annotations b) (w_hierarchy w) c = Some x -> faithful u st ->
  define u (w_extra w) x (lookup_vis vis c) (looked_up u w c x) st = define u (w_extra w') x (lookup_vis vis c) (looked_up u w' c x) st.
Proof.
  intros Hc Hx F. rewrite <- looked_up_same by exact Hc. unfold define. rewrite <- flat_expand_same.
  assert (Hr : forall r p, x = XRecord r p -> r = c).
  { intros r p ->. unfold create in Hx. destruct (kind u c); try discriminate Hx. destruct (create_policy u (bs_annotations b) (w_hierarchy w) c); [|discriminate Hx]. injection Hx as -> _. reflexivity. }
  assert (He : forall j, x = XEnum j -> j = c).
  { intros j ->. unfold create in Hx. destruct (kind u c); try discriminate Hx; try (injection Hx as ->; reflexivity). destruct (create_policy u (bs_annotations b) (w_hierarchy w) c); discriminate Hx. }
  rewrite (fold_opt_ext (fun s => faithful u (em_storage s)) (handle_decl u (w_extra w) x (lookup_vis vis c)) (handle_decl u (w_extra w') x (lookup_vis vis c))).
  - destruct (fold_opt _ _ _) as [s|]; [|reflexivity]. replace (EmitModel.finalize u (w_extra w') (em_storage s) x (em_properties s)) with (EmitModel.finalize u (w_extra w) (em_storage s) x (em_properties s)); [reflexivity|].
    destruct x as [|j|j|r p]; try reflexivity. cbn [EmitModel.finalize]. rewrite (He j eq_refl), (sc_scoped _ _ _ _ (su_contexts _ _ _ _ _ _ H c Hc)). reflexivity.
  - intros s i Hi Fs. unfold handle_decl. destruct (insert (u_decls u) i (em_storage s)) as [[st1 ds]|] eqn:Ei; [|reflexivity].
    destruct (is_visible u st1 (lookup_vis vis c) i) eqn:Ev; [|reflexivity]. rewrite (handle_same u (w_extra w) (w_extra w')); [reflexivity| |].
    + apply (su_details _ _ _ _ _ _ H). exists c. split; [exact Hc|]. split; [exists x; auto|].
      apply is_visible_iff in Ev as (a & Ha & Sh). refine (shown_visible c i a Hc _ Sh). apply (insert_faithful _ _ _ _ _ Ei Fs); [|exact Ha].
      refine (decls_not_tags u w (se_language _ _ _ S) (mkWork c x []) i Hi).
    + intros r p E. rewrite (Hr r p E). apply (sc_abstract _ _ _ _ (su_contexts _ _ _ _ _ _ H c Hc)).
  - intros s i s' Hi Fs Es. unfold handle_decl in Es. destruct (insert (u_decls u) i (em_storage s)) as [[st1 ds]|] eqn:Ei; [|discriminate Es].
    assert (F1 := insert_faithful _ _ _ _ _ Ei Fs). destruct (is_visible u st1 (lookup_vis vis c) i).
    + destruct (handle_impl u (w_extra w) st1 x i (em_properties s)) as [[[ss rs] ps]|]; [|discriminate Es]. injection Es as <-. exact F1.
    + injection Es as <-. exact F1.
  - exact F.
Qed.

Lemma class_same r p st : class_of u w g st r p = class_of u w' g st r p.
Proof. unfold class_of. rewrite (su_hierarchy _ _ _ _ _ _ H). reflexivity. Qed.

Lemma parameter_same e st : parameter_of u w g st e = parameter_of u w' g st e.
Proof. destruct e; try reflexivity. cbn [parameter_of]. rewrite class_same. reflexivity. Qed.

Lemma introducer_same e st p : introducer_of u w g st e p = introducer_of u w' g st e p.
Proof. destruct e; try reflexivity. cbn [introducer_of]. rewrite class_same. reflexivity. Qed.

Lemma plan_same st order : (forall c, In c order -> In c (g_nodes g)) -> make_plan u w st order = make_plan u w' st order.
Proof.
  intros Ho. unfold make_plan. apply (fold_opt_ext (fun _ => True)); [|auto|exact I]. intros p c Hc _. unfold plan_context, context_name.
  rewrite (sc_name _ _ _ _ (su_contexts _ _ _ _ _ _ H c (Ho c Hc))), (su_hierarchy _ _ _ _ _ _ H). reflexivity.
Qed.

Lemma map_opt_ext {A B} (f f' : A -> option B) l : (forall t, f t = f' t) -> map_opt f l = map_opt f' l.
Proof. intros E. induction l as [|t l IH]; [reflexivity|]. cbn [map_opt]. rewrite E, IH. reflexivity. Qed.

Lemma emit_same n : emit_module u w g vis (bs_annotations b) (iteration (g_nodes g)) n name = emit_module u w' g vis (bs_annotations b) (iteration (g_nodes g)) n name.
Proof.
  destruct n as [|n]; [reflexivity|]. destruct S as [Hp L [loc Q] P] eqn:ES. clear ES.
  destruct (exposed_graph u w found implicit iteration S name g vis b X) as (T & K & R & Fa & _).
  destruct (emit_core u w g vis (bs_annotations b) (iteration (g_nodes g)) loc T K R L Q (P _) (Datatypes.S n) name (Nat.lt_0_succ n)) as (scopes & Es & r & Er & Hc).
  unfold emit_module. rewrite Es, <- (su_queue _ _ _ _ _ _ H), <- (su_hierarchy _ _ _ _ _ _ H), Er. destruct r as [order|c]; [|reflexivity].
  destruct Hc as (Ho & _ & p & Ep & Hpl & _).
  rewrite <- (plan_same (bs_annotations b) order) by (intros c; apply (node_iff u w g scopes order Ho)). rewrite Ep.
  rewrite (map_opt_ext (declare u w' g (bs_annotations b)) (declare u w g (bs_annotations b))).
  2:{ intros t. unfold declare. rewrite parameter_same. reflexivity. }
  rewrite (map_opt_ext (introduce u w' g (bs_annotations b) scopes (pl_identifiers p)) (introduce u w g (bs_annotations b) scopes (pl_identifiers p))).
  2:{ intros t. unfold introduce. destruct (negb _); [reflexivity|]. destruct (match dlookup scopes (wk_context t) with Some q => q | None => None end) as [q|]; [destruct (dlookup (pl_identifiers p) q); [|reflexivity]|]; rewrite introducer_same; reflexivity. }
  unfold postamble at 2. rewrite <- (su_variables _ _ _ _ _ _ H). fold (postamble u w (bs_annotations b)).
  destruct (map_opt (declare u w g (bs_annotations b)) (pl_work p)) as [ds|]; [|reflexivity].
  destruct (map_opt (introduce u w g (bs_annotations b) scopes (pl_identifiers p)) (pl_work p)) as [is|]; [|reflexivity]. f_equal.
  apply (fold_opt_ext (fun o => faithful u (o_storage o))).
  - intros o t Ht Fo. unfold define_step, define_context.
    rewrite <- parameter_same. destruct (parameter_of u w g (o_storage o) (wk_exposer t)); [|reflexivity].
    assert (Hn : In (wk_context t) (g_nodes g)) by (apply (proj1 (node_iff u w g scopes order Ho _)); eapply work_in; eassumption).
    assert (E := define_same (wk_context t) (wk_exposer t) (o_storage o) Hn (po_create _ _ _ _ _ Hpl t Ht) Fo). unfold looked_up, lookup_vis in E. rewrite E. reflexivity.
  - intros o t o' Ht Fo E. unfold define_step, define_context in E. destruct (parameter_of u w g (o_storage o) (wk_exposer t)); [|discriminate E].
    destruct (define _ _ _ _ _ (o_storage o)) as [[[st' body] rs]|] eqn:D; [|discriminate E].
    destruct (write_to _ _ _) as [streams|]; [|discriminate E]. injection E as <-. exact (define_faithful _ _ _ _ _ _ _ _ _ D Fo).
  - exact Fa.
Qed.
End Same.

Lemma generate_same u w w' found implicit iteration n name : setting u w iteration ->
  (forall g vis b, exposed u found implicit name g vis b -> same_where_used u w w' g b name) ->
  generate u w found implicit iteration n name = generate u w' found implicit iteration n name.
Proof.
  intros S H. unfold generate. destruct (process u found implicit name) as [[rs|l|g contexts vis warned b]| |] eqn:E; try reflexivity.
  assert (X : exposed u found implicit name g vis b) by (exists contexts, warned; exact E). f_equal.
  exact (emit_same u w w' found implicit iteration name S g vis b X (H g vis b X) n).
Qed.

Lemma change_other {A} (f : nat -> A) i v j : j <> i -> f j = change f i v j.
Proof. intros E. unfold change. apply Nat.eqb_neq in E. rewrite E. reflexivity. Qed.

(** Details of a declaration that is hidden. *)
Lemma changed_same u w found implicit iteration n name i f const tag enumerator : setting u w iteration ->
  (forall g vis b, exposed u found implicit name g vis b -> ~ in_use u w g b name i) ->
  (forall c k d, kind u c = KRecord -> In d (x_adl (w_extra w) c k) -> In i (expand (w_extra w) d) ->
     (takes_class (w_extra w) c i <-> exists q, In q (fi_params f) /\ has_type_of_record c q = true)) ->
  generate u w found implicit iteration n name = generate u (changed w i f const tag enumerator) found implicit iteration n name.
Proof.
  intros S H Ha. apply generate_same; [exact S|]. intros g vis b X. constructor; try reflexivity.
  - intros j Hj. assert (E : j <> i) by (intros ->; exact (H g vis b X Hj)). constructor; apply change_other; exact E.
  - intros c Hc. constructor; try reflexivity. intros Hk j k d Hd Hj. destruct (Nat.eq_dec j i) as [->|E].
    + rewrite (Ha c k d Hk Hd Hj). unfold takes_class, changed. cbn [w_extra x_fn]. unfold change. rewrite Nat.eqb_refl. reflexivity.
    + unfold takes_class, changed. cbn [w_extra x_fn]. rewrite <- (change_other (x_fn (w_extra w)) i f j E). reflexivity.
Qed.

Lemma hidden_not_used u w g b name i : AccessSpec.says u i (Some false) -> ~ in_use u w g b name i.
Proof. intros Hs (c & _ & _ & [V|[V _]]); discriminate (says_unique _ _ _ _ Hs V). Qed.

