(** * The text of generated modules *)
From Verif Require Import ToolModel Base ParserModel ParserSpec StringModel StringSpec StringProofs AnnotModel AnnotSpec AnnotProofs AnnotStore CollectModel CollectProofs GraphModel
  OrderModel InlineModel EmitModel ModuleModel ModuleChunks TextModel TextSpec TextProofs.

(** ** Attributes *)

Definition fine_attrs (a : attrs) : Prop := fine_policy (fn_policy (at_function a)) /\ fine_holder (r_holder_type (at_record a)).
Definition fine_annotation (an : annotation) : Prop :=
  forall s, (string_of ReturnValuePolicy an = Some s -> fine_policy s) /\ (string_of HolderType an = Some s -> fine_holder s).

Lemma default_fine : fine_attrs default_attrs.
Proof. split; left; reflexivity. Qed.

Definition policy_in (a : attrs) : str := fn_policy (at_function a).
Definition holder_in (a : attrs) : str := r_holder_type (at_record a).

Lemma named_keeps d an a : a_kind an = Module -> 
  policy_in (snd (fst (process_named d an a))) = policy_in a /\ holder_in (snd (fst (process_named d an a))) = holder_in a.
Proof.
  intro E. unfold process_named, no_check. rewrite E. cbn [fst snd].
  split; rewrite keep_unary, keep_ensure; try reflexivity; intros v; unfold store_spelling; (destruct (is_valid_identifier _); [apply quiet_change|apply quiet_complain]); reflexivity.
Qed.

Lemma named_keeps_all d an a : policy_in (snd (fst (process_named d an a))) = policy_in a /\ holder_in (snd (fst (process_named d an a))) = holder_in a.
Proof.
  destruct (a_kind an) eqn:E; try (apply named_keeps; exact E); unfold process_named; rewrite E; try (split; reflexivity); cbn [fst snd];
    split; rewrite keep_check; repeat first [rewrite keep_unary by (intro; first [apply quiet_change; reflexivity|
      unfold store_spelling; destruct (is_valid_identifier _); [apply quiet_change|apply quiet_complain]; reflexivity])|rewrite keep_nullary by (apply quiet_change; reflexivity)]; reflexivity.
Qed.

Lemma owner_policy d an a : a_kind an <> Module -> a_kind an <> ReturnValuePolicy -> policy_in (snd (fst (owner (a_kind an) d an a))) = policy_in a.
Proof.
  intros Hm Hr. destruct (a_kind an) eqn:E; try congruence;
    first [apply named_keeps_all | apply keep_owner; [reflexivity|exact E] |
      cbn [owner]; unfold process_function; rewrite E, keep_check; first [rewrite keep_binary; [reflexivity|] | rewrite keep_variadic; [reflexivity|]];
      intros; repeat (destruct (index_of _ _); [|apply quiet_complain]); apply quiet_change; reflexivity].
Qed.

Lemma owner_holder d an a : a_kind an <> Module -> a_kind an <> HolderType -> holder_in (snd (fst (owner (a_kind an) d an a))) = holder_in a.
Proof.
  intros Hm Hr. destruct (a_kind an) eqn:E; try congruence;
    first [apply named_keeps_all | apply keep_owner; [reflexivity|exact E] |
      cbn [owner]; unfold process_record; rewrite E, keep_check; first [rewrite keep_flag by reflexivity; reflexivity | rewrite keep_collect; [reflexivity|]; intros; apply keep_select; reflexivity]].
Qed.

Lemma step_fine d an a a' ds : process_annotation d an a = Some (a', ds) -> fine_annotation an -> fine_attrs a -> fine_attrs a'.
Proof.
  intros H Hn [Hp Hh]. apply process_annotation_attrs in H. subst a'. unfold fine_attrs. change (fine_policy (policy_in a)) in Hp. change (fine_holder (holder_in a)) in Hh.
  fold (policy_in (snd (fst (any_of (handlers d) an a)))). fold (holder_in (snd (fst (any_of (handlers d) an a)))).
  destruct (akind_eqb (a_kind an) Module) eqn:Em.
  - apply akind_eqb_eq in Em. destruct an as [k args]. cbn in Em. subst k. rewrite any_of_module.
    destruct (named_keeps_all d (mkAnnotation Module args) a) as [K1 K2]. destruct (process_named d (mkAnnotation Module args) a) as [[x a1] ds1]. cbn [fst snd] in K1, K2.
    destruct (is_namespace d); [|cbn [fst snd]; rewrite K1, K2; auto].
    assert (K3 : policy_in (snd (fst (process_namespace d (mkAnnotation Module args) a1))) = policy_in a1) by (apply (keep_owner policy_in d Module); reflexivity).
    assert (K4 : holder_in (snd (fst (process_namespace d (mkAnnotation Module args) a1))) = holder_in a1) by (apply (keep_owner holder_in d Module); reflexivity).
    destruct (process_namespace d (mkAnnotation Module args) a1) as [[ok a2] ds2]. cbn [fst snd] in *. rewrite K3, K4, K1, K2. auto.
  - assert (Hm : a_kind an <> Module) by (intro E; rewrite E in Em; discriminate). rewrite any_of_owner by exact Hm.
    destruct (applicable d (a_kind an)); [|auto].
    split.
    + destruct (akind_eqb (a_kind an) ReturnValuePolicy) eqn:Er.
      * apply akind_eqb_eq in Er. rewrite Er. destruct an as [k args]. cbn in Er. subst k.
        destruct args as [|[] [|v r]]; try exact Hp. exact (proj1 (Hn s) eq_refl).
      * rewrite owner_policy; auto. intro E; rewrite E in Er; discriminate.
    + destruct (akind_eqb (a_kind an) HolderType) eqn:Er.
      * apply akind_eqb_eq in Er. rewrite Er. destruct an as [k args]. cbn in Er. subst k.
        destruct args as [|[] [|v r]]; try exact Hh. exact (proj2 (Hn s) eq_refl).
      * rewrite owner_holder; auto. intro E; rewrite E in Er; discriminate.
Qed.

Lemma annotations_fine d ans : Forall fine_annotation ans -> forall a a' dss, process_annotations d ans a = Some (a', dss) -> fine_attrs a -> fine_attrs a'.
Proof.
  induction 1 as [|an ans Hn _ IH]; intros a a' dss H Ha; cbn [process_annotations] in H; [now injection H as <- _|].
  destruct (process_annotation d an a) as [[a1 ds]|] eqn:E; [|discriminate H].
  destruct (process_annotations d ans a1) as [[a2 dss']|] eqn:E'; [|discriminate H]. injection H as <- _. eauto using step_fine.
Qed.

(** ** Stored attributes *)

Definition fine_store (st : storage) : Prop := Forall (fun e => fine_attrs (snd e)) st.

Lemma lookup_fine st i a : fine_store st -> lookup_attrs st i = Some a -> fine_attrs a.
Proof.
  induction 1 as [|[j b] st Hb _ IH]; cbn; [discriminate|]. destruct (Nat.eqb i j); [|exact IH]. now intros [= <-].
Qed.

Lemma update_fine i f st : (forall a, policy_in (f a) = policy_in a /\ holder_in (f a) = holder_in a) -> fine_store st -> fine_store (update_named i f st).
Proof.
  intro Hf. assert (X : forall a, fine_attrs a -> fine_attrs (f a)).
  { intros a [H1 H2]. unfold fine_attrs. fold (policy_in (f a)) (holder_in (f a)). destruct (Hf a) as [-> ->]. now split. }
  induction 1 as [|[j b] st Hb Hs IH]; cbn; [constructor; [apply X, default_fine|constructor]|].
  destruct (Nat.eqb i j); constructor; cbn; auto.
Qed.

Section Unit.
Context (u : unit) (FA : fine_annotations u).

Lemma compute_fine i a ds : compute_attrs (u_decls u i) = Some (a, ds) -> fine_attrs a.
Proof.
  unfold compute_attrs. destruct (parse_attrs (d_attrs (u_decls u i)) []) as [ans pds] eqn:E.
  destruct (process_annotations (u_decls u i) ans (initial_attrs (u_decls u i))) as [[a1 dss]|] eqn:E'; [|discriminate]. intros [= <- _].
  apply (annotations_fine _ _) with (2 := E').
  - destruct (parse_attrs_carried _ _ _ _ E) as (l & -> & Hc & _). apply Forall_forall. intros an Han s. exact (FA i l _ an s Hc Han).
  - unfold initial_attrs. destruct (negb (is_namespace (u_decls u i)) && has_annotations (u_decls u i) false); [split; left; reflexivity|exact default_fine].
Qed.

Lemma insert_fine i st st' ds : insert (u_decls u) i st = Some (st', ds) -> fine_store st -> fine_store st'.
Proof.
  unfold insert. destruct (d_skip (u_decls u i)); [now intros [= <- _]|]. destruct (has st i); [now intros [= <- _]|].
  destruct (compute_attrs (u_decls u i)) as [[a ds']|] eqn:E; [|discriminate]. intros [= <- _] H. apply Forall_app. split; [exact H|].
  constructor; [exact (compute_fine _ _ _ E)|constructor].
Qed.

Lemma visit_fine i s s' : visit u i s = Some s' -> fine_store (cs_annotations s) -> fine_store (cs_annotations s').
Proof.
  unfold visit. destruct (visit_named u i s) as [s1|] eqn:E; [|discriminate]. intros [= <-] H.
  assert (H1 : fine_store (cs_annotations s1)).
  { revert E. unfold visit_named. destruct (_ || _); [now intros [= <-]|].
    destruct (insert (u_decls u) i (cs_annotations s)) as [[st ds]|] eqn:Ei; [|discriminate]. intros [= <-]. exact (insert_fine _ _ _ _ Ei H). }
  destruct (kind u i); try exact H1; unfold visit_context, visit_typedef; [destruct (d_skip (u_decls u i))..|destruct (_ || _); [|destruct (u_qualified u i)]]; exact H1.
Qed.

Lemma traverse_all_fine ts : Forall (fun t => forall s s', traverse u t s = Some s' -> fine_store (cs_annotations s) -> fine_store (cs_annotations s')) ts ->
  forall s s', traverse_all u ts s = Some s' -> fine_store (cs_annotations s) -> fine_store (cs_annotations s').
Proof.
  induction 1 as [|t ts Ht _ IH]; intros s s' H Hs; cbn [traverse_all] in H; [now injection H as <-|].
  destruct (traverse u t s) as [s1|] eqn:E; [|discriminate H]. eauto.
Qed.

Lemma traverse_fine t : forall s s', traverse u t s = Some s' -> fine_store (cs_annotations s) -> fine_store (cs_annotations s').
Proof.
  induction t as [i ts IH] using tree_ind'. intros s s' H Hs. rewrite traverse_eq in H.
  destruct (is_namespace_kind (kind u i)).
  - destruct (d_skip (u_decls u i)); [now injection H as <-|]. destruct (visit u i s) as [s1|] eqn:E1; [|discriminate H].
    destruct (traverse_all u ts s1) as [s2|] eqn:E2; [|discriminate H].
    assert (H2 := traverse_all_fine ts IH _ _ E2 (visit_fine _ _ _ E1 Hs)).
    destruct (negb _); injection H as <-; [|exact H2]. unfold check_first. destruct (assoc _ _); [destruct (equal _ _ _ _)|]; exact H2.
  - destruct (visit u i s) as [s1|] eqn:E1; [|discriminate H]. exact (traverse_all_fine ts IH _ _ H (visit_fine _ _ _ E1 Hs)).
Qed.

Lemma aliases_fine l : forall s s', process_aliases u l s = GraphModel.Done s' -> fine_store (bs_annotations s) -> fine_store (bs_annotations s').
Proof.
  induction l as [|al l IH]; intros s s' H Hs; cbn [process_aliases] in H; [now injection H as <-|].
  destruct (process_alias u al s) as [s1| |] eqn:E; try discriminate H. apply (IH _ _ H). clear H IH.
  revert E. unfold process_alias. destruct (get_typedef u (bs_annotations s) al) as [t|]; [|discriminate].
  destruct (_ && _); [now intros [= <-]|]. destruct (d_target (u_decls u al)) as [target|]; [|discriminate].
  destruct (insert (u_decls u) target (bs_annotations s)) as [[st ds]|] eqn:Ei; [|discriminate].
  assert (H1 := insert_fine _ _ _ _ Ei Hs).
  assert (H2 : fine_store (if t_encourage t then update_named target (set_visible (Some true)) st else st)).
  { destruct (t_encourage t); [|exact H1]. apply update_fine; [split; reflexivity|exact H1]. }
  destruct (t_expose_here t); [|now intros [= <-]].
  unfold add_edge_for_alias. cbn [bs_annotations bs_relocated bs_graph bs_reports]. destruct (lookup_context u al); [|discriminate].
  destruct (assoc (bs_relocated s) target); [now intros [= <-]|]. cbn [bs_annotations bs_relocated bs_graph bs_reports].
  unfold propagate. destruct (negb _); [discriminate|]. intros [= <-]. cbn [bs_annotations].
  apply update_fine; [|exact H2]. intro a. match goal with |- context [process_named ?d ?an ?b] => destruct (named_keeps_all d an b) as [-> ->] end. split; reflexivity.
Qed.

Lemma contexts_fine l : forall s s', process_contexts u l s = GraphModel.Done s' -> bs_annotations s' = bs_annotations s.
Proof.
  induction l as [|c l IH]; intros s s' H; cbn [process_contexts] in H; [now injection H as <-|].
  destruct (process_context u c s) as [s1| |] eqn:E; try discriminate H. rewrite (IH _ _ H).
  revert E. unfold process_context. destruct (assoc _ _); [now intros [= <-]|]. destruct (lookup_context u c); [|discriminate]. now intros [= <-].
Qed.

Lemma graph_fine ok b : build_graph u = GraphModel.Done (ok, b) -> fine_store (bs_annotations b).
Proof.
  unfold build_graph. destruct (collect u) as [s|] eqn:E; [|discriminate].
  assert (H : fine_store (cs_annotations s)).
  { apply (traverse_all_fine (u_top u)) with (2 := E); [|constructor]. apply Forall_forall. intros t _. apply traverse_fine. }
  destruct (errors_occurred _); [now intros [= <- <-]|].
  destruct (process_aliases u (cs_aliases s) _) as [b1| |] eqn:E1; try discriminate.
  assert (H1 := aliases_fine _ _ _ E1 H). destruct (errors_occurred _); [now intros [= <- <-]|].
  destruct (process_contexts u (cs_contexts s) b1) as [b2| |] eqn:E2; try discriminate. intros [= <- <-].
  now rewrite (contexts_fine _ _ _ E2).
Qed.

(** ** Statements *)

Context (w : facts) (of_expr : str -> list (str * str)) (FD : fine_defaults w of_expr).
Notation x := (w_extra w).

Lemma emit_parameters_fine f a ps : (forall p e, In p ps -> pm_default p = Some e -> piece true e (of_expr e)) ->
  forall index pos last, Forall (fine_arg of_expr) (fst (emit_parameters f a index pos last ps)).
Proof.
  induction ps as [|p ps IH]; intros H index pos last; cbn [emit_parameters]; [constructor|].
  assert (IH' := IH (fun q e Hq => H q e (or_intror Hq))).
  destruct (pm_variadic p) as [[]|]; try apply IH'. destruct last; [constructor|].
  specialize (IH' (S index) (S pos) None). destruct (emit_parameters f a (S index) (S pos) None ps) as [args rs]. constructor; [|exact IH'].
  unfold fine_arg. cbn [ar_default]. destruct (pm_default p) eqn:E; [|exact I]. exact (H p _ (or_introl eq_refl) E).
Qed.

Lemma parameters_fine f a : Forall (fine_arg of_expr) (fst (parameters x f a)).
Proof. apply emit_parameters_fine. exact (FD f). Qed.

Lemma get_policy st i a : fine_store st -> get u st supports_function at_function i = Some a -> fine_policy (fn_policy a).
Proof.
  unfold get. intros H. destruct (supports_function (u_decls u i)); [|discriminate]. destruct (lookup_attrs st i) as [b|] eqn:E; [|discriminate].
  intros [= <-]. exact (proj1 (lookup_fine _ _ _ H E)).
Qed.

Lemma lookup_policy st i : fine_store st -> fine_policy (fn_policy (lookup_or u st supports_function at_function i)).
Proof.
  intro H. unfold lookup_or. destruct (get u st supports_function at_function i) eqn:E; [exact (get_policy _ _ _ H E)|now left].
Qed.

Lemma generic_fine p st i ss rs : fine_store st -> handle_generic u x st i = Some (ss, rs) -> Forall (fine_stmt of_expr p) ss.
Proof.
  intro H. unfold handle_generic. destruct (_ && _); [discriminate|].
  destruct (get_typedef u st i) as [t|].
  - destruct (n_visible _); [|intros [= <- _]; constructor]. destruct (t_expose_here t); [intros [= <- _]; constructor|].
    destruct (x_tag x i); intros [= <- _]; repeat constructor.
  - destruct (get u st supports_field at_field i) as [v|].
    + destruct (f_manual v); [destruct (f_postamble v); intros [= <- _]; repeat constructor|]. destruct (kind u i); try discriminate; intros [= <- _]; repeat constructor.
    + destruct (match get u st supports_method at_method i with Some _ => _ | None => _ end); [intros [= <- _]; constructor|].
      destruct (get u st supports_function at_function i) as [a|] eqn:E; [|intros [= <- _]; constructor].
      destruct (fi_deleted _); [intros [= <- _]; constructor|]. assert (P := parameters_fine i a). destruct (parameters x i a) as [args rs'].
      intros [= <- _]. constructor; [|constructor]. split; [exact P|exact (get_policy _ _ _ H E)].
Qed.

Lemma constructor_fine p st r i implicit ss rs : fine_store st -> handle_constructor u x st r i implicit = Some (ss, rs) -> Forall (fine_stmt of_expr p) ss.
Proof.
  intro H. unfold handle_constructor. destruct (_ || _ || _); [intros [= <- _]; constructor|].
  assert (P := parameters_fine i (lookup_or u st supports_function at_function i)). destruct (parameters x i _) as [args rs'].
  assert (I : fine_stmt of_expr p (SInit i (map pm_type (fi_params (x_fn x i))) args (lookup_or u st supports_function at_function i))).
  { split; [exact P|now apply lookup_policy]. }
  destruct implicit; [|intros [= <- _]; constructor; [exact I|constructor]]. destruct (fi_params (x_fn x i)); [discriminate|].
  intros [= <- _]. constructor; [discriminate|]. constructor; [exact I|constructor].
Qed.

Lemma operator_fine p st r i ss rs : handle_operator u x st r i = Some (ss, rs) -> Forall (fine_stmt of_expr p) ss.
Proof.
  unfold handle_operator. destruct (fi_deleted _); [intros [= <- _]; constructor|]. destruct (fi_operator (x_fn x i)) as [k|]; [|discriminate].
  assert (X : forall h : handled, h = match is_ostream_operator u x i k with
        | None => None
        | Some true =>
            match get_named u st i with
            | Some n => if is_empty (n_spelling n) then nothing else says (SPrint (n_spelling n) r)
            | None => nothing
            end
        | Some false => option_map (fun ss => (ss, [])) (emit_operator u x r i k)
        end -> h = Some (ss, rs) -> Forall (fine_stmt of_expr p) ss).
  { intros h -> Hh. revert Hh. destruct (is_ostream_operator u x i k) as [[]|]; [|unfold emit_operator|discriminate].
    - destruct (get_named u st i) as [n|]; [destruct (is_empty _)|]; intros [= <- _]; repeat constructor.
    - destruct (never_emitted k); [intros [= <- _]; constructor|]. destruct (_ && _); [intros [= <- _]; constructor|].
      destruct (operand_types u x r i) as [|t ts]; [discriminate|]. destruct (operator_lambda _ _ _ _); [|discriminate]. intros [= <- _]. repeat constructor. }
  destruct k; try discriminate; exact (X _ eq_refl).
Qed.

Lemma record_fine p st r i ps ss rs ps' : fine_store st -> handle_record u x st r i ps = Some (ss, rs, ps') -> Forall (fine_stmt of_expr p) ss.
Proof.
  intro H. unfold handle_record.
  assert (K : forall h : handled, (forall ss rs, h = Some (ss, rs) -> Forall (fine_stmt of_expr p) ss) ->
            option_map (fun sr : list stmt * list ereport => (sr, ps)) h = Some (ss, rs, ps') -> Forall (fine_stmt of_expr p) ss).
  { intros [[ss' rs']|] Hh; [|discriminate]. cbn. intros [= <- _ _]. exact (Hh _ _ eq_refl). }
  destruct (get u st supports_constructor at_implicit_conversion i) as [implicit|]; [apply K; intros; eapply constructor_fine; eassumption|].
  destruct (supports_operator (u_decls u i)); [apply K; intros; eapply operator_fine; eassumption|].
  destruct (match get u st supports_method at_method i with Some _ => _ | None => _ end) as [m|].
  - destruct (define_properties i m ps) as [ps1 rs1]. intros [= <- _ _]. constructor.
  - destruct (get u st supports_field at_field i) as [v|]; apply K.
    + destruct (f_manual v); [destruct (f_postamble v); [discriminate|]|]; intros ss' rs' [= <- _]; repeat constructor.
    + intros ss' rs'. now apply generic_fine.
Qed.

Definition own_parameter (e : exposer) (p : parameter) : Prop := match e with XEnum i => p = PEnum i | _ => True end.

Lemma impl_fine e p st i ps ss rs ps' : own_parameter e p -> fine_store st -> handle_impl u x st e i ps = Some (ss, rs, ps') -> Forall (fine_stmt of_expr p) ss.
Proof.
  intros Hp H. unfold handle_impl. destruct e as [|n|n|r pol].
  - destruct (handle_generic u x st i) as [[ss' rs']|] eqn:E; [|discriminate]. cbn. intros [= <- _ _]. exact (generic_fine _ _ _ _ _ H E).
  - destruct (handle_generic u x st i) as [[ss' rs']|] eqn:E; [|discriminate]. cbn. intros [= <- _ _]. exact (generic_fine _ _ _ _ _ H E).
  - unfold handle_enum. cbn in Hp. subst p. destruct (x_enumerator x i); intros [= <- _ _]; repeat constructor.
  - now apply record_fine.
Qed.

Lemma decl_fine e p dv s i s' : own_parameter e p -> handle_decl u x e dv s i = Some s' ->
  fine_store (em_storage s) /\ Forall (fine_stmt of_expr p) (em_stmts s) -> fine_store (em_storage s') /\ Forall (fine_stmt of_expr p) (em_stmts s').
Proof.
  intros Hp. unfold handle_decl. destruct (insert (u_decls u) i (em_storage s)) as [[st ds]|] eqn:Ei; [|discriminate]. intros H [H1 H2].
  assert (H3 := insert_fine _ _ _ _ Ei H1). destruct (is_visible u st dv i); [|now injection H as <-].
  destruct (handle_impl u x st e i (em_properties s)) as [[[ss rs] ps]|] eqn:E; [|discriminate H]. injection H as <-. split; [exact H3|].
  apply Forall_app. split; [exact H2|]. exact (impl_fine _ _ _ _ _ _ _ _ Hp H3 E).
Qed.

Lemma decls_fine e p dv l : own_parameter e p -> forall s s', fold_opt (handle_decl u x e dv) l s = Some s' ->
  fine_store (em_storage s) /\ Forall (fine_stmt of_expr p) (em_stmts s) -> fine_store (em_storage s') /\ Forall (fine_stmt of_expr p) (em_stmts s').
Proof.
  intro Hp. induction l as [|i l IH]; intros s s' H Hs; cbn [fold_opt] in H; [now injection H as <-|].
  destruct (handle_decl u x e dv s i) as [s1|] eqn:E; [|discriminate H]. apply (IH _ _ H). exact (decl_fine _ _ _ _ _ _ Hp E Hs).
Qed.

Lemma define_fine e p dv decls st st' ss rs : own_parameter e p -> define u x e dv decls st = Some (st', ss, rs) -> fine_store st ->
  fine_store st' /\ Forall (fine_stmt of_expr p) ss.
Proof.
  intros Hp. unfold define. destruct (fold_opt _ _ _) as [s|] eqn:E; [|discriminate]. intros H Hs.
  destruct (decls_fine _ _ _ _ Hp _ _ E (conj Hs (Forall_nil _))) as [H1 H2].
  destruct (finalize u x (em_storage s) e (em_properties s)) as [ss' rs'] eqn:Ef. injection H as <- <- _. split; [exact H1|]. apply Forall_app. split; [exact H2|].
  revert Ef. unfold finalize. destruct e as [|n|n|r pol].
  - intros [= <- _]. repeat constructor.
  - intros [= <- _]. repeat constructor.
  - destruct (get u _ supports_enum at_enum n) as [a|]; [destruct (match e_export_values a with Some _ => _ | None => _ end)|]; intros [= <- _]; repeat constructor.
  - intros [= <- _]. apply Forall_forall. intros t Ht. apply in_flat_map in Ht as (q & _ & Ht). unfold emit_property in Ht.
    destruct (pr_getter (snd q)), (pr_setter (snd q)); cbn in Ht; try (destruct Ht as [<-|[]]); try (now destruct Ht); exact I.
Qed.

(** ** The module *)

Lemma identifier_word s : identifier s -> word s.
Proof.
  intros (c & r & -> & Hc & Hr). split; [discriminate|]. constructor; [now apply start_continue|]. rewrite forallb_forall in Hr. now apply Forall_forall.
Qed.

Lemma discriminated_word name m id m' : word name -> discriminated name m = (id, m') -> word id.
Proof.
  intros [Hn Hw]. unfold discriminated. destruct (count_up name m) as [k m1]. intros [= <- _]. unfold numbered. destruct (k =? 1)%N; [now split|].
  split; [destruct name; [congruence|discriminate]|]. apply Forall_app. split; [exact Hw|]. apply Forall_app. split; [repeat constructor|].
  replace k with (N.of_nat (N.to_nat k)) by apply N2Nat.id. exact (proj2 (number_word (N.to_nat k))).
Qed.

Lemma context_name_word c : word (context_name u w c).
Proof. apply identifier_word. unfold context_name. apply make_id_valid. discriminate. Qed.

Definition fine_plan (p : plan) : Prop := (forall c id, dlookup (pl_identifiers p) c = Some id -> word id) /\ Forall (fun t => word (wk_identifier t)) (pl_work p).

Lemma plan_fine st order p : make_plan u w st order = Some p -> fine_plan p.
Proof.
  unfold make_plan. assert (H0 : fine_plan (mkPlan [] [] [] [])) by (split; [discriminate|constructor]). revert H0. generalize (mkPlan [] [] [] []).
  induction order as [|c order IH]; intros p0 H0 H; cbn [fold_opt] in H; [now injection H as <-|].
  destruct (plan_context u w st p0 c) as [p1|] eqn:E; [|discriminate H]. apply (IH p1); [|exact H]. clear H IH.
  destruct H0 as [Hi Hw]. revert E. unfold plan_context.
  assert (X : forall covered id used, discriminated (context_name u w c) (pl_used p0) = (id, used) ->
     match dlookup (pl_identifiers p0) c, create u st (w_hierarchy w) c with
      | None, Some e => Some (mkPlan (dset c id (pl_identifiers p0)) covered used (pl_work p0 ++ [mkWork c e id]))
      | _, _ => None
      end = Some p1 -> fine_plan p1).
  { intros covered id used Hd. apply discriminated_word in Hd; [|apply context_name_word].
    destruct (dlookup (pl_identifiers p0) c); [discriminate|]. destruct (create u st (w_hierarchy w) c); [|discriminate]. intros [= <-].
    split; cbn [pl_identifiers pl_work].
    - intros d id'. cbn. destruct (Nat.eqb d c); [now intros [= <-]|apply Hi].
    - apply Forall_app. split; [exact Hw|]. constructor; [exact Hd|constructor]. }
  destruct (if is_namespace_kind (kind u c) then dlookup (pl_covered p0) (u_canonical u c) else None) as [d|].
  - destruct (dlookup (pl_identifiers p0) d) as [id|] eqn:Ed; [|discriminate]. destruct (dlookup (pl_identifiers p0) c); [discriminate|]. intros [= <-].
    split; cbn [pl_identifiers pl_work]; [|exact Hw]. intros e id'. cbn. destruct (Nat.eqb e c); [|apply Hi]. intros [= <-]. exact (Hi _ _ Ed).
  - destruct (discriminated (context_name u w c) (pl_used p0)) as [id used] eqn:Ed. exact (X _ _ _ eq_refl).
Qed.

Lemma map_opt_forall {A B} (f : A -> option B) (P : A -> Prop) (Q : B -> Prop) l l' : (forall a b, P a -> f a = Some b -> Q b) -> Forall P l -> map_opt f l = Some l' -> Forall Q l'.
Proof.
  intros Hf H. revert l'. induction H as [|a l Ha _ IH]; intros l'; cbn; [intros [= <-]; constructor|].
  destruct (f a) as [b|] eqn:E; [|discriminate]. destruct (map_opt f l) as [bs|]; [|discriminate]. intros [= <-]. constructor; eauto.
Qed.

Lemma class_fine g st r pol t : fine_store st -> class_of u w g st r pol = Some t -> fine_class t.
Proof.
  intro H. unfold class_of. destruct (class_bases _ _ _ _); [|discriminate]. intros [= <-]. unfold fine_class. cbn [ct_holder].
  unfold get. destruct (supports_record (u_decls u r)); [|now left]. destruct (lookup_attrs st r) as [a|] eqn:E; [|now left].
  exact (proj2 (lookup_fine _ _ _ H E)).
Qed.

Lemma parameter_fine g st e p : fine_store st -> parameter_of u w g st e = Some p -> fine_parameter p /\ own_parameter e p.
Proof.
  intro H. destruct e as [|n|n|r pol]; cbn; try (now intros [= <-]). destruct (class_of u w g st r pol) eqn:E; [|discriminate].
  intros [= <-]. split; [exact (class_fine _ _ _ _ _ H E)|exact I].
Qed.

Lemma introducer_fine g st e parent n : word parent -> fine_store st -> introducer_of u w g st e parent = Some n -> fine_introducer n.
Proof.
  intros Hp H. destruct e as [|i|i|r pol]; cbn [introducer_of]; try (now intros [= <-]).
  - intros [= <-]. destruct (match get_namespace u st i with Some _ => _ | None => _ end); exact Hp.
  - destruct (class_of u w g st r pol) eqn:E; [|discriminate]. intros [= <-]. split; [exact Hp|exact (class_fine _ _ _ _ _ H E)].
Qed.

Lemma root_word : word ($"root").
Proof. split; [discriminate|repeat constructor]. Qed.

Definition fine_output (o : output) : Prop := fine_store (o_storage o) /\ Forall (Forall (fine_item of_expr)) (o_streams o).

Lemma write_fine k items : Forall (fine_item of_expr) items -> forall streams streams', write_to k items streams = Some streams' ->
  Forall (Forall (fine_item of_expr)) streams -> Forall (Forall (fine_item of_expr)) streams'.
Proof.
  intro Hi. induction k as [|k IH]; intros [|s streams] streams'; cbn; try discriminate; intros H Hs; inversion Hs as [|? ? H1 H2]; subst.
  - injection H as <-. constructor; [now apply Forall_app|exact H2].
  - destruct (write_to k items streams) as [r|] eqn:E; [|discriminate H]. injection H as <-. constructor; [exact H1|]. exact (IH _ _ E H2).
Qed.

Lemma define_loop_fine g vis total ts : Forall (fun t => word (wk_identifier t)) ts -> forall o o', fold_opt (define_step u w g vis total) ts o = Some o' ->
  fine_output o -> fine_output o'.
Proof.
  induction 1 as [|t ts Ht _ IH]; intros o o' H Ho; cbn [fold_opt] in H; [now injection H as <-|].
  destruct (define_step u w g vis total o t) as [o1|] eqn:E; [|discriminate H]. apply (IH _ _ H). clear H IH.
  destruct Ho as [H1 H2]. revert E. unfold define_step, define_context.
  destruct (parameter_of u w g (o_storage o) (wk_exposer t)) as [p|] eqn:Ep; [|discriminate].
  destruct (define u (w_extra w) (wk_exposer t) _ _ (o_storage o)) as [[[st body] rs]|] eqn:Ed; [|discriminate].
  destruct (parameter_fine _ _ _ _ H1 Ep) as [Hp Ho]. destruct (define_fine _ _ _ _ _ _ _ _ Ho Ed H1) as [H3 H4].
  destruct (write_to _ _ (o_streams o)) as [streams|] eqn:Ew; [|discriminate]. intros [= <-]. split; [exact H3|]. cbn [o_streams].
  apply (write_fine _ _) with (2 := Ew); [|exact H2]. apply Forall_app. split; [|repeat constructor; auto; exact (proj1 Ht) || exact (proj2 Ht)].
  destruct (Nat.eqb _ 0); repeat constructor; auto; exact (proj1 Ht) || exact (proj2 Ht).
Qed.

Lemma module_fine g vis st nodes n name streams rs st' : fine_store st -> piece true name [] ->
  emit_module u w g vis st nodes n name = Some (EWritten streams rs st') -> Forall (Forall (fine_item of_expr)) streams.
Proof.
  intros Hs Hn. unfold emit_module. destruct n as [|n]; [discriminate|]. destruct (find_enclosing_scopes u st g) as [scopes|]; [|discriminate].
  destruct (sort_contexts _ _ _ _ _ _) as [[order|]|]; try discriminate. destruct (make_plan u w st order) as [p|] eqn:Ep; [|discriminate].
  destruct (plan_fine _ _ _ Ep) as [Hi Hw].
  destruct (map_opt (declare u w g st) (pl_work p)) as [ds|] eqn:Ed; [|discriminate].
  destruct (map_opt (introduce u w g st scopes (pl_identifiers p)) (pl_work p)) as [is|] eqn:Ei; [|discriminate].
  destruct (fold_opt _ _ _) as [o|] eqn:Eo; [|discriminate]. intros [= <- _ _].
  apply (define_loop_fine _ _ _ _ Hw _ _ Eo). split; [exact Hs|]. cbn [o_streams]. constructor.
  - apply Forall_app. split.
    + revert Ed. apply map_opt_forall with (P := fun t => word (wk_identifier t)); [|exact Hw]. intros t i Ht. unfold declare.
      destruct (parameter_of u w g st (wk_exposer t)) as [q|] eqn:Eq; [|discriminate]. intros [= <-]. split; [exact Ht|]. exact (proj1 (parameter_fine _ _ _ _ Hs Eq)).
    + constructor; [|constructor]. split; [exact Hn|]. split.
      * revert Ei. apply map_opt_forall with (P := fun t => word (wk_identifier t)); [|exact Hw]. intros t i Ht. unfold introduce.
        destruct (negb _); [discriminate|].
        destruct (match match dlookup scopes (wk_context t) with Some q => q | None => None end with None => Some ($"root") | Some q => dlookup (pl_identifiers p) q end) as [id|] eqn:Eid; [|discriminate].
        assert (Hid : word id).
        { destruct (dlookup scopes (wk_context t)) as [[q|]|]; [exact (Hi _ _ Eid)|injection Eid as <-; exact root_word|injection Eid as <-; exact root_word]. }
        destruct (introducer_of u w g st (wk_exposer t) id) as [m|] eqn:Em; [|discriminate]. intros [= <-]. split; [exact Ht|]. exact (introducer_fine _ _ _ _ _ Hid Hs Em).
      * apply Forall_forall. intros c Hc. apply in_map_iff in Hc as (t & <- & Ht). rewrite Forall_forall in Hw. split; exact (Hw t Ht).
  - apply Forall_forall. intros s Hx. apply repeat_spec in Hx. subst s. constructor.
Qed.

Lemma generate_fine found implicit iteration n name b streams rs st : piece true name [] ->
  generate u w found implicit iteration n name = Some (RGraph b (EWritten streams rs st)) -> Forall (Forall (fine_item of_expr)) streams.
Proof.
  intro Hn. unfold generate. destruct (process u found implicit name) as [[| |g contexts vis warned b']| |] eqn:Ep; try discriminate.
  destruct (emit_module u w g vis (bs_annotations b') (iteration (g_nodes g)) n name) as [e|] eqn:Ee; [|discriminate]. intros [= <- ->].
  apply module_fine with (3 := Ee); [|exact Hn].
  revert Ep. unfold process. destruct (build_graph u) as [[[] b1]| |] eqn:Eb; try discriminate.
  destruct (derive_effective_visibility _ _ _) as [vis1|]; [|discriminate]. destruct (expose_here_cycles _ _ _ _); [|discriminate].
  destruct (contexts_with_visible_decls _ _ _ _ _ _) as [c1|]; [|discriminate]. destruct (hide_namespaces _ _ _ _ _ _) as [[c2 v2]|]; [|discriminate].
  destruct (prune_graph _ _ _ _) as [g2|]; [|discriminate]. intros [= _ _ _ _ <-]. exact (graph_fine _ _ Eb).
Qed.
End Unit.

(** ** Reading of the files *)

Lemma generate_reads u w tx of_expr of_body found implicit iteration n name b streams rs st s :
  fine_texts tx w of_body -> fine_annotations u -> fine_defaults w of_expr -> piece true name [] ->
  generate u w found implicit iteration n name = Some (RGraph b (EWritten streams rs st)) -> In s streams ->
  exists tss, Forall2 (item_shape tx of_expr of_body) s tss /\ scans fresh (stream_text tx w s) fresh (concat tss).
Proof.
  intros FT FA FD Hn H Hs. apply stream_reads; [exact FT|].
  assert (X := generate_fine u FA w of_expr FD _ _ _ _ _ _ _ _ _ Hn H). rewrite Forall_forall in X. exact (X s Hs).
Qed.

(** ** Checking of given texts *)

Fixpoint tokenize (n : nat) (st : lexer) (s : str) : option (lexer * list token) :=
  match n, s with
  | _, [] => Some (st, [])
  | O, _ => None
  | S n', c :: r =>
      let go st' t s' := option_map (fun e => (fst e, t :: snd e)) (tokenize n' st' s') in
      if ch 34 c then
        if raw_prefix (lx_word st) then None
        else match lx_pending st, read_cpp_literal s with
             | PLessColon, _ | _, None => None
             | _, Some (bytes, rest) => go fresh (Lit (lx_word st) bytes) rest
             end
      else match step st c with Some st' => go st' (Sym c) r | None => None end
  end.

Lemma tokenize_scans n : forall st s st' ts, tokenize n st s = Some (st', ts) -> scans st s st' ts.
Proof.
  induction n as [|n IH]; intros st [|c r] st' ts H; try (injection H as <- <-; constructor); [discriminate H|]. cbn [tokenize] in H.
  destruct (ch 34 c).
  - destruct (raw_prefix (lx_word st)) eqn:Er; [discriminate H|]. destruct (read_cpp_literal (c :: r)) as [[bytes rest]|] eqn:El; [|destruct (lx_pending st); discriminate H].
    assert (Hp : lx_pending st <> PLessColon) by (intro E; rewrite E in H; discriminate H).
    assert (H' : option_map (fun e => (fst e, Lit (lx_word st) bytes :: snd e)) (tokenize n fresh rest) = Some (st', ts)) by (destruct (lx_pending st); congruence).
    destruct (tokenize n fresh rest) as [[st1 ts1]|] eqn:E; [|discriminate H']. cbn in H'. injection H' as <- <-. eapply sc_lit; eauto.
  - destruct (step st c) as [st1|] eqn:Es; [|discriminate H]. destruct (tokenize n st1 r) as [[st2 ts2]|] eqn:E; [|discriminate H]. cbn in H. injection H as <- <-.
    eapply sc_sym; eauto.
Qed.

(** Text without literals. *)
Definition begins_well (p : str) : bool :=
  match p with
  | c :: r => negb (ch 58 c) && negb (ch 37 c) && negb (ch 62 c) ||
              match c :: r with a :: b :: d :: _ => Ascii.eqb a ":" && Ascii.eqb b ":" && is_ident_start d | _ => false end
  | [] => false
  end.
Definition simple_piece (loose : bool) (p : str) : bool :=
  begins_well p &&
  match run fresh p, walk (Open []) (map Sym p) with
  | Some st, Some (Open []) => match lx_pending st with PNone => true | PSlash | PLess | PPercent => loose | _ => false end
  | _, _ => false
  end.

Lemma simple_is_piece loose p : simple_piece loose p = true -> piece loose p [].
Proof.
  unfold simple_piece. intros [Hb H]%andb_prop. split.
  - destruct p as [|c r]; [discriminate Hb|]. unfold begins_well in Hb. apply orb_prop in Hb as [Hb|Hb].
    + apply andb_prop in Hb as [Hb H3]. apply andb_prop in Hb as [H1 H2]. left. now rewrite !negb_true_iff in *.
    + right. destruct r as [|b [|d r]]; try discriminate Hb. apply andb_prop in Hb as [Hb H3]. apply andb_prop in Hb as [H1%Ascii.eqb_eq H2%Ascii.eqb_eq].
      subst. exists d, r. split; [reflexivity|exact H3].
  - destruct (run fresh p) as [st|] eqn:Er; [|discriminate H]. destruct (walk (Open []) (map Sym p)) as [[[|]| |]|] eqn:Ew; try discriminate H.
    exists st, (map Sym p). repeat split; [exact (run_scans _ _ _ Er)|exact (walk_is_closed _ Ew)|apply strings_syms|].
    destruct (lx_pending st); auto; discriminate H.
Qed.

Lemma word_piece p : word p -> piece false p [].
Proof.
  intros Hw. apply (chunk_word p (exact PNone) []) in Hw as H; [|apply exact_not_colon; discriminate].
  destruct (H fresh eq_refl) as (st & ts & S & Ht & W & L). destruct Hw as [Hne Hw]. split.
  - destruct p as [|c r]; [congruence|]. left. inversion Hw as [|? ? Hc _]; subst. pose proof (ident_not c Hc). tauto.
  - exists st, ts. repeat split; auto; [exact (walk_is_closed _ W)|]. unfold Tight in Ht. now rewrite Ht.
Qed.

(** Numbers of brackets. *)
Definition count (c : ascii) (ts : list token) : nat := length (filter (fun t => match t with Sym d => Ascii.eqb c d | _ => false end) ts).

Lemma count_app c ts ts' : count c (ts ++ ts') = count c ts + count c ts'.
Proof. unfold count. now rewrite filter_app, app_length. Qed.

Definition even (ts : list token) : Prop := count "("%char ts = count ")"%char ts.

Lemma even_app ts ts' : even ts -> even ts' -> even (ts ++ ts').
Proof. unfold even. rewrite !count_app. lia. Qed.

Lemma even_cons t ts : is_bracket t = false -> even ts -> even (t :: ts).
Proof.
  intros H E. change (t :: ts) with ([t] ++ ts). apply even_app; [|exact E]. unfold even, count. destruct t as [c|p x|x]; try reflexivity. cbn [filter].
  cbn in H. unfold ch in H. repeat (apply orb_false_elim in H as [H ?]).
  assert (E1 : Ascii.eqb "(" c = false). { apply Ascii.eqb_neq. intros <-. discriminate H. }
  assert (E2 : Ascii.eqb ")" c = false). { apply Ascii.eqb_neq. intros <-. discriminate. }
  now rewrite E1, E2.
Qed.

Lemma even_group o c ts ts' : pair o c -> even ts -> even ts' -> even (Sym o :: ts ++ Sym c :: ts').
Proof.
  intros Hp H H'. unfold even in *. change (Sym o :: ts ++ Sym c :: ts') with ([Sym o] ++ ts ++ [Sym c] ++ ts').
  rewrite !count_app, H, H'. destruct Hp; unfold count; cbn; lia.
Qed.

Lemma even_nested ts : nested ts -> even ts.
Proof. induction 1; [reflexivity|now apply even_cons|now apply even_group]. Qed.
Lemma even_closed ts : closed ts -> even ts.
Proof. induction 1; [reflexivity|now apply even_cons|apply even_group; auto using even_nested]. Qed.
Lemma even_statement ts : is_statement ts -> even ts.
Proof. intros (h & Hh & ->). apply even_app; [now apply even_closed|reflexivity]. Qed.
Lemma even_block ts : is_block ts -> even ts.
Proof. intros (h & Hh & ->). apply even_group; [constructor|now apply even_nested|reflexivity]. Qed.

Lemma even_all {A} (R : A -> list token -> Prop) l tss : (forall a ts, R a ts -> even ts) -> Forall2 R l tss -> even (concat tss) /\ even (flat_map (cons line) tss).
Proof.
  intro HR. induction 1 as [|a ts l tss Ha _ [IH1 IH2]]; [split; reflexivity|]. cbn [concat flat_map]. apply HR in Ha.
  split; [now apply even_app|]. cbn [app]. apply even_cons; [reflexivity|now apply even_app].
Qed.

Lemma even_stmt tx of_expr of_body s ts : stmt_shape tx of_expr of_body s ts -> even ts.
Proof. intros (_ & _ & H). destruct s; auto using even_statement. destruct (fst _); auto using even_statement, even_block. Qed.

Lemma even_definition head content ts : even content -> is_definition head content ts -> even ts.
Proof.
  intros Hc (h & Hh & _ & _ & ->). apply even_app; [now apply even_closed|]. change (line :: content ++ [Sym "}"%char; line; line]) with ((line :: content) ++ Sym "}"%char :: [line; line]).
  apply even_group; [constructor|now apply even_cons|reflexivity].
Qed.

Lemma even_item tx of_expr of_body i ts : item_shape tx of_expr of_body i ts -> even ts.
Proof.
  destruct i as [id p|name is cs post|id p body]; cbn [item_shape].
  - intros (_ & _ & H). now apply even_statement.
  - intros (a & b & c & Ha & Hb & Hc & H). revert H. apply even_definition.
    apply even_app; [apply (even_all _ _ _ (fun e ts H => even_statement ts (proj2 (proj2 H))) Ha)|]. apply even_cons; [reflexivity|].
    apply even_app; [apply (even_all _ _ _ (fun e ts H => even_statement ts (proj2 H)) Hb)|]. apply (even_all _ _ _ (fun l ts H => even_stmt _ _ _ _ ts H) Hc).
  - intros (b & Hb & H). revert H. apply even_definition. apply (even_all _ _ _ (fun e ts H => even_stmt _ _ _ _ ts H) Hb).
Qed.

Lemma uneven tx of_expr of_body text n s st ts : tokenize n fresh text = Some (st, ts) -> count "("%char ts <> count ")"%char ts ->
  ~ exists tss, Forall2 (item_shape tx of_expr of_body) s tss /\ scans fresh text fresh (concat tss).
Proof.
  intros Ht Hc (tss & HF & HS). apply tokenize_scans in Ht. destruct (scans_deterministic _ _ _ _ Ht _ _ HS) as [_ ->].
  apply Hc. apply (even_all _ _ _ (fun e ts H => even_item tx of_expr of_body e ts H) HF).
Qed.

Definition checked (an : annotation) : bool :=
  match string_of ReturnValuePolicy an with Some s => is_empty s || simple_piece true s | None => true end &&
  match string_of HolderType an with Some s => is_empty s || simple_piece false s | None => true end.

Lemma checked_fine u : (forall i, forallb checked (fst (parse_attrs (d_attrs (u_decls u i)) [])) = true) -> fine_annotations u.
Proof.
  intros H i ans bad an s Hc Hin. specialize (H i). destruct (parse_attrs (d_attrs (u_decls u i)) []) as [l ds] eqn:E.
  destruct (parse_attrs_carried _ _ _ _ E) as (l' & -> & Hc' & _). cbn [fst app] in H. destruct (carried_unique _ _ _ Hc' _ _ Hc) as [-> _].
  rewrite forallb_forall in H. specialize (H an Hin). unfold checked in H. apply andb_prop in H as [H1 H2]. split; intro Hs; rewrite Hs in *.
  - apply orb_prop in H1 as [H1|H1]; [left; now destruct s|right; now apply simple_is_piece].
  - apply orb_prop in H2 as [H2|H2]; [left; now destruct s|right; now apply simple_is_piece].
Qed.

Lemma default_name_piece main_file : stem main_file <> [] -> piece true (default_name [] main_file) [].
Proof.
  intro H. assert (P : piece false (default_name [] main_file) []) by (apply word_piece, identifier_word, make_id_valid, H).
  destruct P as [Hb (st & ts & S & C & L & Q)]. split; [exact Hb|]. exists st, ts. repeat split; auto. destruct (lx_pending st); auto.
Qed.
