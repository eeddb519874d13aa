(** * Proofs about implicit conversions at run time *)
From Verif Require Import Base ParserModel AnnotModel AnnotSpec AnnotProofs AnnotStore AnnotFinal CollectModel CollectSpec GraphModel GraphSpec GraphFinal OrderModel InlineModel EmitModel EmitSpec EmitProofs EmitFold EmitFinal
  ModuleModel ModuleSpec ModuleProofs ModuleFinal ImportSpec ImportProofs ExecSpec ExecProofs AccessSpec AccessProofs InvalidSpec InvalidProofs FindProofs DispatchSpec DispatchProofs StoreSpec StoreProofs PropertySpec PropertyProofs ConvertSpec.

(** ** Calls of constructors with a single argument *)

Section Calls.
Context {V : Type} (is_none : V -> bool) (default : nat -> nat -> V) (mro : nat -> list nat) (class_of : V -> option nat).
Context (other : nat -> V -> bool) (nested : type -> V -> bool) (receiver : stmt -> V -> bool) (elsewhere : stmt -> nat -> bool -> V -> bool) (self : V).
Context (p : pystate) (x : extra) (ss : list stmt).
Notation direct := (direct mro class_of other).
Notation inner := (inner mro class_of other nested).
Notation accepts r := (takes receiver elsewhere x inner (Class r)).
Notation tries r := (try is_none default (accepts r) x (Class r)).

Lemma sensible_inner r l : (forall s k v, In s l -> function_of s = None -> elsewhere s k true v = elsewhere s k false v) -> sensible (accepts r) (Class r) l.
Proof.
  intros He. split.
  - intros s k v Hs. unfold takes. destruct (function_of s) as [f|] eqn:Ef; [|rewrite (He s k v Hs Ef); auto].
    destruct (if is_method_of (Class r) s then _ else _) as [j|]; [|auto]. destruct (nth_error _ j) as [q|]; [|auto]. unfold ConvertSpec.inner. destruct (direct (pm_type q) v); cbn; [auto|discriminate].
  - intros s v Hs Hm. unfold takes. destruct (function_of s) as [f|] eqn:Ef; [|rewrite (He s 0 v Hs Ef); auto]. rewrite Hm. auto.
Qed.

Lemma one_argument r i q a args v : fi_params (x_fn x i) = [q] -> describes a [q] args -> is_ordinary q = true -> is_none self = false -> is_none v = false ->
  direct (pm_type q) v = true -> forall c types, exists bi, tries r c [self; v] [] (SInit i types args a) = Some (SInit i types args a, bi).
Proof.
  intros Hp D Ho Hs Hv Hd c types.
  assert (Ha : exists g, args = [g]).
  { destruct D as (Hl & _). assert (E : described_params [q] = [q]) by (unfold described_params; cbn; unfold is_kwargs; unfold is_ordinary in *; destruct (pm_variadic q) eqn:Ev; [discriminate Ho|]; cbn; rewrite Ev; reflexivity).
    rewrite E in Hl. destruct args as [|g [|]]; try discriminate Hl. eauto. }
  destruct Ha as (g & ->). unfold try, bind_for, bind. cbn [formals is_method_of formals_from formals_with_self]. cbn [length Nat.ltb Nat.leb]. rewrite andb_false_r.
  cbn [positional keyword fo_name option_map find]. unfold refused. rewrite Hs, Hv. cbn [andb option_map skipn remaining length].
  rewrite andb_false_r. cbn [app bi_values].
  cbn [loads]. unfold takes at 1. cbn [function_of is_method_of]. unfold takes. cbn [function_of is_method_of]. rewrite Hp. cbn [filter]. rewrite Ho. cbn [nth_error].
  unfold ConvertSpec.inner. rewrite Hd. cbn. eauto.
Qed.

(** The first constructor that takes the value as it is is called. *)
Lemma dispatch_direct r l s pos kw : In s l -> (forall c, exists bi, tries r c pos kw s = Some (s, bi)) ->
  exists t bi before after, dispatch is_none default (accepts r) x (Class r) l pos kw = Some (t, bi) /\ l = before ++ t :: after /\
    tries r false pos kw t = Some (t, bi) /\ forall t', In t' before -> tries r false pos kw t' = None.
Proof.
  intros Hs H. destruct l as [|s1 [|s2 l]]; [destruct Hs| |].
  - destruct Hs as [->|[]]. destruct (H true) as (bi & E). destruct (H false) as (bi' & E'). exists s, bi, [], []. split; [exact E|]. split; [reflexivity|]. split; [|intros ? []].
    unfold try in E, E' |- *. destruct (bind_for _ _ _ _ _ _ _) as [bi0|]; [|discriminate E]. destruct (loads _ _ false _ _ _); [|discriminate E']. destruct (loads _ _ true _ _ _); [|discriminate E]. exact E.
  - destruct (H false) as (bi & E). unfold dispatch. destruct (first_some (tries r false pos kw) (s1 :: s2 :: l)) as [[t b]|] eqn:F.
    + apply first_some_iff in F as (before & t' & after & El & Et & Hb).
      assert (t' = t) as -> by (unfold try in Et; destruct (bind_for _ _ _ _ _ _ _); [|discriminate Et]; destruct (loads _ _ _ _ _ _); [|discriminate Et]; injection Et as -> _; reflexivity).
      exists t, b, before, after. auto.
    + rewrite first_some_none in F. rewrite (F s Hs) in E. discriminate E.
Qed.
End Calls.

(** ** Constructors of generated modules *)

Lemma own_implicit u i a : own_attributes u i a -> valid_annotations (u_decls u i) -> said_implicit u i (at_implicit_conversion a).
Proof.
  intros Ho Va. destruct (own_says _ _ _ Ho) as [Hs _]. destruct (valid_described u i a Ho Va Hs) as (ans & v & Ca & De & _).
  exists ans. split; [exact Ca|]. exact (de_implicit_conversion _ _ _ _ De).
Qed.

Lemma said_implicit_unique u i v v' : said_implicit u i v -> said_implicit u i v' -> v = v'.
Proof. intros (ans & C & L) (ans' & C' & L'). destruct (carried_unique2 _ _ _ _ _ C C') as [<- _]. eapply latest_unique; eassumption. Qed.

Lemma implicit_single u i : valid_annotations (u_decls u i) -> said_implicit u i true -> length (d_params (u_decls u i)) = 1.
Proof.
  intros (_ & ans & Ca & Acc) (ans' & Ca' & L). destruct (carried_unique2 _ _ _ _ _ Ca Ca') as [<- _]. destruct L as [[E _]|(l1 & an & l2 & -> & Hf & _)]; [discriminate E|].
  assert (Hn : nth_error (l1 ++ an :: l2) (length l1) = Some an) by (rewrite nth_error_app2, Nat.sub_diag by lia; reflexivity).
  destruct (Acc _ _ Hn) as [Wf _]. unfold flag_of in Hf. destruct (akind_eqb (a_kind an) ImplicitConversion) eqn:E; [|discriminate Hf].
  apply akind_eqb_eq in E. destruct Wf; try discriminate E. assumption.
Qed.

Section Module.
Context (u : unit) (w : facts) (found : nat -> list nat) (implicit : nat -> bool) (iteration : list nat -> list nat) (n : nat) (name : str) (b : bstate).
Context (files : list (list item)) (rs : list ereport) (st' : storage).
Hypothesis (Se : setting u w iteration) (Hn : 0 < n) (HG : generate u w found implicit iteration n name = Some (RGraph b (EWritten files rs st'))).
Hypothesis (Ne : forall r, In r rs -> is_error_ereport r = false) (Co : forall i, kind u i = KConstructor -> consistent u (w_extra w) i).

Lemma entry_conversions : exists g vis order all chunks post, exposed u found implicit name g vis b /\
  generated u w g vis (bs_annotations b) name rs st' order all post /\ layout name post all chunks files /\
  forall e, In e all ->
    (forall t r, In (SConvertible (Some t) r) (ex_body e) -> r = ex_context e /\ exists i q, converting u w b name r i q /\ pm_type q = t) /\
    (forall i q, converting u w b name (ex_context e) i q -> exists types args a, describes a [q] args /\
      In (SConvertible (Some (pm_type q)) (ex_context e)) (ex_body e) /\ In (SInit i types args a) (ex_body e)).
Proof.
  destruct (late_reported u w found implicit iteration n name b files rs st' Se Hn HG) as (g & vis & order & all & chunks & post & X & G & Ly & _ & _ & V).
  exists g, vis, order, all, chunks, post. split; [exact X|]. split; [exact G|]. split; [exact Ly|]. intros e He.
  destruct (ge_bodies _ _ _ _ _ _ _ _ _ _ _ G) as (rss & Fb & Er).
  destruct (forall2_in_l _ _ _ _ Fb He) as (r & Hr & x & st1 & st2 & Hc & D & X1 & X2 & Ff).
  destruct (exposed_graph _ _ _ _ _ Se _ _ _ _ X) as (_ & _ & _ & Fa & _).
  assert (Hin : In (ex_context e) (g_nodes g)) by (eapply entry_context_node; eassumption).
  assert (Va : forall i, declared_in u w b (ex_context e) i -> d_skip (u_decls u i) = false -> valid_annotations (u_decls u i)).
  { intros i Hi Hs. destruct (V i) as [Q|(d & H1 & H2)]; [|exact Q|].
    - split; [exact Hs|]. exists e. split; [exact He|exact Hi].
    - specialize (Ne _ H1). cbn in Ne. congruence. }
  split.
  - intros t r0 Hin0. assert (Hk := body_kinds u w g vis (bs_annotations b) name rs st' order all post G e _ He Hin0). cbn in Hk. destruct Hk as [K ->]. split; [reflexivity|].
    apply (in_parts _ _ _ _ _ _ _ _ _ D (SConvertible (Some t) (ex_context e)) eq_refl) in Hin0 as (j & Hj & a & Ha & Sh & Hb).
    assert (Hx : exists q0, x = XRecord (ex_context e) q0).
    { unfold create in Hc. rewrite K in Hc. destruct (create_policy u (bs_annotations b) (w_hierarchy w) (ex_context e)); [|discriminate Hc]. injection Hc as <-. eauto. }
    destruct Hx as (q0 & ->). cbn in Hb.
    inversion Hb as [| | | | |q ps B1 B2 B3 B4 B5 B6 B7| |]; subst; try match goal with H : bound_function _ _ _ _ _ |- _ => inversion H | H : bound_alias _ _ _ _ _ |- _ => inversion H end.
    assert (Hki : is_tag_kind (kind u j) = false) by (rewrite B1; reflexivity).
    assert (Hoa : own_attributes u j a) by exact (define_faithful _ _ _ _ _ _ _ _ _ D (Ff Fa) j a Hki Ha).
    assert (Sy := own_says _ _ _ Hoa).
    assert (Dc : declared_in u w b (ex_context e) j) by (exists (XRecord (ex_context e) q0); auto).
    assert (Vj := Va j Dc (proj1 Sy)). assert (Si := own_implicit _ _ _ Hoa Vj). rewrite B5 in Si.
    assert (Ln := implicit_single _ _ Vj Si). rewrite (cs_params _ _ _ (Co j B1)), map_length, B6 in Ln. destruct ps as [|? ?]; [|discriminate Ln].
    exists j, q. split; [|reflexivity]. constructor; auto.
    destruct Sh as [W|[W Dv]]; rewrite W in Sy; [left; exact Sy|right]. split; [exact Sy|]. eapply lookup_visible; eassumption.
  - intros i q [K Ki Dc Vi Si (C1 & C2 & C3) Hq].
    assert (Hs : d_skip (u_decls u i) = false) by (destruct Vi as [[Hs _]|[[Hs _] _]]; exact Hs).
    assert (Hki : is_tag_kind (kind u i) = false) by (rewrite Ki; reflexivity).
    assert (Vv := Va i Dc Hs). destruct Dc as (x' & C' & Hi). rewrite Hc in C'. injection C' as <-.
    destruct (define_spec _ _ _ _ _ _ _ _ _ D) as [_ H1 _ H3 _ _ _ _ _].
    assert (Hl : exists a, own_attributes u i a /\ lookup_attrs st2 i = Some a).
    { destruct (lookup_attrs st1 i) as [a|] eqn:El; [|apply H3; assumption]. exists a. split; [apply (Ff Fa i a Hki El)|apply H1, El]. }
    destruct Hl as (a & Ho & Hl). assert (Sh := visible_shown _ _ _ _ _ _ _ _ _ _ _ _ Se X Hin Ho Vi).
    assert (Ia := said_implicit_unique _ _ _ _ (own_implicit _ _ _ Ho Vv) Si).
    assert (Hx : exists q0, x = XRecord (ex_context e) q0).
    { unfold create in Hc. rewrite K in Hc. destruct (create_policy u (bs_annotations b) (w_hierarchy w) (ex_context e)); [|discriminate Hc]. injection Hc as <-. eauto. }
    destruct Hx as (q0 & ->). destruct (describes_exists (w_extra w) i (at_function a)) as (args & Hargs).
    exists (map pm_type (fi_params (x_fn (w_extra w) i))), args, (at_function a). split; [rewrite <- Hq; exact Hargs|].
    split; apply (in_parts _ _ _ _ _ _ _ _ _ D); try reflexivity; exists i; (split; [exact Hi|]); exists a; (split; [exact Hl|]); (split; [exact Sh|]); cbn.
    + eapply rec_convertible; eauto.
    + apply rec_init; auto.
Qed.
End Module.

(** Without the annotation there are no conversions. *)
Theorem conversions_annotated u w found implicit iteration n name b files rs st' : setting u w iteration -> 0 < n ->
  generate u w found implicit iteration n name = Some (RGraph b (EWritten files rs st')) ->
  (forall r, In r rs -> is_error_ereport r = false) -> (forall i, kind u i = KConstructor -> consistent u (w_extra w) i) ->
  forall V is_none default mro class_of other nested receiver elsewhere self p m t c r (v : V), ty_core t = CRecord r ->
  load is_none default mro class_of other nested receiver elsewhere self p (w_extra w) (executed files m) t c v = true ->
  instance mro class_of r v = true \/ (c = true /\ convertible_to u w b name mro class_of other r v).
Proof.
  intros S Hn HG Ne Co V is_none default mro class_of other nested receiver elsewhere self p m t c r v Ht L.
  destruct (entry_conversions u w found implicit iteration n name b files rs st' S Hn HG Ne Co) as (g & vis & order & all & chunks & post & X & G & Ly & H).
  unfold load in L. rewrite Ht in L. destruct (instance mro class_of r v) eqn:Ei; [left; reflexivity|right]. cbn in L. apply andb_true_iff in L as [-> L]. split; [reflexivity|].
  unfold converts in L. apply existsb_exists in L as (t' & Hin & L). apply andb_true_iff in L as [Hd _]. right.
  unfold conversions in Hin. apply in_flat_map in Hin as (s & Hs & Hin). destruct s; try destruct Hin. destruct from as [from|]; [|destruct Hin]. destruct (Nat.eqb r0 r) eqn:Er; [|destruct Hin].
  apply Nat.eqb_eq in Er. destruct Hin as [->|[]]. subst r0.
  assert (Hf : 0 < length files) by (destruct (run_written _ _ _ _ _ S _ _ _ _ _ _ Hn HG) as (_ & _ & _ & _ & _ & _ & _ & _ & _ & Hlen & _); lia).
  unfold executed in Hs. destruct m as [|name' intros calls post'|]; try destruct Hs. apply in_flat_map in Hs as (c & _ & Hs). destruct (body_named files (fst c)) as [body|] eqn:Eb; [|destruct Hs].
  apply first_some_in in Eb as (i & Hi & Eb). destruct i as [| |id q body']; try discriminate Eb. destruct (str_eqb id (fst c)); [|discriminate Eb]. injection Eb as ->.
  destruct (definitions_in _ _ _ _ _ Ly Hf id q body Hi) as (e & He & <-). destruct (proj1 (H e He) _ _ Hs) as (_ & i & q' & Hc & <-). exists i, q'. auto.
Qed.

(** With it there are, by the first constructor that takes the value as it is. *)
Theorem annotated_converts default_holder mro manual fails u w found implicit iteration n name b files rs st' : setting u w iteration -> nested_blocks u -> 0 < n ->
  generate u w found implicit iteration n name = Some (RGraph b (EWritten files rs st')) ->
  (forall r, In r rs -> is_error_ereport r = false) -> (forall i, kind u i = KConstructor -> consistent u (w_extra w) i) ->
  exists g vis order all chunks post, exposed u found implicit name g vis b /\
    generated u w g vis (bs_annotations b) name rs st' order all post /\ layout name post all chunks files /\
    let intros := map (fun e => (ex_id e, ex_intro e)) all in
    let m := IModule name intros (map (fun e => (ex_id e, ex_id e)) all) post in
    filter is_module (concat files) = [m] /\
    (NoDup (map fst intros) -> agreeing_blocks u (bs_annotations b) g -> distinct_names u (bs_annotations b) g -> usable_bases default_holder w intros ->
     exists cs, contributions u (bs_annotations b) g all cs /\
       (no_clashes mro u (bs_annotations b) g cs -> executable manual fails all post ->
        exists s p, run_module mro manual fails default_holder files m = Some (s, p) /\
          forall V is_none default class_of other nested receiver elsewhere self r i q (v : V), is_none self = false -> is_none v = false ->
            In r (map ex_context all) -> converting u w b name r i q -> is_ordinary q = true -> direct mro class_of other (pm_type q) v = true ->
            let accepts := takes receiver elsewhere (w_extra w) (inner mro class_of other nested) (Class r) in
            (forall t, ty_core t = CRecord r -> load is_none default mro class_of other nested receiver elsewhere self p (w_extra w) (executed files m) t true v = true) /\
            exists static l t bi before after, own p (Class r) ($"__init__") = Some (MFunction static l) /\ l = before ++ t :: after /\
              (exists types args a, In (SInit i types args a) l) /\
              constructs is_none default mro class_of other nested receiver elsewhere self p (w_extra w) r v = Some (t, bi) /\
              ((forall t', In t' l -> distinct_formals (formals default (Class r) t')) ->
               suits is_none default accepts (w_extra w) (Class r) false [self; v] [] t bi /\
               forall t' c, In t' before -> ~ suits is_none default accepts (w_extra w) (Class r) false [self; v] [] t' c))).
Proof.
  intros S NB Hn HG Ne Co. destruct (run_members default_holder mro manual fails _ _ _ _ _ _ _ _ _ _ _ S NB Hn HG) as (g & vis & order & all & chunks & post & X & G & Ly & Hm & H).
  exists g, vis, order, all, chunks, post. split; [exact X|]. split; [exact G|]. split; [exact Ly|]. intros intros m. split; [exact Hm|].
  intros Nd Ag Di Ba. destruct (H Nd Ag Di Ba) as (cs & C & H'). exists cs. split; [exact C|]. intros NC Ex. destruct (H' NC Ex) as (s & p & R & _ & _ & A).
  exists s, p. split; [exact R|]. intros V is_none default class_of other nested receiver elsewhere self r i q v Hself Hv Hr Cv Ho Hd accepts. assert (K := cv_class _ _ _ _ _ _ _ Cv).
  apply in_map_iff in Hr as (e & <- & He).
  destruct (entry_conversions u w found implicit iteration n name b files rs st' S Hn HG Ne Co) as (g0 & vis0 & order0 & all0 & chunks0 & post0 & X0 & G0 & Ly0 & E0).
  assert (Hf : 0 < length files) by (destruct (run_written _ _ _ _ _ S _ _ _ _ _ _ Hn HG) as (_ & _ & _ & _ & _ & _ & _ & _ & _ & Hlen & _); lia).
  destruct (layout_definitions _ _ _ _ _ Ly Hf) as [D1 M1]. destruct (layout_definitions _ _ _ _ _ Ly0 Hf) as [D0 M0].
  assert (Ei : intros = map (fun e => (ex_id e, ex_intro e)) all0) by (rewrite M0 in M1; injection M1 as E _ _; symmetry; exact E).
  destruct (ge_introduces _ _ _ _ _ _ _ _ _ _ _ G e He) as [I _]. unfold introduces in I. rewrite K in I. destruct I as (t & pa & nn & bb & It & _ & Et & _).
  assert (Hi : In (ex_id e, ex_intro e) intros) by (apply in_map_iff; exists e; auto). rewrite Ei in Hi. apply in_map_iff in Hi as (e0 & E & He0). injection E as Eid Ein.
  destruct (ge_introduces _ _ _ _ _ _ _ _ _ _ _ G0 e0 He0) as [I0 _]. rewrite Ein, It in I0. apply introduces_class in I0. rewrite Et in I0.
  assert (Hd0 : In (definition e0) (map definition all)) by (rewrite <- D1, D0; apply in_map, He0). apply in_map_iff in Hd0 as (e1 & E & He1).
  unfold definition in E. injection E as Eid1 _ Eb.
  assert (Nd' : NoDup (map ex_id all)) by (unfold intros in Nd; rewrite map_map in Nd; exact Nd).
  assert (e1 = e) as ->.
  { clear - Nd' He He1 Eid Eid1. rewrite Eid in Eid1. clear Eid e0. induction all as [|a l IH]; [destruct He|].
    inversion Nd' as [|? ? N1 N2]; subst. destruct He as [->|He], He1 as [->|He1]; try reflexivity; [| |exact (IH He He1 N2)]; exfalso; apply N1; [rewrite <- Eid1; apply in_map, He1|rewrite Eid1; apply in_map, He]. }
  destruct (proj2 (E0 e0 He0) i q) as (types & args & a & De & Hc & Hin); [rewrite I0; exact Cv|]. rewrite I0, <- Eb in *.
  destruct (A e (Class (ex_context e)) (SInit i types args a) ($"__init__") He) as (v0 & Hv0 & Hr); [constructor; exact K|exact Hin|reflexivity|].
  assert (L : exists static l, v0 = MFunction static l /\ In (SInit i types args a) l).
  { destruct v0 as [o|sta l|t0]; cbn in Hr; [destruct Hr|eauto|]. exfalso. destruct (H' NC Ex) as (s1 & p1 & R1 & _ & Cn & _). rewrite R in R1. injection R1 as <- <-.
    specialize (Cn (Class (ex_context e)) ($"__init__")). rewrite Hv0 in Cn. subst t0. cbn in Cn. destruct Cn as (_ & _ & Cn). discriminate Cn. }
  destruct L as (static & l & -> & Hl).
  destruct (dispatch_direct is_none default mro class_of other nested receiver elsewhere (w_extra w) (ex_context e) l (SInit i types args a) [self; v] [] Hl)
    as (t0 & bi & before & after & Ed & El & Et0 & Hb).
  { intros c. eapply one_argument; try eassumption. exact (cv_param _ _ _ _ _ _ _ Cv). }
  assert (Ec : constructs is_none default mro class_of other nested receiver elsewhere self p (w_extra w) (ex_context e) v = Some (t0, bi)).
  { unfold constructs. rewrite Hv0. exact Ed. }
  split.
  - intros ty Hty. unfold load. rewrite Hty. apply orb_true_iff. right. cbn. unfold converts. apply existsb_exists. exists (pm_type q). rewrite Hd, Ec. split; [|reflexivity].
    unfold conversions. apply in_flat_map. exists (SConvertible (Some (pm_type q)) (ex_context e)). rewrite Nat.eqb_refl. split; [|now left].
    unfold executed, m. apply in_flat_map. exists (ex_id e, ex_id e). split; [apply in_map_iff; eauto|]. cbn [fst]. rewrite (body_found files all e D1 Nd' He). exact Hc.
  - exists static, l, t0, bi, before, after. split; [exact Hv0|]. split; [exact El|]. split; [eauto|]. split; [exact Ec|]. intros Df.
    assert (Pk : proper_keywords (@nil (str * V))) by (split; [constructor|intros []]). split.
    + apply (try_iff is_none default accepts (w_extra w) (Class (ex_context e)) false [self; v] [] t0 t0 bi Pk); [|exact Et0]. apply Df. rewrite El. apply in_or_app. right. now left.
    + intros t' c Ht' Su. specialize (Hb t' Ht').
      assert (Dt : distinct_formals (formals default (Class (ex_context e)) t')) by (apply Df; rewrite El; apply in_or_app; left; exact Ht').
      exact (proj1 (try_none is_none default accepts (w_extra w) (Class (ex_context e)) false [self; v] [] t' Pk Dt) Hb c Su).
Qed.

(** ** Arguments of functions *)

Lemma takes_parameter {V} receiver elsewhere x (pass : type -> bool -> V -> bool) o t f j q c v : function_of t = Some f -> nth_error (filter is_ordinary (fi_params (x_fn x f))) j = Some q ->
  takes receiver elsewhere x pass o t ((if is_method_of o t then 1 else 0) + j) c v = pass (pm_type q) c v.
Proof. intros Hf Hq. unfold takes. rewrite Hf. destruct (is_method_of o t); cbn [Nat.add]; rewrite Hq; reflexivity. Qed.

Theorem arguments_taken default_holder mro manual fails u w found implicit iteration n name b files rs st' m s p : setting u w iteration -> 0 < n ->
  generate u w found implicit iteration n name = Some (RGraph b (EWritten files rs st')) ->
  (forall r, In r rs -> is_error_ereport r = false) -> (forall i, kind u i = KConstructor -> consistent u (w_extra w) i) ->
  adds_nothing manual -> run_module mro manual fails default_holder files m = Some (s, p) ->
  forall V is_none default class_of other nested receiver elsewhere self o k static l t f ans (pos : list V) kw bi convert,
  own p o k = Some (MFunction static l) -> In t l -> function_of t = Some f ->
  consistent u (w_extra w) f -> valid_annotations (u_decls u f) -> carried (d_attrs (u_decls u f)) ans false -> variadic_last (fi_params (x_fn (w_extra w) f)) ->
  suits is_none default (takes receiver elsewhere (w_extra w) (load is_none default mro class_of other nested receiver elsewhere self p (w_extra w) (executed files m)) o)
    (w_extra w) o convert pos kw t bi ->
  exists before, (takes_self u o f <-> before = 1) /\ (~ takes_self u o f <-> before = 0) /\
    forall j q r, nth_error (filter is_ordinary (fi_params (x_fn (w_extra w) f))) j = Some q -> ty_core (pm_type q) = CRecord r ->
      exists v, nth_error (bi_values bi) (before + j) = Some v /\ source pos kw (before + j) q (default f j) v /\
        convertible_to u w b name mro class_of other r v /\
        (convert = false \/ (own_name (fi_params (x_fn (w_extra w) f)) j q /\ named_by Noconvert ans (pm_name q)) -> instance mro class_of r v = true).
Proof.
  intros S Hn HG Ne Co M R V is_none default class_of other nested receiver elsewhere self o k static l t f ans pos kw bi convert Ho Ht Hf Cf Va Ca Vl Su.
  destruct (overloads_declared is_none default (fun _ _ _ _ => true) default_holder mro manual fails u w found implicit iteration n name b files rs st' m s p S Hn HG M R _ _ _ _ _ _ _ Ho Ht Hf Cf Va Ca Vl) as [Hs (fl & Lf & Ef & Hd)].
  destruct (calls_honoured is_none default _ default_holder mro manual fails u w found implicit iteration n name b files rs st' m s p S Hn HG M R _ _ _ _ _ _ _ _ _ _ _ Ho Ht Hf Cf Va Ca Vl Su)
    as (before & B1 & B2 & H).
  assert (before = if is_method_of o t then 1 else 0) as ->.
  { destruct (is_method_of o t) eqn:Em; [apply B1, Hs; reflexivity|]. apply B2. intros Ts. apply Hs in Ts. discriminate Ts. }
  exists (if is_method_of o t then 1 else 0). split; [exact B1|]. split; [exact B2|]. intros j q r Hq Hr. destruct (H j q Hq) as (v & Hv & Sv & Hn'). exists v. split; [exact Hv|]. split; [exact Sv|].
  destruct (Hd j q Hq) as (g & Hg & _).
  assert (Hfo : nth_error (formals default o t) ((if is_method_of o t then 1 else 0) + j) = Some g).
  { rewrite Ef. destruct (is_method_of o t); [|exact Hg]. destruct fl as [|h fl]; [destruct j; discriminate Hg|]. exact Hg. }
  destruct Su as [_ P]. assert (A := P _ _ _ Hfo Hv). rewrite (takes_parameter _ _ _ _ _ _ _ _ _ _ _ Hf Hq) in A.
  assert (Cl := fun c => conversions_annotated u w found implicit iteration n name b files rs st' S Hn HG Ne Co V is_none default mro class_of other nested receiver elsewhere self p m (pm_type q) c r v Hr).
  split.
  - destruct (Cl _ A) as [I|[_ I]]; [left; exact I|exact I].
  - intros [->|[On Nb]].
    + cbn in A. destruct (Cl _ A) as [I|[E _]]; [exact I|discriminate E].
    + destruct (Hn' On) as [_ N]. specialize (N Nb). rewrite (takes_parameter _ _ _ _ _ _ _ _ _ _ _ Hf Hq) in N. destruct (Cl _ N) as [I|[E _]]; [exact I|discriminate E].
Qed.
