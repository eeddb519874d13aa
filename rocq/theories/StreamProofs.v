(** * Proofs about stream operators in Python *)
From Verif Require Import Base ParserModel AnnotModel AnnotSpec AnnotProofs AnnotStore AnnotFinal CollectModel CollectSpec GraphModel GraphSpec GraphFinal OrderModel InlineModel EmitModel EmitSpec EmitProofs EmitFold EmitFinal
  ModuleModel ModuleSpec ModuleProofs ModuleFinal ImportSpec ImportProofs ExecSpec ExecProofs AccessSpec AccessProofs InvalidSpec InvalidProofs FindProofs DispatchSpec DispatchProofs OperSpec OperProofs HidingProofs StreamSpec.

Lemma own_spelling u i a : own_attributes u i a -> exists ans bad, carried (d_attrs (u_decls u i)) ans bad /\ latest (spelling_of (u_decls u i)) ans [] (n_spelling (at_named a)).
Proof.
  intros Ho. assert (Hs := proj1 (own_says _ _ _ Ho)). destruct Ho as (st & ds & Hi & Hl).
  destruct (insert_spelling _ _ _ _ _ Hi eq_refl Hs) as (a' & ans & bad & Ha & Hc & L & _). rewrite Hl in Ha. injection Ha as <-. eauto.
Qed.

Section Module.
Context (u : unit) (w : facts) (found : nat -> list nat) (implicit : nat -> bool) (iteration : list nat -> list nat) (name : str) (b : bstate) (g : graph) (vis : dmap bool).
Context (rs : list ereport) (st' : storage) (order : list nat) (all : list entry) (post : list nat).
Hypothesis (Se : setting u w iteration) (X : exposed u found implicit name g vis b) (G : generated u w g vis (bs_annotations b) name rs st' order all post).
Notation x := (w_extra w).

Lemma entry_stream e n r : In e all -> In (SPrint n r) (ex_body e) -> r = ex_context e /\ exists i, stream_operator u w b name r i n.
Proof.
  intros He Hin. destruct (ge_bodies _ _ _ _ _ _ _ _ _ _ _ G) as (rss & Fb & _).
  destruct (forall2_in_l _ _ _ _ Fb He) as (r0 & _ & x0 & st1 & st2 & Hc & D & X1 & X2 & Ff).
  destruct (exposed_graph _ _ _ _ _ Se _ _ _ _ X) as (_ & _ & _ & Fa & _).
  assert (Hnode : In (ex_context e) (g_nodes g)) by (eapply entry_context_node; eassumption).
  apply (in_parts _ _ _ _ _ _ _ _ _ D (SPrint n r) eq_refl) in Hin as (j & Hj & a & Ha & Sh & Hb).
  assert (Hx : exists q0, x0 = XRecord (ex_context e) q0 /\ kind u (ex_context e) = KRecord).
  { unfold create in Hc. destruct (kind u (ex_context e)) eqn:K; try discriminate Hc;
      try (injection Hc as <-; exfalso; cbn in Hb; inversion Hb; subst; match goal with H : bound_function _ _ _ _ _ |- _ => inversion H | H : bound_alias _ _ _ _ _ |- _ => inversion H end).
    destruct (create_policy u (bs_annotations b) (w_hierarchy w) (ex_context e)); [|discriminate Hc]. injection Hc as <-. eauto. }
  destruct Hx as (q0 & -> & K). cbn in Hb.
  inversion Hb as [? ? H|? H| | | | |n' Hk Ho Hd Hp Hn Hne En|]; subst; try (inversion H; fail).
  split; [reflexivity|]. exists j. assert (Hki : is_tag_kind (kind u j) = false) by (rewrite Hk; reflexivity).
  assert (Hoa : own_attributes u j a) by exact (define_faithful _ _ _ _ _ _ _ _ _ D (Ff Fa) j a Hki Ha).
  assert (Sy := own_says _ _ _ Hoa). constructor; try assumption.
  - exists (XRecord (ex_context e) q0). auto.
  - destruct Sh as [W|[W Dv]]; rewrite W in Sy; [left; exact Sy|right]. split; [exact Sy|]. eapply lookup_visible; eassumption.
  - split; [exact Hne|apply own_spelling, Hoa].
Qed.

Lemma stream_entry e i n : In e all -> stream_operator u w b name (ex_context e) i n -> In (SPrint n (ex_context e)) (ex_body e).
Proof.
  intros He [K (x0 & C & Hi) Vi Kf Sy Cal St (Hn & ans & bad & Ca & La)]. destruct (ge_bodies _ _ _ _ _ _ _ _ _ _ _ G) as (rss & Fb & _).
  destruct (forall2_in_l _ _ _ _ Fb He) as (r & _ & B). destruct (exposed_graph _ _ _ _ _ Se _ _ _ _ X) as (_ & _ & _ & Fa & _).
  assert (Hnode : In (ex_context e) (g_nodes g)) by (eapply entry_context_node; eassumption).
  destruct B as (x' & st1 & st2 & C' & D & X1 & X2 & Ff). rewrite C in C'. injection C' as <-.
  destruct (define_spec _ _ _ _ _ _ _ _ _ D) as [_ H1 _ H3 _ _ _ _ _]. assert (Hki : is_tag_kind (kind u i) = false) by (rewrite Kf; reflexivity).
  assert (Hs : d_skip (u_decls u i) = false) by (destruct Vi as [[Hs _]|[[Hs _] _]]; exact Hs).
  assert (Hl : exists a, own_attributes u i a /\ lookup_attrs st2 i = Some a).
  { destruct (lookup_attrs st1 i) as [a|] eqn:El; [|apply H3; assumption]. exists a. split; [apply (Ff Fa i a Hki El)|apply H1, El]. }
  destruct Hl as (a & Ho & Hl). assert (Sh := visible_shown _ _ _ _ _ _ _ _ _ _ _ _ Se X Hnode Ho Vi).
  assert (Hx : exists q0, x0 = XRecord (ex_context e) q0).
  { unfold create in C. rewrite K in C. destruct (create_policy u (bs_annotations b) (w_hierarchy w) (ex_context e)); [|discriminate C]. injection C as <-. eauto. }
  destruct Hx as (q0 & ->). apply (in_parts _ _ _ _ _ _ _ _ _ D (SPrint n (ex_context e)) eq_refl). exists i. split; [exact Hi|]. exists a. split; [exact Hl|]. split; [exact Sh|]. cbn.
  destruct (own_spelling _ _ _ Ho) as (ans' & bad' & Ca' & La'). destruct (carried_unique2 _ _ _ _ _ Ca Ca') as [<- _].
  eapply rec_print; try assumption. exact (latest_unique _ _ _ _ _ La' La).
Qed.
End Module.

(** ** Calls *)

Lemma try_print {V} (is_none : V -> bool) default x cast rest o convert n r v :
  try is_none default (by_class cast rest) x o convert [v] [] (SPrint n r) = if cast r convert v then Some (SPrint n r, mkBinding [v] [] []) else None.
Proof. unfold try, bind_for, bind. cbn. unfold refused. cbn. rewrite andb_false_r. cbn. rewrite !andb_true_r. destruct (cast r convert v); reflexivity. Qed.
Lemma try_same {V} (is_none : V -> bool) default accepts x o convert pos kw s t bi : try is_none default accepts x o convert pos kw s = Some (t, bi) -> t = s.
Proof. unfold try. destruct (bind_for _ _ _ _ _ _ _) as [c|]; [|discriminate]. destruct (loads _ _ _ _ _ _); [|discriminate]. now intros [= <- _]. Qed.
Lemma dispatch_tried {V} (is_none : V -> bool) default accepts x o l pos kw t bi : dispatch is_none default accepts x o l pos kw = Some (t, bi) ->
  In t l /\ exists convert, try is_none default accepts x o convert pos kw t = Some (t, bi).
Proof.
  assert (F : forall convert l, first_some (try is_none default accepts x o convert pos kw) l = Some (t, bi) -> In t l /\ exists convert, try is_none default accepts x o convert pos kw t = Some (t, bi)).
  { intros convert l' H. apply first_some_in in H as (s & Hs & Et). assert (E := try_same _ _ _ _ _ _ _ _ _ _ _ Et). subst s. eauto. }
  assert (F2 : first_some (fun s => if convertible default o s then try is_none default accepts x o true pos kw s else None) l = Some (t, bi) -> In t l /\ exists convert, try is_none default accepts x o convert pos kw t = Some (t, bi)).
  { intros H. apply first_some_in in H as (s & Hs & Et). destruct (convertible default o s); [|discriminate Et]. assert (E := try_same _ _ _ _ _ _ _ _ _ _ _ Et). subst s. eauto. }
  destruct l as [|s1 [|s2 l]].
  - discriminate.
  - cbn [dispatch]. intros H. assert (E := try_same _ _ _ _ _ _ _ _ _ _ _ H). subst s1. split; [now left|eauto].
  - cbn [dispatch]. destruct (first_some (try is_none default accepts x o false pos kw) (s1 :: s2 :: l)) as [r|] eqn:E1; [intros [= ->]; eapply F; exact E1|exact F2].
Qed.

Theorem texts_sound default_holder mro manual fails u w found implicit iteration n name b files rs st' m s p : setting u w iteration -> 0 < n ->
  generate u w found implicit iteration n name = Some (RGraph b (EWritten files rs st')) ->
  defines_nothing manual -> run_module mro manual fails default_holder files m = Some (s, p) ->
  forall V (is_none : V -> bool) default class_of cast rest insert k a t,
  text is_none default (w_extra w) mro p class_of cast rest insert k a = Some t ->
  exists r i, stream_operator u w b name r i k /\ (exists convert, cast r convert a = true) /\ t = insert r a.
Proof.
  intros Se Hn HG M R V is_none default class_of cast rest insert k a t. unfold text, invoke. destruct (class_of a) as [c|]; [|discriminate].
  destruct (getattr mro p (Class c) k) as [[|static l|]|] eqn:Eg; try discriminate.
  destruct (dispatch _ _ _ _ _ l _ _) as [[q bi]|] eqn:Ed; [|discriminate]. destruct q as [| | | | | | |kk r| | | | |] eqn:Eq; try discriminate. intros Et.
  apply dispatch_tried in Ed as (Ht & convert & Er). rewrite try_print in Er. destruct (cast r convert a) eqn:Ec; [|discriminate Er]. injection Er as <-. cbn in Et. injection Et as <-.
  rewrite getattr_order in Eg. apply first_some_in in Eg as (d & _ & Eo).
  destruct (run_written _ _ _ _ _ Se _ _ _ _ _ _ Hn HG) as (g & vis & order & all & chunks & post & X & G & Ly & Hlen & _). assert (Hf : 0 < length files) by lia.
  destruct (named_module mro manual fails M (fun t => exists e, In e all /\ In t (ex_body e)) files) with (default_holder := default_holder) (m := m) (s := s) (p := p) (o := Class d) (n := k) (static := static) (l := l) (t := SPrint kk r)
    as [(e & He & Hte) Hd]; try assumption.
  { intros id q' body s0 Hi Hs. destruct (definitions_in _ _ _ _ _ Ly Hf id q' body Hi) as (e & He & <-). eauto. }
  injection Hd as ->. destruct (entry_stream u w found implicit iteration name b g vis rs st' order all post Se X G e k r He Hte) as (_ & i & So). exists r, i. eauto.
Qed.

Lemma dispatch_prints {V} (is_none : V -> bool) default x cast rest o l v r : l <> [] -> (forall t, In t l -> exists n, t = SPrint n r) -> (forall convert, cast r convert v = true) ->
  exists n, dispatch is_none default (by_class cast rest) x o l [v] [] = Some (SPrint n r, mkBinding [v] [] []).
Proof.
  intros Hne Hl Hc. destruct l as [|t l]; [destruct (Hne eq_refl)|]. destruct (Hl t (or_introl eq_refl)) as (n & ->). exists n.
  destruct l as [|t' l]; cbn [dispatch first_some]; rewrite try_print, Hc; reflexivity.
Qed.

Lemma contributes_back o q before body cb : contributes o q before body cb -> (forall v, In v (values_of before) -> overload (snd v) = None) ->
  forall o' n t, In (o', n, t) cb -> overload t <> None -> o' = o /\ In t body /\ defines t = Some n.
Proof.
  induction 1 as [before|before s1 n1 b cb Hd _ IH|before n1 i b cb _ IH|before k b cb Hq _ IH|before s1 b cb Hd Hv Hx _ IH]; intros Hb o' n t Hin Ho.
  - destruct Hin.
  - destruct Hin as [E|Hin]; [injection E as <- <- <-; split; [reflexivity|split; [now left|exact Hd]]|]. destruct (IH ltac:(intros v; apply values_overload) o' n t Hin Ho) as (H1 & H2 & H3). split; [exact H1|split; [now right|exact H3]].
  - destruct Hin as [E|Hin]; [injection E as <- <- <-; destruct (Ho eq_refl)|]. destruct (IH ltac:(intros v; apply values_overload) o' n t Hin Ho) as (H1 & H2 & H3). split; [exact H1|split; [now right|exact H3]].
  - apply in_app_iff in Hin as [Hin|Hin].
    + apply in_map_iff in Hin as (v & E & Hv). injection E as <- <- <-. destruct (Ho (Hb v Hv)).
    + destruct (IH ltac:(intros v; apply values_overload) o' n t Hin Ho) as (H1 & H2 & H3). split; [exact H1|split; [now right|exact H3]].
  - destruct (IH ltac:(intros v; apply values_overload) o' n t Hin Ho) as (H1 & H2 & H3). split; [exact H1|split; [now right|exact H3]].
Qed.

Lemma contributions_back u st g all cs : contributions u st g all cs -> forall o n t, In (o, n, t) cs -> overload t <> None -> exists e, In e all /\ located u st g (ex_context e) o /\ In t (ex_body e) /\ defines t = Some n.
Proof.
  induction 1 as [|e l o q cb r Ho Hq Hcb Hr IH]; intros o' n t Hin Hov; [destruct Hin|]. apply in_app_iff in Hin as [Hin|Hin].
  - destruct (contributes_back _ _ _ _ _ Hcb ltac:(intros v; apply values_overload) _ _ _ Hin Hov) as (-> & Hb). exists e. split; [now left|auto].
  - destruct (IH _ _ _ Hin Hov) as (f & Hf & H). exists f. split; [now right|exact H].
Qed.

Theorem streams_reached default_holder mro manual fails u w found implicit iteration n name b files rs st' : setting u w iteration -> nested_blocks u -> 0 < n ->
  generate u w found implicit iteration n name = Some (RGraph b (EWritten files rs st')) ->
  exists g vis order all chunks post, exposed u found implicit name g vis b /\
    generated u w g vis (bs_annotations b) name rs st' order all post /\ layout name post all chunks files /\
    let intros := map (fun e => (ex_id e, ex_intro e)) all in
    let m := IModule name intros (map (fun e => (ex_id e, ex_id e)) all) post in
    filter is_module (concat files) = [m] /\
    (NoDup (map fst intros) -> agreeing_blocks u (bs_annotations b) g -> distinct_names u (bs_annotations b) g -> usable_bases default_holder w intros ->
     exists cs, contributions u (bs_annotations b) g all cs /\
       (no_clashes mro u (bs_annotations b) g cs -> executable manual fails all post ->
        exists s p, run_module mro manual fails default_holder files m = Some (s, p) /\
          forall V is_none default class_of cast rest insert k (a : V) c, class_of a = Some c ->
            let told := text is_none default (w_extra w) mro p class_of cast rest insert k a in
            (forall t, told = Some t -> exists r i, stream_operator u w b name r i k /\ In r (c :: mro c) /\ t = insert r a) /\
            (forall r i, In r (map ex_context all) -> stream_operator u w b name r i k -> first_named mro u (bs_annotations b) g cs c r k ->
               (forall t, In (Class r, k, t) cs -> exists k' r', t = SPrint k' r') -> (forall convert, cast r convert a = true) -> told = Some (insert r a)))).
Proof.
  intros S NB Hn HG. destruct (run_members default_holder mro manual fails _ _ _ _ _ _ _ _ _ _ _ S NB Hn HG) as (g & vis & order & all & chunks & post & X & G & Ly & Hm & H).
  exists g, vis, order, all, chunks, post. split; [exact X|]. split; [exact G|]. split; [exact Ly|]. intros intros m. split; [exact Hm|].
  intros Nd Ag Di Ba. destruct (H Nd Ag Di Ba) as (cs & C & H'). exists cs. split; [exact C|]. intros NC Ex. destruct (H' NC Ex) as (s & p & R & At & Co & A).
  exists s, p. split; [exact R|]. intros V is_none default class_of cast rest insert k a c Hc told.
  destruct (exposed_graph _ _ _ _ _ S _ _ _ _ X) as (T & _ & _ & _ & _). pose proof (modules_nested _ _ _ _ _ S _ _ _ _ X) as Ne.
  assert (Place : forall d kk r, In (Class d, k, SPrint kk r) cs -> kk = k /\ r = d /\ exists i, stream_operator u w b name d i k).
  { intros d kk r Hin. destruct (contributions_back _ _ _ _ _ C _ _ _ Hin) as (e & He & Lo & Hb & Hd); [discriminate|]. injection Hd as ->.
    destruct (entry_stream u w found implicit iteration name b g vis rs st' order all post S X G e k r He Hb) as (-> & i & So).
    assert (ex_context e = d) as Ed by (inversion Lo; subst; congruence || (rewrite (so_class _ _ _ _ _ _ _ So) in *; discriminate)). subst d. eauto. }
  split.
  - intros t Et. unfold told, text, invoke in Et. rewrite Hc in Et. destruct (getattr mro p (Class c) k) as [[|static l|]|] eqn:Eg; try discriminate Et.
    destruct (dispatch _ _ _ _ _ l _ _) as [[q bi]|] eqn:Ed; [|discriminate Et]. destruct q as [| | | | | | |kk r| | | | |] eqn:Eq; try discriminate Et.
    apply dispatch_tried in Ed as (Ht & convert & Er). rewrite try_print in Er. destruct (cast r convert a) eqn:Ec; [|discriminate Er]. injection Er as <-. cbn in Et. injection Et as <-.
    rewrite getattr_order in Eg. apply first_some_in in Eg as (d & Hd & Eo). assert (Cd := Co (Class d) k). rewrite Eo in Cd. destruct Cd as (_ & -> & _).
    apply given_in in Ht. destruct (Place _ _ _ Ht) as (-> & -> & i & So). exists d, i. auto.
  - intros r i Hr So (before & after & Em & Hb) Only Hcast. apply in_map_iff in Hr as (e & <- & He).
    assert (Hin := stream_entry u w found implicit iteration name b g vis rs st' order all post S X G e i k He So).
    destruct (A e (Class (ex_context e)) (SPrint k (ex_context e)) k He) as (v0 & Hv0 & Hre); [constructor; exact (so_class _ _ _ _ _ _ _ So)|exact Hin|reflexivity|].
    assert (Cd := Co (Class (ex_context e)) k). rewrite Hv0 in Cd. destruct v0 as [v|static l|t]; [destruct Hre| |cbn in Hre; subst t; destruct Cd as (_ & _ & Cd); discriminate Cd].
    destruct Cd as (_ & -> & Hne & _).
    assert (Hall : forall t, In t (given cs (Class (ex_context e)) k) -> exists n0, t = SPrint n0 (ex_context e)).
    { intros t Ht. apply given_in in Ht. destruct (Only t Ht) as (k' & r' & ->). destruct (Place _ _ _ Ht) as (_ & -> & _). eauto. }
    unfold told, text, invoke. rewrite Hc. assert (Eg : getattr mro p (Class c) k = Some (MFunction static (given cs (Class (ex_context e)) k))).
    { rewrite getattr_order, Em. clear Em. induction before as [|d before IH]; cbn [app first_some]; [rewrite Hv0; reflexivity|].
      destruct (Hb d (or_introl eq_refl)) as [H1 H2]. assert (Cd := Co (Class d) k). destruct (own p (Class d) k) as [[v|st l|t]|].
      - destruct Cd as [Ev _]. apply At in Ev as (y & Fy & _). destruct (H2 _ Fy).
      - destruct Cd as (_ & _ & Hn0 & _). destruct (given cs (Class d) k) as [|t l'] eqn:E; [destruct (Hn0 eq_refl)|]. destruct (H1 t). apply given_in. rewrite E. now left.
      - destruct Cd as (_ & E & _). destruct (H1 t). apply given_in. rewrite E. now left.
      - apply IH. intros d' Hd'. apply Hb. now right. }
    rewrite Eg. destruct (dispatch_prints is_none default (w_extra w) cast rest (Class c) _ a (ex_context e) Hne Hall Hcast) as (n0 & ->). reflexivity.
Qed.
