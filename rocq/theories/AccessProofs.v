(** * Proofs about what can be accessed from Python *)
From Verif Require Import Base ParserModel AnnotModel AnnotSpec AnnotFinal CollectModel GraphModel GraphSpec GraphProofs GraphPlace GraphFinal OrderModel OrderSpec InlineModel InlineSpec
  EmitModel EmitSpec EmitFold EmitProofs EmitFinal ModuleModel ModuleSpec ModuleProofs ModuleChunks ModuleFinal ImportSpec ImportProofs ExecSpec ExecProofs AccessSpec.

(** ** Annotations *)

Lemma says_unique u i v v' : says u i v -> says u i v' -> v = v'.
Proof.
  intros (_ & ans & bad & d & C & D & L) (_ & ans' & bad' & d' & C' & D' & L'). destruct (carried_unique2 _ _ _ _ _ C C') as [-> _].
  rewrite (default_visibility_unique _ _ _ D D') in L. exact (latest_unique _ _ _ _ _ L L').
Qed.

Lemma own_says u i a : own_attributes u i a -> says u i (n_visible (at_named a)).
Proof.
  intros (st & ds & Hi & Hl).
  assert (Hs : d_skip (u_decls u i) = false).
  { destruct (d_skip (u_decls u i)) eqn:Es; [|reflexivity]. unfold insert in Hi. rewrite Es in Hi. injection Hi as <- <-. discriminate Hl. }
  split; [exact Hs|]. destruct (insert_visibility _ _ _ _ _ Hi eq_refl Hs) as (a' & ans & bad & Ha & Hc & v & Hv & L).
  rewrite Hl in Ha. injection Ha as <-. exists ans, bad, v. auto.
Qed.

Lemma own_unique u i a a' : own_attributes u i a -> own_attributes u i a' -> a = a'.
Proof. intros (s & d & H1 & H2) (s' & d' & H1' & H2'). congruence. Qed.

(** ** Execution *)

Section Run.
Context (mro : nat -> list nat) (manual : nat -> object -> pystate -> option pystate) (fails : stmt -> bool).
Context (M : adds_nothing manual) (P : stmt -> Prop).

Definition only (p : pystate) : Prop := forall t, accessible p t -> P t.

Lemma only_set p o n m p' : setattr mro p o n m = Some p' -> only p -> (forall t, reaches m t -> P t) -> only p'.
Proof.
  unfold setattr. destruct (_ && _); [discriminate|]. intros [= <-] H Hm t [(o' & n' & m' & Ho & Hr)|(e & k & He)].
  - rewrite own_cons in Ho. destruct (same_object o o' && str_eqb n n'); [injection Ho as <-; exact (Hm t Hr)|].
    apply H. left. exists o', n', m'. destruct p. auto.
  - apply H. right. exists e, k. exact He.
Qed.

Lemma only_function p o n static s p' : define_function mro p o n static s = Some p' -> only p -> P s -> only p'.
Proof.
  intros D H Hs. assert (One : forall q, setattr mro p o n (MFunction static [s]) = Some q -> only q).
  { intros q E. eapply only_set; [exact E|exact H|]. intros t [<-|[]]. exact Hs. }
  unfold define_function in D. destruct (own p o n) as [[v|f l|t]|] eqn:Eo.
  - destruct (getattr mro p o n) as [[| |]|]; try destruct (private n); try discriminate D; exact (One _ D).
  - destruct (Bool.eqb f static); [|discriminate D]. eapply only_set; [exact D|exact H|]. intros t Ht. cbn in Ht. apply in_app_iff in Ht as [Ht|[<-|[]]]; [|exact Hs].
    apply H. left. exists o, n, (MFunction f l). auto.
  - destruct (getattr mro p o n) as [[| |]|]; try destruct (private n); try discriminate D; exact (One _ D).
  - destruct (getattr mro p o n) as [[| |]|]; try destruct (private n); try discriminate D; exact (One _ D).
Qed.

Lemma only_exports q vs : forall p p', fold_opt (fun p v => setattr mro p q (fst v) (MValue (snd v))) vs p = Some p' ->
  only p -> (forall v, In v vs -> P (snd v)) -> only p'.
Proof.
  induction vs as [|v vs IH]; cbn [fold_opt]; intros p p' E H Hv; [injection E as <-; exact H|].
  destruct (setattr mro p q (fst v) (MValue (snd v))) as [p1|] eqn:E1; [|discriminate E]. eapply IH; [exact E| |intros x Hx; apply Hv; now right].
  eapply only_set; [exact E1|exact H|]. intros t Ht. cbn in Ht. subst t. apply Hv. now left.
Qed.

Lemma only_statement types o scope p s p' : statement mro manual fails types o scope p s = Some p' -> only p -> P s -> only p'.
Proof.
  unfold statement. destruct (fails s); [discriminate|]. intros E H Hs. destruct s;
    try (eapply only_set; [exact E|exact H|]; intros t Ht; cbn in Ht; subst t; exact Hs);
    try (eapply only_function; [exact E|exact H|exact Hs]).
  - intros t Ht. apply H. exact (M _ _ _ _ E t Ht).
  - destruct (existsb _ _); [|discriminate E]. injection E as <-. exact H.
  - destruct o as [|c|e]; try discriminate E. destruct (existsb _ _); [discriminate E|].
    destruct (setattr mro p (Enum e) spelling (MValue (SValue spelling i))) as [q|] eqn:Eq; [|discriminate E]. injection E as <-.
    assert (Hq : only q) by (eapply only_set; [exact Eq|exact H|]; intros t Ht; cbn in Ht; subst t; exact Hs).
    intros t [(o' & n' & m' & Ho & Hr)|(e' & k & He)].
    + apply Hq. left. exists o', n', m'. split; [exact Ho|exact Hr].
    + rewrite entries_snoc in He. apply in_app_iff in He as [He|He].
      * apply Hq. right. exists e', k. exact He.
      * destruct (Nat.eqb e e'); [|destruct He]. destruct He as [[= _ <-]|[]]. exact Hs.
  - destruct o as [|c|e]; try discriminate E. destruct scope as [q|]; [|discriminate E]. eapply only_exports; [exact E|exact H|].
    intros [n t] Hv. cbn. apply H. right. exists e, n. exact Hv.
  - injection E as <-. exact H.
Qed.

Lemma only_body types o scope body : forall p p', fold_opt (statement mro manual fails types o scope) body p = Some p' -> only p -> (forall s, In s body -> P s) -> only p'.
Proof.
  induction body as [|s body IH]; cbn [fold_opt]; intros p p' E H Hb; [injection E as <-; exact H|].
  destruct (statement mro manual fails types o scope p s) as [p1|] eqn:E1; [|discriminate E]. eapply IH; [exact E| |intros x Hx; apply Hb; now right].
  eapply only_statement; [exact E1|exact H|]. apply Hb. now left.
Qed.

Context (files : list (list item)).
Hypothesis F : forall id q body s, In (IDefine id q body) (concat files) -> In s body -> P s.

Lemma only_call intros s p c p' : call mro manual fails files intros s p c = Some p' -> only p -> only p'.
Proof.
  unfold call. destruct (value s (snd c)) as [o|]; [|discriminate]. destruct (body_named files (fst c)) as [body|] eqn:Eb; [|discriminate]. intros E H.
  apply first_some_in in Eb as (i & Hi & Ei). destruct i as [| |id q body']; try discriminate Ei. destruct (str_eqb id (fst c)); [|discriminate Ei]. injection Ei as ->.
  eapply only_body; [exact E|exact H|]. intros t Ht. exact (F _ _ _ _ Hi Ht).
Qed.

Lemma only_calls intros s cs : forall p p', fold_opt (call mro manual fails files intros s) cs p = Some p' -> only p -> only p'.
Proof.
  induction cs as [|c cs IH]; cbn [fold_opt]; intros p p' E H; [injection E as <-; exact H|].
  destruct (call mro manual fails files intros s p c) as [p1|] eqn:E1; [|discriminate E]. eapply IH; [exact E|]. eapply only_call; eassumption.
Qed.

Lemma only_manual o post : forall p p', fold_opt (fun p l => manual l o p) post p = Some p' -> only p -> only p'.
Proof.
  induction post as [|l post IH]; cbn [fold_opt]; intros p p' E H; [injection E as <-; exact H|].
  destruct (manual l o p) as [p1|] eqn:E1; [|discriminate E]. eapply IH; [exact E|]. intros t Ht. apply H. exact (M _ _ _ _ E1 t Ht).
Qed.

Lemma only_initial s : only (initial s).
Proof.
  intros t [(o & n & m & Ho & Hr)|(e & n & He)]; [|destruct He]. unfold own, initial in Ho. cbn [p_members] in Ho.
  destruct (find _ _) as [x|] eqn:Ef; [|discriminate Ho]. injection Ho as <-. apply find_some in Ef as [Hx _]. apply in_map_iff in Hx as (y & <- & _). destruct Hr.
Qed.

Lemma only_module default_holder m s p : run_module mro manual fails default_holder files m = Some (s, p) -> only p.
Proof.
  unfold run_module. destruct m as [|name intros calls post|]; try discriminate. destruct (import default_holder intros) as [s0|]; [|discriminate].
  destruct (fold_opt (call mro manual fails files intros s0) calls (initial s0)) as [p0|] eqn:E0; [|discriminate].
  destruct (fold_opt (fun p l => manual l (Mod []) p) post p0) as [p1|] eqn:E1; [|discriminate]. intros [= <- <-].
  eapply only_manual; [exact E1|]. eapply only_calls; [exact E0|]. apply only_initial.
Qed.
End Run.

(** ** Visible contexts *)

Lemma lookup_visible u w iteration found implicit name g vis b : setting u w iteration -> exposed u found implicit name g vis b ->
  forall c, In c (g_nodes g) -> (lookup_vis vis c = true <-> visible_context u b name c).
Proof.
  intros [Hp L _ _] (contexts & warned & E) c Hc. assert (H := process_spec u Hp found implicit name). rewrite E in H. cbn zeta in H.
  destruct H as (vis0 & contexts0 & Hb & Hv & _ & Hcx & Hh & Hpr & _).
  destruct (one_place u Hp b Hb) as (T & He & _).
  destruct (visibility_spec u (bs_annotations b) (bs_graph b) T) as (vis1 & Hv1 & Hk & Hal). rewrite Hv in Hv1. injection Hv1 as <-.
  destruct (hide_spec u (bs_annotations b) name (bs_graph b) T contexts0 vis0) as (contexts1 & vis1 & Hh' & Hh1 & Hh2). rewrite Hh in Hh'. injection Hh' as <- <-.
  destruct (pruned_spec u contexts vis (bs_graph b) T) as (g' & Hpr' & T' & He' & Hn & Hr & Hpath).
  { intros n Hr. assert (Hr' := Hr). destruct Hr' as (l & Hpn). destruct (Hh1 n l Hpn) as (_ & X & Y).
    destruct (exists_foreign_dec u (bs_annotations b) name (n :: l)) as [F|F]; [rewrite (X F); eauto|]. rewrite (Y F). apply Hk, Hr. }
  rewrite Hpr in Hpr'. injection Hpr' as <-. apply Hr in Hc as (l & Hl). apply Hpath in Hl.
  unfold visible_context. split.
  - intros V. exists l. split; [exact Hl|]. destruct (Hh1 c l Hl) as (_ & X & Y).
    destruct (exists_foreign_dec u (bs_annotations b) name (c :: l)) as [F|F].
    + unfold lookup_vis in V. rewrite (X F) in V. discriminate V.
    + split; [|exact F]. apply (Hal c l true Hl). rewrite <- (Y F). unfold lookup_vis in V. destruct (dlookup vis c) as [v|]; [congruence|discriminate V].
  - intros (l' & Hl' & V & F). destruct (Hh1 c l' Hl') as (_ & _ & Y). unfold lookup_vis. rewrite (Y F). apply (Hal c l' true Hl') in V. rewrite V. reflexivity.
Qed.

(** ** Usable declarations are visible *)

Lemma definitions_in name post all chunks files : layout name post all chunks files -> 0 < length files ->
  forall id q body, In (IDefine id q body) (concat files) -> exists e, In e all /\ ex_body e = body.
Proof.
  intros Ly Hf id q body Hi. destruct (layout_definitions _ _ _ _ _ Ly Hf) as [Hd _].
  assert (H : In (IDefine id q body) (filter is_definition (concat files))) by (apply filter_In; auto).
  rewrite Hd in H. apply in_map_iff in H as (e & Ee & He). unfold definition in Ee. injection Ee as _ _ Eb. eauto.
Qed.

Lemma usable_visible default_holder mro manual fails u w found implicit iteration n name b files rs st' m s p : setting u w iteration -> 0 < n ->
  generate u w found implicit iteration n name = Some (RGraph b (EWritten files rs st')) -> adds_nothing manual ->
  run_module mro manual fails default_holder files m = Some (s, p) ->
  exists g vis, exposed u found implicit name g vis b /\
    forall i, is_tag_kind (kind u i) = false -> usable p i -> exists c, In c (g_nodes g) /\ declared_in u w b c i /\ visible_in u b name c i.
Proof.
  intros S Hn HG M R. destruct (run_written _ _ _ _ _ S _ _ _ _ _ _ Hn HG) as (g & vis & order & all & chunks & post & X & G & Ly & Hlen & _).
  exists g, vis. split; [exact X|]. intros i Hk (t & Ht & Hm).
  assert (Hf : 0 < length files) by lia.
  assert (H : exists e, In e all /\ In t (ex_body e)).
  { refine (only_module mro manual fails M (fun t => exists e, In e all /\ In t (ex_body e)) files _ default_holder m s p R t Ht).
    intros id q body s0 Hi Hs. destruct (definitions_in _ _ _ _ _ Ly Hf id q body Hi) as (e & He & <-). eauto. }
  destruct H as (e & He & Hte). destruct (ge_bodies _ _ _ _ _ _ _ _ _ _ _ G) as (rss & Fb & _).
  destruct (forall2_in_l _ _ _ _ Fb He) as (r & _ & x & st1 & st2 & Hc & D & X1 & X2 & Ff).
  destruct (exposed_graph _ _ _ _ _ S _ _ _ _ X) as (T & _ & _ & Fa & _).
  destruct (mentioned_is_shown _ _ _ _ _ _ _ _ _ D t i Hte Hm) as (Hi & a & Ha & Sh).
  assert (Ho : own_attributes u i a) by exact (define_faithful _ _ _ _ _ _ _ _ _ D (Ff Fa) i a Hk Ha).
  assert (Hin : In (ex_context e) (g_nodes g)) by (eapply entry_context_node; eassumption).
  exists (ex_context e). split; [exact Hin|]. split; [exists x; auto|]. apply own_says in Ho. unfold visible_in.
  destruct Sh as [V|[V Dv]]; rewrite V in Ho; [left; exact Ho|right]. split; [exact Ho|]. eapply lookup_visible; eassumption.
Qed.

Lemma hidden_unusable default_holder mro manual fails u w found implicit iteration n name b files rs st' m s p : setting u w iteration -> 0 < n ->
  generate u w found implicit iteration n name = Some (RGraph b (EWritten files rs st')) -> adds_nothing manual ->
  run_module mro manual fails default_holder files m = Some (s, p) ->
  forall i, is_tag_kind (kind u i) = false -> says u i (Some false) -> ~ usable p i.
Proof.
  intros S Hn HG M R i Hk Hs Hu. destruct (usable_visible _ _ _ _ _ _ _ _ _ _ _ _ _ _ _ _ _ _ S Hn HG M R) as (g & vis & _ & H).
  destruct (H i Hk Hu) as (c & _ & _ & [V|[V _]]); discriminate (says_unique _ _ _ _ Hs V).
Qed.

(** ** Visible declarations are usable *)

Lemma ordinary_bound u x e i a n : ordinary u x e i a n -> exists t, EmitSpec.bound u x e i a t /\ mentions t i /\ named_as t n.
Proof.
  intros [k n' -> Hx Hn|n' He Hf Hk Hd Hp Ho Hn|n' He Hr Hk Hm Hn|r p n' -> Hk Hm Hn|r p -> Hk Hmv Hd Hab].
  - exists (SValue n' i). split; [constructor; assumption|]. split; [reflexivity|]. right. eauto.
  - destruct (describes_exists x i (at_function a)) as (args & Hargs). exists (SFunction (is_method u i && d_static (u_decls u i)) n' i args (at_function a)).
    assert (Hb : bound_function u x i a (SFunction (is_method u i && d_static (u_decls u i)) n' i args (at_function a))).
    { constructor; auto. apply static_iff; assumption. }
    split; [|split; [reflexivity|left; reflexivity]].
    destruct e as [|k|k|r p]; cbn [EmitSpec.bound]; [apply ns_function, Hb..| |apply rec_function; [eapply Ho; reflexivity|exact Hb]]. destruct (He k eq_refl).
  - exists (SVariable n' i). split; [|split; [reflexivity|left; reflexivity]].
    destruct e as [|k|k|r p]; cbn [EmitSpec.bound]; [apply ns_variable; assumption..|destruct (He k eq_refl)|destruct (Hr r p eq_refl)].
  - exists (SMember (match kind u i with KVar => true | _ => false end) (x_const x i || f_readonly (at_field a)) n' i).
    split; [|split; [reflexivity|left; reflexivity]]. apply rec_member; [|exact Hm|exact Hn|apply orb_true_iff]. destruct Hk as [K|K]; rewrite K; auto.
  - destruct (describes_exists x i (at_function a)) as (args & Hargs). exists (SInit i (map pm_type (fi_params (x_fn x i))) args (at_function a)).
    split; [|split; [reflexivity|left; reflexivity]]. apply rec_init; assumption.
Qed.

Lemma value_contributes o q : forall before l r, contributes o q before l r -> forall n i, In (SValue n i) l -> In (o, n, SValue n i) r.
Proof.
  induction 1 as [before|before s n l r Hd H IH|before n i l r H IH|before k l r Hq H IH|before s l r Hd Hv He H IH]; intros n0 i0 Hi.
  - destruct Hi.
  - destruct Hi as [->|Hi]; [discriminate Hd|right; eauto].
  - destruct Hi as [[= -> ->]|Hi]; [now left|right; eauto].
  - destruct Hi as [Hi|Hi]; [discriminate Hi|]. apply in_app_iff. right. eauto.
  - destruct Hi as [->|Hi]; [destruct (Hv _ _ eq_refl)|eauto].
Qed.

Lemma body_statements u w vis st st' e rs : body_of u w vis st st' e rs -> faithful u st ->
  exists x, create u st (w_hierarchy w) (ex_context e) = Some x /\
    forall i a t, In i (flat_map (expand (w_extra w)) (looked_up u w (ex_context e) x)) -> is_tag_kind (kind u i) = false -> own_attributes u i a ->
      shown (lookup_vis vis (ex_context e)) a -> EmitSpec.bound u (w_extra w) x i a t -> In t (ex_body e).
Proof.
  intros (x & st1 & st2 & Hc & D & _ & _ & Ff) Fa. exists x. split; [exact Hc|]. intros i a t Hi Hk Ho Sh Hb.
  apply (in_parts _ _ _ _ _ _ _ _ _ D t); [eapply bound_not_closing, Hb|]. exists i. split; [exact Hi|]. exists a. split; [|auto].
  destruct (define_spec _ _ _ _ _ _ _ _ _ D) as [_ H1 _ H3 _ _ _ _ _]. destruct (lookup_attrs st1 i) as [a'|] eqn:El.
  - rewrite (own_unique _ _ _ _ Ho (Ff Fa i a' Hk El)). exact (H1 _ _ El).
  - destruct (H3 i Hi (proj1 (own_says _ _ _ Ho)) El) as (a' & Ho' & Hl). rewrite (own_unique _ _ _ _ Ho Ho'). exact Hl.
Qed.

Lemma visible_shown u w iteration found implicit name g vis b c i a : setting u w iteration -> exposed u found implicit name g vis b -> In c (g_nodes g) ->
  own_attributes u i a -> visible_in u b name c i -> shown (lookup_vis vis c) a.
Proof.
  intros S X Hc Ho V. apply own_says in Ho. destruct V as [V|[V Vc]]; [left|right]; rewrite (says_unique _ _ _ _ Ho V); [reflexivity|].
  split; [reflexivity|]. eapply lookup_visible; eassumption.
Qed.

Lemma visible_usable default_holder mro manual fails u w found implicit iteration n name b files rs st' : setting u w iteration -> nested_blocks u -> 0 < n ->
  generate u w found implicit iteration n name = Some (RGraph b (EWritten files rs st')) ->
  exists g vis order all chunks post, exposed u found implicit name g vis b /\
    generated u w g vis (bs_annotations b) name rs st' order all post /\ layout name post all chunks files /\
    let intros := map (fun e => (ex_id e, ex_intro e)) all in
    let m := IModule name intros (map (fun e => (ex_id e, ex_id e)) all) post in
    filter is_module (concat files) = [m] /\
    (NoDup (map fst intros) -> agreeing_blocks u (bs_annotations b) g -> distinct_names u (bs_annotations b) g -> usable_bases default_holder w intros ->
     exists cs, contributions u (bs_annotations b) g all cs /\
       (no_clashes mro u (bs_annotations b) g cs -> executable manual fails all post ->
        exists s p, run_module mro manual fails default_holder files m = Some (s, p) /\
          forall c o x i a k, In c (map ex_context all) -> located u (bs_annotations b) g c o -> create u (bs_annotations b) (w_hierarchy w) c = Some x ->
            In i (flat_map (expand (w_extra w)) (looked_up u w c x)) -> is_tag_kind (kind u i) = false -> own_attributes u i a -> visible_in u b name c i ->
            (ordinary u (w_extra w) x i a k -> exists v t, own p o k = Some v /\ reaches v t /\ mentions t i) /\
            forall t, EmitSpec.bound u (w_extra w) x i a t -> named_as t k -> exists v, own p o k = Some v /\ reaches v t)).
Proof.
  intros S NB Hn HG. destruct (run_members default_holder mro manual fails _ _ _ _ _ _ _ _ _ _ _ S NB Hn HG) as (g & vis & order & all & chunks & post & X & G & Ly & Hm & H).
  exists g, vis, order, all, chunks, post. split; [exact X|]. split; [exact G|]. split; [exact Ly|]. intros intros m. split; [exact Hm|].
  intros Nd Ag Di Ba. destruct (H Nd Ag Di Ba) as (cs & C & H'). exists cs. split; [exact C|]. intros NC Ex. destruct (H' NC Ex) as (s & p & R & _ & I & _).
  exists s, p. split; [exact R|]. intros c o x i a k Hc Hl Hx Hi Hk Ho V. apply in_map_iff in Hc as (e & <- & He).
  destruct (exposed_graph _ _ _ _ _ S _ _ _ _ X) as (T & K & _ & Fa & _).
  assert (B : forall t, EmitSpec.bound u (w_extra w) x i a t -> named_as t k -> exists v, own p o k = Some v /\ reaches v t).
  { intros t Hb Hn'. destruct (ge_bodies _ _ _ _ _ _ _ _ _ _ _ G) as (rss & Fb & _). destruct (forall2_in_l _ _ _ _ Fb He) as (r & _ & Hbody).
    destruct (body_statements _ _ _ _ _ _ _ Hbody Fa) as (x' & Hx' & Hst). rewrite Hx in Hx'. injection Hx' as <-.
    assert (Ht : In t (ex_body e)).
    { eapply Hst; try eassumption. eapply visible_shown; try eassumption. eapply entry_context_node; eassumption. }
    apply (reached p (attribute s) cs o k t I). destruct Hn' as [Hd|(j & ->)].
    - eapply contributions_in; eassumption.
    - clear - C He Hl Ht T K Di default_holder name. induction C as [|f l o' q cb r Ho' Hq Hcb Hr IH]; [destruct He|]. apply in_app_iff. destruct He as [<-|He]; [left|right; auto].
      rewrite (located_unique default_holder u g (bs_annotations b) name T K Di _ _ Hl _ Ho'). eapply value_contributes; eassumption. }
  split; [|exact B]. intros Or. destruct (ordinary_bound _ _ _ _ _ _ Or) as (t & Hb & Hmt & Hnt). destruct (B t Hb Hnt) as (v & Hv & Hr). eauto.
Qed.
