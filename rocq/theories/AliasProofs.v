(** * Proofs about aliases in Python *)
From Coq Require Import Sorting.Permutation.
From Verif Require Import Base ParserModel AnnotModel AnnotSpec AnnotFinal CollectModel GraphModel GraphSpec GraphProofs GraphPlace GraphFinal OrderModel OrderSpec InlineModel InlineSpec
  EmitModel EmitSpec EmitFold EmitProofs EmitFinal ModuleModel ModuleSpec ModuleProofs ModuleChunks ModuleFinal ImportSpec ImportProofs ExecSpec ExecProofs AccessSpec AccessProofs ManualSpec ManualProofs
  AliasModel AliasSpec.

(** ** Statements for aliases *)

Lemma emitted_alias u x e dv st i n t : emitted_for u x e dv st i (SAlias n t) <->
  (forall k, e <> XEnum k) /\ kind u i = KTypedef /\ x_tag x i = Some t /\
  exists a, lookup_attrs st i = Some a /\ n_visible (at_named a) = Some true /\ t_expose_here (at_typedef a) = false /\ called u a i [] n.
Proof.
  unfold emitted_for. split.
  - intros (a & Ha & Hs & Hb).
    assert (H : (forall k, e <> XEnum k) /\ bound_alias u x i a (SAlias n t)).
    { destruct e as [|k|k|r p]; cbn [EmitSpec.bound] in Hb.
      1,2: split; [discriminate|]; inversion Hb as [? Hf|? Hf| |]; subst; [inversion Hf|exact Hf].
      - inversion Hb.
      - split; [discriminate|]. inversion Hb as [? ? Hf|? Hf| | | | | |]; subst; [inversion Hf|exact Hf]. }
    destruct H as [He H]. inversion H as [v ? ? K V X T C]; subst. split; [exact He|]. split; [exact K|]. split; [exact T|]. exists a. split; [exact Ha|].
    split; [|auto]. destruct Hs as [Hs|[Hs _]]; [exact Hs|congruence].
  - intros (He & K & T & a & Ha & V & X & C). exists a. split; [exact Ha|]. split; [left; exact V|].
    assert (B : bound_alias u x i a (SAlias n t)) by (eapply bound_attr; eassumption).
    destruct e as [|k|k|r p]; cbn [EmitSpec.bound]; [apply ns_alias, B..|destruct (He k eq_refl)|apply rec_alias, B].
Qed.

Lemma body_aliases u w iteration found implicit name g vis b st' e rs : setting u w iteration -> exposed u found implicit name g vis b ->
  body_of u w vis (bs_annotations b) st' e rs ->
  forall n t, In (SAlias n t) (ex_body e) <-> kind u (ex_context e) <> KEnum /\ exists i, declared_in u w b (ex_context e) i /\ shown_alias u w i t n.
Proof.
  intros S X (x & st1 & st2 & Hx & D & _ & _ & Ff) n t. destruct (exposed_graph _ _ _ _ _ S _ _ _ _ X) as (_ & _ & _ & Fa & _). specialize (Ff Fa).
  destruct (create_kind _ _ _ _ _ Hx) as [_ Ke]. rewrite (in_parts _ _ _ _ _ _ _ _ _ D (SAlias n t) eq_refl). split.
  - intros (i & Hi & Em). apply emitted_alias in Em as (He & K & T & a & Ha & V & Ex & C). split.
    + intro H. apply Ke in H as (k & ->). exact (He k eq_refl).
    + exists i. split; [exists x; auto|].
      assert (Ht : is_tag_kind (kind u i) = false) by (rewrite K; reflexivity).
      assert (Ho : own_attributes u i a) by exact (define_faithful _ _ _ _ _ _ _ _ _ D Ff i a Ht Ha).
      split; [exact K|]. split; [rewrite <- V; apply own_says, Ho|]. split; [exact T|]. exists a. auto.
  - intros (Hk & i & (x' & Hx' & Hi) & K & V & T & a & Ho & Ex & C). rewrite Hx in Hx'. injection Hx' as <-. exists i. split; [exact Hi|]. apply emitted_alias.
    split; [intros k ->; apply Hk, Ke; eauto|]. split; [exact K|]. split; [exact T|]. exists a.
    assert (Ht : is_tag_kind (kind u i) = false) by (rewrite K; reflexivity).
    split; [|split; [exact (says_unique _ _ _ _ (own_says _ _ _ Ho) V)|auto]].
    destruct (define_spec _ _ _ _ _ _ _ _ _ D) as [_ H1 _ H3 _ _ _ _ _]. destruct (lookup_attrs st1 i) as [a'|] eqn:El.
    + rewrite (own_unique _ _ _ _ Ho (Ff i a' Ht El)). exact (H1 _ _ El).
    + destruct (H3 i Hi (proj1 (own_says _ _ _ Ho)) El) as (a' & Ho' & Hl). rewrite (own_unique _ _ _ _ Ho Ho'). exact Hl.
Qed.

(** ** Steps *)

Lemma called_in files intros s l : forall ls, (forall e, In e l -> body_named files (ex_id e) = Some (ex_body e)) ->
  all_some (called_steps files intros s) (map (fun e => (ex_id e, ex_id e)) l) = Some ls ->
  forall o t, (exists q, In (Statement o q t) (concat ls)) <-> exists e, In e l /\ value s (ex_id e) = Some o /\ In t (ex_body e).
Proof.
  induction l as [|e l IH]; intros ls H; cbn [map all_some].
  - intros [= <-] o t. split; [intros (q & [])|intros (e & [] & _)].
  - assert (Hb := H e (or_introl eq_refl)). unfold called_steps at 1. cbn [fst snd]. rewrite Hb. destruct (value s (ex_id e)) as [o'|] eqn:Ev; [|discriminate].
    destruct (all_some (called_steps files intros s) (map (fun e => (ex_id e, ex_id e)) l)) as [ls'|] eqn:E; [|discriminate]. intros [= <-] o t.
    specialize (IH ls' (fun e' He => H e' (or_intror He)) eq_refl o t). cbn [concat]. split.
    + intros (q & Hi). apply in_app_iff in Hi as [Hi|Hi].
      * apply in_map_iff in Hi as (t' & [= <- _ <-] & Ht). exists e. split; [left; reflexivity|]. auto.
      * destruct (proj1 IH) as (f & Hf & Hr); [eauto|]. exists f. split; [right; exact Hf|exact Hr].
    + intros (f & [<-|Hf] & Hv & Ht).
      * exists (scope_in intros s (ex_id e)). apply in_app_iff. left. apply in_map_iff. exists t. split; [congruence|exact Ht].
      * destruct (proj2 IH) as (q & Hq); [eauto|]. exists q. apply in_app_iff. auto.
Qed.

(** ** Types *)

Section Types.
Context (default_holder : str -> bool) (u : unit) (w : facts) (g : graph) (st : storage).

Record typed_so_far (l : list entry) (s : state) : Prop := {
  ts_enum : forall id t, value s id = Some (Enum t) -> kind u t = KEnum;
  ts_held : forall f, In f l -> kind u (ex_context f) = KEnum -> value s (ex_id f) = Some (Enum (ex_context f));
  ts_types : forall t, holding s t <> None <-> exists f, In f l /\ ex_context f = t /\ is_tag_kind (kind u t) = true
}.

Lemma typed_add l s e o attrs ts : typed_so_far l s -> value s (ex_id e) = None ->
  (forall t, o = Enum t -> kind u t = KEnum) -> (kind u (ex_context e) = KEnum -> o = Enum (ex_context e)) ->
  (forall t, holding (mkState ((ex_id e, o) :: s_variables s) attrs ts) t <> None <-> holding s t <> None \/ (t = ex_context e /\ is_tag_kind (kind u t) = true)) ->
  typed_so_far (l ++ [e]) (mkState ((ex_id e, o) :: s_variables s) attrs ts).
Proof.
  intros [H1 H2 H3] Hn Ho Hk Ht. constructor.
  - intros id t Hv. rewrite (value_cons _ _ _ _ _ _ _ eq_refl) in Hv. destruct (str_eqb (ex_id e) id); [injection Hv as ->; auto|]. exact (H1 id t Hv).
  - intros f Hf Kf. rewrite (value_cons _ _ _ _ _ _ _ eq_refl). apply in_app_iff in Hf as [Hf|[<-|[]]].
    + destruct (str_eqb (ex_id e) (ex_id f)) eqn:E; [|exact (H2 f Hf Kf)]. apply str_eqb_eq in E. rewrite E, (H2 f Hf Kf) in Hn. discriminate Hn.
    + rewrite str_eqb_refl. f_equal. auto.
  - intros t. rewrite Ht, H3. split.
    + intros [(f & Hf & Hr)|[-> Hr]]; [exists f; split; [apply in_app_iff; auto|exact Hr]|exists e; split; [apply in_app_iff; cbn; auto|auto]].
    + intros (f & Hf & Hr). apply in_app_iff in Hf as [Hf|[<-|[]]]; [left; eauto|right]. destruct Hr as [<- Hr]. auto.
Qed.

Lemma typed_step l s e s1 : typed_so_far l s -> introduces u w g st (ex_context e) (ex_intro e) -> execute default_holder s (ex_id e, ex_intro e) = Some s1 -> typed_so_far (l ++ [e]) s1.
Proof.
  intros J I. unfold execute. cbn [fst snd]. destruct (value s (ex_id e)) eqn:Hn; [discriminate|]. destruct (value s (intro_parent (ex_intro e))) as [o|] eqn:Hp; [|discriminate].
  unfold introduces in I.
  assert (Hmod : is_tag_kind (kind u (ex_context e)) = false -> forall o attrs, (forall t, o = Enum t -> kind u t = KEnum) -> typed_so_far (l ++ [e]) (mkState ((ex_id e, o) :: s_variables s) attrs (s_types s))).
  { intros Hk o' attrs Ho'. apply typed_add; auto; [intros K; rewrite K in Hk; discriminate Hk|]. intros t. unfold holding. cbn [s_types]. split; [auto|intros [H|[-> H]]; [exact H|congruence]]. }
  assert (Hreg : forall n r bases d c, kind u (ex_context e) = KRecord /\ c = Class r \/ kind u (ex_context e) = KEnum /\ c = Enum r -> r = ex_context e ->
    register s o n r bases d c (ex_id e) = Some s1 -> typed_so_far (l ++ [e]) s1).
  { intros n r bases d c Hk -> Hr. unfold register in Hr. destruct (attribute s o n); [discriminate|]. destruct (holding s (ex_context e)); [discriminate|]. destruct (forallb _ bases); [|discriminate].
    injection Hr as <-. apply typed_add; auto.
    - intros t ->. destruct Hk as [[_ Hc]|[K Hc]]; [discriminate Hc|]. injection Hc as ->. exact K.
    - intros K. destruct Hk as [[K' _]|[_ Hc]]; [congruence|exact Hc].
    - intros t. rewrite holding_cons. change (holding (mkState _ _ (s_types s)) t) with (holding s t). destruct (Nat.eqb_spec (ex_context e) t) as [<-|Hne].
      + split; [intros _; right; split; [reflexivity|destruct Hk as [[-> _]|[-> _]]; reflexivity]|discriminate].
      + split; [auto|intros [H|[-> _]]; [exact H|congruence]]. }
  assert (Hal : forall par, ex_intro e = NAlias par -> is_tag_kind (kind u (ex_context e)) = false -> Some (mkState ((ex_id e, o) :: s_variables s) (s_attributes s) (s_types s)) = Some s1 -> typed_so_far (l ++ [e]) s1).
  { intros par _ Hk [= <-]. apply Hmod; [exact Hk|]. intros t ->. exact (ts_enum _ _ J _ _ Hp). }
  destruct (kind u (ex_context e)) eqn:K; try (destruct I as (par & E); rewrite E; intros H; exact (Hal par E eq_refl H)).
  - destruct (ex_intro e) as [par|par n|k par n d|t par n d] eqn:E; try contradiction; [intros H; exact (Hal par eq_refl eq_refl H)|].
    destruct o as [path| |]; try discriminate. intros [= <-]. apply Hmod; [reflexivity|discriminate].
  - destruct I as (par & n & d & E & _). rewrite E. intros H. eapply Hreg; [right; auto|reflexivity|exact H].
  - destruct I as (t & par & n & d & E & _ & Er & _). rewrite E. intros H. eapply Hreg; [left; split; [reflexivity|reflexivity]|exact Er|exact H].
Qed.

Lemma typed_all all s : (forall e, In e all -> introduces u w g st (ex_context e) (ex_intro e)) -> import default_holder (map (fun e => (ex_id e, ex_intro e)) all) = Some s -> typed_so_far all s.
Proof.
  intros I. unfold import. assert (H : forall l2 l1 s0 s, all = l1 ++ l2 -> typed_so_far l1 s0 -> fold_opt (execute default_holder) (map (fun e => (ex_id e, ex_intro e)) l2) s0 = Some s -> typed_so_far all s).
  { induction l2 as [|e l2 IH]; intros l1 s0 s' E J; cbn [map fold_opt].
    - intros [= <-]. rewrite app_nil_r in E. subst. exact J.
    - destruct (execute default_holder s0 (ex_id e, ex_intro e)) as [s1|] eqn:Ee; [|discriminate]. apply (IH (l1 ++ [e]) s1 s').
      + rewrite <- app_assoc. exact E.
      + eapply typed_step; [exact J| |exact Ee]. apply I. rewrite E. apply in_app_iff. cbn. auto. }
  apply (H all []); [reflexivity|]. constructor.
  - intros id t Hv. unfold value in Hv. cbn [s_variables find fst] in Hv. destruct (str_eqb _ id); discriminate Hv.
  - intros f [].
  - intros t. split; [intros Ht; destruct Ht; reflexivity|intros (f & [] & _)].
Qed.

Lemma type_known all s t : typed_so_far all s -> (forall e, In e all -> In (ex_context e) (g_nodes g)) ->
  (In t (g_nodes g) -> exists f, In f all /\ (ex_context f = t \/ same_namespace u (ex_context f) t)) -> is_tag_kind (kind u t) = true ->
  (In t (g_nodes g) -> exists o, located u st g t o /\ type_object s t = Some o) /\ (~ In t (g_nodes g) -> type_object s t = None).
Proof.
  intros [H1 H2 H3] Hall He Hk. unfold type_object. split.
  - intros Ht. destruct (He Ht) as (f & Hf & [E|(_ & K & _)]); [|rewrite K in Hk; discriminate Hk].
    destruct (holding s t) as [d|] eqn:Eh; [|exfalso; apply (proj2 (H3 t)); eauto]. set (held := existsb _ _).
    assert (H : held = true <-> kind u t = KEnum).
    { unfold held. rewrite existsb_exists. split.
      - intros (v & _ & Hv). destruct (value s (fst v)) as [o|] eqn:Ev; [|discriminate]. apply same_object_spec in Hv. subst o. exact (H1 _ _ Ev).
      - intros K. subst t. assert (Hv := H2 f Hf K). assert (Hv' := Hv). unfold value in Hv. destruct (find _ (s_variables s)) as [[m o]|] eqn:Ef; [|discriminate].
        apply find_some in Ef as [Hin Ef]. apply str_eqb_eq in Ef. cbn in Ef. subst m. exists (ex_id f, o). split; [exact Hin|]. cbn [fst]. rewrite Hv'. apply same_object_spec. reflexivity. }
    destruct held.
    + exists (Enum t). split; [apply located_enum, H; reflexivity|reflexivity].
    + exists (Class t). split; [|reflexivity]. apply located_class. destruct (kind u t) eqn:K; try discriminate Hk; [|reflexivity]. destruct H as [_ H]. discriminate (H eq_refl).
  - intros Ht. destruct (holding s t) as [d|] eqn:Eh; [|reflexivity]. exfalso. apply Ht. destruct (proj1 (H3 t)) as (f & Hf & <- & _); [congruence|]. auto.
Qed.
End Types.

(** ** The module *)

Lemma steps_statement ls post o t : (exists q, In (Statement o q t) (concat ls)) <-> exists q, In (Statement o q t) (concat ls ++ map Final post).
Proof.
  split; intros (q & Hq); exists q; [apply in_app_iff; auto|]. apply in_app_iff in Hq as [Hq|Hq]; [exact Hq|]. apply in_map_iff in Hq as (l & [=] & _).
Qed.

Lemma run_imported mro manual fails default_holder files name intros calls post s p :
  run_module mro manual fails default_holder files (IModule name intros calls post) = Some (s, p) -> import default_holder intros = Some s.
Proof.
  unfold run_module. destruct (import default_holder intros) as [s0|]; [|discriminate].
  destruct (fold_opt _ calls (initial s0)) as [p0|]; [|discriminate]. destruct (fold_opt _ post p0) as [p1|]; [|discriminate]. intros [= <- _]. reflexivity.
Qed.

Lemma module_aliases default_holder mro manual fails elsewhere u w found implicit iteration n name b files rs st' : setting u w iteration -> 0 < n ->
  generate u w found implicit iteration n name = Some (RGraph b (EWritten files rs st')) ->
  exists g vis order all chunks post, exposed u found implicit name g vis b /\
    generated u w g vis (bs_annotations b) name rs st' order all post /\ layout name post all chunks files /\
    let intros := map (fun e => (ex_id e, ex_intro e)) all in
    let m := IModule name intros (map (fun e => (ex_id e, ex_id e)) all) post in
    filter is_module (concat files) = [m] /\
    (NoDup (map fst intros) -> forall s p, run_module mro manual fails default_holder files m = Some (s, p) ->
      exists steps, performed files m s = Some steps /\
        (forall o k t, (exists q, In (Statement o q (SAlias k t)) steps) <->
           exists e i, In e all /\ value s (ex_id e) = Some o /\ kind u (ex_context e) <> KEnum /\ declared_in u w b (ex_context e) i /\ shown_alias u w i t k) /\
        (forall before o q k t after, steps = before ++ Statement o q (SAlias k t) :: after -> is_tag_kind (kind u t) = true ->
           let v := object_for_type s (known_elsewhere elsewhere before) t in
           (In t (g_nodes g) -> exists c, located u (bs_annotations b) g t c /\ v = (PObject c, false)) /\
           (~ In t (g_nodes g) -> v = match known_elsewhere elsewhere before t with Some c => (PForeign c, false) | None => (PNone, true) end))).
Proof.
  intros S Hn HG. destruct (run_written _ _ _ _ _ S _ _ _ _ _ _ Hn HG) as (g & vis & order & all & chunks & post & X & G & Ly & Hlen & _).
  exists g, vis, order, all, chunks, post. split; [exact X|]. split; [exact G|]. split; [exact Ly|]. intros intros m.
  assert (Hf : 0 < length files) by lia. destruct (layout_definitions _ _ _ _ _ Ly Hf) as [Hd Hm]. split; [exact Hm|].
  intros Nd s p R. assert (Nd' := Nd). unfold intros in Nd'. rewrite map_map in Nd'. cbn [fst] in Nd'.
  destruct (run_effects _ _ _ _ _ _ _ _ R) as (steps & Hs & _). exists steps. split; [exact Hs|]. split.
  - unfold performed, m in Hs. destruct (all_some (called_steps files intros s) (map (fun e => (ex_id e, ex_id e)) all)) as [ls|] eqn:E; [|discriminate Hs]. injection Hs as <-.
    intros o k t. rewrite <- (steps_statement ls post o (SAlias k t)).
    rewrite (called_in files intros s all ls (fun e He => body_found files all e Hd Nd' He) E o (SAlias k t)).
    destruct (ge_bodies _ _ _ _ _ _ _ _ _ _ _ G) as (rss & Fb & _). split.
    + intros (e & He & Hv & Ht). destruct (forall2_in_l _ _ _ _ Fb He) as (r & _ & Hbody).
      apply (body_aliases _ _ _ _ _ _ _ _ _ _ _ _ S X Hbody) in Ht as (Hk & i & Hi & Ha). exists e, i. auto.
    + intros (e & i & He & Hv & Hk & Hi & Ha). exists e. split; [exact He|]. split; [exact Hv|]. destruct (forall2_in_l _ _ _ _ Fb He) as (r & _ & Hbody).
      apply (body_aliases _ _ _ _ _ _ _ _ _ _ _ _ S X Hbody). eauto.
  - intros before o q k t after _ Hk v. apply run_imported in R.
    assert (J : typed_so_far u all s) by (eapply typed_all; [intros e He; apply (ge_introduces _ _ _ _ _ _ _ _ _ _ _ G e He)|exact R]).
    destruct (type_known u g (bs_annotations b) all s t J) as [H1 H2]; [intros e He; eapply entry_context_node; eassumption|intros Ht; eapply entry_for; eassumption|exact Hk|].
    unfold v, object_for_type. split; [intros Ht; destruct (H1 Ht) as (c & Hl & ->); eauto|intros Ht; rewrite (H2 Ht); reflexivity].
Qed.
