(** * Proofs about when manual bindings are executed *)
From Coq Require Import Sorting.Permutation Sorting.Sorted.
From Verif Require Import Base ParserModel AnnotModel AnnotSpec AnnotFinal CollectModel GraphModel GraphSpec GraphProofs GraphPlace GraphFinal OrderModel OrderSpec InlineModel InlineSpec
  EmitModel EmitSpec EmitFold EmitProofs EmitFinal ModuleModel ModuleSpec ModuleProofs ModuleChunks ModuleFinal ImportSpec ImportProofs ExecSpec ExecProofs AccessSpec AccessProofs ManualSpec.

(** ** Execution *)

Section Run.
Context (mro : nat -> list nat) (manual : nat -> object -> pystate -> option pystate) (fails : stmt -> bool).

Lemma effects_app types a b : forall p q r, effects mro manual fails types p a q -> effects mro manual fails types q b r -> effects mro manual fails types p (a ++ b) r.
Proof.
  induction a as [|x a IH]; intros p q r Ha Hb; cbn [app]; inversion Ha; subst; [exact Hb|]. econstructor; eauto.
Qed.

Lemma body_effects types o q body : forall p p', fold_opt (statement mro manual fails types o q) body p = Some p' -> effects mro manual fails types p (map (Statement o q) body) p'.
Proof.
  induction body as [|t body IH]; intros p p'; cbn [fold_opt map]; [intros [= <-]; constructor|].
  destruct (statement mro manual fails types o q p t) as [p1|] eqn:E; [|discriminate]. intros H. econstructor; [exact E|auto].
Qed.

Lemma final_effects types post : forall p p', fold_opt (fun p l => manual l (Mod []) p) post p = Some p' -> effects mro manual fails types p (map Final post) p'.
Proof.
  induction post as [|l post IH]; intros p p'; cbn [fold_opt map]; [intros [= <-]; constructor|].
  destruct (manual l (Mod []) p) as [p1|] eqn:E; [|discriminate]. intros H. econstructor; [exact E|auto].
Qed.

Lemma calls_effects files intros s calls : forall p p', fold_opt (call mro manual fails files intros s) calls p = Some p' ->
  exists ls, all_some (called_steps files intros s) calls = Some ls /\ effects mro manual fails (map fst (s_types s)) p (concat ls) p'.
Proof.
  induction calls as [|c calls IH]; intros p p'; cbn [fold_opt all_some]; [intros [= <-]; exists []; split; [reflexivity|constructor]|].
  destruct (call mro manual fails files intros s p c) as [p1|] eqn:E; [|discriminate]. intros H. destruct (IH _ _ H) as (ls & -> & Hl).
  unfold call in E. unfold called_steps. destruct (value s (snd c)) as [o|]; [|discriminate]. destruct (body_named files (fst c)) as [body|]; [|discriminate].
  eexists. split; [reflexivity|]. cbn [concat]. eapply effects_app; [eapply body_effects, E|exact Hl].
Qed.

Lemma run_effects default_holder files m s p : run_module mro manual fails default_holder files m = Some (s, p) ->
  exists steps, performed files m s = Some steps /\ effects mro manual fails (map fst (s_types s)) (initial s) steps p.
Proof.
  unfold run_module, performed. destruct m as [| ? intros calls post |]; try discriminate.
  destruct (import default_holder intros) as [s0|]; [|discriminate].
  destruct (fold_opt (call mro manual fails files intros s0) calls (initial s0)) as [p0|] eqn:E0; [|discriminate].
  destruct (fold_opt (fun p l => manual l (Mod []) p) post p0) as [p1|] eqn:E1; [|discriminate]. intros [= <- <-].
  destruct (calls_effects _ _ _ _ _ _ E0) as (ls & -> & Hl). eexists. split; [reflexivity|]. eapply effects_app; [exact Hl|]. apply final_effects, E1.
Qed.
End Run.

(** ** Bodies *)

Definition codes (body : list stmt) : list nat := flat_map (fun t => match t with SManual l => [l] | _ => [] end) body.

Lemma codes_in body l : In l (codes body) <-> In (SManual l) body.
Proof.
  unfold codes. rewrite in_flat_map. split.
  - intros (t & Ht & Hl). destruct t; try contradiction. destruct Hl as [<-|[]]. exact Ht.
  - intros H. exists (SManual l). split; [exact H|left; reflexivity].
Qed.
Lemma codes_nodup body : NoDup body -> NoDup (codes body).
Proof.
  induction 1 as [|t body Hn _ IH]; cbn; [constructor|]. fold (codes body). destruct t; cbn [app]; try exact IH. constructor; [|exact IH]. rewrite codes_in. exact Hn.
Qed.
Lemma codes_app a b : codes (a ++ b) = codes a ++ codes b.
Proof. apply flat_map_app. Qed.
Lemma codes_closing l : Forall (fun s => closing s = true) l -> codes l = [].
Proof. induction 1 as [|t l H _ IH]; [reflexivity|]. cbn. fold (codes l). rewrite IH. destruct t; try reflexivity. discriminate H. Qed.

Lemma one_code (P : nat -> Prop) l : NoDup l -> (forall c, In c l <-> P c) -> (forall c d, P c -> P d -> c = d) -> (l = [] /\ forall c, ~ P c) \/ exists c, l = [c] /\ P c.
Proof.
  intros Nd H U. destruct l as [|c [|d l]].
  - left. split; [reflexivity|]. intros c Hc. apply H in Hc. destruct Hc.
  - right. exists c. split; [reflexivity|]. apply H. left. reflexivity.
  - inversion Nd as [|? ? Hn _]; subst. exfalso. apply Hn. left. symmetry. apply U; apply H; cbn; auto.
Qed.

Lemma parts_pick (P : nat -> nat -> Prop) l parts : (forall i c d, P i c -> P i d -> c = d) ->
  Forall2 (fun i part => NoDup part /\ forall c, In (SManual c) part <-> P i c) l parts -> picks P l (codes (concat parts)).
Proof.
  intros U. induction 1 as [|i part l parts (Nd & H) _ IH]; cbn [concat]; [constructor|]. rewrite codes_app.
  destruct (one_code (P i) (codes part) (codes_nodup _ Nd)) as [(-> & Hn)|(c & -> & Hc)].
  - intros c. rewrite codes_in. apply H.
  - intros c d. apply U.
  - cbn [app]. constructor; assumption.
  - cbn [app]. constructor; assumption.
Qed.

Lemma picks_filter P f l ls : picks P l ls -> (forall i c, In i l -> P i c -> f i = true) -> picks P (filter f l) ls.
Proof.
  induction 1 as [|i c l ls Hp H IH|i l ls Hn H IH]; intros Hf; cbn [filter]; [constructor| |].
  - rewrite (Hf i c (or_introl eq_refl) Hp). constructor; [exact Hp|]. apply IH. intros j d Hj. apply Hf. right. exact Hj.
  - destruct (f i); [constructor; [exact Hn|]|]; apply IH; intros j d Hj; apply Hf; right; exact Hj.
Qed.
Lemma picks_ext P Q l ls : picks P l ls -> (forall i c, In i l -> (P i c <-> Q i c)) -> picks Q l ls.
Proof.
  induction 1 as [|i c l ls Hp H IH|i l ls Hn H IH]; intros Hf; [constructor| |].
  - constructor; [apply Hf; [left; reflexivity|exact Hp]|]. apply IH. intros j d Hj. apply Hf. right. exact Hj.
  - apply picks_skip; [intros c Hc; apply (Hn c), Hf; [left; reflexivity|exact Hc]|]. apply IH. intros j d Hj. apply Hf. right. exact Hj.
Qed.

(** ** Order of declarations *)

Lemma filter_none {A} (f : A -> bool) l : (forall a, In a l -> f a = false) -> filter f l = [].
Proof. induction l as [|a l IH]; intros H; [reflexivity|]. cbn [filter]. rewrite (H a (or_introl eq_refl)). apply IH. intros b Hb. apply H. right. exact Hb. Qed.

Lemma filter_expand u w l : no_variables u w ->
  filter (is_variable u) (flat_map (expand (w_extra w)) l) = filter (is_variable u) l.
Proof.
  intros NV. induction l as [|i l IH]; [reflexivity|]. cbn [flat_map filter]. rewrite filter_app, IH.
  unfold expand. destruct (x_specializations (w_extra w) i) as [s|] eqn:E.
  - destruct (nv_templates _ _ NV i s E) as [-> Hs]. rewrite filter_none; [reflexivity|exact Hs].
  - cbn [filter]. destruct (is_variable u i); reflexivity.
Qed.

Lemma filter_sorted {A} (R : A -> A -> Prop) f l : StronglySorted R l -> StronglySorted R (filter f l).
Proof.
  induction 1 as [|a l Hs IH Ha]; cbn [filter]; [constructor|]. destruct (f a); [|exact IH]. constructor; [exact IH|].
  rewrite Forall_forall in *. intros b Hb. apply filter_In in Hb as [Hb _]. auto.
Qed.

Lemma operator_variable u w r i : no_variables u w -> In i (associated_operators (w_extra w) r) -> is_variable u i = false.
Proof.
  intros NV Hi. unfold associated_operators in Hi. apply filter_In in Hi as [Hi _]. apply in_flat_map in Hi as (j & Hj & Hi). apply in_flat_map in Hj as (k & _ & Hj).
  unfold expand in Hi. destruct (x_specializations (w_extra w) j) as [l|] eqn:E; [exact (proj2 (nv_templates _ _ NV j l E) i Hi)|]. destruct Hi as [<-|[]]. exact (nv_operators _ _ NV r k j Hj).
Qed.

Lemma variables_sorted u w c x : no_variables u w -> StronglySorted (fun i j => (u_location u i <= u_location u j)%N) (filter (is_variable u) (flat_map (expand (w_extra w)) (looked_up u w c x))).
Proof.
  intros NV. rewrite filter_expand by exact NV. unfold looked_up, declarations. rewrite filter_app.
  rewrite (filter_none _ (match kind u c with KRecord => _ | _ => _ end)).
  - rewrite app_nil_r. apply filter_sorted. exact (sort_sorted u _).
  - intros i Hi. destruct (kind u c); try destruct Hi. eapply operator_variable; eassumption.
Qed.

(** ** One context *)

Lemma forall2_weaken {A B} (R Q : A -> B -> Prop) l m : (forall a b, In a l -> R a b -> Q a b) -> Forall2 R l m -> Forall2 Q l m.
Proof. intros H F. induction F as [|a b l m Hr _ IH]; constructor; [apply H; [left; reflexivity|exact Hr]|]. apply IH. intros c d Hc. apply H. right. exact Hc. Qed.

Lemma emitted_binding u x e dv st i l : emitted_for u x e dv st i (SManual l) <->
  match e with XEnum _ => False | _ => True end /\ is_variable u i = true /\
  exists a, lookup_attrs st i = Some a /\ shown dv a /\ f_manual (at_field a) = Some l /\ ((exists r p, e = XRecord r p) \/ f_postamble (at_field a) = false).
Proof.
  unfold emitted_for, is_variable. split.
  - intros (a & Ha & Hs & Hb). destruct e as [|k|k|r p]; cbn [EmitSpec.bound] in Hb.
    1,2: inversion Hb as [? Hf|? Hf| |? K M P]; subst; [inversion Hf|inversion Hf|]; split; [exact I|]; split; [destruct K as [->| ->]; reflexivity|]; exists a; auto.
    + inversion Hb.
    + inversion Hb as [? ? Hf|? Hf|? K M| | | | |]; subst; [inversion Hf|inversion Hf|]. split; [exact I|]. split; [destruct K as [->| ->]; reflexivity|]. exists a. eauto 8.
  - intros (He & K & a & Ha & Hs & M & P). exists a. split; [exact Ha|]. split; [exact Hs|].
    assert (K' : kind u i = KVar \/ kind u i = KField) by (destruct (kind u i); try discriminate K; auto).
    destruct e as [|k|k|r p]; cbn [EmitSpec.bound]; [apply ns_manual; auto|apply ns_manual; auto|destruct He|apply rec_manual; auto].
    all: destruct P as [(r & p & [=])|P]; exact P.
Qed.

Lemma create_kind u st h c x : create u st h c = Some x -> (kind u c = KRecord <-> exists r p, x = XRecord r p) /\ (kind u c = KEnum <-> exists k, x = XEnum k).
Proof.
  unfold create. destruct (kind u c) eqn:K; try (intros [= <-]; split; split; [discriminate|intros (? & ? & [=])|discriminate|intros (? & [=])]).
  - intros [= <-]. split; split; [discriminate|intros (? & ? & [=])|eauto|auto].
  - destruct (create_policy u st h c); [|discriminate]. intros [= <-]. split; split; [eauto|auto|discriminate|intros (? & [=])].
Qed.

Lemma expand_variable u w l i : no_variables u w -> In i (flat_map (expand (w_extra w)) l) -> is_variable u i = true -> In i l.
Proof. intros NV Hi Hv. assert (H : In i (filter (is_variable u) (flat_map (expand (w_extra w)) l))) by (apply filter_In; auto). rewrite (filter_expand _ _ _ NV) in H. apply filter_In in H as [H _]. exact H. Qed.

Lemma variable_tag u i : is_variable u i = true -> is_tag_kind (kind u i) = false.
Proof. unfold is_variable. destruct (kind u i); try discriminate; reflexivity. Qed.

Lemma body_bindings u w iteration found implicit name g vis b st' e rs : setting u w iteration -> exposed u found implicit name g vis b -> In (ex_context e) (g_nodes g) ->
  no_variables u w -> body_of u w vis (bs_annotations b) st' e rs -> bindings_of u w b name (ex_context e) (codes (ex_body e)).
Proof.
  intros S X Hc NV (x & st1 & st2 & Hx & D & _ & _ & Ff). destruct (exposed_graph _ _ _ _ _ S _ _ _ _ X) as (_ & _ & _ & Fa & _). specialize (Ff Fa).
  exists x, (filter (is_variable u) (flat_map (expand (w_extra w)) (looked_up u w (ex_context e) x))).
  split; [exact Hx|]. split; [apply Permutation_refl|]. split; [apply variables_sorted, NV|].
  destruct (define_spec _ _ _ _ _ _ _ _ _ D) as [(parts & final & E & F & Fc & _) H1 _ H3 _ _ _ _ _].
  rewrite E, codes_app, (codes_closing _ Fc), app_nil_r.
  set (P := fun i l => emitted_for u (w_extra w) x (lookup_vis vis (ex_context e)) st2 i (SManual l)).
  assert (H : picks P (filter (is_variable u) (flat_map (expand (w_extra w)) (looked_up u w (ex_context e) x))) (codes (concat parts))).
  { apply picks_filter; [|intros i c _ Hp; apply emitted_binding in Hp as (_ & Hv & _); exact Hv].
    apply parts_pick; [intros i c d Hp Hq; apply emitted_binding in Hp as (_ & _ & a & Ha & _ & Hm & _), Hq as (_ & _ & a' & Ha' & _ & Hm' & _); congruence|].
    eapply forall2_weaken; [|exact F]. intros i part _ (Nd & Hp). split; [exact Nd|]. intros c. apply Hp. }
  apply (picks_ext _ _ _ _ H). intros i l Hi. apply filter_In in Hi as [Hi Hv]. unfold P. rewrite emitted_binding. unfold binding.
  destruct (create_kind _ _ _ _ _ Hx) as [Kr Ke]. split.
  - intros (_ & _ & a & Ha & Sh & Hm & Hp).
    assert (Ho : own_attributes u i a) by exact (define_faithful _ _ _ _ _ _ _ _ _ D Ff i a (variable_tag _ _ Hv) Ha).
    split; [|exists a; split; [exact Ho|]; split; [exact Hm|]; rewrite Kr; exact Hp].
    apply own_says in Ho. unfold visible_in. destruct Sh as [V|[V Dv]]; rewrite V in Ho; [left; exact Ho|right]. split; [exact Ho|]. eapply lookup_visible; eassumption.
  - intros (V & a & Ho & Hm & Hp). split.
    + destruct x as [|k|k|r p]; try exact I. assert (K : kind u (ex_context e) = KEnum) by (apply Ke; eauto).
      assert (Hj := expand_variable u w _ i NV Hi Hv). rewrite (nv_enums _ _ NV _ _ _ K Hj) in Hv. discriminate Hv.
    + split; [exact Hv|]. exists a. split; [|split; [eapply visible_shown; eassumption|split; [exact Hm|rewrite Kr in Hp; exact Hp]]].
      destruct (lookup_attrs st1 i) as [a'|] eqn:El.
      * rewrite (own_unique _ _ _ _ Ho (Ff i a' (variable_tag _ _ Hv) El)). exact (H1 _ _ El).
      * destruct (H3 i Hi (proj1 (own_says _ _ _ Ho)) El) as (a' & Ho' & Hl). rewrite (own_unique _ _ _ _ Ho Ho'). exact Hl.
Qed.

(** ** The module *)

Lemma manual_app a b : manual_code (a ++ b) = manual_code a ++ manual_code b.
Proof. apply flat_map_app. Qed.
Lemma manual_body o q body : manual_code (map (Statement o q) body) = map (pair o) (codes body).
Proof.
  unfold manual_code, codes. induction body as [|t body IH]; [reflexivity|]. cbn [map flat_map]. rewrite IH, map_app. f_equal. destruct t; reflexivity.
Qed.
Lemma manual_final post : manual_code (map Final post) = map (pair (Mod [])) post.
Proof. unfold manual_code. induction post as [|l post IH]; [reflexivity|]. cbn [map flat_map]. rewrite IH. reflexivity. Qed.

Lemma called_bindings files intros s (Q : entry -> list nat -> Prop) l : forall ls,
  (forall e, In e l -> body_named files (ex_id e) = Some (ex_body e) /\ Q e (codes (ex_body e))) ->
  all_some (called_steps files intros s) (map (fun e => (ex_id e, ex_id e)) l) = Some ls ->
  exists parts, Forall2 (fun e part => exists o ls, value s (ex_id e) = Some o /\ Q e ls /\ part = map (pair o) ls) l parts /\ manual_code (concat ls) = concat parts.
Proof.
  induction l as [|e l IH]; intros ls H; cbn [map all_some].
  - intros [= <-]. exists []. split; [constructor|reflexivity].
  - destruct (H e (or_introl eq_refl)) as [Hb HQ]. unfold called_steps at 1. cbn [fst snd]. rewrite Hb. destruct (value s (ex_id e)) as [o|] eqn:Ev; [|discriminate].
    destruct (all_some (called_steps files intros s) (map (fun e => (ex_id e, ex_id e)) l)) as [ls'|] eqn:E; [|discriminate]. intros [= <-].
    destruct (IH ls' (fun e' He => H e' (or_intror He)) eq_refl) as (parts & F & Hm). exists (map (pair o) (codes (ex_body e)) :: parts). split.
    + constructor; [eauto|exact F].
    + cbn [concat]. rewrite manual_app, Hm, manual_body. reflexivity.
Qed.

Lemma module_bindings default_holder mro manual fails u w found implicit iteration n name b files rs st' : setting u w iteration -> no_variables u w -> 0 < n ->
  generate u w found implicit iteration n name = Some (RGraph b (EWritten files rs st')) ->
  exists g vis order all chunks post, exposed u found implicit name g vis b /\
    generated u w g vis (bs_annotations b) name rs st' order all post /\ layout name post all chunks files /\
    let intros := map (fun e => (ex_id e, ex_intro e)) all in
    let m := IModule name intros (map (fun e => (ex_id e, ex_id e)) all) post in
    filter is_module (concat files) = [m] /\
    (forall e r, all = e :: r -> ex_context e = u_root u) /\
    (NoDup (map fst intros) -> forall s p, run_module mro manual fails default_holder files m = Some (s, p) ->
      (exists steps parts, performed files m s = Some steps /\ effects mro manual fails (map fst (s_types s)) (initial s) steps p /\
        Forall2 (fun e part => exists o ls, value s (ex_id e) = Some o /\ bindings_of u w b name (ex_context e) ls /\ part = map (pair o) ls) all parts /\
        manual_code steps = concat parts ++ map (pair (Mod [])) post) /\
      (nested_blocks u -> agreeing_blocks u (bs_annotations b) g -> distinct_names u (bs_annotations b) g -> usable_bases default_holder w intros ->
       forall e o, In e all -> value s (ex_id e) = Some o -> located u (bs_annotations b) g (ex_context e) o)).
Proof.
  intros S NV Hn HG. destruct (run_written _ _ _ _ _ S _ _ _ _ _ _ Hn HG) as (g & vis & order & all & chunks & post & X & G & Ly & Hlen & _).
  exists g, vis, order, all, chunks, post. split; [exact X|]. split; [exact G|]. split; [exact Ly|]. intros intros m.
  assert (Hf : 0 < length files) by lia. destruct (layout_definitions _ _ _ _ _ Ly Hf) as [Hd Hm]. split; [exact Hm|].
  split; [intros e r E; destruct (ge_places _ _ _ _ _ _ _ _ _ _ _ G [] e r E) as [[H _]|[_ (p & f & _ & [] & _)]]; exact H|].
  intros Nd s p R. unfold intros in Nd. rewrite map_map in Nd. cbn [fst] in Nd. split.
  - destruct (run_effects _ _ _ _ _ _ _ _ R) as (steps & Hs & He). assert (Hs' := Hs). unfold performed, m in Hs.
    destruct (all_some (called_steps files intros s) (map (fun e => (ex_id e, ex_id e)) all)) as [ls|] eqn:E; [|discriminate Hs]. injection Hs as <-.
    destruct (ge_bodies _ _ _ _ _ _ _ _ _ _ _ G) as (rss & Fb & _).
    destruct (called_bindings files intros s (fun e ls => bindings_of u w b name (ex_context e) ls) all ls) as (parts & F & Hp); [|exact E|].
    + intros e Hi. split; [apply (body_found files all e Hd Nd Hi)|]. destruct (forall2_in_l _ _ _ _ Fb Hi) as (r & _ & Hbody).
      eapply body_bindings; try eassumption. eapply entry_context_node; eassumption.
    + exists (concat ls ++ map Final post), parts. split; [exact Hs'|]. split; [exact He|]. split; [exact F|]. rewrite manual_app, manual_final, Hp. reflexivity.
  - intros NB Ag Di Ba e o Hi Hv. destruct (exposed_graph _ _ _ _ _ S _ _ _ _ X) as (T & K & Re & _ & Pl).
    pose proof (modules_nested _ _ _ _ _ S _ _ _ _ X) as Ne.
    assert (H : exists s, import default_holder (map (fun e => (ex_id e, ex_intro e)) all) = Some s /\ so_far default_holder u g (bs_annotations b) all s)
      by (eapply import_so_far; try eassumption; [exact (se_placed _ _ _ S)|exact (se_language _ _ _ S)]).
    destruct H as (s' & Hs' & C). unfold run_module, m in R. unfold intros in R. rewrite Hs' in R.
    assert (s' = s).
    { destruct (fold_opt _ _ (initial s')) as [p0|]; [|discriminate R]. destruct (fold_opt _ post p0) as [p1|]; [|discriminate R]. injection R as -> _. reflexivity. }
    subst s'. destruct (co_values _ _ _ _ _ _ C e Hi) as (o' & Hv' & Hl). rewrite Hv in Hv'. injection Hv' as <-. exact Hl.
Qed.

(** ** Which manual bindings are executed *)

Lemma picks_iff P ds ls : picks P ds ls -> (forall i c d, P i c -> P i d -> c = d) -> forall l, In l ls <-> exists i, In i ds /\ P i l.
Proof.
  intros H U l. induction H as [|i c ds ls Hp _ IH|i ds ls Hn _ IH].
  - split; [intros []|intros (i & [] & _)].
  - cbn [In]. rewrite IH. split.
    + intros [<-|(j & Hj & Hl)]; [exists i; auto|exists j; auto].
    + intros (j & [<-|Hj] & Hl); [left; eapply U; eassumption|right; eauto].
  - rewrite IH. split; intros (j & Hj & Hl); exists j; [split; [right; exact Hj|exact Hl]|]. destruct Hj as [<-|Hj]; [destruct (Hn _ Hl)|auto].
Qed.

Lemma binding_unique u b name c i l k : binding u b name c i l -> binding u b name c i k -> l = k.
Proof. intros (_ & a & Ho & Hm & _) (_ & a' & Ho' & Hm' & _). rewrite (own_unique _ _ _ _ Ho Ho') in Hm. congruence. Qed.

Lemma bindings_iff u w b name c ls : bindings_of u w b name c ls -> forall l, In l ls <-> exists i, declared_in u w b c i /\ is_variable u i = true /\ binding u b name c i l.
Proof.
  intros (x & ds & Hx & Hp & _ & H) l. rewrite (picks_iff _ _ _ H (binding_unique u b name c)).
  assert (D : forall i, In i ds <-> declared_in u w b c i /\ is_variable u i = true).
  { intros i. split.
    - intros Hi. apply (Permutation_in _ (Permutation_sym Hp)) in Hi. apply filter_In in Hi as [Hi Hv]. split; [exists x; auto|exact Hv].
    - intros ((x' & Hx' & Hi) & Hv). rewrite Hx in Hx'. injection Hx' as <-. apply (Permutation_in _ Hp). apply filter_In. auto. }
  split; intros (i & H1 & H2); exists i.
  - apply D in H1 as [Hd Hv]. auto.
  - destruct H2 as [Hv Hb]. split; [apply D; auto|exact Hb].
Qed.

Lemma module_executed default_holder mro manual fails u w found implicit iteration n name b files rs st' : setting u w iteration -> no_variables u w -> 0 < n ->
  generate u w found implicit iteration n name = Some (RGraph b (EWritten files rs st')) ->
  exists g vis order all chunks post, exposed u found implicit name g vis b /\
    generated u w g vis (bs_annotations b) name rs st' order all post /\ layout name post all chunks files /\
    let intros := map (fun e => (ex_id e, ex_intro e)) all in
    let m := IModule name intros (map (fun e => (ex_id e, ex_id e)) all) post in
    (NoDup (map fst intros) -> forall s p, run_module mro manual fails default_holder files m = Some (s, p) ->
      exists steps, performed files m s = Some steps /\ forall o l, In (o, l) (manual_code steps) <->
        (exists e i, In e all /\ value s (ex_id e) = Some o /\ declared_in u w b (ex_context e) i /\ is_variable u i = true /\ binding u b name (ex_context e) i l) \/
        (o = Mod [] /\ exists i a, In i (w_variables w) /\ supports_field (u_decls u i) = true /\ lookup_attrs (bs_annotations b) i = Some a /\ f_manual (at_field a) = Some l /\ f_postamble (at_field a) = true)).
Proof.
  intros S NV Hn HG. destruct (module_bindings default_holder mro manual fails _ _ _ _ _ _ _ _ _ _ _ S NV Hn HG) as (g & vis & order & all & chunks & post & X & G & Ly & _ & _ & H).
  exists g, vis, order, all, chunks, post. split; [exact X|]. split; [exact G|]. split; [exact Ly|]. intros intros m Nd s p R.
  destruct (H Nd s p R) as [(steps & parts & Hs & _ & F & Hc) _]. exists steps. split; [exact Hs|]. intros o l. rewrite Hc, in_app_iff.
  assert (Hpost : In (o, l) (map (pair (Mod [])) post) <-> o = Mod [] /\ In l post).
  { rewrite in_map_iff. split; [intros (k & [= <- <-] & Hk); auto|intros [-> Hl]; exists l; auto]. }
  assert (Hfin : In l post <-> exists i a, In i (w_variables w) /\ supports_field (u_decls u i) = true /\ lookup_attrs (bs_annotations b) i = Some a /\ f_manual (at_field a) = Some l /\ f_postamble (at_field a) = true).
  { clear -G. pose proof (ge_final _ _ _ _ _ _ _ _ _ _ _ G) as Hf. clear G. induction Hf as [|i vs a k code Hs Ha Hm Hp Hf IH|i vs code Hn Hf IH].
    - split; [intros []|intros (i & a & [] & _)].
    - cbn [In]. rewrite IH. split.
      + intros [<-|(j & a' & Hj & Hl)]; [exists i, a; auto 6|exists j, a'; tauto].
      + intros (j & a' & [<-|Hj] & Hl); [left; destruct Hl as (_ & Hl & Hm' & _); congruence|right; eauto].
    - rewrite IH. split; intros (j & a & Hj & Hl & Ha & Hm & Hp); exists j, a; [cbn; auto 6|]. destruct Hj as [<-|Hj]; [destruct (Hn a Hl Ha); congruence|auto 6]. }
  rewrite Hpost, Hfin. assert (Hin : In (o, l) (concat parts) <-> exists e i, In e all /\ value s (ex_id e) = Some o /\ declared_in u w b (ex_context e) i /\ is_variable u i = true /\ binding u b name (ex_context e) i l); [|rewrite Hin; reflexivity].
  clear -F. induction F as [|e part all parts (o' & ls & Hv & Hb & ->) _ IH]; cbn [concat].
  - split; [intros []|intros (e & i & [] & _)].
  - rewrite in_app_iff, IH. assert (H : In (o, l) (map (pair o') ls) <-> o = o' /\ In l ls).
    { rewrite in_map_iff. split; [intros (k & [= <- <-] & Hk); auto|intros [-> Hl]; exists l; auto]. }
    rewrite H, (bindings_iff _ _ _ _ _ _ Hb). split.
    + intros [(-> & i & Hi)|(f & i & Hf & Hi)]; [exists e, i; cbn; tauto|exists f, i; cbn; tauto].
    + intros (f & i & [<-|Hf] & Hvf & Hi); [left; split; [congruence|eauto]|right; exists f, i; tauto].
Qed.
