(** * Proofs about the creation of objects in Python *)
From Coq Require Import Sorting.Permutation Sorting.Sorted.
From Verif Require Import Base ParserModel AnnotModel AnnotSpec AnnotStore AnnotProofs AnnotFinal CollectModel CollectSpec GraphModel GraphSpec GraphWalk GraphFinal EmitModel EmitSpec EmitProofs EmitFold EmitFinal ModuleModel ModuleSpec ModuleProofs ModuleChunks ModuleFinal
  InlineModel OrderModel OrderSpec ImportSpec ImportProofs ExecSpec ExecProofs AccessSpec AccessProofs InvalidSpec DispatchSpec DispatchProofs DocSpec DocProofs FindSpec FindProofs StreamProofs CreateSpec.

Definition is_init (s : stmt) : bool := match s with SInit _ _ _ _ => true | _ => false end.
Definition inits (l : list stmt) : list stmt := filter is_init l.

Lemma inits_app a b : inits (a ++ b) = inits a ++ inits b.
Proof. apply filter_app. Qed.

Lemma class_eq r r' : same_object (Class r) (Class r') = Nat.eqb r r'.
Proof. reflexivity. Qed.

(** ** Execution *)

Section Execution.
Context (mro : nat -> list nat) (manual : nat -> object -> pystate -> option pystate) (fails : stmt -> bool).
Hypothesis (M : leaves_constructors manual) (Mv : leaves_values manual).

Definition only_init (s : stmt) : Prop := named_as s init_name -> is_init s = true.

(** The constructors of class [r] are [l]; no value is called so. *)
Definition has (p : pystate) (r : nat) (l : list stmt) : Prop :=
  own p (Class r) init_name = (match l with [] => None | _ => Some (MFunction false l) end) /\ forall e v, In v (entries p e) -> fst v <> init_name.

Lemma setattr_own p o n m p' r : setattr mro p o n m = Some p' -> n <> init_name -> own p' (Class r) init_name = own p (Class r) init_name.
Proof.
  unfold setattr. match goal with |- context[if ?x then _ else _] => destruct x end; [discriminate|]. intros [= <-] Hn. rewrite own_cons.
  destruct (str_eqb n init_name) eqn:E; [apply str_eqb_eq in E; contradiction|]. rewrite andb_false_r. destruct p; reflexivity.
Qed.

Lemma define_own p o n st s p' r : define_function mro p o n st s = Some p' -> n <> init_name -> own p' (Class r) init_name = own p (Class r) init_name.
Proof.
  unfold define_function. intros E Hn.
  repeat match type of E with
  | setattr _ _ _ _ _ = Some _ => exact (setattr_own _ _ _ _ _ _ E Hn)
  | context[match ?x with _ => _ end] => destruct x; try discriminate E
  end.
Qed.

Definition is_class (o : object) (r : nat) : bool := match o with Class k => Nat.eqb k r | _ => false end.

Lemma set_init p o m p' r : setattr mro p o init_name m = Some p' -> own p' (Class r) init_name = if is_class o r then Some m else own p (Class r) init_name.
Proof.
  unfold setattr. match goal with |- context[if ?x then _ else _] => destruct x end; [discriminate|]. intros [= <-]. rewrite own_cons, Base.str_eqb_refl, andb_true_r.
  assert (E : same_object o (Class r) = is_class o r) by (destruct o; reflexivity). rewrite E. destruct (is_class o r), p; reflexivity.
Qed.

Lemma define_init p o s p' r l : define_function mro p o init_name false s = Some p' -> has p r l -> own p' (Class r) init_name = if is_class o r then Some (MFunction false (l ++ [s])) else own p (Class r) init_name.
Proof.
  intros E [H _]. destruct (is_class o r) eqn:Eo.
  - destruct o as [|k|]; try discriminate Eo. cbn in Eo. apply Nat.eqb_eq in Eo. subst k. unfold define_function in E. rewrite H in E.
    assert (G : exists l', setattr mro p (Class r) init_name (MFunction false l') = Some p' /\ l' = l ++ [s]).
    { destruct l as [|t l]; [exists [s]; split; [|reflexivity]|cbn [Bool.eqb] in E; eauto].
      destruct (getattr mro p (Class r) init_name) as [[]|]; try exact E; destruct (private init_name); (exact E || discriminate E). }
    destruct G as (l' & G & ->). rewrite (set_init _ _ _ _ r G). cbn. rewrite Nat.eqb_refl. reflexivity.
  - unfold define_function in E. repeat match type of E with
    | setattr _ _ _ _ _ = Some _ => rewrite (set_init _ _ _ _ r E), Eo; reflexivity
    | context[match ?x with _ => _ end] => destruct x; try discriminate E
    end.
Qed.

Lemma exported_own (q : object) r : forall (vs : list (str * stmt)) p p', (forall v, In v vs -> fst v <> init_name) ->
  fold_opt (fun p v => setattr mro p q (fst v) (MValue (snd v))) vs p = Some p' -> own p' (Class r) init_name = own p (Class r) init_name.
Proof.
  induction vs as [|v vs IH]; intros p p' Hv E; cbn [fold_opt] in E; [congruence|]. destruct (setattr mro p q (fst v) (MValue (snd v))) as [p1|] eqn:E1; [|discriminate E].
  rewrite (IH _ _ (fun v' H => Hv v' (or_intror H)) E). eapply setattr_own; [exact E1|]. apply Hv. left. reflexivity.
Qed.

Lemma statement_init types o scope p s p' r l : statement mro manual fails types o scope p s = Some p' -> only_init s -> has p r l ->
  has p' r (l ++ if is_class o r then inits [s] else []).
Proof.
  intros E Hs H. split.
  2: { intros e v Hv. rewrite (statement_entries _ _ _ Mv _ _ _ _ _ _ e E) in Hv. apply in_app_iff in Hv as [Hv|Hv]; [exact (proj2 H e v Hv)|].
       destruct (is_enum o e); [|destruct Hv]. destruct v as [n t]. apply values_in in Hv as (i & -> & [Hi|[]]). subst s. cbn. intros ->.
       assert (Q : named_as (SValue init_name i) init_name) by (right; eauto). discriminate (Hs Q). }
  assert (No : is_init s = false -> own p' (Class r) init_name = own p (Class r) init_name -> own p' (Class r) init_name = match l ++ (if is_class o r then inits [s] else []) with [] => None | _ => Some (MFunction false (l ++ (if is_class o r then inits [s] else []))) end).
  { intros Hi ->. assert (Z : (if is_class o r then inits [s] else []) = []) by (unfold inits; cbn [filter]; rewrite Hi; destruct (is_class o r); reflexivity). rewrite Z, app_nil_r. exact (proj1 H). }
  unfold statement in E. destruct (fails s); [discriminate E|].
  assert (Nm : forall n, is_init s = false -> defines s = Some n -> n <> init_name) by (intros n Hi Hd ->; specialize (Hs (or_introl Hd)); congruence).
  destruct s; try (apply No; [reflexivity|]; first [eapply setattr_own; [exact E|apply Nm; reflexivity]|eapply define_own; [exact E|apply Nm; reflexivity]|eapply M, E|
    match type of E with context[if ?x then _ else _] => destruct x; [injection E as <-; reflexivity|discriminate E] end|injection E as <-; reflexivity|idtac]).
  - rewrite (define_init _ _ _ _ _ _ E H). destruct (is_class o r).
    + cbn [inits filter is_init]. destruct (l ++ _) eqn:El; [destruct l; discriminate El|reflexivity].
    + rewrite app_nil_r. exact (proj1 H).
  - destruct o as [path|c|k]; try discriminate E. match type of E with context[if ?x then _ else _] => destruct x; [discriminate E|] end.
    match type of E with context[setattr ?a ?b ?c ?d ?g] => destruct (setattr a b c d g) as [q|] eqn:Eq; [|discriminate E] end. injection E as <-.
    change (own q (Class r) init_name = own p (Class r) init_name). eapply setattr_own; [exact Eq|]. intros ->. assert (Q : named_as (SValue init_name i) init_name) by (right; eauto). discriminate (Hs Q).
  - destruct o as [path|c|k]; try discriminate E. destruct scope as [q|]; [|discriminate E]. eapply exported_own; [|exact E]. apply (proj2 H).
Qed.

Lemma body_init types o scope r : forall body p p' l, fold_opt (statement mro manual fails types o scope) body p = Some p' -> (forall t, In t body -> only_init t) -> has p r l ->
  has p' r (l ++ if is_class o r then inits body else []).
Proof.
  induction body as [|s body IH]; intros p p' l E Hb H; cbn [fold_opt] in E.
  - injection E as <-. destruct (is_class o r); cbn; rewrite app_nil_r; exact H.
  - destruct (statement mro manual fails types o scope p s) as [p1|] eqn:E1; [|discriminate E].
    assert (H1 := statement_init _ _ _ _ _ _ _ _ E1 (Hb s (or_introl eq_refl)) H). assert (H2 := IH _ _ _ E (fun t Ht => Hb t (or_intror Ht)) H1).
    rewrite <- app_assoc in H2. replace (if is_class o r then inits (s :: body) else []) with ((if is_class o r then inits [s] else []) ++ if is_class o r then inits body else []); [exact H2|].
    destruct (is_class o r); [|reflexivity]. change (s :: body) with ([s] ++ body). symmetry. apply inits_app.
Qed.

Definition made (s : ImportSpec.state) (r : nat) (e : entry) : list stmt :=
  match value s (ex_id e) with Some o => if is_class o r then inits (ex_body e) else [] | None => [] end.

Lemma calls_init files intros s all r : filter is_definition (concat files) = map definition all -> NoDup (map ex_id all) -> (forall e t, In e all -> In t (ex_body e) -> only_init t) ->
  forall es p p' l, incl es all -> fold_opt (call mro manual fails files intros s) (map (fun e => (ex_id e, ex_id e)) es) p = Some p' -> has p r l -> has p' r (l ++ flat_map (made s r) es).
Proof.
  intros Hd Nd Ho. induction es as [|e es IH]; intros p p' l Hi E H; cbn [map fold_opt] in E; [injection E as <-; cbn; rewrite app_nil_r; exact H|].
  match type of E with context[call ?a ?b ?c ?d ?f ?g ?h ?i] => destruct (call a b c d f g h i) as [p1|] eqn:E1; [|discriminate E] end.
  cbn [flat_map]. rewrite app_assoc. eapply IH; [exact (fun x H => Hi x (or_intror H))|exact E|].
  unfold call in E1. cbn [fst snd] in E1. unfold made. destruct (value s (ex_id e)) as [o|]; [|discriminate E1].
  rewrite (body_found _ _ _ Hd Nd (Hi _ (or_introl eq_refl))) in E1. eapply body_init; [exact E1| |exact H]. intros t. apply Ho. apply Hi. now left.
Qed.

Lemma manual_init r l : forall post p p', fold_opt (fun p l => manual l (Mod []) p) post p = Some p' -> has p r l -> has p' r l.
Proof.
  induction post as [|k post IH]; intros p p' E H; cbn [fold_opt] in E; [congruence|]. destruct (manual k (Mod []) p) as [p1|] eqn:E1; [|discriminate E].
  eapply IH; [exact E|]. destruct H as [H1 H2]. split; [rewrite (M _ _ _ _ E1); exact H1|]. intros e v. rewrite (Mv _ _ _ _ E1). apply H2.
Qed.
End Execution.

(** ** The module block *)

Lemma execute_class default_holder s i s' : execute default_holder s i = Some s' -> value s (fst i) = None /\ (exists o, s_variables s' = (fst i, o) :: s_variables s /\
  match snd i with NEnum e _ _ _ => o = Enum e | NClass t _ _ _ => o = Class (ct_record t) | _ => True end) /\
  forall o n v, In (o, n, v) (s_attributes s') -> In (o, n, v) (s_attributes s) \/ intro_name (snd i) = Some n.
Proof.
  unfold execute. destruct (value s (fst i)) as [v|] eqn:Ev; [discriminate|]. destruct (value s (intro_parent (snd i))) as [o|]; [|discriminate]. intros E. split; [reflexivity|].
  destruct (snd i); unfold register in E; repeat match type of E with context[match ?x with _ => _ end] => destruct x; try discriminate E end; injection E as <-; (split; [eexists; (split; [reflexivity|]); first [exact I|reflexivity]|]);
    cbn; intros o' n' v' H; repeat match type of H with _ \/ _ => destruct H as [H|H] end; first [injection H as <- <- <-; right; reflexivity|left; exact H].
Qed.

Lemma import_class default_holder intros : forall s0 s, fold_opt (execute default_holder) intros s0 = Some s ->
  (forall id o, value s0 id = Some o -> value s id = Some o) /\
  (forall id k, In (id, k) intros -> match k with NEnum e _ _ _ => value s id = Some (Enum e) | NClass t _ _ _ => value s id = Some (Class (ct_record t)) | _ => True end) /\
  NoDup (map fst intros) /\ (forall id, In id (map fst intros) -> value s0 id = None) /\
  forall o n v, In (o, n, v) (s_attributes s) -> In (o, n, v) (s_attributes s0) \/ exists id k, In (id, k) intros /\ intro_name k = Some n.
Proof.
  induction intros as [|i l IH]; cbn [fold_opt]; intros s0 s E; [injection E as <-; split; [auto|split; [intros id k []|split; [constructor|split; [intros id []|auto]]]]|].
  destruct (execute default_holder s0 i) as [s1|] eqn:E1; [|discriminate E]. destruct (IH _ _ E) as (K & I & N & Z & A). destruct (execute_class _ _ _ _ E1) as (Hn & (o & Hv & Ho) & Ha).
  assert (Hs1 : forall id, value s1 id = if str_eqb (fst i) id then Some o else value s0 id) by (intros id; unfold value; rewrite Hv; cbn; destruct (str_eqb (fst i) id); reflexivity).
  split; [|split; [|split; [|split]]].
  - intros id o' H. apply K. rewrite Hs1. destruct (str_eqb (fst i) id) eqn:Ei; [|exact H]. apply str_eqb_eq in Ei. congruence.
  - intros id k [->|H]; [|exact (I _ _ H)]. cbn [fst snd] in *. assert (Q : value s1 id = Some o) by (rewrite Hs1, Base.str_eqb_refl; reflexivity).
    destruct k; auto; subst o; apply K, Q.
  - cbn [map]. constructor; [|exact N]. intros H. specialize (Z _ H). rewrite Hs1, Base.str_eqb_refl in Z. discriminate Z.
  - cbn [map]. intros id [<-|H]; [exact Hn|]. specialize (Z _ H). rewrite Hs1 in Z. destruct (str_eqb (fst i) id); [discriminate Z|exact Z].
  - intros o' n v H. destruct (A _ _ _ H) as [H1|(id & k & H1 & H2)]; [|right; exists id, k; split; [now right|exact H2]]. destruct (Ha _ _ _ H1) as [H2|H2]; [now left|right].
    exists (fst i), (snd i). split; [left; destruct i; reflexivity|exact H2].
Qed.

Lemma initial_init s r : (forall o n v, In (o, n, v) (s_attributes s) -> n <> init_name) -> has (initial s) r [].
Proof.
  intros H. split; [|intros e v []]. unfold own. destruct (find _ _) as [[[o n] m]|] eqn:F; [|reflexivity]. exfalso. apply find_some in F as [F1 F2].
  apply place_eq in F2 as [_ F2]. cbn in F2. cbn in F1. apply in_map_iff in F1 as ([[o' n'] v] & E & Hin). injection E as <- <- <-. exact (H _ _ _ Hin F2).
Qed.

(** ** Bodies of classes *)

Section Body.
Context (u : unit) (w : facts) (found : nat -> list nat) (implicit : nat -> bool) (iteration : list nat -> list nat) (name : str) (g : graph) (vis : dmap bool) (b : bstate).
Hypothesis (Se : setting u w iteration) (X : exposed u found implicit name g vis b).
Context (e : entry) (st' : storage) (rs : list ereport).
Hypothesis (B : body_of u w vis (bs_annotations b) st' e rs) (Fa : faithful u (bs_annotations b)) (Hg : In (ex_context e) (g_nodes g)).

(** The constructors in the order of the declarations. *)
Inductive selected : list nat -> list nat -> Prop :=
| se_nil : selected [] []
| se_take i l r : constructor_of u w b name (ex_context e) i -> selected l r -> selected (i :: l) (i :: r)
| se_skip i l r : ~ constructor_of u w b name (ex_context e) i -> selected l r -> selected (i :: l) r.

Lemma selected_in l r : selected l r -> forall i, In i r <-> In i l /\ constructor_of u w b name (ex_context e) i.
Proof.
  induction 1 as [|i l r C S IH|i l r C S IH]; intros j; cbn [In]; [tauto| |].
  - rewrite IH. split; [intros [<-|[H1 H2]]; auto|intros [[->|H1] H2]; auto].
  - rewrite IH. split; [tauto|]. intros [[->|H1] H2]; [contradiction|auto].
Qed.

Lemma selected_none l l' r : (forall i, In i l -> kind u i <> KConstructor) -> selected (l ++ l') r -> selected l' r.
Proof.
  induction l as [|i l IH]; intros H S; [exact S|]. cbn [app] in S. inversion S as [|? ? r' C|]; subst; [destruct (H i (or_introl eq_refl) (co_kind _ _ _ _ _ _ C))|].
  apply IH; [intros j Hj; apply H; right; exact Hj|assumption].
Qed.

Lemma selected_nothing l r : (forall i, In i l -> kind u i <> KConstructor) -> selected l r -> r = [].
Proof. intros H S. rewrite <- (app_nil_r l) in S. apply selected_none in S; [|exact H]. inversion S. reflexivity. Qed.

Lemma selected_expand l : proper_constructors u w -> forall r, selected (flat_map (expand (w_extra w)) l) r -> selected l r.
Proof.
  intros P. induction l as [|i l IH]; intros r S; [exact S|]. cbn [flat_map] in S. unfold expand in S at 1. destruct (x_specializations (w_extra w) i) as [l'|] eqn:E.
  - apply selected_none in S; [|intros j Hj Kj; destruct (P j Kj) as (_ & N & _); exact (N _ _ E Hj)].
    apply se_skip; [|apply IH, S]. intros C. destruct (P i (co_kind _ _ _ _ _ _ C)) as (N & _). congruence.
  - cbn [app] in S. inversion S; subst; [apply se_take|apply se_skip]; auto.
Qed.

Lemma selected_app l l' r : selected (l ++ l') r -> (forall i, In i l' -> kind u i <> KConstructor) -> selected l r.
Proof.
  revert r. induction l as [|i l IH]; intros r S H; cbn [app] in S; [rewrite (selected_nothing _ _ H S); constructor|]. inversion S; subst; [apply se_take|apply se_skip]; auto.
Qed.

Lemma selected_sorted R l r : StronglySorted R l -> selected l r -> StronglySorted R r.
Proof.
  intros S. revert r. induction S as [|x l S IH F]; intros r C; inversion C; subst; [constructor| |auto]. constructor; [auto|].
  apply Forall_forall. intros y Hy. apply (proj1 (Forall_forall _ _) F). match goal with K : selected l _ |- _ => exact (proj1 (proj1 (selected_in _ _ K y) Hy)) end.
Qed.

Lemma class_body : kind u (ex_context e) = KRecord ->
  exists l, constructors u w b name (ex_context e) l /\ Forall2 (fun t i => function_of t = Some i) (inits (ex_body e)) l.
Proof.
  intros K. destruct B as (x & st1 & st2 & Hc & D & _ & _ & Ff).
  assert (Hx : exists q, x = XRecord (ex_context e) q).
  { unfold create in Hc. rewrite K in Hc. destruct (create_policy u (bs_annotations b) (w_hierarchy w) (ex_context e)) as [q|]; [|discriminate Hc]. injection Hc as <-. eauto. }
  destruct Hx as (q & Hx). pose proof (define_spec _ _ _ _ _ _ _ _ _ D) as DS. destruct DS as [(parts & final & Eb & F & Fc & _) H1 _ H3 _ _ _ _ _].
  set (c := ex_context e) in *. set (dv := lookup_vis vis c) in *.
  assert (Fa1 : forall i a, is_tag_kind (kind u i) = false -> lookup_attrs st2 i = Some a -> own_attributes u i a) by (intros i a Hk Ha; exact (define_faithful _ _ _ _ _ _ _ _ _ D (Ff Fa) i a Hk Ha)).
  assert (Own : forall i, In i (flat_map (expand (w_extra w)) (looked_up u w c x)) -> is_tag_kind (kind u i) = false -> d_skip (u_decls u i) = false -> exists a, own_attributes u i a /\ lookup_attrs st2 i = Some a).
  { intros i Hi Hk Hs. destruct (lookup_attrs st1 i) as [a|] eqn:El; [exists a; split; [exact (Ff Fa i a Hk El)|exact (H1 _ _ El)]|exact (H3 i Hi Hs El)]. }
  assert (Sel : exists l, selected (flat_map (expand (w_extra w)) (looked_up u w c x)) l /\ Forall2 (fun t i => function_of t = Some i) (inits (ex_body e)) l).
  { rewrite Eb, inits_app. assert (Hfi : inits final = []).
    { clear - Fc. induction Fc as [|t final Ht F IH]; [reflexivity|]. cbn [inits filter]. destruct t; try discriminate Ht; exact IH. }
    rewrite Hfi, app_nil_r. clear Hfi Eb H1 H3.
    assert (Dec : forall i, In i (flat_map (expand (w_extra w)) (looked_up u w c x)) -> declared_in u w b c i) by (intros i Hi; exists x; auto).
    clear D Ff. revert F Own Dec. generalize (flat_map (expand (w_extra w)) (looked_up u w c x)) as l. intros l F. induction F as [|i part l parts [Nd Hp] F IH]; intros Own Dec.
    { exists []. split; constructor. }
    destruct (IH (fun j Hj => Own j (or_intror Hj)) (fun j Hj => Dec j (or_intror Hj))) as (r & S & T). clear IH. cbn [concat]. rewrite inits_app.
    assert (One : forall t, In t (inits part) -> exists args a, t = SInit i (map pm_type (fi_params (x_fn (w_extra w) i))) args (at_function a) /\ lookup_attrs st2 i = Some a /\ describes (at_function a) (fi_params (x_fn (w_extra w) i)) args /\ constructor_of u w b name c i).
    { intros t Ht. apply filter_In in Ht as [Ht Hi]. apply Hp in Ht as (a & Ha & Sh & Hb). rewrite Hx in Hb. cbn in Hb.
      destruct t; try discriminate Hi. inversion Hb as [s Hs Hb'|s Hb'| | |args0 Hk Hm Hd Ab De Heq| | |]; [inversion Hb'|inversion Hb'|]. subst f args0.
      exists args, a. split; [congruence|]. split; [exact Ha|]. split; [congruence|]. assert (Ho : own_attributes u i a) by (apply Fa1; [rewrite Hk; reflexivity|exact Ha]).
      split; auto; [apply Dec; now left|]. pose proof (own_says _ _ _ Ho) as Hss. unfold visible_in. destruct Sh as [V|[V Dv]]; rewrite V in Hss; [left; exact Hss|right]. split; [exact Hss|]. eapply lookup_visible; eassumption. }
    assert (Ndi : NoDup (inits part)) by (apply NoDup_filter, Nd). destruct (inits part) as [|t ts] eqn:Ei.
    - exists r. split; [|exact T]. apply se_skip; [|exact S]. intros [Hk _ V Hm Hd Ab].
      assert (Hs : d_skip (u_decls u i) = false) by (destruct V as [V|[V _]]; exact (proj1 V)).
      destruct (Own i (or_introl eq_refl) ltac:(rewrite Hk; reflexivity) Hs) as (a & Ho & Ha). destruct (describes_exists (w_extra w) i (at_function a)) as (args & De).
      assert (Q : In (SInit i (map pm_type (fi_params (x_fn (w_extra w) i))) args (at_function a)) (inits part)).
      { apply filter_In. split; [|reflexivity]. apply (proj2 (Hp _)). exists a. split; [exact Ha|]. split; [eapply visible_shown; eassumption|]. rewrite Hx. cbn. apply rec_init; assumption. }
      rewrite Ei in Q. destruct Q.
    - destruct (One t (or_introl eq_refl)) as (args & a & -> & Ha & De & Co).
      assert (Hts : ts = []).
      { destruct ts as [|t' ts]; [reflexivity|]. exfalso. destruct (One t' (or_intror (or_introl eq_refl))) as (args' & a' & -> & Ha' & De' & _).
        rewrite Ha in Ha'. injection Ha' as <-. rewrite (describes_unique _ _ _ _ De' De) in Ndi. inversion Ndi as [|? ? Nin _]. apply Nin. left. reflexivity. }
      subst ts. exists (i :: r). split; [apply se_take; assumption|]. cbn [app]. constructor; [reflexivity|exact T]. }
  destruct Sel as (l & S & T). exists l. split; [|exact T]. split.
  - intros i. rewrite (selected_in _ _ S). split; [tauto|]. intros C. split; [|exact C]. destruct (co_declared _ _ _ _ _ _ C) as (x' & Hc' & Hi). fold c in Hc'. rewrite Hc in Hc'. injection Hc' as <-. exact Hi.
  - intros P. apply (selected_expand _ P) in S. eapply selected_sorted; [|eapply selected_app; [exact S|]].
    + apply (sort_sorted u).
    + rewrite K. intros i Hi Ki. unfold associated_operators in Hi. apply filter_In in Hi as [Hi _]. apply in_flat_map in Hi as (j & Hj & Hi). destruct (P i Ki) as (_ & Ns & Na).
      unfold expand in Hi. destruct (x_specializations (w_extra w) j) as [l'|] eqn:Es; [exact (Ns _ _ Es Hi)|]. destruct Hi as [->|[]]. apply in_flat_map in Hj as (k & _ & Hj). exact (Na _ _ Hj).
Qed.

Lemma other_bodies : kind u (ex_context e) <> KRecord -> inits (ex_body e) = [].
Proof.
  intros K. destruct (inits (ex_body e)) as [|t ts] eqn:E; [reflexivity|]. exfalso. assert (Ht : In t (inits (ex_body e))) by (rewrite E; now left). apply filter_In in Ht as [Ht Hi].
  destruct B as (x & st1 & st2 & Hc & D & _). assert (Hcl : closing t = false) by (destruct t; try discriminate Hi; reflexivity).
  destruct (proj1 (in_parts _ _ _ _ _ _ _ _ _ D t Hcl) Ht) as (j & _ & a & _ & _ & Hb). destruct t; try discriminate Hi.
  destruct x as [|k|k|r q]; cbn in Hb; try (inversion Hb as [s Hb'|s Hb'| |]; inversion Hb'); [inversion Hb|].
  apply K. unfold create in Hc. destruct (kind u (ex_context e)); try discriminate Hc. reflexivity.
Qed.
End Body.

(** ** The module *)

Section Module.
Context (default_holder : str -> bool) (mro : nat -> list nat) (manual : nat -> object -> pystate -> option pystate) (fails : stmt -> bool).
Context (u : unit) (w : facts) (found : nat -> list nat) (implicit : nat -> bool) (iteration : list nat -> list nat).
Context (n : nat) (name : str) (b : bstate) (files : list (list item)) (rs : list ereport) (st' : storage).
Hypothesis (Se : setting u w iteration) (Hn : 0 < n) (HG : generate u w found implicit iteration n name = Some (RGraph b (EWritten files rs st'))).
Context (m : item) (s : ImportSpec.state) (p : pystate).
Hypothesis (Hm : In m (concat files)) (R : run_module mro manual fails default_holder files m = Some (s, p)).
Hypothesis (M : leaves_constructors manual) (Mv : leaves_values manual) (Oc : only_constructors files).

Theorem constructors_defined : exists g vis, exposed u found implicit name g vis b /\ forall r, In r (g_nodes g) -> kind u r = KRecord ->
  exists l ts, constructors u w b name r l /\ Forall2 (fun t i => function_of t = Some i) ts l /\ own p (Class r) init_name = match ts with [] => None | _ => Some (MFunction false ts) end.
Proof.
  destruct (run_written _ _ _ _ _ Se _ _ _ _ _ _ Hn HG) as (g & vis & order & all & chunks & post & X & G & Ly & Hlen & _).
  assert (Hf : 0 < length files) by lia. destruct (layout_definitions _ _ _ _ _ Ly Hf) as [Hd Hmo].
  destruct (exposed_graph _ _ _ _ _ Se _ _ _ _ X) as (T & _ & _ & Fa & _). exists g, vis. split; [exact X|]. intros k Hk Kk.
  unfold run_module in R. destruct m as [|name' intros calls post'|]; try discriminate R.
  assert (Hin : In (IModule name' intros calls post') (filter is_module (concat files))) by (apply filter_In; auto).
  rewrite Hmo in Hin. destruct Hin as [Hin|[]]. injection Hin as <- Hi Hcalls _.
  destruct (import default_holder intros) as [s0|] eqn:Ei; [|discriminate R].
  destruct (fold_opt (call mro manual fails files intros s0) calls (initial s0)) as [p0|] eqn:E0; [|discriminate R].
  destruct (fold_opt (fun p l => manual l (Mod []) p) post' p0) as [p1|] eqn:E1; [|discriminate R]. injection R as -> ->.
  destruct (import_class _ _ _ _ Ei) as (_ & Ie & Nd & _ & At). rewrite <- Hi, map_map in Nd. cbn [fst] in Nd. rewrite <- Hcalls in E0.
  assert (Nc : NoDup (map ex_context all)).
  { eapply blocks_nodup; [exact (ge_blocks _ _ _ _ _ _ _ _ _ _ _ G)|]. destruct (ge_order _ _ _ _ _ _ _ _ _ _ _ G) as [Pm _]. eapply Permutation_NoDup; [exact Pm|]. exact (tl_nodes _ _ T). }
  assert (Hc : In k (map ex_context all)).
  { eapply blocks_keeps; [exact (ge_blocks _ _ _ _ _ _ _ _ _ _ _ G)| |rewrite Kk; discriminate]. destruct (ge_order _ _ _ _ _ _ _ _ _ _ _ G) as [Pm _]. eapply Permutation_in; eassumption. }
  apply in_map_iff in Hc as (e & <- & He). destruct (ge_bodies _ _ _ _ _ _ _ _ _ _ _ G) as (rss & Fb & _).
  assert (I0 : has (initial s) (ex_context e) []).
  { apply initial_init. intros o nn v H ->. destruct (At _ _ _ H) as [[]|(id & kk & H1 & H2)]. exact (proj2 Oc _ _ _ _ _ _ Hm H1 H2). }
  assert (Oi : forall e' t, In e' all -> In t (ex_body e') -> only_init t).
  { intros e' t He' Ht Hnm. assert (Q : In (definition e') (filter is_definition (concat files))) by (rewrite Hd; apply in_map, He'). apply filter_In in Q as [Q _].
    destruct (proj1 Oc _ _ _ _ Q Ht Hnm) as (i & ty & ar & a & ->). reflexivity. }
  assert (I1 := calls_init mro manual fails M Mv files intros s all (ex_context e) Hd Nd Oi all _ _ _ (fun x H => H) E0 I0). cbn [app] in I1.
  assert (I2 := manual_init manual M Mv _ _ _ _ _ E1 I1). destruct (forall2_in_l _ _ _ _ Fb He) as (rb & _ & Be).
  destruct (class_body _ _ _ _ _ _ _ _ _ Se X _ _ _ Be Fa Hk Kk) as (l & Hl & F2). exists l, (inits (ex_body e)). split; [exact Hl|]. split; [exact F2|].
  replace (inits (ex_body e)) with (flat_map (made s (ex_context e)) all); [exact (proj1 I2)|].
  assert (Ad : made s (ex_context e) e = inits (ex_body e)).
  { unfold made. destruct (ge_introduces _ _ _ _ _ _ _ _ _ _ _ G e He) as [I _]. unfold introduces in I. rewrite Kk in I. destruct I as (tt & pa & nn & bb & It & _ & Hr & _).
    assert (Q : In (ex_id e, ex_intro e) intros) by (rewrite <- Hi; apply in_map_iff; exists e; auto). apply Ie in Q. rewrite It in Q. rewrite Q, Hr. cbn [is_class]. rewrite Nat.eqb_refl. reflexivity. }
  rewrite <- Ad. apply flat_map_one; [eapply NoDup_map_inv; exact Nd|exact He|]. intros e' He' Hne. destruct (forall2_in_l _ _ _ _ Fb He') as (r & _ & B').
  unfold made. destruct (value s (ex_id e')) as [o|] eqn:Ev; [|reflexivity]. destruct (is_class o (ex_context e)) eqn:Eo; [|reflexivity].
  assert (D : {kind u (ex_context e') = KRecord} + {kind u (ex_context e') <> KRecord}) by (destruct (kind u (ex_context e')); try (right; discriminate); left; reflexivity).
  destruct D as [Ke|Ke]; [|eapply other_bodies; eassumption]. exfalso.
  destruct (ge_introduces _ _ _ _ _ _ _ _ _ _ _ G e' He') as [I _]. unfold introduces in I. rewrite Ke in I. destruct I as (tt & pa & nn & bb & It & _ & Hr & _).
  assert (Q : In (ex_id e', ex_intro e') intros) by (rewrite <- Hi; apply in_map_iff; exists e'; auto). apply Ie in Q. rewrite It in Q. rewrite Q in Ev. injection Ev as <-. rewrite Hr in Eo. cbn [is_class] in Eo. apply Nat.eqb_eq in Eo.
  apply Hne. clear - Nc He He' Eo. induction all as [|a l IH]; [destruct He|]. cbn [map] in Nc. inversion Nc as [|? ? Na Nl]. subst.
  destruct He as [->|He], He' as [->|He']; auto; exfalso; apply Na; [rewrite <- Eo|rewrite Eo]; apply in_map; assumption.
Qed.

(** ** Creation *)

(** Exactly the visible constructors can be called: the first one that takes the
    arguments is. *)
Theorem objects_created r : kind u r = KRecord -> to_be_found u name r ->
  exists l ts, constructors u w b name r l /\ Forall2 (fun t i => function_of t = Some i) ts l /\
    forall V is_none default accepts (self : V) pos kw,
      (forall t bi, creates is_none default accepts (w_extra w) self p r pos kw = Some (t, bi) -> exists i, function_of t = Some i /\ constructor_of u w b name r i) /\
      (proper_keywords kw -> (forall t, In t ts -> distinct_formals (formals default (Class r) t)) -> sensible accepts (Class r) ts ->
        (forall t bi, creates is_none default accepts (w_extra w) self p r pos kw = Some (t, bi) <-> chosen is_none default accepts (w_extra w) (Class r) ts (self :: pos) kw t bi) /\
        (creates is_none default accepts (w_extra w) self p r pos kw = None <-> forall t bi, In t ts -> ~ suits is_none default accepts (w_extra w) (Class r) true (self :: pos) kw t bi)).
Proof.
  intros K Tf. destruct constructors_defined as (g & vis & X & H).
  assert (Hr : In r (g_nodes g)) by (apply (found_iff u (se_placed _ _ _ Se) found implicit name g vis b X r); [left; exact K|exact Tf]).
  destruct (H r Hr K) as (l & ts & Hl & F & Ho). exists l, ts. split; [exact Hl|]. split; [exact F|]. intros V is_none default accepts self pos kw.
  assert (E : creates is_none default accepts (w_extra w) self p r pos kw = dispatch is_none default accepts (w_extra w) (Class r) ts (self :: pos) kw).
  { unfold creates. rewrite Ho. destruct ts; reflexivity. }
  rewrite E. split.
  - intros t bi Ht. apply dispatch_tried in Ht as [Ht _]. destruct (forall2_in_l _ _ _ _ F Ht) as (i & Hi & Hf). exists i. split; [exact Hf|]. apply (proj1 Hl), Hi.
  - intros Pk Di Sn. split; [intros t bi; apply dispatch_chosen; assumption|apply dispatch_none; assumption].
Qed.

(** Without visible constructors, as for abstract classes, there are no objects. *)
Theorem nothing_created r : kind u r = KRecord -> to_be_found u name r -> (forall i, ~ constructor_of u w b name r i) ->
  forall V is_none default accepts (self : V) pos kw, creates is_none default accepts (w_extra w) self p r pos kw = None.
Proof.
  intros K Tf No V is_none default accepts self pos kw. destruct (objects_created r K Tf) as (l & ts & _ & _ & H). destruct (H V is_none default accepts self pos kw) as [H1 _].
  destruct (creates is_none default accepts (w_extra w) self p r pos kw) as [[t bi]|]; [|reflexivity]. destruct (H1 t bi eq_refl) as (i & _ & C). destruct (No i C).
Qed.

(** Constructors get the arguments of the call, from their position, by their keyword or
    by default. *)
Theorem arguments_of_constructors r : adds_nothing manual -> kind u r = KRecord -> to_be_found u name r ->
  exists l ts, constructors u w b name r l /\ Forall2 (fun t i => function_of t = Some i) ts l /\
    forall V is_none default accepts (self : V) pos kw t bi i ans,
      proper_keywords kw -> (forall t, In t ts -> distinct_formals (formals default (Class r) t)) -> sensible accepts (Class r) ts ->
      creates is_none default accepts (w_extra w) self p r pos kw = Some (t, bi) -> function_of t = Some i ->
      consistent u (w_extra w) i -> valid_annotations (u_decls u i) -> carried (d_attrs (u_decls u i)) ans false -> variadic_last (fi_params (x_fn (w_extra w) i)) ->
      forall j q, nth_error (filter is_ordinary (fi_params (x_fn (w_extra w) i))) j = Some q ->
        exists v, nth_error (bi_values bi) (S j) = Some v /\ source pos kw j q (default i j) v /\
          (own_name (fi_params (x_fn (w_extra w) i)) j q ->
            (named_by Required ans (pm_name q) -> is_none v = false) /\ (named_by Noconvert ans (pm_name q) -> accepts t (S j) false v = true)).
Proof.
  intros A K Tf. destruct constructors_defined as (g & vis & X & H).
  assert (Hr : In r (g_nodes g)) by (apply (found_iff u (se_placed _ _ _ Se) found implicit name g vis b X r); [left; exact K|exact Tf]).
  destruct (H r Hr K) as (l & ts & Hl & F & Ho). exists l, ts. split; [exact Hl|]. split; [exact F|]. intros V is_none default accepts self pos kw t bi i ans Pk Di Sn Hc Hf Co Va Ca Vl j q Hq.
  assert (Ho' : own p (Class r) init_name = Some (MFunction false ts) /\ dispatch is_none default accepts (w_extra w) (Class r) ts (self :: pos) kw = Some (t, bi)).
  { unfold creates in Hc. rewrite Ho in Hc. destruct ts; [discriminate Hc|]. split; [exact Ho|exact Hc]. }
  destruct Ho' as [Ho' Hd]. apply dispatch_chosen in Hd; [|assumption..]. destruct Hd as (before & after & convert & El & Su & _).
  assert (Ht : In t ts) by (rewrite El; apply in_elt).
  destruct (calls_honoured is_none default accepts default_holder mro manual fails u w found implicit iteration n name b files rs st' m s p Se Hn HG A R
    (Class r) init_name false ts t i ans (self :: pos) kw bi convert Ho' Ht Hf Co Va Ca Vl Su) as (k & H1 & _ & Hj).
  destruct (forall2_in_l _ _ _ _ F Ht) as (i' & Hi' & Hf'). assert (i' = i) by congruence. subst i'.
  assert (k = 1) by (apply H1; left; exact (co_kind _ _ _ _ _ _ (proj1 (proj1 Hl i) Hi'))). subst k.
  destruct (Hj j q Hq) as (v & Hv & So & Hw). exists v. split; [exact Hv|]. split; [|exact Hw].
  destruct So as [v Hp Nk|v Hlen Hk|Hlen Nk Hd].
  - apply by_position; [exact Hp|exact Nk].
  - apply by_keyword; [cbn in Hlen; lia|exact Hk].
  - apply by_default; [cbn in Hlen; lia|exact Nk|exact Hd].
Qed.
End Module.
