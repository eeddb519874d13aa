(** * Proofs about several generated modules in one interpreter *)
From Coq Require Import Sorting.Permutation.
From Verif Require Import Base ParserModel AnnotModel AnnotSpec CollectModel CollectSpec GraphModel GraphSpec GraphWalk OrderModel OrderSpec InlineModel EmitModel EmitSpec EmitFinal ModuleModel ModuleSpec ModuleProofs ModuleFinal
  ImportSpec ImportProofs ExecSpec ExecProofs FindSpec FindProofs SharedSpec.

(** ** Types registered *)

Definition type_of (i : introducer) : list nat := match i with NEnum e _ _ _ => [e] | NClass t _ _ _ => [ct_record t] | _ => [] end.
Definition types_of (intros : list (str * introducer)) : list nat := flat_map (fun i => type_of (snd i)) intros.

Lemma holding_none s r : holding s r = None <-> ~ In r (map fst (s_types s)).
Proof.
  unfold holding. destruct (find (fun t => Nat.eqb (fst t) r) (s_types s)) as [[r' d]|] eqn:E; cbn [option_map].
  - apply find_some in E as [E1 E2]. apply Nat.eqb_eq in E2. cbn in E2. subst. split; [discriminate|]. intros H. destruct H. apply in_map_iff. exists (r, d). auto.
  - split; [|reflexivity]. intros _ H. apply in_map_iff in H as ([r' d] & Er & H). cbn in Er. subst. apply (find_none _ _ E) in H. cbn in H. rewrite Nat.eqb_refl in H. discriminate H.
Qed.

Section Types.
Context (default_holder : str -> bool).

Lemma execute_types s i s' : execute default_holder s i = Some s' ->
  map fst (s_types s') = type_of (snd i) ++ map fst (s_types s) /\ forall c, In c (type_of (snd i)) -> ~ In c (map fst (s_types s)).
Proof.
  unfold execute. destruct (value s (fst i)); [discriminate|]. destruct (value s (intro_parent (snd i))) as [o|]; [|discriminate]. intros E.
  assert (Rg : forall n r bases d c, register s o n r bases d c (fst i) = Some s' -> map fst (s_types s') = r :: map fst (s_types s) /\ ~ In r (map fst (s_types s))).
  { clear E. intros n r bases d c E. unfold register in E. destruct (attribute s o n); [discriminate E|]. destruct (holding s r) eqn:H; [discriminate E|]. apply holding_none in H.
    match type of E with context[if ?x then _ else _] => destruct x; [|discriminate E] end. injection E as <-. auto. }
  destruct (snd i) as [q|q m|e q m a|t q m a]; cbn [type_of].
  - injection E as <-. split; [reflexivity|intros c []].
  - destruct o; try discriminate E. injection E as <-. split; [reflexivity|intros c []].
  - apply Rg in E as [E N]. split; [exact E|]. intros c [<-|[]]. exact N.
  - apply Rg in E as [E N]. split; [exact E|]. intros c [<-|[]]. exact N.
Qed.

Lemma fold_types : forall intros s s', fold_opt (execute default_holder) intros s = Some s' ->
  (forall c, In c (map fst (s_types s')) <-> In c (types_of intros) \/ In c (map fst (s_types s))) /\ forall c, In c (types_of intros) -> ~ In c (map fst (s_types s)).
Proof.
  induction intros as [|i l IH]; intros s s' E; cbn [fold_opt] in E.
  - injection E as <-. split; [intros c; cbn; tauto|intros c []].
  - destruct (execute default_holder s i) as [s1|] eqn:E1; [|discriminate E]. destruct (IH _ _ E) as [A B]. destruct (execute_types _ _ _ E1) as [T N].
    unfold types_of in *. cbn [flat_map]. split.
    + intros c. rewrite A, T, !in_app_iff. tauto.
    + intros c Hc. apply in_app_iff in Hc as [Hc|Hc]; [exact (N c Hc)|]. intros H. apply (B c Hc). rewrite T, in_app_iff. auto.
Qed.

(** More types do not matter unless they are to be registered again. *)
Definition ext (s : state) (r : list (nat * bool)) : state := mkState (s_variables s) (s_attributes s) (s_types s ++ r).

Lemma holding_ext s r c d : holding s c = Some d -> holding (ext s r) c = Some d.
Proof.
  unfold holding, ext. cbn [s_types]. destruct (find _ (s_types s)) as [x|] eqn:E; [|discriminate]. intros H.
  assert (F : find (fun t => Nat.eqb (fst t) c) (s_types s ++ r) = Some x).
  { clear H. induction (s_types s) as [|y l IH]; [discriminate E|]. cbn in *. destruct (Nat.eqb (fst y) c); [exact E|auto]. }
  rewrite F. exact H.
Qed.

Lemma execute_ext s i s' r : execute default_holder s i = Some s' -> (forall c, In c (type_of (snd i)) -> ~ In c (map fst r)) -> execute default_holder (ext s r) i = Some (ext s' r).
Proof.
  unfold execute. change (value (ext s r) (fst i)) with (value s (fst i)). change (value (ext s r) (intro_parent (snd i))) with (value s (intro_parent (snd i))).
  destruct (value s (fst i)); [discriminate|]. destruct (value s (intro_parent (snd i))) as [o|]; [|discriminate]. intros E N.
  assert (Rg : forall n q bases d c, ~ In q (map fst r) -> register s o n q bases d c (fst i) = Some s' -> register (ext s r) o n q bases d c (fst i) = Some (ext s' r)).
  { clear E. intros n q bases d c Nq E. unfold register in *. change (attribute (ext s r) o n) with (attribute s o n). destruct (attribute s o n); [discriminate E|].
    destruct (holding s q) eqn:H; [discriminate E|]. apply holding_none in H.
    assert (H' : holding (ext s r) q = None) by (apply holding_none; cbn [ext s_types]; rewrite map_app, in_app_iff; tauto). rewrite H'.
    match type of E with context[if ?x then _ else _] => destruct x eqn:F; [|discriminate E] end. injection E as <-.
    assert (F' : forallb (fun b => match holding (ext s r) b with Some d' => Bool.eqb d' d | None => false end) bases = true).
    { rewrite forallb_forall in *. intros b Hb. specialize (F b Hb). destruct (holding s b) as [d'|] eqn:Hd; [|discriminate F]. rewrite (holding_ext _ r _ _ Hd). exact F. }
    rewrite F'. reflexivity. }
  destruct (snd i) as [q|q m|e q m a|t q m a]; cbn [type_of] in *.
  - injection E as <-. reflexivity.
  - destruct o; try discriminate E. injection E as <-. reflexivity.
  - apply Rg; [apply N; left; reflexivity|exact E].
  - apply Rg; [apply N; left; reflexivity|exact E].
Qed.

Lemma fold_ext r : forall intros s s', fold_opt (execute default_holder) intros s = Some s' -> (forall c, In c (types_of intros) -> ~ In c (map fst r)) ->
  fold_opt (execute default_holder) intros (ext s r) = Some (ext s' r).
Proof.
  induction intros as [|i l IH]; intros s s' E N; cbn [fold_opt] in *; [congruence|]. destruct (execute default_holder s i) as [s1|] eqn:E1; [|discriminate E].
  unfold types_of in N. cbn [flat_map] in N. rewrite (execute_ext _ _ _ r E1) by (intros c Hc; apply N, in_app_iff; auto). apply IH; [exact E|]. intros c Hc. apply N, in_app_iff. auto.
Qed.

(** ** Definitions *)

Lemma statement_ext mro manual fails types types' o q p t p' : incl types types' -> statement mro manual fails types o q p t = Some p' -> statement mro manual fails types' o q p t = Some p'.
Proof.
  intros I. unfold statement. destruct (fails t); [discriminate|]. destruct t; try (intros E; exact E).
  match goal with |- context[existsb (Nat.eqb ?x) types] => destruct (existsb (Nat.eqb x) types) eqn:E end; [|discriminate]. apply existsb_exists in E as (x & Hx & Ex).
  match goal with |- context[existsb (Nat.eqb ?y) types'] => assert (E' : existsb (Nat.eqb y) types' = true) by (apply existsb_exists; exists x; auto) end. rewrite E'. auto.
Qed.

Lemma call_ext mro manual fails files intros s r p c p' : call mro manual fails files intros s p c = Some p' -> call mro manual fails files intros (ext s r) p c = Some p'.
Proof.
  unfold call. change (value (ext s r) (snd c)) with (value s (snd c)). change (scope_in intros (ext s r) (snd c)) with (scope_in intros s (snd c)).
  destruct (value s (snd c)) as [o|]; [|discriminate]. destruct (body_named files (fst c)) as [body|]; [|discriminate].
  assert (I : incl (map fst (s_types s)) (map fst (s_types (ext s r)))) by (intros x Hx; cbn [ext s_types]; rewrite map_app; apply in_app_iff; auto).
  revert p. induction body as [|t body IH]; intros p E; cbn [fold_opt] in *; [exact E|].
  destruct (statement mro manual fails (map fst (s_types s)) o (scope_in intros s (snd c)) p t) as [p1|] eqn:E1; [|discriminate E]. rewrite (statement_ext _ _ _ _ _ _ _ _ _ _ I E1). auto.
Qed.

Lemma calls_ext mro manual fails files intros s r : forall calls p p', fold_opt (call mro manual fails files intros s) calls p = Some p' -> fold_opt (call mro manual fails files intros (ext s r)) calls p = Some p'.
Proof.
  induction calls as [|c l IH]; intros p p' E; cbn [fold_opt] in *; [exact E|]. destruct (call mro manual fails files intros s p c) as [p1|] eqn:E1; [|discriminate E].
  rewrite (call_ext _ _ _ _ _ _ r _ _ _ E1). auto.
Qed.

Definition introduced (d : product) : list (str * introducer) := match pd_block d with IModule _ intros _ _ => intros | _ => [] end.

Lemma run_ext r d s p : alone default_holder d = Some (s, p) -> (forall c, In c (types_of (introduced d)) -> ~ In c (map fst r)) -> run_into default_holder r d = Some (ext s r, p).
Proof.
  unfold alone, run_module, run_into, introduced. destruct (pd_block d) as [|nm intros calls post|]; try discriminate. intros E N. unfold import in E.
  destruct (fold_opt (execute default_holder) intros (mkState [($"root", Mod [])] [] [])) as [s0|] eqn:E0; [|discriminate E].
  unfold import_into. change (mkState [($"root", Mod [])] [] r) with (ext (mkState [($"root", Mod [])] [] []) r). rewrite (fold_ext _ _ _ _ E0 N).
  change (initial (ext s0 r)) with (initial s0).
  destruct (fold_opt (call (pd_mro d) (pd_manual d) (pd_fails d) (pd_files d) intros s0) calls (initial s0)) as [p0|] eqn:E1; [|discriminate E]. rewrite (calls_ext _ _ _ _ _ _ r _ _ _ E1).
  destruct (fold_opt (fun p l => pd_manual d l (Mod []) p) post p0) as [p1|]; [|discriminate E]. injection E as <- <-. reflexivity.
Qed.

Lemma run_types r d s p : run_into default_holder r d = Some (s, p) ->
  (forall c, In c (map fst (s_types s)) <-> In c (types_of (introduced d)) \/ In c (map fst r)) /\ forall c, In c (types_of (introduced d)) -> ~ In c (map fst r).
Proof.
  unfold run_into, introduced. destruct (pd_block d) as [|nm intros calls post|]; try discriminate. intros E. destruct (import_into default_holder r intros) as [s0|] eqn:E0; [|discriminate E].
  destruct (fold_opt (call (pd_mro d) (pd_manual d) (pd_fails d) (pd_files d) intros s0) calls (initial s0)) as [p0|]; [|discriminate E].
  destruct (fold_opt (fun p l => pd_manual d l (Mod []) p) post p0) as [p1|]; [|discriminate E]. injection E as <- <-. exact (fold_types _ _ _ E0).
Qed.

(** ** What is registered *)

Lemma introduced_found d r : proper_product d -> run_into default_holder r d <> None -> forall c, In c (types_of (introduced d)) <-> to_be_found (pd_unit d) (pd_name d) c.
Proof.
  intros (Se & Hn & HG & Hm) R c. destruct (run_written _ _ _ _ _ Se _ _ _ _ _ _ Hn HG) as (g & vis & order & all & chunks & post & X & G & Ly & Hlen & _).
  assert (Hf : 0 < length (pd_files d)) by lia. destruct (layout_definitions _ _ _ _ _ Ly Hf) as [_ Hmo]. assert (P := se_placed _ _ _ Se).
  assert (Hi : introduced d = map (fun e => (ex_id e, ex_intro e)) all).
  { unfold run_into, introduced in *. destruct (pd_block d) as [|name' intros calls post'|]; try (destruct (R eq_refl)).
    assert (Hin : In (IModule name' intros calls post') (filter is_module (concat (pd_files d)))) by (apply filter_In; auto). rewrite Hmo in Hin. destruct Hin as [Hin|[]]. congruence. }
  rewrite Hi. unfold types_of. split.
  - intros H. apply in_flat_map in H as (i & Hin & H). apply in_map_iff in Hin as (e & <- & He). cbn [snd] in H.
    destruct (ge_introduces _ _ _ _ _ _ _ _ _ _ _ G e He) as [I _]. unfold introduces in I.
    assert (E : c = ex_context e /\ tag (pd_unit d) (ex_context e)).
    { unfold tag. destruct (kind (pd_unit d) (ex_context e)) eqn:K; try solve [destruct I as (q & I); rewrite I in H; destruct H].
      - destruct (ex_intro e); try solve [destruct I]; destruct H.
      - destruct I as (q & m & a & I & _). rewrite I in H. destruct H as [<-|[]]. auto.
      - destruct I as (t & q & m & a & I & _ & Er & _). rewrite I in H. destruct H as [<-|[]]. auto. }
    destruct E as [-> Tc]. apply (found_iff _ P _ _ _ _ _ _ X _ Tc). eapply entry_context_node; eassumption.
  - intros H. assert (Tc : tag (pd_unit d) c) by exact (proj1 H). apply (found_iff _ P _ _ _ _ _ _ X _ Tc) in H.
    assert (E : exists f, In f all /\ (ex_context f = c \/ same_namespace (pd_unit d) (ex_context f) c)) by (eapply entry_for; eassumption).
    destruct E as (f & Hff & [E|E]); [|exfalso; destruct E as (_ & E & _); unfold tag in Tc; rewrite E in Tc; destruct Tc; discriminate].
    apply in_flat_map. exists (ex_id f, ex_intro f). split; [apply in_map_iff; eauto|]. cbn [snd]. destruct (ge_introduces _ _ _ _ _ _ _ _ _ _ _ G f Hff) as [I _]. unfold introduces in I. rewrite E in I.
    destruct Tc as [K|K]; rewrite K in I; [destruct I as (t & q & m & a & -> & _ & Er & _)|destruct I as (q & m & a & -> & _)]; cbn [type_of]; left; congruence.
Qed.

(** ** Several modules *)

Lemma kept_tail d ds : kept_apart (d :: ds) -> kept_apart ds.
Proof. intros K l1 x l2 e l3 ->. apply (K (d :: l1) x l2 e l3). reflexivity. Qed.

Lemma kept_head d ds : kept_apart (d :: ds) -> forall e, In e ds -> forall c, ~ in_both d e c.
Proof. intros K e He. apply in_split in He as (l2 & l3 & ->). apply (K [] d l2 e l3). reflexivity. Qed.

Lemma alone_into d : run_into default_holder [] d = alone default_holder d.
Proof. reflexivity. Qed.

Lemma imported_together : forall ds r, Forall proper_product ds -> (forall d, In d ds -> alone default_holder d <> None) -> kept_apart ds ->
  (forall d c, In d ds -> to_be_found (pd_unit d) (pd_name d) c -> ~ In c (map fst r)) ->
  exists rs, imports default_holder r ds rs /\ Forall2 (fun d x => exists a, alone default_holder d = Some a /\ same_module x a) ds rs.
Proof.
  induction ds as [|d ds IH]; intros r Hp Ha Hk Hr; [exists []; split; constructor|]. inversion Hp as [|? ? Pd Pds]; subst.
  destruct (alone default_holder d) as [[s p]|] eqn:E; [|destruct (Ha d (or_introl eq_refl) E)].
  assert (N : run_into default_holder [] d <> None) by (rewrite alone_into, E; discriminate).
  assert (I := introduced_found d [] Pd N).
  assert (R : run_into default_holder r d = Some (ext s r, p)) by (apply run_ext; [exact E|]; intros c Hc; apply (Hr d c); [left; reflexivity|apply I, Hc]).
  destruct (run_types _ _ _ _ R) as [T _].
  destruct (IH (s_types (ext s r))) as (rs & H1 & H2); [exact Pds|intros e He; apply Ha; right; exact He|exact (kept_tail _ _ Hk)| |].
  { intros e c He Hc H. apply T in H as [H|H]; [|exact (Hr e c (or_intror He) Hc H)]. apply I in H. apply (kept_head _ _ Hk e He c). split; assumption. }
  exists ((ext s r, p) :: rs). split; [econstructor; eassumption|]. constructor; [|exact H2]. exists (s, p). split; [exact E|]. repeat split.
Qed.

Lemma imported_apart : forall ds r rs, Forall proper_product ds -> imports default_holder r ds rs ->
  kept_apart ds /\ forall d c, In d ds -> to_be_found (pd_unit d) (pd_name d) c -> ~ In c (map fst r).
Proof.
  induction ds as [|d ds IH]; intros r rs Hp H; inversion H as [|? ? ? s p rs' R H']; subst.
  - split; [intros [|? ?] x l2 e l3 E; discriminate E|intros d c []].
  - inversion Hp as [|? ? Pd Pds]; subst. destruct (IH _ _ Pds H') as [K N]. assert (Rn : run_into default_holder r d <> None) by (rewrite R; discriminate). assert (I := introduced_found d r Pd Rn).
    destruct (run_types _ _ _ _ R) as [T Nr]. split.
    + intros [|x l1] y l2 e l3 E; cbn in E; injection E as <- ->.
      * intros c [H1 H2]. apply (N e c); [apply in_app_iff; right; left; reflexivity|exact H2|]. apply T. left. apply I, H1.
      * apply (K l1 y l2 e l3 eq_refl).
    + intros e c [<-|He] Hc; [apply Nr, I, Hc|]. intros Hr. apply (N e c He Hc), T. auto.
Qed.

Lemma reserved_apart ds : (forall l1 d l2 e l3, ds = l1 ++ d :: l2 ++ e :: l3 -> forall c, tag (pd_unit d) c -> reserved (pd_unit d) (pd_name d) c \/ reserved (pd_unit e) (pd_name e) c) -> kept_apart ds.
Proof.
  intros H l1 d l2 e l3 E c [D1 D2]. assert (Z : forall u n, to_be_found u n c -> ~ reserved u n c).
  { intros u n (_ & l & Hl & _ & F) R. destruct (R l Hl) as (m & Hm & El). exact (F m Hm El). }
  destruct (H l1 d l2 e l3 E c (proj1 D1)) as [R|R]; [exact (Z _ _ D1 R)|exact (Z _ _ D2 R)].
Qed.
End Types.
