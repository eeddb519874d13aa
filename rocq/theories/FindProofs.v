(** * Proofs about the classes and enumerations to be found in Python *)
From Verif Require Import Base ParserModel AnnotModel AnnotSpec AnnotProofs AnnotStore AnnotFinal CollectModel CollectSpec CollectProofs GraphModel GraphSpec GraphWalk GraphProofs GraphBuild GraphPlace GraphFinal OrderModel OrderSpec InlineModel InlineSpec
  EmitModel EmitSpec EmitFold EmitProofs EmitFinal ModuleModel ModuleSpec ModuleProofs ModuleChunks ModuleFinal ImportSpec ImportProofs ExecSpec AccessSpec AccessProofs AliasModel AliasSpec AliasProofs InvalidSpec InvalidProofs FindSpec.

Lemma precedes_dec u i j : precedes u i j \/ ~ precedes u i j.
Proof.
  unfold precedes. generalize (source_order u). intros l. induction l as [|x l IH]; [right; intros ([|] & ? & ? & H); discriminate|].
  destruct IH as [(l1 & l2 & l3 & ->)|N]; [left; exists (x :: l1), l2, l3; reflexivity|].
  destruct (Nat.eq_dec x i) as [->|Hx].
  - destruct (in_dec Nat.eq_dec j l) as [Hj|Hj].
    + apply in_split in Hj as (l2 & l3 & ->). left. exists [], l2, l3. reflexivity.
    + right. intros ([|y l1] & l2 & l3 & H); cbn in H; injection H as H.
      * apply Hj. rewrite H. apply in_app_iff. right. left. reflexivity.
      * apply N. exists l1, l2, l3. assumption.
  - right. intros ([|y l1] & l2 & l3 & H); cbn in H; injection H as H1 H2; [congruence|]. apply N. exists l1, l2, l3. exact H2.
Qed.

Section Stated.
Variables (u : unit) (s : cstate) (b : bstate).
Hypothesis P : placed u.
Hypothesis C : collect u = Some s.
Hypothesis B : build_graph u = Done (true, b).

Definition stored_visibility (c : nat) : option bool := match lookup_attrs (bs_annotations b) c with Some a => n_visible (at_named a) | None => None end.

Lemma relocates_own a c : relocates u a c -> exists x, own_attributes u a x.
Proof. intros (x & (_ & _ & _ & _ & H) & _). eauto. Qed.

Lemma stated_stored c v : stated u c v -> v = stored_visibility c.
Proof.
  intros H. unfold stored_visibility. destruct (attributes_of_targets u P b s C B c) as [A1 A2]. destruct (collected_declarations u s (pl_sane u P) C) as (K & _ & O & _).
  destruct H as [v N1 N2 H1 H2 Hs|N1 N2 Hn|a v Hr He Hs|e He Hr].
  - rewrite (A1 N1 N2). destruct (O c) as (st & ds & y & E1 & E2 & E3); [apply K; auto|]. rewrite E3. apply (says_unique u c); [exact Hs|]. apply own_says. exists st, ds. auto.
  - rewrite (A1 N1 N2). destruct (lookup_attrs (cs_annotations s) c) eqn:E; [|reflexivity]. exfalso. apply Hn, K, in_keys. congruence.
  - destruct (A2 a (or_introl Hr)) as (y & z & E & _ & _ & _ & _ & V & _). rewrite E. destruct (relocates_own a c Hr) as (x & Hx). rewrite (V a x Hr Hx He).
    apply (says_unique u a); [exact Hs|]. apply own_says, Hx.
  - destruct (A2 e (or_intror He)) as (y & z & E & _ & _ & _ & _ & _ & V). rewrite E. symmetry. apply (V e He Hr).
Qed.

Lemma stated_total c : exists v, stated u c v.
Proof.
  destruct (one_place u P b B) as (_ & _ & _ & Uq & Rel). destruct (collected_declarations u s (pl_sane u P) C) as (K & _ & O & _).
  set (f := fun e => enc (cs_annotations s) e && match d_target (u_decls u e) with Some t => Nat.eqb t c | None => false end).
  assert (F : forall e, encourages u e c <-> In e (filter f (cs_aliases s))).
  { intros e. rewrite filter_In, (encourages_iff u P s C). unfold f. rewrite andb_true_iff. destruct (d_target (u_decls u e)) as [t|]; [rewrite Nat.eqb_eq|]; split; intros (H1 & H2); intuition congruence. }
  destruct (assoc (bs_relocated b) c) as [a|] eqn:E.
  - apply Rel in E.
    assert (D : (exists e, In e (filter f (cs_aliases s)) /\ precedes u a e) \/ forall e, In e (filter f (cs_aliases s)) -> ~ precedes u a e).
    { clear F. induction (filter f (cs_aliases s)) as [|x l IH]; [right; intros e []|]. destruct (precedes_dec u a x) as [Hx|Hx]; [left; exists x; split; [left; reflexivity|exact Hx]|].
      destruct IH as [(e & He & Hp)|N]; [left; exists e; split; [right; exact He|exact Hp]|]. right. intros e [<-|He]; auto. }
    destruct D as [(e & He & Hp)|N].
    + exists (Some true). apply (stated_encouraged u c e); [apply F, He|]. intros a' Ha'. rewrite (Uq a' a c Ha' E). exact Hp.
    + destruct (relocates_own a c E) as (x & Hx). exists (n_visible (at_named x)). apply (stated_relocated u c a); [exact E| |apply own_says, Hx]. intros e He. apply N, F, He.
  - assert (N : forall a, ~ relocates u a c) by (intros a H; apply Rel in H; congruence).
    destruct (filter f (cs_aliases s)) as [|e l] eqn:Ef.
    + assert (N2 : forall e, ~ encourages u e c) by (intros e He; apply F in He; destruct He).
      destruct (in_dec Nat.eq_dec c (map fst (cs_annotations s))) as [H|H].
      * destruct (O c H) as (st & ds & y & E1 & E2 & E3). apply K in H as [H1 H2]. exists (n_visible (at_named y)). apply stated_own; auto. apply own_says. exists st, ds. auto.
      * exists None. apply stated_nothing; auto. rewrite <- K. exact H.
    + exists (Some true). apply (stated_encouraged u c e); [apply F; left; reflexivity|]. intros a Ha. destruct (N a Ha).
Qed.

Lemma stated_iff c v : stated u c v <-> v = stored_visibility c.
Proof. split; [apply stated_stored|]. intros ->. destruct (stated_total c) as (v & H). rewrite <- (stated_stored c v H). exact H. Qed.

Lemma decides_iff c v : decides u c v <-> decided u (bs_annotations b) c v.
Proof.
  unfold decides, decided. rewrite !stated_iff. unfold stored_visibility, explicit.
  destruct (lookup_attrs (bs_annotations b) c) as [a|] eqn:E.
  - split.
    + intros [H|(H1 & H2 & H3)]; [left; eauto|right]. split; [|auto]. intros w (a' & [= <-] & H). congruence.
    + intros [(a' & [= <-] & H)|(H1 & H2 & H3)]; [left; congruence|right]. split; [|auto]. destruct (n_visible (at_named a)) as [w|] eqn:Ev; [|reflexivity]. destruct (H1 w). eauto.
  - split; [intros [H|(H1 & H2 & H3)]; [discriminate|right]|intros [(a' & H & _)|(H1 & H2 & H3)]; [discriminate|right]]; auto. split; [|auto]. intros w (a' & H & _). discriminate.
Qed.

Lemma comes_out_iff l v : comes_out u l v <-> visible_along u (bs_annotations b) l v.
Proof.
  unfold comes_out, visible_along. split; (intros [(l1 & n & l2 & H1 & H2 & H3)|[H1 H2]]; [left; exists l1, n, l2; split; [exact H1|]; split; [apply decides_iff, H2|]|right; split; [exact H1|]]);
    intros m w Hm Hd; apply decides_iff in Hd; [apply (H3 m w)|apply (H2 m w)|apply (H3 m w)|apply (H2 m w)]; assumption.
Qed.

(** Namespaces have their own attributes. *)
Lemma namespace_attributes m a : kind u m = KNamespace -> lookup_attrs (bs_annotations b) m = Some a -> (In m (source_order u) /\ counts u m) /\ own_attributes u m a.
Proof.
  intros Hk H. destruct (collected_declarations u s (pl_sane u P) C) as (K & _ & O & _). destruct (attributes_of_targets u P b s C B m) as [A1 _].
  assert (NT : forall x y, alias_of u x m y -> False).
  { intros x y (H1 & H2 & H3 & H4 & _). destruct (pl_target u P x m H1 H2 H3 H4) as [Ht _]. rewrite Hk in Ht. discriminate. }
  rewrite A1 in H; [|intros x (y & Hx & _); eapply NT, Hx|intros x (y & Hx & _); eapply NT, Hx].
  assert (Hin : In m (map fst (cs_annotations s))) by (apply in_keys; congruence). destruct (O m Hin) as (st & ds & y & E1 & E2 & E3). split; [apply K, Hin|].
  exists st, ds. split; [exact E1|congruence].
Qed.

Lemma valid_described i a : own_attributes u i a -> valid_annotations (u_decls u i) -> d_skip (u_decls u i) = false ->
  exists ans v, carried (d_attrs (u_decls u i)) ans false /\ described (u_decls u i) v ans a /\ forall an, In an ans -> well_formed (u_decls u i) an.
Proof.
  intros (st & ds & E1 & E2) V Hs. assert (Ne : ~ has_error ds) by (intros E; apply (insert_valid _ _ _ _ E1 Hs) in E; contradiction).
  destruct (insert_no_annotation_ignored _ _ _ _ _ E1 eq_refl Hs) as (a' & ans & bad & Ha & Ca & _ & D). destruct (D Ne) as (-> & v & _ & De).
  assert (a' = a) as -> by congruence. exists ans, v. split; [exact Ca|]. split; [exact De|]. destruct V as (_ & ans' & Ca' & Acc). destruct (carried_unique2 _ _ _ _ _ Ca Ca') as [<- _].
  intros an Han. apply In_nth_error in Han as (k & Hk). apply (Acc k an Hk).
Qed.

Lemma elsewhere_iff name m : exposed_checked u b -> elsewhere u name m <-> foreign u (bs_annotations b) name m.
Proof.
  intros V. destruct (collected_declarations u s (pl_sane u P) C) as (K & _ & O & _).
  assert (Iff : forall a ans v, described (u_decls u m) v ans a -> (forall an, In an ans -> well_formed (u_decls u m) an) ->
    (AnnotSpec.given OnlyExposeIn ans <-> ns_only_expose_in (at_namespace a) <> []) /\ forall n, named_by OnlyExposeIn ans n <-> In n (ns_only_expose_in (at_namespace a))).
  { intros a ans v De Wf. assert (X := de_only_expose_in _ _ _ _ De).
    assert (N : forall n, named_by OnlyExposeIn ans n <-> In n (ns_only_expose_in (at_namespace a))).
    { intros n. transitivity (In (LString n) (map LString (ns_only_expose_in (at_namespace a)))).
      - rewrite X, in_flat_map. unfold named_by. split; intros (an & H).
        + exists an. rewrite filter_In. destruct H as (H1 & H2 & H3). split; [split; [exact H1|apply akind_eqb_eq; exact H2]|exact H3].
        + destruct H as (H1 & H2). apply filter_In in H1 as [H1 H3]. apply akind_eqb_eq in H3. exists an. auto.
      - rewrite in_map_iff. split; [intros (n' & [= ->] & H); exact H|eauto]. }
    split; [|exact N]. split.
    - intros (an & Han & Hk) E. assert (W := Wf an Han). destruct W; cbn in Hk; try discriminate. destruct ss as [|n ss]; [congruence|].
      assert (In n (ns_only_expose_in (at_namespace a))); [|rewrite E in *; contradiction]. apply N. eexists. split; [exact Han|]. split; [reflexivity|left; reflexivity].
    - intros Ne. destruct (ns_only_expose_in (at_namespace a)) as [|n l] eqn:E; [congruence|]. destruct (proj2 (N n) (or_introl eq_refl)) as (an & H1 & H2 & _). exists an. auto. }
  unfold elsewhere, foreign. split.
  - intros (Hk & H1 & H2 & ans & Ca & Gi & Na). split; [exact Hk|]. destruct (O m) as (st & ds & a & E1 & E2 & E3); [apply K; auto|].
    assert (Ea : lookup_attrs (bs_annotations b) m = Some a).
    { destruct (attributes_of_targets u P b s C B m) as [A1 _]. rewrite A1; [exact E3|..]; intros x (y & (J1 & J2 & J3 & J4 & _) & _); destruct (pl_target u P x m J1 J2 J3 J4) as [Ht _]; rewrite Hk in Ht; discriminate. }
    exists a. split; [exact Ea|]. assert (Ow : own_attributes u m a) by (exists st, ds; auto).
    destruct (valid_described m a Ow) as (ans' & v & Ca' & De & Wf); [apply V; congruence|exact (proj1 (own_says u m a Ow))|].
    destruct (carried_unique2 _ _ _ _ _ Ca Ca') as [<- _]. destruct (Iff a ans v De Wf) as [I1 I2]. split; [apply I1, Gi|]. intros H. apply Na, I2, H.
  - intros (Hk & a & Ea & Ne & Ni). split; [exact Hk|]. destruct (namespace_attributes m a Hk Ea) as [[H1 H2] Ow]. split; [exact H1|]. split; [exact H2|].
    destruct (valid_described m a Ow) as (ans & v & Ca & De & Wf); [apply V; congruence|exact (proj1 (own_says u m a Ow))|].
    destruct (Iff a ans v De Wf) as [I1 I2]. exists ans. split; [exact Ca|]. split; [apply I1, Ne|]. intros H. apply Ni, I2, H.
Qed.
End Stated.

(** ** Contexts that are preserved *)

Lemma path_suffix E root l1 m l2 : path E root (l1 ++ m :: l2) -> path E root (m :: l2).
Proof. induction l1 as [|x l1 IH]; [auto|]. cbn. intros H. inversion H as [E1|p c l H1 H2 E1]; [destruct l1; discriminate|]. apply IH. rewrite <- H0. exact H1. Qed.

Lemma path_impl (E E' : nat -> nat -> Prop) root l : (forall p c, E p c -> E' p c) -> path E root l -> path E' root l.
Proof. intros Hi H. induction H as [|p c l H IH Hc]; [constructor|]. constructor; auto. Qed.

Section Kept.
Context (u : unit) (P : placed u) (found : nat -> list nat) (implicit : nat -> bool) (name : str) (g : graph) (vis : dmap bool) (b : bstate).
Hypothesis X : exposed u found implicit name g vis b.

Lemma found_iff c : tag u c -> In c (g_nodes g) <-> to_be_found u name c.
Proof.
  intros Tc. assert (V := exposed_valid _ _ _ _ _ _ _ P X). destruct X as (contexts & warned & H). assert (S := process_spec u P found implicit name). rewrite H in S.
  destruct S as (vis0 & contexts0 & Hb & Hv & Hcy & Hcx & Hh & Hp & Hw). cbn zeta in *.
  destruct (collect u) as [s|] eqn:C; [|unfold build_graph in Hb; rewrite C in Hb; discriminate].
  destruct (one_place u P b Hb) as (T & Pl & _). set (st := bs_annotations b) in *. set (gb := bs_graph b) in *.
  destruct (visibility_spec u st gb T) as (vis1 & Hv1 & Hk & Hva). rewrite Hv in Hv1. injection Hv1 as <-.
  destruct (content_spec u st found implicit vis0 gb T) as (contexts1 & Hcx1 & Hcont). { intros m Hr. apply Hk, Hr. } rewrite Hcx in Hcx1. injection Hcx1 as <-.
  destruct (hide_spec u st name gb T contexts0 vis0) as (contexts1 & vis1 & Hh1 & Hh2 & _). rewrite Hh in Hh1. injection Hh1 as <- <-.
  destruct (pruned_spec u contexts vis gb T) as (g1 & Hp1 & _ & _ & Hin & _).
  { intros m Hr. assert (Hr' := Hr). destruct Hr' as (lm & Hpm). destruct (Hh2 m lm Hpm) as (_ & X' & Y').
    destruct (exists_foreign_dec u st name (m :: lm)) as [F|F]; [rewrite (X' F); eauto|]. rewrite (Y' F). apply Hk, Hr. }
  rewrite Hp in Hp1. injection Hp1 as <-. rewrite Hin.
  assert (Tr : c <> u_root u). { intros ->. unfold tag in Tc. rewrite (pl_root_kind u P) in Tc. destruct Tc; discriminate. }
  assert (Seen : forall m l v, path (edge gb) (u_root u) (m :: l) -> comes_out u (m :: l) v <-> lookup_vis vis0 m = v).
  { intros m l v Hl. rewrite (comes_out_iff u s b P C Hb). fold st. rewrite <- (Hva m l v Hl). unfold lookup_vis. assert (R : reachable gb (u_root u) m) by (exists l; exact Hl). apply Hk in R as (v' & E). rewrite E. split; [intros [= ->]; reflexivity|intros ->; reflexivity]. }
  split.
  - intros [->|(l & Hl & Kl)]; [contradiction|]. split; [exact Tc|].
    assert (NF : ~ exists m, In m (c :: l) /\ foreign u st name m).
    { intros F. destruct (Hh2 c l Hl) as (_ & X' & _). destruct (Kl c (or_introl eq_refl)) as [[_ Hc]|[Hc _]]; [|contradiction]. unfold lookup_vis in Hc. rewrite (X' F) in Hc. discriminate. }
    exists l. split; [eapply path_impl; [|exact Hl]; intros p q; apply Pl|]. split.
    + intros l1 m l2 E Tm. assert (Hm : path (edge gb) (u_root u) (m :: l2)) by (apply (path_suffix _ _ l1); rewrite <- E; exact Hl). apply (Seen m l2 true Hm).
      destruct (Kl m) as [[_ Hvm]|[N _]]; [rewrite E; apply in_app_iff; cbn; auto| |contradiction].
      destruct (Hh2 m l2 Hm) as (_ & _ & Y'). unfold lookup_vis in *. rewrite <- Y'; [exact Hvm|]. intros (x & Hx & Fx). apply NF. exists x. split; [rewrite E; apply in_app_iff; auto|exact Fx].
    + intros m Hm E. apply (elsewhere_iff u s b P C Hb name m V) in E. apply NF. eauto.
  - intros (_ & l & Hl & Ht & Hf). right. assert (Hl' : path (edge gb) (u_root u) (c :: l)) by (eapply path_impl; [|exact Hl]; intros p q; apply Pl). exists l. split; [exact Hl'|].
    assert (NF : forall m, In m (c :: l) -> ~ foreign u st name m). { intros m Hm F. apply (Hf m Hm). apply (elsewhere_iff u s b P C Hb name m V), F. }
    assert (Tv : forall l1 m l2, c :: l = l1 ++ m :: l2 -> tag u m -> lookup_vis vis0 m = true).
    { intros l1 m l2 E Tm. apply (Seen m l2). { apply (path_suffix _ _ l1). rewrite <- E. exact Hl'. } apply (Ht l1 m l2 E Tm). }
    assert (Hc : forall l1 m l2, c :: l = l1 ++ m :: l2 -> l1 <> [] -> has_content u st found implicit (lookup_vis vis0) gb m).
    { intros l1. remember (rev l1) as r eqn:Er. assert (l1 = rev r) as -> by (rewrite Er, rev_involutive; reflexivity). clear Er.
      assert (Go : forall r m l2, c :: l = rev r ++ m :: l2 -> r <> [] -> has_content u st found implicit (lookup_vis vis0) gb m).
      2: { intros m l2 E Ne. apply (Go r m l2 E). intros ->. apply Ne. reflexivity. }
      clear r. induction r as [|x r IH]; intros m l2 E Ne; [congruence|]. cbn [rev] in E. rewrite <- app_assoc in E. cbn [app] in E.
      assert (Em : edge gb m x). { assert (Hx : path (edge gb) (u_root u) (x :: m :: l2)) by (apply (path_suffix _ _ (rev r)); rewrite <- E; exact Hl'). inversion Hx; subst; auto. }
      apply has_content_iff. destruct r as [|y r].
      - cbn in E. injection E as <- _. left. left. exists c. split; [exact Em|]. split; [exact Tc|]. apply (Tv [] c l eq_refl Tc).
      - right. exists x. split; [exact Em|]. split; [intros [Tx Hx]; rewrite (Tv _ x _ E Tx) in Hx; discriminate|]. apply (IH x (m :: l2) E). discriminate. }
    intros m Hm. destruct (in_split _ _ Hm) as (l1 & l2 & E). assert (Hpm : path (edge gb) (u_root u) (m :: l2)) by (apply (path_suffix _ _ l1); rewrite <- E; exact Hl').
    destruct (Hh2 m l2 Hpm) as (X1 & _ & Y1). assert (NFm : ~ exists x, In x (m :: l2) /\ foreign u st name x).
    { intros (x & Hx & Fx). apply (NF x); [rewrite E; apply in_app_iff; auto|exact Fx]. }
    assert (Td : tag u m \/ ~ tag u m) by (unfold tag; destruct (kind u m); auto; right; intros [?|?]; discriminate).
    destruct Td as [Tm|Tm]; [left; split; [exact Tm|]|right; split; [exact Tm|]].
    + unfold lookup_vis. rewrite (Y1 NFm). apply (Tv l1 m l2 E Tm).
    + apply X1. split; [|exact NFm]. apply Hcont. split; [exists l2; exact Hpm|]. apply (Hc l1 m l2 E). intros ->. cbn in E. injection E as <- _. contradiction.
Qed.
End Kept.

(** ** What happens to the others *)
Lemma visible_or_warned u found implicit name g contexts vis warned b : placed u -> process u found implicit name = Done (Pruned g contexts vis warned b) ->
  well_nested u -> no_orphans u -> forall p c, place u p c -> tag u c ->
  exists l, path (place u) (u_root u) (c :: p :: l) /\
    (In c (g_nodes g) \/ comes_out u (c :: p :: l) false \/ (exists m, In m (c :: p :: l) /\ elsewhere u name m) \/
     exists r, In r warned /\ (relocates u r p \/ (r = p /\ forall a, ~ relocates u a p))).
Proof.
  intros P H Wn No p c Hpc Tc. assert (X : exposed u found implicit name g vis b) by (exists contexts, warned; exact H). assert (V := exposed_valid _ _ _ _ _ _ _ P X).
  assert (S := process_spec u P found implicit name). rewrite H in S. destruct S as (vis0 & contexts0 & Hb & Hv & Hcy & Hcx & Hh & Hp & Hw). cbn zeta in *.
  destruct (collect u) as [s|] eqn:C; [|unfold build_graph in Hb; rewrite C in Hb; discriminate].
  destruct (one_place u P b Hb) as (T & Pl & Nd & _). destruct (cycles_spec u P b vis0 Hb Hv) as (_ & _ & Re & _). specialize (Re Wn No Hcy).
  destruct (Re c) as (l' & Hl'); [apply Nd; right; exists p, c; auto|].
  assert (exists l, l' = p :: l) as (l & ->).
  { inversion Hl' as [E|p' c' l E1 E2 E3]; subst.
    - exfalso. unfold tag in Tc. rewrite (pl_root_kind u P) in Tc. destruct Tc; discriminate.
    - exists l. f_equal. apply Pl in Hpc. eapply edge_parent_unique; [exact T|exact E2|exact Hpc]. }
  assert (Hl : path (place u) (u_root u) (c :: p :: l)) by (eapply path_impl; [|exact Hl']; intros x y; apply Pl).
  exists l. split; [exact Hl|]. destruct (in_dec Nat.eq_dec c (g_nodes g)) as [Hc|Hc]; [auto|right].
  destruct (exists_foreign_dec u (bs_annotations b) name (c :: p :: l)) as [(m & Hm & F)|F].
  { right. left. exists m. split; [exact Hm|]. apply (elsewhere_iff u s b P C Hb name m V), F. }
  destruct (visibility_spec u (bs_annotations b) (bs_graph b) T) as (vis1 & Hv1 & Hk & Hva). rewrite Hv in Hv1. injection Hv1 as <-.
  assert (R : reachable (bs_graph b) (u_root u) c) by (exists (p :: l); exact Hl').
  destruct (proj2 (Hk c) R) as (v & Ev). assert (Ov := proj1 (Hva c _ v Hl') Ev). apply (comes_out_iff u s b P C Hb) in Ov. destruct v; [|auto]. right. right.
  destruct (hide_spec u (bs_annotations b) name (bs_graph b) T contexts0 vis0) as (contexts1 & vis1 & Hh1 & Hh2 & _). rewrite Hh in Hh1. injection Hh1 as <- <-.
  destruct (Hh2 c _ Hl') as (_ & _ & Y). destruct (lost_is_warned u P found implicit name g contexts vis warned b H) as [W1 W2].
  destruct (W2 c Tc) as (q & Hq & Cq & Rq & Nq); [unfold lookup_vis; rewrite (Y F), Ev; reflexivity|exact R|exact Hc|].
  assert (q = p) as -> by (apply Pl in Hpc; eapply edge_parent_unique; [exact T|exact Hq|exact Hpc]).
  destruct (one_place u P b Hb) as (_ & _ & _ & _ & Rel). destruct (assoc (bs_relocated b) p) as [a|] eqn:Ea.
  - apply Rel in Ea. exists a. split; [|auto]. apply W1. exists p. repeat (split; [assumption|]). auto.
  - assert (N : forall a, ~ relocates u a p) by (intros a Ha; apply Rel in Ha; congruence). exists p. split; [|auto]. apply W1. exists p. repeat (split; [assumption|]). auto.
Qed.

(** ** Imported modules *)
Lemma tag_kind u c : is_tag_kind (kind u c) = true <-> tag u c.
Proof. unfold tag. destruct (kind u c); cbn; split; auto; try discriminate; intros [E|E]; discriminate E. Qed.

Lemma module_types default_holder u w found implicit iteration n name b files rs st' : setting u w iteration -> nested_blocks u -> 0 < n ->
  generate u w found implicit iteration n name = Some (RGraph b (EWritten files rs st')) ->
  exists g vis order all chunks post, exposed u found implicit name g vis b /\
    generated u w g vis (bs_annotations b) name rs st' order all post /\ layout name post all chunks files /\
    let intros := map (fun e => (ex_id e, ex_intro e)) all in
    (forall s, import default_holder intros = Some s -> forall c, tag u c -> (holding s c <> None <-> to_be_found u name c)) /\
    (NoDup (map fst intros) -> agreeing_blocks u (bs_annotations b) g -> distinct_names u (bs_annotations b) g -> usable_bases default_holder w intros ->
     exists s, import default_holder intros = Some s /\ forall c,
       (kind u c = KRecord -> ((exists l, resolve s (Mod []) l = Some (Class c)) <-> to_be_found u name c)) /\
       (kind u c = KEnum -> ((exists l, resolve s (Mod []) l = Some (Enum c)) <-> to_be_found u name c))).
Proof.
  intros S NB Hn HG. destruct (run_imports default_holder _ _ _ _ _ _ _ _ _ _ _ S NB Hn HG) as (g & vis & order & all & chunks & post & X & G & Ly & I).
  exists g, vis, order, all, chunks, post. split; [exact X|]. split; [exact G|]. split; [exact Ly|]. intros intros. assert (P := se_placed _ _ _ S).
  split.
  - intros s Hs c Tc. rewrite <- (found_iff u P found implicit name g vis b X c Tc).
    assert (TA := typed_all default_holder u w g (bs_annotations b) all s (fun e He => proj1 (ge_introduces _ _ _ _ _ _ _ _ _ _ _ G e He)) Hs).
    rewrite (ts_types _ _ _ TA). split.
    + intros (f & Hf & <- & _). eapply entry_context_node; eassumption.
    + intros Hc. assert (E : exists f, In f all /\ (ex_context f = c \/ same_namespace u (ex_context f) c)) by (eapply entry_for; eassumption).
      destruct E as (f & Hf & [E|E]); [exists f; split; [exact Hf|]; split; [exact E|apply tag_kind, Tc]|].
      exfalso. destruct E as (_ & E & _). unfold tag in Tc. rewrite E in Tc. destruct Tc; discriminate.
  - intros Nd Ag Di Ub. destruct (I Nd Ag Di Ub) as (s & Hs & _ & At & Pt & Rp). exists s. split; [exact Hs|].
    assert (Only : forall l o v, resolve s o l = Some v -> o = v \/ exists c, In c (g_nodes g) /\ located u (bs_annotations b) g c v).
    { induction l as [|m l IH]; intros o v H; cbn in H; [left; congruence|]. destruct (attribute s o m) as [q|] eqn:E; [|discriminate]. destruct (IH q v H) as [<-|H']; [|auto].
      right. apply At in E as (c & (Hc & _) & L). eauto. }
    assert (One : forall c o, (kind u c = KRecord /\ o = Class c) \/ (kind u c = KEnum /\ o = Enum c) -> ((exists l, resolve s (Mod []) l = Some o) <-> to_be_found u name c)).
    { intros c o Ho. assert (Tc : tag u c) by (destruct Ho as [[? _]|[? _]]; [left|right]; assumption). rewrite <- (found_iff u P found implicit name g vis b X c Tc). split.
      - intros (l & Hl). destruct (Only l _ _ Hl) as [E|(d & Hd & L)]; [destruct Ho as [[_ ->]|[_ ->]]; discriminate|].
        assert (K : forall x y, located u (bs_annotations b) g x y -> In x (g_nodes g) -> (y = Class c \/ y = Enum c) -> In c (g_nodes g)).
        { destruct (exposed_graph _ _ _ _ _ S _ _ _ _ X) as (T & _). clear -T. intros x y L. induction L as [|x Hx|x Hx|x p path m Hm Hs Hl IH Hn|x p o Hk Hm Hs Hl IH]; intros Hin [E|E]; try discriminate; try (injection E as <-; exact Hin).
          - apply IH; [|left; exact E]. eapply scope_nodes; [exact T|exact Hs].
          - apply IH; [|right; exact E]. eapply scope_nodes; [exact T|exact Hs]. }
        apply (K d o L Hd). destruct Ho as [[_ ->]|[_ ->]]; auto.
      - intros Hc. destruct (Pt c Hc) as (l & Hl). destruct (Rp c l Hl) as (o' & L & R). exists l. rewrite R. f_equal.
        destruct Ho as [[K ->]|[K ->]]; destruct L as [|x Hx|x Hx|x p path m Hm Hs' Hl' Hn'|x p o Hk Hm Hs' Hl']; try congruence; try reflexivity; try (rewrite (pl_root_kind u P) in K; discriminate);
          destruct Hm; congruence. }
    intros c. split; intros K; apply One; auto.
Qed.
