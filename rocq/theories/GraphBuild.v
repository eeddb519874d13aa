(** * Proofs about the construction of the context graph *)
From Verif Require Import Base ParserModel AnnotModel AnnotSpec AnnotProofs CollectModel CollectSpec CollectProofs GraphModel GraphSpec GraphWalk.

(** ** Aliases without a usable target are reported by the collector *)

Definition reported (u : unit) (s : cstate) : Prop :=
  forall i, In i (keys (cs_annotations s)) -> kind u i = KTypedef -> d_target (u_decls u i) = None -> marked (u_decls u i) ->
    In (RAnnotation i DUnsupportedAliasTarget) (cs_reports s).

Lemma compute_reports d a ds : compute_attrs d = Some (a, ds) -> d_kind d = KTypedef -> d_target d = None -> marked d ->
  In DUnsupportedAliasTarget ds.
Proof.
  unfold compute_attrs. destruct (parse_attrs (d_attrs d) []) as [ans pds]. destruct (process_annotations d ans (initial_attrs d)) as [[a' dss]|]; [|discriminate].
  intros [= <- <-] Hk Ht Hm. apply in_app_iff. left. unfold supports_typedef_diags, is_typedef. rewrite Hk, Ht.
  apply has_annotations_marked in Hm. rewrite Hm. left; reflexivity.
Qed.

Lemma visit_reported u i s s' : visit u i s = Some s' -> reported u s -> reported u s' /\ incl (cs_reports s) (cs_reports s').
Proof.
  unfold visit. destruct (visit_named u i s) as [s1|] eqn:E; [|discriminate]. intros [= <-] Hr.
  assert (H1 : reported u s1 /\ incl (cs_reports s) (cs_reports s1)).
  { unfold visit_named in E. destruct (_ || _); [injection E as <-; split; [exact Hr|apply incl_refl]|].
    destruct (insert (u_decls u) i (cs_annotations s)) as [[st ds]|] eqn:Ei; [|discriminate]. injection E as <-. cbn [cs_reports].
    split; [|apply incl_appl, incl_refl]. intros j Hj Hk Ht Hm. cbn [cs_annotations cs_reports] in *. unfold insert in Ei.
    destruct (d_skip (u_decls u i)). { injection Ei as <- <-. apply in_app_iff. left. auto. }
    destruct (has (cs_annotations s) i). { injection Ei as <- <-. apply in_app_iff. left. auto. }
    destruct (compute_attrs (u_decls u i)) as [[a ds']|] eqn:Ec; [|discriminate]. injection Ei as <- <-.
    unfold keys in Hj. rewrite map_app in Hj. apply in_app_iff in Hj as [Hj|[<-|[]]]; apply in_app_iff; [left; apply Hr; auto|right].
    apply in_map. cbn in *. apply (compute_reports (u_decls u i) a ds' Ec Hk Ht Hm). }
  destruct H1 as [H1 H2].
  assert (X : forall s2, cs_annotations s2 = cs_annotations s1 -> incl (cs_reports s1) (cs_reports s2) -> reported u s2 /\ incl (cs_reports s) (cs_reports s2)).
  { intros s2 Ha Hi. split; [|eapply incl_tran; eauto]. intros j Hj Hk Ht Hm. apply Hi. rewrite Ha in Hj. apply H1; auto. }
  destruct (kind u i); try (apply X; [reflexivity|apply incl_refl]);
    unfold visit_context, visit_typedef, push_context, push_alias, report_all;
    repeat match goal with |- context [if ?b then _ else _] => destruct b end; apply X; cbn [cs_annotations cs_reports]; try reflexivity; try apply incl_refl.
  apply incl_appl, incl_refl.
Qed.

Lemma traverse_reported u t : forall s s', traverse u t s = Some s' -> reported u s -> reported u s' /\ incl (cs_reports s) (cs_reports s').
Proof.
  induction t as [i ts IH] using tree_ind'. intros s s'.
  assert (Hall : forall s s', (fix go ts s := match ts with [] => Some s | t :: ts' => match traverse u t s with None => None | Some s' => go ts' s' end end) ts s = Some s' ->
    reported u s -> reported u s' /\ incl (cs_reports s) (cs_reports s')).
  { clear s s'. induction ts as [|t ts IHts]; intros s s'; [intros [= <-]; split; [auto|apply incl_refl]|].
    inversion IH; subst. destruct (traverse u t s) as [s1|] eqn:E; [|discriminate]. intros H Hr.
    destruct (H1 _ _ E Hr) as [A B]. destruct (IHts H2 _ _ H A) as [C D]. split; [exact C|eapply incl_tran; eauto]. }
  cbn [traverse]. destruct (is_namespace_kind (kind u i)).
  - destruct (d_skip (u_decls u i)); [intros [= <-]; split; [auto|apply incl_refl]|].
    destruct (visit u i s) as [s1|] eqn:E1; [|discriminate]. destruct (_ ts s1) as [s2|] eqn:E2; [|discriminate]. intros H Hr.
    destruct (visit_reported _ _ _ _ E1 Hr) as [A B]. destruct (Hall _ _ E2 A) as [C D].
    assert (F : reported u s2 /\ incl (cs_reports s) (cs_reports s2)) by (split; [exact C|eapply incl_tran; eauto]).
    destruct (negb _); injection H as <-; [|exact F]. unfold check_first. destruct (assoc (cs_first s2) (u_canonical u i)).
    + destruct (equal u (cs_annotations s2) i n); [exact F|]. destruct F as [F1 F2]. split; cbn; [|apply incl_appl, F2].
      intros j Hj Hk Ht Hm. cbn. apply in_app_iff. left. apply F1; auto.
    + exact F.
  - destruct (visit u i s) as [s1|] eqn:E1; [|discriminate]. intros H Hr.
    destruct (visit_reported _ _ _ _ E1 Hr) as [A B]. destruct (Hall _ _ H A) as [C D]. split; [exact C|eapply incl_tran; eauto].
Qed.

Lemma collect_reported u s : collect u = Some s -> reported u s.
Proof.
  unfold collect. assert (H0 : reported u init_state) by (intros i []). revert H0. generalize init_state.
  induction (u_top u) as [|t ts IH]; intros s0 H0; cbn [traverse_all]; [intros [= <-]; exact H0|].
  destruct (traverse u t s0) as [s1|] eqn:E; [|discriminate]. apply IH. apply (traverse_reported u t s0 s1 E H0).
Qed.

(** ** Contexts *)

Lemma lookup_context_iff u i p : lookup_context u i = Some p <-> nearest_context u i p.
Proof.
  unfold lookup_context, nearest_context. induction (u_contexts u i) as [|c l IH]; cbn [find].
  - split; [discriminate|]. intros (l1 & l2 & E & _). destruct l1; discriminate.
  - destruct (u_lookup u c) eqn:E.
    + split.
      * intros [= <-]. exists [], l. repeat split; auto. intros q [].
      * intros ([|x l1] & l2 & El & Hp & Hq); cbn in El; injection El as <- ->; [reflexivity|]. rewrite (Hq c (or_introl eq_refl)) in E. discriminate.
    + rewrite IH. split.
      * intros (l1 & l2 & -> & Hp & Hq). exists (c :: l1), l2. repeat split; auto. intros q [<-|H]; auto.
      * intros ([|x l1] & l2 & El & Hp & Hq); cbn in El; injection El as <- ->; [congruence|]. exists l1, l2. repeat split; auto.
        intros q H. apply Hq. right; exact H.
Qed.

Lemma lookup_context_total u i : placed u -> In i (source_order u) -> exists p, lookup_context u i = Some p.
Proof.
  intros P Hi. assert (H := pl_root u P i Hi). assert (Hl := pl_root_lookup u P). unfold lookup_context.
  induction (u_contexts u i) as [|c l IH]; [contradiction|]. cbn. destruct (u_lookup u c) eqn:E; [eauto|].
  destruct H as [->|H]; [congruence|auto].
Qed.

Definition ctx (u : unit) (i : nat) : nat := match lookup_context u i with Some p => p | None => u_root u end.

(** ** Updates *)

Lemma update_lookup i f st j : lookup_attrs (update_named i f st) j =
  if Nat.eqb j i then Some (f (match lookup_attrs st i with Some a => a | None => default_attrs end)) else lookup_attrs st j.
Proof.
  induction st as [|[k a] st IH]; cbn [update_named lookup_attrs].
  - destruct (Nat.eqb j i) eqn:E; reflexivity.
  - destruct (Nat.eqb i k) eqn:Ek; cbn [lookup_attrs].
    + apply Nat.eqb_eq in Ek. subst k. destruct (Nat.eqb j i) eqn:E; reflexivity.
    + destruct (Nat.eqb j k) eqn:Ej; [|exact IH]. apply Nat.eqb_eq in Ej. subst k. destruct (Nat.eqb j i) eqn:E; [|reflexivity].
      apply Nat.eqb_eq in E. subst. rewrite Nat.eqb_refl in Ek. discriminate.
Qed.

(** Effect of taking over the attributes of an alias. *)
Definition take_over (u : unit) (a : nat) (x : attrs) (y : attrs) : attrs :=
  set_visible (n_visible (at_named x)) (set_spelling (match n_spelling (at_named x) with [] => u_name u a | s => s end) y).

Lemma propagate_effect u a t st : has st t = true ->
  exists st', propagate u a t st = Done st' /\ forall j, lookup_attrs st' j =
    if Nat.eqb j t then option_map (take_over u a (match lookup_attrs st a with Some x => x | None => default_attrs end)) (lookup_attrs st j)
    else lookup_attrs st j.
Proof.
  intros H. unfold propagate. rewrite H. cbn [negb]. eexists. split; [reflexivity|]. intros j. rewrite update_lookup.
  destruct (Nat.eqb j t) eqn:E; [|reflexivity]. apply Nat.eqb_eq in E. subst j. unfold has in H.
  destruct (lookup_attrs st t) as [y|]; [|discriminate]. cbn [option_map]. f_equal.
  destruct (lookup_attrs st a) as [x|]; unfold take_over.
  - destruct (n_visible (at_named x)) as [[|]|]; reflexivity.
  - reflexivity.
Qed.

Lemma compute_tag d : d_kind d <> KTypedef -> exists a ds, compute_attrs d = Some (a, ds).
Proof.
  intros H. unfold compute_attrs. destruct (parse_attrs (d_attrs d) []) as [ans pds].
  assert (Ht : supports_typedef_diags d = []). { unfold supports_typedef_diags, is_typedef. destruct (d_kind d); congruence || reflexivity. }
  cut (forall a, exists r, process_annotations d ans a = Some r).
  { intros X. destruct (X (initial_attrs d)) as ((a & dss) & ->). eauto. }
  induction ans as [|an ans IH]; intros a; cbn [process_annotations]; [eauto|]. unfold process_annotation.
  destruct (any_of (handlers d) an a) as [[ok a'] ds]. rewrite Ht.
  destruct (existsb is_error ds || ok).
  - destruct (IH a') as ((a2 & dss) & ->). eauto.
  - destruct (IH a') as ((a2 & dss) & ->). eauto.
Qed.

Lemma own_tag u i : kind u i <> KTypedef -> exists a, own u i = Some a.
Proof. intros H. unfold own. destruct (compute_tag (u_decls u i) H) as (a & ds & ->). cbn. eauto. Qed.

(** ** One alias *)

Section Aliases.
Context (u : unit) (st0 : storage).

Definition alias_attrs (a : nat) : attrs := match lookup_attrs st0 a with Some x => x | None => default_attrs end.
Definition enc (a : nat) : bool := t_encourage (at_typedef (alias_attrs a)).
Definition exp (a : nat) : bool := t_expose_here (at_typedef (alias_attrs a)).
Definition tgt (a : nat) : nat := match d_target (u_decls u a) with Some t => t | None => 0 end.

Definition alias_ok (a : nat) : Prop :=
  kind u a = KTypedef /\ lookup_attrs st0 a <> None /\ d_target (u_decls u a) = Some (tgt a) /\
  is_tag_kind (kind u (tgt a)) = true /\ d_skip (u_decls u (tgt a)) = false /\ lookup_context u a = Some (ctx u a).

Definition same_aliases (st : storage) : Prop := forall i, is_tag_kind (kind u i) = false -> lookup_attrs st i = lookup_attrs st0 i.

(** What a target looks like before an alias acts on it. *)
Definition base (st : storage) (t : nat) : attrs :=
  match lookup_attrs st t with Some y => y | None => match own u t with Some y => y | None => default_attrs end end.

Definition act (rel : list (nat * nat)) (a : nat) (y : attrs) : attrs :=
  let y1 := if enc a then set_visible (Some true) y else y in
  if exp a then match assoc rel (tgt a) with None => take_over u a (alias_attrs a) y1 | Some _ => y1 end else y1.

Definition new_relocated (rel : list (nat * nat)) (a : nat) : list (nat * nat) :=
  if exp a then match assoc rel (tgt a) with None => rel ++ [(tgt a, a)] | Some _ => rel end else rel.
Definition new_conflicts (rel : list (nat * nat)) (a : nat) : list report :=
  if exp a then match assoc rel (tgt a) with None => [] | Some b => [RAlreadyExposed a b] end else [].

Definition is_conflict (r : report) : bool := match r with RAlreadyExposed _ _ => true | _ => false end.
Definition no_conflict (rs : list report) : Prop := forall r, In r rs -> is_conflict r = false.

Lemma process_alias_effect a s : alias_ok a -> same_aliases (bs_annotations s) ->
  exists s' rs, process_alias u a s = Done s' /\
    bs_relocated s' = new_relocated (bs_relocated s) a /\
    bs_graph s' = (if exp a then match assoc (bs_relocated s) (tgt a) with None => add_edge (ctx u a) (tgt a) (bs_graph s) | Some _ => bs_graph s end else bs_graph s) /\
    bs_reports s' = bs_reports s ++ rs ++ new_conflicts (bs_relocated s) a /\ (forall r, In r rs -> exists d, r = RAnnotation (tgt a) d) /\
    (forall j, lookup_attrs (bs_annotations s') j =
       if (enc a || exp a) && Nat.eqb j (tgt a) then Some (act (bs_relocated s) a (base (bs_annotations s) j)) else lookup_attrs (bs_annotations s) j).
Proof.
  intros (Hk & Hl & Ht & Htag & Hskip & Hctx) Hsame.
  assert (Ha : lookup_attrs (bs_annotations s) a = Some (alias_attrs a)).
  { rewrite Hsame by (rewrite Hk; reflexivity). unfold alias_attrs. destruct (lookup_attrs st0 a); [reflexivity|congruence]. }
  assert (Hat : a <> tgt a). { intros E. rewrite <- E, Hk in Htag. discriminate. }
  unfold process_alias, get_typedef, get, is_typedef. unfold kind in Hk. rewrite Hk, Ha. cbn [option_map].
  fold (enc a) (exp a). unfold new_relocated, new_conflicts, act.
  destruct (negb (enc a) && negb (exp a)) eqn:Eskip.
  { apply andb_true_iff in Eskip as [E1 E2]. apply negb_true_iff in E1, E2. rewrite E1, E2. exists s, []. cbn. rewrite app_nil_r.
    split; [reflexivity|]. split; [reflexivity|]. split; [reflexivity|]. split; [reflexivity|]. split; [contradiction|]. reflexivity. }
  assert (Eor : enc a || exp a = true) by (destruct (enc a), (exp a); cbn in *; congruence).
  rewrite Ht.
  assert (Hi : exists st ds, insert (u_decls u) (tgt a) (bs_annotations s) = Some (st, ds) /\
     forall j, lookup_attrs st j = if Nat.eqb j (tgt a) then Some (base (bs_annotations s) j) else lookup_attrs (bs_annotations s) j).
  { unfold insert. rewrite Hskip. unfold has, base. destruct (lookup_attrs (bs_annotations s) (tgt a)) as [y|] eqn:El.
    - eexists _, _. split; [reflexivity|]. intros j. destruct (Nat.eqb j (tgt a)) eqn:E; [|reflexivity]. apply Nat.eqb_eq in E. subst j. rewrite El. reflexivity.
    - destruct (compute_tag (u_decls u (tgt a))) as (y & ds & Ec).
      { intros E. unfold kind in Htag. rewrite E in Htag. discriminate. }
      rewrite Ec. eexists _, _. split; [reflexivity|]. intros j. rewrite lookup_app. cbn [lookup_attrs].
      destruct (Nat.eqb j (tgt a)) eqn:E.
      + apply Nat.eqb_eq in E. subst j. rewrite El. unfold own. rewrite Ec. reflexivity.
      + destruct (lookup_attrs (bs_annotations s) j); reflexivity. }
  destruct Hi as (st & ds & -> & Hst).
  set (st1 := if enc a then update_named (tgt a) (set_visible (Some true)) st else st).
  assert (Hst1 : forall j, lookup_attrs st1 j = if Nat.eqb j (tgt a) then Some (if enc a then set_visible (Some true) (base (bs_annotations s) j) else base (bs_annotations s) j)
     else lookup_attrs (bs_annotations s) j).
  { intros j. unfold st1. destruct (enc a); [rewrite update_lookup, !Hst, Nat.eqb_refl|rewrite Hst]; destruct (Nat.eqb j (tgt a)) eqn:E; try reflexivity.
    apply Nat.eqb_eq in E. subst j. reflexivity. }
  destruct (exp a) eqn:Ex.
  - unfold add_edge_for_alias. rewrite Hctx. cbn [bs_relocated bs_annotations bs_graph bs_reports].
    destruct (assoc (bs_relocated s) (tgt a)) as [b|] eqn:Eb.
    + eexists _, (map (RAnnotation (tgt a)) ds). split; [reflexivity|]. cbn [bs_relocated bs_annotations bs_graph bs_reports].
      split; [reflexivity|]. split; [reflexivity|]. split; [rewrite <- app_assoc; reflexivity|]. split.
      * intros r Hr. apply in_map_iff in Hr as (d & <- & _). eauto.
      * intros j. rewrite Hst1, Eor. cbn [andb]. destruct (Nat.eqb j (tgt a)); reflexivity.
    + destruct (propagate_effect u a (tgt a) st1) as (st2 & E2 & Hst2).
      { unfold has. rewrite Hst1, Nat.eqb_refl. reflexivity. }
      cbn [bs_relocated bs_annotations bs_graph bs_reports]. rewrite E2. eexists _, (map (RAnnotation (tgt a)) ds). split; [reflexivity|]. cbn [bs_relocated bs_annotations bs_graph bs_reports].
      split; [reflexivity|]. split; [reflexivity|]. split; [rewrite app_nil_r; reflexivity|]. split.
      * intros r Hr. apply in_map_iff in Hr as (d & <- & _). eauto.
      * intros j. rewrite Hst2, !Hst1, Eor. cbn [andb]. destruct (Nat.eqb j (tgt a)) eqn:E; [|reflexivity].
        apply Nat.eqb_neq in Hat. rewrite Hat, Ha. reflexivity.
  - eexists _, (map (RAnnotation (tgt a)) ds). split; [reflexivity|]. cbn [bs_relocated bs_annotations bs_graph bs_reports].
    split; [reflexivity|]. split; [reflexivity|]. split; [rewrite app_nil_r; reflexivity|]. split.
    * intros r Hr. apply in_map_iff in Hr as (d & <- & _). eauto.
    * intros j. rewrite Hst1, Eor. cbn [andb]. destruct (Nat.eqb j (tgt a)); reflexivity.
Qed.

(** ** All aliases *)

Fixpoint relocations (rel : list (nat * nat)) (al : list nat) : list (nat * nat) :=
  match al with [] => rel | a :: al' => relocations (new_relocated rel a) al' end.
Fixpoint conflicts (rel : list (nat * nat)) (al : list nat) : list report :=
  match al with [] => [] | a :: al' => new_conflicts rel a ++ conflicts (new_relocated rel a) al' end.
Fixpoint acted (rel : list (nat * nat)) (al : list nat) (t : nat) (y : attrs) : attrs :=
  match al with
  | [] => y
  | a :: al' => acted (new_relocated rel a) al' t (if (enc a || exp a) && Nat.eqb t (tgt a) then act rel a y else y)
  end.
Definition touched (al : list nat) (t : nat) : bool := existsb (fun a => (enc a || exp a) && Nat.eqb t (tgt a)) al.

Definition add_edges (es : list (nat * nat)) (g : graph) : graph := fold_left (fun g e => add_edge (fst e) (snd e) g) es g.
Definition relocation_edges (rel : list (nat * nat)) : list (nat * nat) := map (fun ta => (ctx u (snd ta), fst ta)) rel.

Lemma process_aliases_effect al : forall s g0 rs0, (forall a, In a al -> alias_ok a) -> same_aliases (bs_annotations s) ->
  bs_graph s = add_edges (relocation_edges (bs_relocated s)) g0 ->
  (forall r, In r (bs_reports s) -> is_conflict r = true -> In r rs0) ->
  exists s', process_aliases u al s = Done s' /\ same_aliases (bs_annotations s') /\
    bs_relocated s' = relocations (bs_relocated s) al /\
    bs_graph s' = add_edges (relocation_edges (bs_relocated s')) g0 /\
    (exists rs, bs_reports s' = bs_reports s ++ rs /\ forall r, is_conflict r = true -> (In r rs <-> In r (conflicts (bs_relocated s) al))) /\
    (forall t, lookup_attrs (bs_annotations s') t =
       if touched al t then Some (acted (bs_relocated s) al t (base (bs_annotations s) t)) else lookup_attrs (bs_annotations s) t).
Proof.
  induction al as [|a al IH]; intros s g0 rs0 Hok Hsame Hg Hr; cbn [process_aliases relocations conflicts touched existsb acted].
  - exists s. split; [reflexivity|]. split; [exact Hsame|]. split; [reflexivity|]. split; [exact Hg|].
    split; [|reflexivity]. exists []. rewrite app_nil_r. split; [reflexivity|]. intros r _. reflexivity.
  - destruct (process_alias_effect a s (Hok a (or_introl eq_refl)) Hsame) as (s1 & rs1 & -> & Erel & Egr & Erep & Hrs1 & Hl).
    assert (Hsame1 : same_aliases (bs_annotations s1)).
    { intros i Hi. rewrite Hl. destruct ((enc a || exp a) && Nat.eqb i (tgt a)) eqn:E; [|apply Hsame, Hi].
      apply andb_true_iff in E as [_ E]. apply Nat.eqb_eq in E. subst i. destruct (Hok a (or_introl eq_refl)) as (_ & _ & _ & Ht & _). congruence. }
    destruct (IH s1 g0 (bs_reports s1)) as (s' & -> & Hs' & Hrel' & Hg' & (rs & Hrs & Hrsc) & Hl').
    + intros; apply Hok; right; assumption.
    + exact Hsame1.
    + rewrite Egr, Erel, Hg. unfold new_relocated. destruct (exp a); [|reflexivity]. destruct (assoc (bs_relocated s) (tgt a)); [reflexivity|].
      unfold relocation_edges. rewrite map_app. unfold add_edges. rewrite fold_left_app. reflexivity.
    + auto.
    + exists s'. split; [reflexivity|]. split; [exact Hs'|]. split; [rewrite Hrel', Erel; reflexivity|]. split; [exact Hg'|]. split.
      * exists (rs1 ++ new_conflicts (bs_relocated s) a ++ rs). split.
        { rewrite Hrs, Erep, <- !app_assoc. reflexivity. }
        intros r Hc. rewrite !in_app_iff, (Hrsc r Hc), Erel. split; [|tauto]. intros [H|H]; [|exact H].
        destruct (Hrs1 r H) as (d & ->). discriminate.
      * intros t. rewrite Hl', Erel. unfold base. rewrite Hl. unfold touched. cbn [existsb].
        destruct ((enc a || exp a) && Nat.eqb t (tgt a)) eqn:E; cbn [orb]; [|reflexivity].
        destruct (existsb (fun a0 : nat => (enc a0 || exp a0) && Nat.eqb t (tgt a0)) al) eqn:E2; [reflexivity|]. f_equal.
        assert (X : forall rel y, acted rel al t y = y); [|symmetry; apply X].
        clear -E2. induction al as [|b al IH]; intros rel y; cbn [acted]; [reflexivity|]. cbn [existsb] in E2. apply orb_false_iff in E2 as [E1 E2].
        rewrite E1. apply IH, E2.
Qed.

(** Facts about the relocations. *)
Lemma assoc_none l t : assoc l t = None <-> ~ In t (map fst l).
Proof.
  induction l as [|[j x] l IH]; cbn [assoc map]; [intuition|]. cbn [In fst]. destruct (Nat.eqb t j) eqn:E.
  - apply Nat.eqb_eq in E. subst. split; [discriminate|]. intros H. exfalso. auto.
  - apply Nat.eqb_neq in E. rewrite IH. intuition.
Qed.
Lemma assoc_nodup l t x : NoDup (map fst l) -> In (t, x) l -> assoc l t = Some x.
Proof.
  induction l as [|[j y] l IH]; cbn; [contradiction|]. intros Hn [H|H]; inversion Hn; subst.
  - injection H as -> ->. rewrite Nat.eqb_refl. reflexivity.
  - destruct (Nat.eqb t j) eqn:E; [|auto]. apply Nat.eqb_eq in E. subst. exfalso. apply H2. apply in_map_iff. exists (j, x). auto.
Qed.

Lemma relocations_facts al : forall rel, NoDup (map fst rel) ->
  let R := relocations rel al in
  NoDup (map fst R) /\ incl rel R /\
  (forall t a, In (t, a) R -> In (t, a) rel \/ (In a al /\ exp a = true /\ tgt a = t)) /\
  (forall a, In a al -> exp a = true -> exists b, In (tgt a, b) R /\ (b = a \/ In (RAlreadyExposed a b) (conflicts rel al))) /\
  (forall a b, In (RAlreadyExposed a b) (conflicts rel al) -> In a al /\ exp a = true /\ In (tgt a, b) R /\ (In (tgt a, b) rel \/ before al b a)) /\
  (forall r, In r (conflicts rel al) -> is_conflict r = true).
Proof.
  induction al as [|a al IH]; intros rel Hn R; cbn [relocations conflicts] in *.
  { subst R. split; [exact Hn|]. split; [apply incl_refl|]. split; [auto|]. split; [contradiction|]. split; [contradiction|]. contradiction. }
  assert (Hn' : NoDup (map fst (new_relocated rel a))).
  { unfold new_relocated. destruct (exp a); [|exact Hn]. destruct (assoc rel (tgt a)) eqn:E; [exact Hn|]. apply assoc_none in E.
    rewrite map_app. cbn. apply NoDup_rev in Hn. rewrite <- (rev_involutive (map fst rel ++ [tgt a])), rev_app_distr. apply NoDup_rev. cbn. constructor; [|exact Hn].
    rewrite <- in_rev. exact E. }
  assert (Hi : incl rel (new_relocated rel a)).
  { unfold new_relocated. destruct (exp a); [|apply incl_refl]. destruct (assoc rel (tgt a)); [apply incl_refl|apply incl_appl, incl_refl]. }
  destruct (IH _ Hn') as (A & B & C & D & E & F). fold R in A, B, C, D, E.
  assert (Hnew : forall t b, In (t, b) (new_relocated rel a) -> In (t, b) rel \/ (b = a /\ exp a = true /\ tgt a = t)).
  { intros t b. unfold new_relocated. destruct (exp a); [|auto]. destruct (assoc rel (tgt a)); [auto|]. rewrite in_app_iff.
    intros [H|[H|[]]]; [auto|]. injection H as <- <-. auto. }
  split; [exact A|]. split; [eapply incl_tran; eauto|]. split; [|split; [|split]].
  - intros t b H. destruct (C t b H) as [H1|(H1 & H2 & H3)]; [|right; cbn; auto].
    destruct (Hnew t b H1) as [H2|(-> & H2 & H3)]; [auto|right; cbn; auto].
  - intros b [<-|Hb] He.
    + destruct (assoc rel (tgt a)) as [c|] eqn:Ea.
      * exists c. split; [apply B, Hi, assoc_in, Ea|]. right. apply in_app_iff. left. unfold new_conflicts. rewrite He, Ea. left; reflexivity.
      * exists a. split; [|auto]. apply B. unfold new_relocated. rewrite He, Ea. apply in_app_iff. right. left; reflexivity.
    + destruct (D b Hb He) as (c & Hc & [->|H]); [eauto|]. exists c. split; [exact Hc|]. right. apply in_app_iff. auto.
  - intros x b H. apply in_app_iff in H as [H|H].
    + unfold new_conflicts in H. destruct (exp a) eqn:He; [|contradiction]. destruct (assoc rel (tgt a)) as [c|] eqn:Ea; [|contradiction].
      destruct H as [H|[]]. injection H as <- <-. split; [left; reflexivity|]. split; [exact He|]. apply assoc_in in Ea.
      split; [apply B, Hi, Ea|left; exact Ea].
    + destruct (E x b H) as (H1 & H2 & H3 & H4). split; [right; exact H1|]. split; [exact H2|]. split; [exact H3|].
      destruct H4 as [H4|H4]; [|right; rewrite before_cons; auto]. destruct (Hnew _ _ H4) as [H5|(-> & H5 & H6)]; [auto|].
      right. rewrite before_cons. auto.
  - intros r H. apply in_app_iff in H as [H|H]; [|auto]. unfold new_conflicts in H. destruct (exp a); [|contradiction].
    destruct (assoc rel (tgt a)); [|contradiction]. destruct H as [<-|[]]. reflexivity.
Qed.
End Aliases.

(** ** Edges *)

Lemma insert_node_facts i g : NoDup (g_nodes g) ->
  NoDup (g_nodes (insert_node i g)) /\ g_edges (insert_node i g) = g_edges g /\
  forall n, In n (g_nodes (insert_node i g)) <-> In n (g_nodes g) \/ n = i.
Proof.
  intros Hn. unfold insert_node, has_node. destruct (mem i (g_nodes g)) eqn:E.
  - apply mem_iff in E. split; [exact Hn|]. split; [reflexivity|]. intros n. split; [auto|]. intros [H| ->]; assumption.
  - apply mem_false in E. cbn. split; [|split; [reflexivity|]].
    + apply NoDup_rev in Hn. rewrite <- (rev_involutive (g_nodes g ++ [i])), rev_app_distr. apply NoDup_rev. cbn. constructor; [|exact Hn].
      rewrite <- in_rev. exact E.
    + intros n. rewrite in_app_iff. cbn. intuition.
Qed.

Lemma add_edge_facts p c g : NoDup (g_nodes g) ->
  NoDup (g_nodes (add_edge p c g)) /\ g_edges (add_edge p c g) = g_edges g ++ [(p, c)] /\
  forall n, In n (g_nodes (add_edge p c g)) <-> In n (g_nodes g) \/ n = p \/ n = c.
Proof.
  intros Hn. unfold add_edge. destruct (insert_node_facts p g Hn) as (A & B & C). destruct (insert_node_facts c _ A) as (D & E & F).
  cbn [g_nodes g_edges]. split; [exact D|]. split; [rewrite E, B; reflexivity|]. intros n. rewrite F, C. tauto.
Qed.

Lemma add_edges_facts es : forall g, NoDup (g_nodes g) ->
  NoDup (g_nodes (add_edges es g)) /\ g_edges (add_edges es g) = g_edges g ++ es /\
  forall n, In n (g_nodes (add_edges es g)) <-> In n (g_nodes g) \/ exists p c, In (p, c) es /\ (n = p \/ n = c).
Proof.
  induction es as [|[p c] es IH]; intros g Hn; cbn [add_edges fold_left fst snd].
  - rewrite app_nil_r. split; [exact Hn|]. split; [reflexivity|]. intros n. split; [auto|]. intros [H|(p & c & H & _)]; [exact H|contradiction].
  - destruct (add_edge_facts p c g Hn) as (A & B & C). destruct (IH _ A) as (D & E & F). unfold add_edges in *. split; [exact D|].
    split; [rewrite E, B, <- app_assoc; reflexivity|]. intros n. rewrite F, C. split.
    + intros [[H|[H|H]]|(p' & c' & H1 & H2)]; [auto| | |].
      * right. exists p, c. cbn. auto.
      * right. exists p, c. cbn. auto.
      * right. exists p', c'. cbn. auto.
    + intros [H|(p' & c' & [H1|H1] & H2)]; [auto| |].
      * injection H1 as <- <-. tauto.
      * right. exists p', c'. auto.
Qed.

Lemma process_contexts_effect u cs : forall s, (forall c, In c cs -> lookup_context u c = Some (ctx u c)) ->
  process_contexts u cs s = Done (mkBuilder (bs_annotations s) (bs_relocated s)
    (add_edges (map (fun c => (ctx u c, c)) (filter (fun c => match assoc (bs_relocated s) c with None => true | Some _ => false end) cs)) (bs_graph s)) (bs_reports s)).
Proof.
  induction cs as [|c cs IH]; intros s H; cbn [process_contexts filter].
  - destruct s; reflexivity.
  - unfold process_context. destruct (assoc (bs_relocated s) c) eqn:E.
    + apply IH. intros; apply H; right; assumption.
    + rewrite (H c (or_introl eq_refl)). rewrite IH; [|intros; apply H; right; assumption]. cbn [bs_annotations bs_relocated bs_graph bs_reports map].
      reflexivity.
Qed.

(** ** Everything *)

Record built (u : unit) (s : cstate) (b : bstate) : Prop := {
  bt_conflicts : conflicts u (cs_annotations s) [] (cs_aliases s) = [];
  bt_aliases : forall a, In a (cs_aliases s) -> alias_ok u (cs_annotations s) a;
  bt_relocated : bs_relocated b = relocations u (cs_annotations s) [] (cs_aliases s);
  bt_relocates : forall a t, relocates u a t <-> In (t, a) (bs_relocated b);
  bt_nodup : NoDup (map fst (bs_relocated b));
  bt_edges : g_edges (bs_graph b) = relocation_edges u (bs_relocated b) ++
     map (fun c => (ctx u c, c)) (filter (fun c => match assoc (bs_relocated b) c with None => true | Some _ => false end) (cs_contexts s));
  bt_nodes_nodup : NoDup (g_nodes (bs_graph b));
  bt_nodes : forall n, In n (g_nodes (bs_graph b)) <-> n = u_root u \/ exists p c, In (p, c) (g_edges (bs_graph b)) /\ (n = p \/ n = c);
  bt_attrs : forall t, lookup_attrs (bs_annotations b) t =
     if touched u (cs_annotations s) (cs_aliases s) t
     then Some (acted u (cs_annotations s) [] (cs_aliases s) t (base u (cs_annotations s) t)) else lookup_attrs (cs_annotations s) t
}.

Section Build.
Context (u : unit) (P : placed u) (s : cstate) (Hc : collect u = Some s).
Let st0 := cs_annotations s.

Lemma collected_alias a x : In a (cs_aliases s) -> (own_attributes u a x <-> lookup_attrs st0 a = Some x).
Proof.
  destruct (collected_declarations u s (pl_sane u P) Hc) as (A & _ & B & _ & _ & C & _).
  intros Ha. apply C in Ha as (H1 & H2 & H3). destruct (B a) as (st & ds & y & E1 & E2 & E3). { apply A. auto. }
  unfold own_attributes. split.
  - intros (st' & ds' & E4 & E5). rewrite E4 in E1. injection E1 as -> ->. unfold st0. congruence.
  - intros E. exists st, ds. split; [exact E1|]. unfold st0 in E. congruence.
Qed.

Lemma alias_of_iff a t x : alias_of u a t x <-> In a (cs_aliases s) /\ d_target (u_decls u a) = Some t /\ lookup_attrs st0 a = Some x.
Proof.
  destruct (collected_declarations u s (pl_sane u P) Hc) as (_ & _ & _ & _ & _ & C & _). unfold alias_of. split.
  - intros (H1 & H2 & H3 & H4 & H5). assert (Ha : In a (cs_aliases s)) by (apply C; auto). split; [exact Ha|]. split; [exact H4|]. apply collected_alias; auto.
  - intros (H1 & H2 & H3). assert (Ha := H1). apply C in H1 as (H4 & H5 & H6). repeat (split; [assumption|]). apply collected_alias; auto.
Qed.

Lemma relocates_iff a t : relocates u a t <-> In a (cs_aliases s) /\ d_target (u_decls u a) = Some t /\ exp st0 a = true.
Proof.
  unfold relocates, exp, alias_attrs. split.
  - intros (x & H & E). apply alias_of_iff in H as (H1 & H2 & H3). rewrite H3. auto.
  - intros (H1 & H2 & H3). destruct (lookup_attrs st0 a) as [x|] eqn:E; [|discriminate]. exists x. split; [|exact H3]. apply alias_of_iff. auto.
Qed.
Lemma encourages_iff a t : encourages u a t <-> In a (cs_aliases s) /\ d_target (u_decls u a) = Some t /\ enc st0 a = true.
Proof.
  unfold encourages, enc, alias_attrs. split.
  - intros (x & H & E). apply alias_of_iff in H as (H1 & H2 & H3). rewrite H3. auto.
  - intros (H1 & H2 & H3). destruct (lookup_attrs st0 a) as [x|] eqn:E; [|discriminate]. exists x. split; [|exact H3]. apply alias_of_iff. auto.
Qed.

Lemma aliases_ok : errors_occurred (cs_reports s) = false -> forall a, In a (cs_aliases s) -> alias_ok u st0 a.
Proof.
  intros He a Ha. destruct (collected_declarations u s (pl_sane u P) Hc) as (A & _ & B & _ & _ & C & _).
  assert (Ha' := Ha). apply C in Ha' as (H1 & H2 & H3).
  assert (Hst : In a (map fst st0)) by (apply A; auto). destruct (B a Hst) as (st & ds & y & E1 & E2 & E3).
  assert (Ht : d_target (u_decls u a) <> None).
  { intros Ht. assert (R := collect_reported u s Hc a Hst H2 Ht (proj1 H3)).
    assert (errors_occurred (cs_reports s) = true); [|congruence]. apply existsb_exists. eexists. split; [exact R|reflexivity]. }
  destruct (d_target (u_decls u a)) as [t|] eqn:Et; [|congruence].
  destruct (pl_target u P a t H1 H2 H3 Et) as [H4 H5].
  destruct (lookup_context_total u a P H1) as (p & Hp).
  unfold alias_ok, tgt. rewrite Et. unfold ctx. rewrite Hp. repeat split; auto. unfold st0. congruence.
Qed.

Lemma contexts_ok : forall c, In c (cs_contexts s) -> lookup_context u c = Some (ctx u c).
Proof.
  intros c Hin. destruct (collected_declarations u s (pl_sane u P) Hc) as (_ & _ & _ & C & _). apply C in Hin as (H & _).
  destruct (lookup_context_total u c P H) as (p & Hp). unfold ctx. rewrite Hp. reflexivity.
Qed.

Lemma build_cases :
  (errors_occurred (cs_reports s) = true /\ exists b, build_graph u = Done (false, b) /\ bs_reports b = cs_reports s) \/
  (errors_occurred (cs_reports s) = false /\ exists ok b rs, build_graph u = Done (ok, b) /\ bs_reports b = cs_reports s ++ rs /\
    (forall r, is_conflict r = true -> (In r rs <-> In r (conflicts u st0 [] (cs_aliases s)))) /\
    ok = negb (errors_occurred (bs_reports b)) /\ (ok = true -> built u s b)).
Proof.
  unfold build_graph. rewrite Hc. cbn [bs_reports]. destruct (errors_occurred (cs_reports s)) eqn:He; [left; split; [reflexivity|eexists; split; reflexivity]|right].
  split; [reflexivity|].
  destruct (process_aliases_effect u st0 (cs_aliases s) (mkBuilder st0 [] (new_graph (u_root u)) (cs_reports s)) (new_graph (u_root u)) (cs_reports s))
    as (b1 & E1 & Hsame & Hrel & Hg & (rs & Hrs & Hrsc) & Hl).
  { apply (aliases_ok He). } { intros i _. reflexivity. } { reflexivity. } { auto. }
  cbn [bs_annotations bs_relocated bs_reports bs_graph] in *. fold st0. rewrite E1.
  destruct (errors_occurred (bs_reports b1)) eqn:He1.
  - exists false, b1, rs. split; [reflexivity|]. split; [exact Hrs|]. split; [exact Hrsc|]. rewrite He1. split; [reflexivity|discriminate].
  - rewrite (process_contexts_effect u (cs_contexts s) b1 contexts_ok).
    eexists true, _, rs. split; [reflexivity|]. cbn [bs_reports]. split; [exact Hrs|]. split; [exact Hrsc|]. rewrite He1. split; [reflexivity|]. intros _.
    destruct (relocations_facts u st0 (cs_aliases s) [] (NoDup_nil _)) as (F1 & _ & F3 & F4 & F5 & F6).
    assert (Hnc : conflicts u st0 [] (cs_aliases s) = []).
    { destruct (conflicts u st0 [] (cs_aliases s)) as [|r l] eqn:E; [reflexivity|]. exfalso.
      assert (Hr : In r rs). { apply Hrsc; [apply F6|]; left; reflexivity. }
      assert (errors_occurred (bs_reports b1) = true); [|congruence]. rewrite Hrs. apply existsb_exists. exists r. split; [apply in_app_iff; auto|].
      specialize (F6 r (or_introl eq_refl)). destruct r; try discriminate. reflexivity. }
    assert (Hrel' : forall a t, relocates u a t <-> In (t, a) (bs_relocated b1)).
    { intros a t. rewrite relocates_iff, Hrel. split.
      - intros (H1 & H2 & H3). destruct (F4 a H1 H3) as (c & H4 & [->|H5]); [|rewrite Hnc in H5; contradiction].
        unfold tgt in H4. rewrite H2 in H4. exact H4.
      - intros H. destruct (F3 t a H) as [[]|(H1 & H2 & H3)]. split; [exact H1|]. split; [|exact H2].
        destruct (aliases_ok He a H1) as (_ & _ & E & _). rewrite E, H3. reflexivity. }
    rewrite Hg in *. rewrite <- Hrel in F1.
    constructor; cbn [bs_annotations bs_relocated bs_graph bs_reports]; auto.
    + apply (aliases_ok He).
    + unfold add_edges. rewrite <- fold_left_app. fold (add_edges (relocation_edges u (bs_relocated b1) ++
       map (fun c => (ctx u c, c)) (filter (fun c => match assoc (bs_relocated b1) c with None => true | Some _ => false end) (cs_contexts s))) (new_graph (u_root u))).
      destruct (add_edges_facts (relocation_edges u (bs_relocated b1) ++
       map (fun c => (ctx u c, c)) (filter (fun c => match assoc (bs_relocated b1) c with None => true | Some _ => false end) (cs_contexts s)))
       (new_graph (u_root u))) as (A & B & C); [repeat constructor; auto|]. rewrite B. reflexivity.
    + unfold add_edges. rewrite <- fold_left_app. apply add_edges_facts. repeat constructor. auto.
    + intros n. unfold add_edges. rewrite <- fold_left_app. 
      match goal with |- context [fold_left ?f ?l ?g] => change (fold_left f l g) with (add_edges l g); destruct (add_edges_facts l g) as (A & B & C); [repeat constructor; auto|] end.
      rewrite C, B. cbn. split; [intros [[H|[]]|H]; auto|intros [->|H]; auto].
Qed.
End Build.
