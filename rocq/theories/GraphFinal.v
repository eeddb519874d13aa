(** * Proofs about the processing of context graphs, part 2 *)
From Verif Require Import Base ParserModel AnnotModel AnnotSpec AnnotProofs CollectModel CollectSpec CollectProofs GraphModel GraphSpec GraphWalk GraphBuild GraphPlace GraphProofs.
From Coq Require Import Sorting.Sorted Sorting.Permutation.

(** ** Pruning *)
Section Prune.
Context (u : unit) (contexts : list nat) (vis : dmap bool) (g : graph) (T : tree_like g (u_root u)).
Context (Hvis : forall n, reachable g (u_root u) n -> exists b, dlookup vis n = Some b).
Let root := u_root u.
Let keep := preserved u contexts (lookup_vis vis).
Let sp := should_be_preserved u contexts vis.
Let descend n := match sp n with Some b => b | None => false end.

Lemma sp_spec n : reachable g root n -> exists b, sp n = Some b /\ (b = true <-> keep n).
Proof.
  intros Hr. destruct (Hvis n Hr) as (b & Hb). unfold sp, should_be_preserved, keep, preserved, lookup_vis. rewrite Hb. eexists. split; [reflexivity|].
  destruct (is_tag u n) eqn:E.
  - apply is_tag_iff in E. tauto.
  - assert (Ht : ~ tag u n) by (rewrite <- is_tag_iff; congruence). rewrite mem_iff. tauto.
Qed.

Lemma descend_iff n : reachable g root n -> (descend n = true <-> keep n).
Proof. intros Hr. destruct (sp_spec n Hr) as (b & E & H). unfold descend. rewrite E. exact H. Qed.

Let kept_path := kept_path u contexts vis g.

Lemma path_reachable l m : path (edge g) root l -> In m l -> reachable g root m.
Proof.
  intros Hp Hm. apply in_split in Hm as (l1 & l2 & ->). exists l2. apply (path_suffix g root T l1). exact Hp.
Qed.

Let V := visited_paths (full_walk g root descend).

Lemma V_kept q : In q V <-> path (edge g) root q /\ forall m, In m (tl q) -> keep m.
Proof.
  unfold V. rewrite (V_in g root T descend). split; intros [Hp H]; split; auto; intros m Hm; apply (descend_iff m); auto;
    apply (path_reachable q); auto; destruct q; cbn in *; auto.
Qed.

Record pruning (done : list (list nat)) (g' : graph) : Prop := {
  pr_edges : forall p c, edge g' p c <-> exists l, In (c :: p :: l) done /\ keep c;
  pr_parents : NoDup (map snd (g_edges g'));
  pr_nodes : NoDup (g_nodes g');
  pr_in : forall n, In n (g_nodes g') <-> n = root \/ exists p c, edge g' p c /\ (n = p \/ n = c)
}.

Lemma nodup_snoc (l : list nat) x : NoDup l -> ~ In x l -> NoDup (l ++ [x]).
Proof.
  intros H1 H2. apply NoDup_rev in H1. rewrite <- (rev_involutive (l ++ [x])), rev_app_distr. apply NoDup_rev. cbn. constructor; [|exact H1]. rewrite <- in_rev. exact H2.
Qed.

Lemma prune_spec : exists g', prune_graph u g contexts vis = Some g' /\ tree_like g' root /\
  (forall p c, edge g' p c <-> exists l, kept_path (c :: p :: l)) /\
  (forall n, In n (g_nodes g') <-> n = root \/ exists l, kept_path (n :: l)).
Proof.
  unfold prune_graph. fold sp. fold root. change (fun n => match sp n with Some b => b | None => false end) with descend.
  rewrite (depth_first_walk g root T). fold V.
  destruct (fold_opt_inv (prune_step u contexts vis) V pruning (new_graph root)) as (g' & E & [P1 P2 P3 P4]).
  - constructor; cbn.
    + intros p c. split; [contradiction|]. intros (l & [] & _).
    + constructor.
    + repeat constructor. auto.
    + intros n. split; [intros [<-|[]]; auto|]. intros [->|(p & c & [] & _)]. auto.
  - intros l1 q l2 g1 Eq I. assert (Hq : In q V) by (rewrite Eq; apply in_app_iff; cbn; auto). apply V_kept in Hq as [Hp Hk].
    destruct q as [|n above]; [inversion Hp|]. cbn [tl] in Hk. unfold prune_step. fold sp.
    destruct (sp_spec n) as (b & Es & Hb). { exists above. exact Hp. } rewrite Es.
    assert (Hskip : (forall p l, n :: above = n :: p :: l -> ~ keep n) -> pruning (l1 ++ [n :: above]) g1).
    { intros X. destruct I as [I1 I2 I3 I4]. constructor; auto. intros p c. rewrite I1. split.
      - intros (l & Hl & Hc). exists l. rewrite in_app_iff. auto.
      - intros (l & Hl & Hc). apply in_app_iff in Hl as [Hl|[Hl|[]]]; [eauto|]. injection Hl as -> ->. exfalso. apply (X p l eq_refl). exact Hc. }
    destruct b.
    + destruct above as [|p l].
      * exists g1. split; [reflexivity|]. apply Hskip. intros p l [=].
      * eexists. split; [reflexivity|]. destruct I as [I1 I2 I3 I4]. assert (Hkn := proj1 Hb eq_refl).
        destruct (add_edge_facts p n g1 I3) as (A & B & C).
        assert (Hin : forall p' c', edge (add_edge p n g1) p' c' <-> edge g1 p' c' \/ (p' = p /\ c' = n)).
        { intros p' c'. unfold edge. rewrite B, in_app_iff. cbn. split; [intros [?|[[= <- <-]|[]]]; auto|intros [?|[-> ->]]; auto]. }
        constructor.
        -- intros p' c'. rewrite Hin, I1. split.
           ++ intros [(l' & Hl & Hc)|[-> ->]]; [exists l'; rewrite in_app_iff; auto|]. exists l. rewrite in_app_iff. cbn. auto.
           ++ intros (l' & Hl & Hc). apply in_app_iff in Hl as [Hl|[Hl|[]]]; [eauto|]. injection Hl as -> -> ->. auto.
        -- rewrite B, map_app. cbn. apply nodup_snoc; [exact I2|]. intros Hn. apply in_map_iff in Hn as ([p' c'] & E' & Hn). cbn in E'. subst c'.
           apply I1 in Hn as (l' & Hl & _). apply (V_fresh g root T descend _ _ _ _ Eq _ Hl).
        -- exact A.
        -- intros m. rewrite C, I4. split.
           ++ intros [[->|(p' & c' & He & Hm)]|[->| ->]]; [auto|right; exists p', c'; rewrite Hin; auto|right; exists p, n; rewrite Hin; auto|right; exists p, n; rewrite Hin; auto].
           ++ intros [->|(p' & c' & He & Hm)]; [auto|]. apply Hin in He as [He|[-> ->]]; [left; right; eauto|right; tauto].
    + exists g1. split; [reflexivity|]. apply Hskip. intros p l _ Hkn. apply Hb in Hkn. discriminate.
  - exists g'. split; [exact E|].
    assert (He : forall p c, edge g' p c <-> exists l, kept_path (c :: p :: l)).
    { intros p c. rewrite P1. split.
      - intros (l & Hl & Hc). apply V_kept in Hl as [Hp Hk]. exists l. split; [exact Hp|]. intros m [<-|Hm]; [exact Hc|apply Hk, Hm].
      - intros (l & Hp & Hk). exists l. split; [apply V_kept; split; [exact Hp|]; intros m Hm; apply Hk; right; exact Hm|]. apply Hk. left; reflexivity. }
    assert (Hn : forall n, In n (g_nodes g') <-> n = root \/ exists l, kept_path (n :: l)).
    { intros n. rewrite P4. split.
      - intros [->|(p & c & H & [->| ->])]; [auto| |].
        + apply He in H as (l & Hp & Hk). right. exists l. inversion Hp; subst. split; [assumption|]. intros m Hm. apply Hk. right; exact Hm.
        + apply He in H as (l & H). right. eauto.
      - intros [->|(l & Hp & Hk)]; [auto|]. destruct l as [|p l]; [inversion Hp; auto|]. right. exists p, n. rewrite He. split; [|auto]. exists l. split; auto. }
    split; [|split; [exact He|exact Hn]]. constructor; auto.
    + intros H. apply in_map_iff in H as ([p c] & E' & H). cbn in E'. subst c. apply He in H as (l & Hp & _).
      assert (X := path_unique g root T _ _ _ Hp (path_root _ _)). discriminate.
    + apply Hn. auto.
    + intros p c H. split; apply P4; right; exists p, c; auto.
Qed.

(** Within the result, paths are those of kept nodes. *)
Lemma pruned_path g' l : (forall p c, edge g' p c <-> exists l, kept_path (c :: p :: l)) -> path (edge g') root l -> path (edge g) root l.
Proof.
  intros He Hp. induction Hp as [|p c l Hp IH H]; [constructor|]. constructor; [exact IH|]. apply He in H as (l' & Hp' & _). inversion Hp'; assumption.
Qed.
End Prune.

(** ** Sorting *)
Section Sorting.
Context (u : unit).
Definition loc_le (i j : nat) : Prop := (u_location u i <= u_location u j)%N.

Lemma insert_sorted_perm i l : Permutation (i :: l) (insert_sorted u i l).
Proof.
  induction l as [|j l IH]; cbn; [apply Permutation_refl|]. destruct (_ <? _)%N; [|apply Permutation_refl].
  eapply perm_trans; [apply perm_swap|]. constructor. exact IH.
Qed.

Lemma insert_sorted_sorted i l : StronglySorted loc_le l -> StronglySorted loc_le (insert_sorted u i l).
Proof.
  induction 1 as [|j l Hs IH Hj]; cbn; [repeat constructor|]. destruct (u_location u j <? u_location u i)%N eqn:E.
  - apply N.ltb_lt in E. constructor; [exact IH|]. apply Forall_forall. intros x Hx. apply (Permutation_in x (Permutation_sym (insert_sorted_perm i l))) in Hx as [<-|Hx].
    + unfold loc_le. lia.
    + rewrite Forall_forall in Hj. auto.
  - apply N.ltb_ge in E. constructor; [constructor; auto|]. constructor; [exact E|]. rewrite Forall_forall in *. intros x Hx. unfold loc_le in *. specialize (Hj x Hx). lia.
Qed.

Lemma sort_perm l : Permutation l (sort_by_location u l).
Proof.
  unfold sort_by_location. induction l as [|i l IH]; cbn [fold_right]; [constructor|]. eapply perm_trans; [|apply insert_sorted_perm]. constructor. exact IH.
Qed.
Lemma sort_sorted l : StronglySorted loc_le (sort_by_location u l).
Proof. unfold sort_by_location. induction l as [|i l IH]; cbn [fold_right]; [constructor|]. apply insert_sorted_sorted, IH. Qed.
Lemma sort_in l x : In x (sort_by_location u l) <-> In x l.
Proof. split; apply Permutation_in; [apply Permutation_sym|]; apply sort_perm. Qed.
End Sorting.

(** ** Warnings *)
Lemma unreachable_visible_iff u g contexts relocated w : In w (unreachable_visible u g contexts relocated) <->
  exists n, In n contexts /\ n <> u_root u /\ ~ In n (g_nodes g) /\ w = match assoc relocated n with Some a => a | None => n end.
Proof.
  unfold unreachable_visible. rewrite sort_in, in_flat_map. split.
  - intros (n & Hn & H). exists n. split; [exact Hn|]. destruct (Nat.eqb n (u_root u)) eqn:E; [contradiction|]. apply Nat.eqb_neq in E. cbn [orb] in H.
    destruct (has_node g n) eqn:Eh; [contradiction|]. apply mem_false in Eh. destruct H as [<-|[]]. auto.
  - intros (n & Hn & Hr & Hg & ->). exists n. split; [exact Hn|]. apply Nat.eqb_neq in Hr. rewrite Hr. cbn [orb]. apply mem_false in Hg. unfold has_node. rewrite Hg. left; reflexivity.
Qed.

(** ** Relocation cycles *)
Lemma cycles_iff u g reach relocated a : NoDup (map fst relocated) -> In a (expose_here_cycles u g reach relocated) <->
  exists t, In (t, a) relocated /\ In t (g_nodes g) /\ ~ In t reach.
Proof.
  intros Hn. unfold expose_here_cycles. rewrite sort_in, in_flat_map. split.
  - intros (t & Ht & H). exists t. destruct (mem t reach) eqn:Em; [contradiction|]. apply mem_false in Em. destruct (assoc relocated t) as [x|] eqn:Ea; [|contradiction].
    destruct H as [<-|[]]. apply assoc_in in Ea. auto.
  - intros (t & Ha & Ht & Hr). exists t. split; [exact Ht|]. apply mem_false in Hr. rewrite Hr. rewrite (assoc_nodup _ _ _ Hn Ha). left; reflexivity.
Qed.

Section Cycles.
Context (u : unit) (P : placed u) (b : bstate) (Hb : build_graph u = Done (true, b)).
Let g := bs_graph b.
Let root := u_root u.

Lemma ok_built : exists s, collect u = Some s /\ built u s b.
Proof. destruct (build_done u P true b Hb) as (s & Hs & _ & _ & H). eauto. Qed.

Lemma ok_tree : tree_like g root.
Proof. destruct ok_built as (s & Hs & B). apply (built_tree u P s Hs b B). Qed.
Lemma ok_edge p c : edge g p c <-> place u p c.
Proof. destruct ok_built as (s & Hs & B). apply (edge_iff u P s Hs b B). Qed.
Lemma ok_node n : In n (g_nodes g) <-> n = root \/ exists p c, place u p c /\ (n = p \/ n = c).
Proof.
  destruct ok_built as (s & Hs & B). unfold g. rewrite (bt_nodes _ _ _ B). change (In (?p, ?c) (g_edges (bs_graph b))) with (edge g p c).
  split; (intros [H|(p & c & H & E)]; [auto|right; exists p, c; split; [apply ok_edge; exact H|exact E]]).
Qed.

Lemma place_node p c : place u p c -> In c (g_nodes g).
Proof. intros H. apply ok_node. right. eauto. Qed.

Lemma relocated_place a t : relocates u a t -> exists p, nearest_context u a p /\ place u p t.
Proof.
  intros H. assert (H' := H). destruct H' as (x & (Hs & _) & _). destruct (lookup_context_total u a P Hs) as (p & Hp).
  apply lookup_context_iff in Hp. exists p. split; [exact Hp|]. left. eauto.
Qed.

Lemma unreachable_parent p c : edge g p c -> ~ reachable g root c -> ~ reachable g root p.
Proof. intros E H (l & Hp). apply H. exists (p :: l). constructor; auto. Qed.

Lemma unreachable_relocated : well_nested u -> no_orphans u -> forall n, In n (g_nodes g) -> ~ reachable g root n -> exists a t, relocates u a t /\ ~ reachable g root t.
Proof.
  intros (rank & Hrank) Ho n. remember (rank n) as k eqn:Ek. revert n Ek. induction k as [k IH] using lt_wf_ind. intros n -> Hn Hu.
  assert (Hplace : exists q, place u q n).
  { apply ok_node in Hn as [->|(p & c & H & [->| ->])].
    - exfalso. apply Hu. exists []. constructor.
    - destruct (Ho p c H) as [->|Hq]; [|exact Hq]. exfalso. apply Hu. exists []. constructor.
    - eauto. }
  destruct Hplace as (q & Hq). assert (Hq' := Hq). destruct Hq' as [(a & Ha & _)|(_ & _ & _ & _ & Hnc)].
  - eauto.
  - apply (IH (rank q) (Hrank _ _ Hnc) q eq_refl).
    + apply ok_node. right. exists q, n. auto.
    + apply (unreachable_parent q n); [apply ok_edge, Hq|exact Hu].
Qed.

Lemma leads_path n m l : leads (edge g) n m l -> forall l0, path (edge g) root (n :: l0) -> exists l', path (edge g) root (m :: l') /\ In n l'.
Proof.
  induction 1 as [n m E|n c m l E L IH]; intros l0 Hp.
  - exists (n :: l0). split; [constructor; auto|left; reflexivity].
  - destruct (IH (n :: l0)) as (l' & Hl & Hc); [constructor; auto|]. exists l'. split; [exact Hl|].
    assert (Hs := Hl). apply in_split in Hc as (l1 & l2 & ->). change (m :: l1 ++ c :: l2) with ((m :: l1) ++ c :: l2) in Hs. apply (path_suffix g root ok_tree) in Hs.
    assert (Hpc : path (edge g) root (c :: n :: l0)) by (constructor; auto).
    rewrite (path_unique g root ok_tree _ _ _ Hs Hpc). apply in_app_iff. right. right. left. reflexivity.
Qed.

Lemma cycle_unreachable n l : leads (edge g) n n l -> ~ reachable g root n.
Proof.
  intros L (l0 & Hp). destruct (leads_path n n l L l0 Hp) as (l' & Hl & Hin). apply (path_nodup g root ok_tree) in Hl. inversion Hl; contradiction.
Qed.

Lemma leads_suffix n m l c : leads (edge g) n m l -> In c l -> c = m \/ exists l', leads (edge g) c m l'.
Proof.
  induction 1 as [n m E|n d m l E L IH]; intros Hc.
  - destruct Hc as [->|[]]. auto.
  - destruct Hc as [->|Hc]; [right; eauto|auto].
Qed.

Lemma cycle_nodes_unreachable n l c : leads (edge g) n n l -> In c l -> ~ reachable g root c.
Proof.
  intros L Hc Hr. apply (cycle_unreachable n l L). destruct (leads_suffix n n l c L Hc) as [->|(l' & L')]; [exact Hr|].
  destruct Hr as (l0 & Hp). destruct (leads_path c n l' L' l0 Hp) as (l'' & Hl & _). exists l''. exact Hl.
Qed.

Lemma leads_rank rank : (forall c p, nearest_context u c p -> rank p < rank c) -> forall n m l, leads (edge g) n m l ->
  (exists t a, In t l /\ relocates u a t) \/ rank n < rank m.
Proof.
  intros Hrank n m l L. induction L as [n m E|n d m l E L IH].
  - apply ok_edge in E as [(a & Ha & _)|(_ & _ & _ & _ & Hnc)]; [left; exists m, a; cbn; auto|right; apply Hrank, Hnc].
  - destruct IH as [(t & a & Ht & Ha)|IH]; [left; exists t, a; cbn; auto|].
    apply ok_edge in E as [(a & Ha & _)|(_ & _ & _ & _ & Hnc)]; [left; exists d, a; cbn; auto|right]. apply Hrank in Hnc. lia.
Qed.

Lemma cycle_reported n l : well_nested u -> leads (edge g) n n l -> exists a t, In t l /\ relocates u a t /\ ~ reachable g root t.
Proof.
  intros (rank & Hrank) L. destruct (leads_rank rank Hrank n n l L) as [(t & a & Ht & Ha)|]; [|lia].
  exists a, t. split; [exact Ht|]. split; [exact Ha|]. apply (cycle_nodes_unreachable n l t L Ht).
Qed.
End Cycles.

(** ** Competing relocations *)
Definition clean (s : cstate) : Prop := no_conflict (cs_reports s).

Lemma clean_more s rs s' : clean s -> cs_reports s' = cs_reports s ++ rs -> no_conflict rs -> clean s'.
Proof. intros A E B r Hr. rewrite E in Hr. apply in_app_iff in Hr as [Hr|Hr]; auto. Qed.

Lemma visit_clean u i s s' : visit u i s = Some s' -> clean s -> clean s'.
Proof.
  unfold visit. destruct (visit_named u i s) as [s1|] eqn:E; [|discriminate]. intros [= <-] Hr.
  assert (H1 : clean s1).
  { unfold visit_named in E. destruct (_ || _); [injection E as <-; exact Hr|].
    destruct (insert (u_decls u) i (cs_annotations s)) as [[st ds]|] eqn:Ei; [|discriminate]. injection E as <-.
    eapply clean_more; [exact Hr|reflexivity|]. intros r H. apply in_map_iff in H as (d & <- & _). reflexivity. }
  destruct (kind u i); try exact H1;
    unfold visit_context, visit_typedef, push_context, push_alias, report_all;
    repeat match goal with |- context [if ?b then _ else _] => destruct b end; try exact H1.
  eapply clean_more; [exact H1|reflexivity|]. intros r [<-|[]]. reflexivity.
Qed.

Lemma traverse_clean u t : forall s s', traverse u t s = Some s' -> clean s -> clean s'.
Proof.
  induction t as [i ts IH] using tree_ind'. intros s s'.
  assert (Hall : forall s s', (fix go ts s := match ts with [] => Some s | t :: ts' => match traverse u t s with None => None | Some s' => go ts' s' end end) ts s = Some s' ->
    clean s -> clean s').
  { clear s s'. induction ts as [|t ts IHts]; intros s s'; [intros [= <-]; auto|].
    inversion IH; subst. destruct (traverse u t s) as [s1|] eqn:E; [|discriminate]. intros H Hr. apply (IHts H2 _ _ H), (H1 _ _ E Hr). }
  cbn [traverse]. destruct (is_namespace_kind (kind u i)).
  - destruct (d_skip (u_decls u i)); [intros [= <-]; auto|].
    destruct (visit u i s) as [s1|] eqn:E1; [|discriminate]. destruct (_ ts s1) as [s2|] eqn:E2; [|discriminate]. intros H Hr.
    assert (F := Hall _ _ E2 (visit_clean _ _ _ _ E1 Hr)).
    destruct (negb _); injection H as <-; [|exact F]. unfold check_first. destruct (assoc (cs_first s2) (u_canonical u i)).
    + destruct (equal u (cs_annotations s2) i n); [exact F|]. eapply clean_more; [exact F|reflexivity|]. intros r [<-|[]]. reflexivity.
    + exact F.
  - destruct (visit u i s) as [s1|] eqn:E1; [|discriminate]. intros H Hr. apply (Hall _ _ H (visit_clean _ _ _ _ E1 Hr)).
Qed.

Lemma collect_clean u s : collect u = Some s -> clean s.
Proof.
  unfold collect. assert (H0 : clean init_state) by (intros i []). revert H0. generalize init_state.
  induction (u_top u) as [|t ts IH]; intros s0 H0; cbn [traverse_all]; [intros [= <-]; exact H0|].
  destruct (traverse u t s0) as [s1|] eqn:E; [|discriminate]. apply IH. apply (traverse_clean u t s0 s1 E H0).
Qed.

Section Conflicts.
Context (u : unit) (P : placed u) (s : cstate) (Hc : collect u = Some s) (He : errors_occurred (cs_reports s) = false).

Lemma conflicts_iff ok b : build_graph u = Done (ok, b) -> forall a c,
  In (RAlreadyExposed a c) (bs_reports b) <->
  exists t, relocates u a t /\ relocates u c t /\ precedes u c a /\ forall d, relocates u d t -> d = c \/ precedes u c d.
Proof.
  intros Hb a c. destruct (build_cases u P s Hc) as [(He' & _)|(_ & ok' & b' & rs & E & Hr & Hcf & _)]; [congruence|].
  rewrite Hb in E. injection E as <- <-. rewrite Hr, in_app_iff.
  set (st0 := cs_annotations s) in *. set (al := cs_aliases s) in *.
  destruct (relocations_facts u st0 al [] (NoDup_nil _)) as (F1 & _ & F3 & F4 & F5 & _). set (R := relocations u st0 [] al) in *.
  assert (Hok := aliases_ok u P s Hc He). fold st0 al in Hok.
  assert (Hrel : forall a t, relocates u a t <-> In a al /\ exp st0 a = true /\ tgt u a = t).
  { intros x t. rewrite (relocates_iff u P s Hc). fold st0 al. split.
    - intros (H1 & H2 & H3). destruct (Hok x H1) as (_ & _ & Ht & _). split; [exact H1|]. split; [exact H3|]. congruence.
    - intros (H1 & H2 & H3). destruct (Hok x H1) as (_ & _ & Ht & _). split; [exact H1|]. split; [congruence|exact H2]. }
  assert (Hfun : forall t x y, In (t, x) R -> In (t, y) R -> x = y).
  { intros t x y H1 H2. apply (assoc_nodup _ _ _ F1) in H1, H2. congruence. }
  destruct (collected_declarations u s (pl_sane u P) Hc) as (_ & _ & _ & _ & _ & _ & (Hnd & Hbef)). fold al in Hnd, Hbef.
  assert (Hns := sane_nodup u (pl_sane u P)).
  assert (Hsplit : In (RAlreadyExposed a c) (cs_reports s) \/ In (RAlreadyExposed a c) rs <-> In (RAlreadyExposed a c) (conflicts u st0 [] al)).
  { rewrite <- (Hcf (RAlreadyExposed a c) eq_refl). split; [|auto]. intros [H|H]; [|exact H]. apply (collect_clean u s Hc) in H. discriminate. }
  rewrite Hsplit. split.
  - intros H. destruct (F5 a c H) as (A1 & A2 & A3 & [[]|A4]). exists (tgt u a).
    destruct (F3 _ _ A3) as [[]|(C1 & C2 & C3)].
    split; [apply Hrel; auto|]. split; [apply Hrel; auto|]. split; [apply Hbef, A4|].
    intros d Hd. apply Hrel in Hd as (D1 & D2 & D3). destruct (F4 d D1 D2) as (x & Hx & Hor). rewrite D3 in Hx. rewrite (Hfun _ _ _ Hx A3) in Hor.
    destruct Hor as [->|Hor]; [auto|]. right. destruct (F5 d c Hor) as (_ & _ & _ & [[]|X]). apply Hbef, X.
  - intros (t & Ha & Hct & Hp & Hfirst). apply Hrel in Ha as (A1 & A2 & A3). apply Hrel in Hct as (C1 & C2 & C3).
    destruct (F4 a A1 A2) as (x & Hx & Hor). destruct (F4 c C1 C2) as (y & Hy & Hor'). rewrite A3 in Hx. rewrite C3 in Hy. assert (y = x) by eauto. subst y.
    assert (x = c).
    { destruct Hor' as [->|Hor']; [reflexivity|]. exfalso. destruct (F5 c x Hor') as (_ & _ & _ & [[]|X]). apply Hbef in X.
      destruct (F3 _ _ Hx) as [[]|(X1 & X2 & X3)]. destruct (Hfirst x) as [->|Y]; [apply Hrel; auto| |].
      - apply (before_antisym (source_order u) c c Hns X X).
      - apply (before_antisym (source_order u) c x Hns Y X). }
    subst x. destruct Hor as [<-|Hor]; [|exact Hor]. exfalso. apply (before_antisym (source_order u) c c Hns Hp Hp).
Qed.
End Conflicts.

(** ** Everything together *)
Section Process.
Context (u : unit) (P : placed u) (found : nat -> list nat) (implicit : nat -> bool) (mname : str).
Let root := u_root u.

Lemma process_spec :
  match process u found implicit mname with
  | AssertFails => False
  | NestedReport => collect u = None
  | Done (NoGraph rs) => exists r, In r rs /\ is_error_report r = true
  | Done (Cycles aliases) => aliases <> [] /\ exists b vis, build_graph u = Done (true, b) /\
      derive_effective_visibility u (bs_annotations b) (bs_graph b) = Some vis /\
      aliases = expose_here_cycles u (bs_graph b) (reachable_contexts vis) (bs_relocated b)
  | Done (Pruned g' contexts' vis' warned b) => exists vis contexts,
      let g := bs_graph b in let st := bs_annotations b in
      build_graph u = Done (true, b) /\ derive_effective_visibility u st g = Some vis /\
      expose_here_cycles u g (reachable_contexts vis) (bs_relocated b) = [] /\
      contexts_with_visible_decls u st found implicit vis g = Some contexts /\
      hide_namespaces u st g mname contexts vis = Some (contexts', vis') /\
      prune_graph u g contexts' vis' = Some g' /\ warned = unreachable_visible u g' contexts' (bs_relocated b)
  end.
Proof.
  unfold process. destruct (build_never_asserts u P) as [Hna Hn]. destruct (build_graph u) as [[ok b]| |] eqn:Hb; [|apply Hn; reflexivity|congruence].
  destruct (build_done u P ok b Hb) as (s & Hs & Hi & Hok & _).
  destruct ok.
  2: { symmetry in Hok. apply negb_false_iff in Hok. apply existsb_exists in Hok. exact Hok. }
  assert (T := ok_tree u P b Hb). cbn zeta. set (g := bs_graph b) in *. set (st := bs_annotations b) in *.
  destruct (derive_spec u st g T) as (vis & Hv & Hk & Hval). rewrite Hv.
  destruct (expose_here_cycles u g (reachable_contexts vis) (bs_relocated b)) as [|a l] eqn:Ec.
  2: { split; [discriminate|]. exists b, vis. auto. }
  destruct (content_spec u st found implicit vis g T) as (contexts & Hcx & _). { intros n Hr. apply Hk, Hr. } rewrite Hcx.
  destruct (hide_spec u st mname g T contexts vis) as (contexts' & vis' & Hh & Hh1 & Hh2). rewrite Hh.
  destruct (prune_spec u contexts' vis' g T) as (g' & Hp & _).
  { intros n Hr. assert (Hr' := Hr). destruct Hr' as (l & Hpn). destruct (Hh1 n l Hpn) as (_ & X & Y).
    destruct (exists_foreign_dec u st mname (n :: l)) as [F|F]; [rewrite (X F); eauto|]. rewrite (Y F). apply Hk, Hr. }
  rewrite Hp. exists vis, contexts. repeat (split; [assumption||reflexivity|]). reflexivity.
Qed.

Lemma lost_is_warned g' contexts vis warned b : process u found implicit mname = Done (Pruned g' contexts vis warned b) ->
  let g := bs_graph b in
  (forall w, In w warned <-> exists n, In n contexts /\ n <> root /\ ~ In n (g_nodes g') /\ (relocates u w n \/ (w = n /\ forall a, ~ relocates u a n))) /\
  (forall n, tag u n -> lookup_vis vis n = true -> reachable g root n -> ~ In n (g_nodes g') ->
     exists p, edge g p n /\ In p contexts /\ p <> root /\ ~ In p (g_nodes g')).
Proof.
  intros H. assert (S := process_spec). rewrite H in S. destruct S as (vis0 & contexts0 & Hb & Hv & Hcy & Hcx & Hh & Hp & Hw). intros g. cbn zeta in *.
  fold g in Hv, Hcy, Hcx, Hh, Hp. assert (T := ok_tree u P b Hb). fold g in T. set (st := bs_annotations b) in *.
  destruct (ok_built u P b Hb) as (s & Hs & B). split.
  - intros w. subst warned. rewrite unreachable_visible_iff. fold root.
    assert (X : forall n, w = match assoc (bs_relocated b) n with Some a => a | None => n end <-> relocates u w n \/ (w = n /\ forall a, ~ relocates u a n)).
    { intros n. destruct (assoc (bs_relocated b) n) as [a|] eqn:Ea.
      - apply assoc_in in Ea. apply (bt_relocates _ _ _ B) in Ea. split; [intros ->; auto|]. intros [Hr|[_ Hr]]; [|exfalso; apply (Hr a Ea)].
        apply (relocates_unique u s b B w a n Hr Ea).
      - assert (Hno : forall a, ~ relocates u a n).
        { intros a Hr. apply (bt_relocates _ _ _ B) in Hr. apply assoc_none in Ea. apply Ea. apply in_map_iff. exists (n, a). auto. }
        split; [auto|]. intros [Hr|[-> _]]; [exfalso; apply (Hno w Hr)|reflexivity]. }
    split; intros (n & H1 & H2 & H3 & H4); exists n; apply X in H4; auto.
  - intros n Ht Hvn (l & Hpn) Hn.
    destruct (derive_spec u st g T) as (vis1 & Hv1 & Hk & _). rewrite Hv in Hv1. injection Hv1 as <-.
    destruct (content_spec u st found implicit vis0 g T) as (contexts1 & Hcx1 & Hcont). { intros m Hr. apply Hk, Hr. } rewrite Hcx in Hcx1. injection Hcx1 as <-.
    destruct (hide_spec u st mname g T contexts0 vis0) as (contexts1 & vis1 & Hh1 & Hh2 & _). rewrite Hh in Hh1. injection Hh1 as <- <-.
    destruct (Hh2 n l Hpn) as (_ & X & Y).
    assert (Hnf : ~ exists m, In m (n :: l) /\ foreign u st mname m). { intros F. unfold lookup_vis in Hvn. rewrite (X F) in Hvn. discriminate. }
    assert (Hv0 : lookup_vis vis0 n = true). { unfold lookup_vis in *. rewrite <- (Y Hnf). exact Hvn. }
    destruct (prune_spec u contexts vis g T) as (g1 & Hp1 & _ & _ & Hin).
    { intros m Hr. assert (Hr' := Hr). destruct Hr' as (lm & Hpm). destruct (Hh2 m lm Hpm) as (_ & X' & Y').
      destruct (exists_foreign_dec u st mname (m :: lm)) as [F|F]; [rewrite (X' F); eauto|]. rewrite (Y' F). apply Hk, Hr. }
    rewrite Hp in Hp1. injection Hp1 as <-.
    destruct l as [|p l].
    { inversion Hpn; subst n. exfalso. apply Hn, Hin. auto. }
    assert (Hpp : path (edge g) root (p :: l)) by (inversion Hpn; assumption).
    assert (Hed : edge g p n) by (inversion Hpn; assumption).
    assert (Hpc : In p contexts).
    { apply (Hh2 p l Hpp). split.
      - apply Hcont. split; [exists l; exact Hpp|]. exists p. split; [constructor|]. left. exists n. auto.
      - intros (m & Hm & F). apply Hnf. exists m. split; [right; exact Hm|exact F]. }
    assert (Hkn : preserved u contexts (lookup_vis vis) n) by (left; auto).
    assert (Hpn' : ~ exists l', kept_path u contexts vis g (p :: l')).
    { intros (l' & Hp' & Hk'). apply Hn, Hin. right. exists (p :: l'). split; [constructor; auto|]. intros m [<-|Hm]; auto. }
    exists p. split; [exact Hed|]. split; [exact Hpc|].
    assert (Hpr : p <> root).
    { intros ->. apply Hpn'. exists []. split; [constructor|]. intros m [<-|[]]. right. split; [|exact Hpc]. unfold tag, root. rewrite (pl_root_kind u P). intuition discriminate. }
    split; [exact Hpr|]. intros Hpin. apply Hin in Hpin as [->|Hpin]; [apply Hpr; reflexivity|apply Hpn', Hpin].
Qed.
End Process.

(** ** Theorems *)
Section Statements.
Context (u : unit) (P : placed u).

Lemma one_place b : build_graph u = Done (true, b) ->
  tree_like (bs_graph b) (u_root u) /\
  (forall p c, edge (bs_graph b) p c <-> place u p c) /\
  (forall n, In n (g_nodes (bs_graph b)) <-> n = u_root u \/ exists p c, place u p c /\ (n = p \/ n = c)) /\
  (forall a a' t, relocates u a t -> relocates u a' t -> a = a') /\
  (forall a t, assoc (bs_relocated b) t = Some a <-> relocates u a t).
Proof.
  intros Hb. split; [apply ok_tree; auto|]. split; [apply ok_edge; auto|]. split; [apply ok_node; auto|].
  destruct (ok_built u P b Hb) as (s & Hs & B). split.
  - intros a a' t. apply (relocates_unique u s b B).
  - intros a t. rewrite (bt_relocates _ _ _ B). split; [apply assoc_in|apply (assoc_nodup _ _ _ (bt_nodup _ _ _ B))].
Qed.

Lemma no_graph_iff : build_graph u <> AssertFails /\ (build_graph u = NestedReport <-> collect u = None) /\
  forall ok b, build_graph u = Done (ok, b) -> (ok = false <-> exists r, In r (bs_reports b) /\ is_error_report r = true).
Proof.
  destruct (build_never_asserts u P) as [A B]. split; [exact A|]. split; [exact B|]. intros ok b Hb. destruct (build_done u P ok b Hb) as (s & _ & _ & -> & _).
  rewrite negb_false_iff. unfold errors_occurred. rewrite existsb_exists. reflexivity.
Qed.

Lemma cycles_spec b vis : build_graph u = Done (true, b) -> derive_effective_visibility u (bs_annotations b) (bs_graph b) = Some vis ->
  let cycles := expose_here_cycles u (bs_graph b) (reachable_contexts vis) (bs_relocated b) in
  let reached := reachable (bs_graph b) (u_root u) in
  (forall a, In a cycles <-> exists t, relocates u a t /\ ~ reached t) /\
  (well_nested u -> forall n l, leads (edge (bs_graph b)) n n l -> exists a t, In t l /\ relocates u a t /\ In a cycles) /\
  (well_nested u -> no_orphans u -> cycles = [] -> forall n, In n (g_nodes (bs_graph b)) -> reached n) /\
  StronglySorted (fun a c => (u_location u a <= u_location u c)%N) cycles.
Proof.
  intros Hb Hv cycles reached. assert (T := ok_tree u P b Hb). destruct (ok_built u P b Hb) as (s & Hs & B).
  destruct (derive_spec u (bs_annotations b) (bs_graph b) T) as (vis' & Hv' & Hk & _). rewrite Hv in Hv'. injection Hv' as <-.
  assert (Hr : forall n, In n (reachable_contexts vis) <-> reached n). { intros n. unfold reachable_contexts. rewrite dlookup_keys. apply Hk. }
  assert (Hcy : forall a, In a cycles <-> exists t, relocates u a t /\ ~ reached t).
  { intros a. unfold cycles. rewrite (cycles_iff _ _ _ _ _ (bt_nodup _ _ _ B)). split.
    - intros (t & H1 & _ & H2). exists t. rewrite (bt_relocates _ _ _ B), <- Hr. auto.
    - intros (t & H1 & H2). exists t. rewrite <- (bt_relocates _ _ _ B), Hr. split; [exact H1|]. split; [|exact H2].
      destruct (relocated_place u P a t H1) as (p & _ & Hp). apply (place_node u P b Hb p t Hp). }
  split; [exact Hcy|]. split; [|split].
  - intros W n l L. destruct (cycle_reported u P b Hb n l W L) as (a & t & H1 & H2 & H3). exists a, t. split; [exact H1|]. split; [exact H2|]. apply Hcy. eauto.
  - intros W O E n Hn. assert (D : reached n \/ ~ reached n).
    { rewrite <- Hr. destruct (in_dec Nat.eq_dec n (reachable_contexts vis)); auto. }
    destruct D as [D|D]; [exact D|]. exfalso. destruct (unreachable_relocated u P b Hb W O n Hn D) as (a & t & H1 & H2).
    assert (X : In a cycles) by (apply Hcy; eauto). rewrite E in X. destruct X.
  - apply sort_sorted.
Qed.

Lemma attributes_of_targets b s : collect u = Some s -> build_graph u = Done (true, b) -> forall t,
  ((forall a, ~ relocates u a t) -> (forall a, ~ encourages u a t) -> lookup_attrs (bs_annotations b) t = lookup_attrs (cs_annotations s) t) /\
  (forall a0, relocates u a0 t \/ encourages u a0 t ->
    exists y z, lookup_attrs (bs_annotations b) t = Some y /\ own_attributes u t z /\ same_but_named y z /\
    (forall a x, relocates u a t -> own_attributes u a x ->
       n_spelling (at_named y) = match n_spelling (at_named x) with [] => u_name u a | n => n end) /\
    ((forall a, ~ relocates u a t) -> n_spelling (at_named y) = n_spelling (at_named z)) /\
    (forall a x, relocates u a t -> own_attributes u a x -> (forall e, encourages u e t -> ~ precedes u a e) ->
       n_visible (at_named y) = n_visible (at_named x)) /\
    (forall e, encourages u e t -> (forall a, relocates u a t -> precedes u a e) -> n_visible (at_named y) = Some true)).
Proof.
  intros Hs Hb t. destruct (ok_built u P b Hb) as (s' & Hs' & B). rewrite Hs in Hs'. injection Hs' as <-. split.
  - apply (untouched_attrs u P s Hs b B).
  - intros a0. apply (touched_attrs u P s Hs b B a0 t).
Qed.
End Statements.

Lemma visibility_spec u st g : tree_like g (u_root u) ->
  exists m, derive_effective_visibility u st g = Some m /\
    (forall n, (exists v, dlookup m n = Some v) <-> reachable g (u_root u) n) /\
    (forall n l v, path (edge g) (u_root u) (n :: l) -> (dlookup m n = Some v <-> visible_along u st (n :: l) v)).
Proof.
  intros T. destruct (derive_spec u st g T) as (m & E & H1 & H2). exists m. split; [exact E|]. split; [exact H1|].
  intros n l v Hp. rewrite (H2 n l Hp), <- vis_along_iff. split; [intros [= H]; exact H|intros ->; reflexivity].
Qed.

Lemma scope_spec u st g : tree_like g (u_root u) -> kind u (u_root u) = KOther ->
  exists m, find_enclosing_scopes u st g = Some m /\
    (forall n, (exists v, dlookup m n = Some v) <-> reachable g (u_root u) n) /\
    dlookup m (u_root u) = Some None /\
    (forall n l, path (edge g) (u_root u) (n :: l) -> n <> u_root u ->
       exists l1 p l2, l = l1 ++ p :: l2 /\ ~ transparent u st p /\ (forall q, In q l1 -> transparent u st q) /\ dlookup m n = Some (Some p)).
Proof.
  intros T Hk. destruct (scopes_spec u st g T) as (m & E & H1 & H2 & H3). { rewrite Hk. discriminate. }
  exists m. split; [exact E|]. split; [exact H1|]. split; [exact H2|]. intros n l Hp Hn. destruct l as [|q l]; [inversion Hp; congruence|].
  destruct (H3 n q l Hp) as [H4 H5]. destruct (scope_along u st (q :: l)) as [p|] eqn:Es; [|congruence].
  apply scope_along_iff in Es as (l1 & l2 & E1 & E2 & E3). exists l1, p, l2. auto.
Qed.

Lemma pruned_spec u contexts vis g : tree_like g (u_root u) -> (forall n, reachable g (u_root u) n -> exists b, dlookup vis n = Some b) ->
  exists g', prune_graph u g contexts vis = Some g' /\ tree_like g' (u_root u) /\
    (forall p c, edge g' p c <-> exists l, kept_path u contexts vis g (c :: p :: l)) /\
    (forall n, In n (g_nodes g') <-> n = u_root u \/ exists l, kept_path u contexts vis g (n :: l)) /\
    (forall n, In n (g_nodes g') <-> reachable g' (u_root u) n) /\
    (forall l, path (edge g') (u_root u) l -> path (edge g) (u_root u) l).
Proof.
  intros T Hv. destruct (prune_spec u contexts vis g T Hv) as (g' & E & T' & He & Hn). exists g'. repeat (split; [assumption|]).
  split; [|intros l; apply (pruned_path u contexts vis g g' l He)]. intros n. rewrite Hn. split.
  - intros [->|(l & Hp & Hk)]; [exists []; constructor|]. exists l. clear Hn. remember (n :: l) as q eqn:Eq. clear Eq n l.
    induction Hp as [|p c l Hp IH Hed]; [constructor|]. constructor; [apply IH; intros m Hm; apply Hk; right; exact Hm|].
    apply He. exists l. split; [constructor; auto|exact Hk].
  - intros (l & Hp). destruct l as [|p l]; [inversion Hp; auto|]. right. assert (X : edge g' p n) by (inversion Hp; assumption).
    apply He in X as (l' & X). exists (p :: l'). exact X.
Qed.
