(** * Proofs about the collector *)
From Verif Require Import Base ParserModel ParserSpec StringModel AnnotModel AnnotSpec AnnotProofs AnnotStore AnnotFinal CollectModel CollectSpec.

(** ** Induction over trees *)

Section TreeInd.
  Variable P : tree -> Prop.
  Hypothesis H : forall i ts, Forall P ts -> P (Node i ts).
  Fixpoint tree_ind' (t : tree) : P t :=
    match t with
    | Node i ts =>
        H i ts ((fix go (ts : list tree) : Forall P ts :=
                   match ts with [] => Forall_nil _ | t :: ts' => Forall_cons t (tree_ind' t) (go ts') end) ts)
    end.
End TreeInd.

Lemma traverse_eq u i ts s :
  traverse u (Node i ts) s =
  if is_namespace_kind (kind u i) then
    if d_skip (u_decls u i) then Some s
    else match visit u i s with
         | None => None
         | Some s1 =>
             match traverse_all u ts s1 with
             | None => None
             | Some s2 =>
                 if negb (Nat.eqb (length (cs_annotations s2)) (length (cs_annotations s))) then Some (check_first u i s2)
                 else Some s2
             end
         end
  else match visit u i s with None => None | Some s1 => traverse_all u ts s1 end.
Proof.
  cbn [traverse].
  assert (E : forall ts s, (fix traverse_all (ts : list tree) (s : cstate) {struct ts} : option cstate :=
        match ts with
        | [] => Some s
        | t :: ts' => match traverse u t s with None => None | Some s' => traverse_all ts' s' end
        end) ts s = traverse_all u ts s).
  { clear. induction ts as [|t ts IH]; intros s; cbn [traverse_all]; [reflexivity|]. destruct (traverse u t s); [apply IH|reflexivity]. }
  destruct (is_namespace_kind (kind u i)); [destruct (d_skip (u_decls u i)); [reflexivity|]|]; destruct (visit u i s); rewrite ?E; reflexivity.
Qed.
Global Opaque traverse.

(** ** Decision of [counts] *)

Definition counts_b (u : unit) (i : nat) : bool :=
  negb (is_tag_kind (kind u i) && d_skip (u_decls u i) || u_dependent u i || negb (has_annotations (u_decls u i) true)).

Lemma consume_front_some p : forall t r, consume_front p t = Some r <-> t = p ++ r.
Proof.
  induction p as [|a p IH]; intros t r; cbn [consume_front app].
  - split; [intros [= ->]|intros ->]; reflexivity.
  - destruct t as [|c t]; [split; discriminate|]. destruct (ascii_dec a c) as [->|Hn].
    + rewrite IH. split; [intros ->|intros [= ->]]; reflexivity.
    + split; [discriminate|]. intros [= ->]. contradiction.
Qed.

Lemma has_annotations_marked d : has_annotations d true = true <-> marked d.
Proof.
  unfold has_annotations, marked. rewrite existsb_exists. split.
  - intros (t & Ht & H). destruct (consume_front lozenge t) as [r|] eqn:E; [|discriminate]. apply consume_front_some in E as ->. eauto.
  - intros (r & Hr). exists (lozenge ++ r). split; [exact Hr|]. destruct (consume_front lozenge (lozenge ++ r)) eqn:E; [reflexivity|].
    assert (H : consume_front lozenge (lozenge ++ r) = Some r) by (apply consume_front_some; reflexivity). congruence.
Qed.

Lemma counts_b_iff u i : counts_b u i = true <-> counts u i.
Proof.
  unfold counts_b, counts. rewrite <- has_annotations_marked.
  destruct (is_tag_kind (kind u i)), (d_skip (u_decls u i)), (u_dependent u i), (has_annotations (u_decls u i) true); cbn [negb andb orb]; intuition congruence.
Qed.

Definition context_b (u : unit) (i : nat) : bool :=
  (is_namespace_kind (kind u i) || is_tag_kind (kind u i)) && negb (d_skip (u_decls u i)).
Definition alias_b (u : unit) (i : nat) : bool :=
  is_typedef_kind (kind u i) && has_annotations (u_decls u i) true && negb (u_dependent u i).

(** ** One visit *)

Definition keys (st : storage) : list nat := map fst st.

Lemma lookup_app st st' i :
  lookup_attrs (st ++ st') i = match lookup_attrs st i with Some a => Some a | None => lookup_attrs st' i end.
Proof.
  induction st as [|[j a] st IH]; cbn [lookup_attrs app]; [reflexivity|]. destruct (Nat.eqb i j); [reflexivity|apply IH].
Qed.

Lemma lookup_none st i : lookup_attrs st i = None <-> ~ In i (keys st).
Proof.
  induction st as [|[j a] st IH]; cbn; [tauto|]. destruct (Nat.eqb i j) eqn:E.
  - apply Nat.eqb_eq in E. subst j. split; [discriminate|]. intros Hn. exfalso. apply Hn. left. reflexivity.
  - apply Nat.eqb_neq in E. rewrite IH. intuition congruence.
Qed.

Definition is_mismatch (r : report) : bool := match r with RMismatch _ _ => true | _ => false end.
Definition mismatches (rs : list report) : list report := filter is_mismatch rs.

Lemma mismatches_app a b : mismatches (a ++ b) = mismatches a ++ mismatches b.
Proof. apply filter_app. Qed.
Lemma mismatches_annotations i ds : mismatches (map (RAnnotation i) ds) = [].
Proof. induction ds as [|d ds IH]; [reflexivity|exact IH]. Qed.

(** The attributes computed for a declaration. *)
Definition own (u : unit) (i : nat) : option attrs := option_map fst (compute_attrs (u_decls u i)).

Lemma visit_spec u i s s' : (forall i, d_skip (u_decls u i) = true -> is_namespace_kind (kind u i) = true \/ is_tag_kind (kind u i) = true) ->
  visit u i s = Some s' -> ignored_namespace u i = false -> ~ In i (keys (cs_annotations s)) ->
  keys (cs_annotations s') = keys (cs_annotations s) ++ filter (counts_b u) [i] /\
  (forall j, j <> i -> lookup_attrs (cs_annotations s') j = lookup_attrs (cs_annotations s) j) /\
  (lookup_attrs (cs_annotations s') i = if counts_b u i then own u i else None) /\
  cs_contexts s' = cs_contexts s ++ filter (context_b u) [i] /\
  cs_aliases s' = cs_aliases s ++ filter (alias_b u) [i] /\
  cs_first s' = cs_first s /\ mismatches (cs_reports s') = mismatches (cs_reports s) /\
  (counts_b u i = true -> own u i <> None).
Proof.
  intros Hsane H Hi Hk. unfold visit in H. destruct (visit_named u i s) as [s1|] eqn:E; [|discriminate]. injection H as <-.
  assert (H1 : keys (cs_annotations s1) = keys (cs_annotations s) ++ filter (counts_b u) [i] /\
    (forall j, j <> i -> lookup_attrs (cs_annotations s1) j = lookup_attrs (cs_annotations s) j) /\
    (lookup_attrs (cs_annotations s1) i = if counts_b u i then own u i else None) /\
    cs_contexts s1 = cs_contexts s /\ cs_aliases s1 = cs_aliases s /\
    cs_first s1 = cs_first s /\ mismatches (cs_reports s1) = mismatches (cs_reports s) /\ (counts_b u i = true -> own u i <> None)).
  { unfold visit_named in E. cbn [filter]. specialize (Hsane i). unfold ignored_namespace in Hi. unfold counts_b, kind in *.
    destruct (is_tag_kind (d_kind (u_decls u i)) && d_skip (u_decls u i) || u_dependent u i || negb (has_annotations (u_decls u i) true)) eqn:Ec; cbn [negb].
    - injection E as <-. rewrite app_nil_r. apply lookup_none in Hk. rewrite Hk. repeat split; try reflexivity; intros; discriminate.
    - destruct (insert (u_decls u) i (cs_annotations s)) as [[st ds]|] eqn:Ei; [|discriminate]. injection E as <-.
      cbn [cs_annotations cs_contexts cs_aliases cs_first cs_reports].
      assert (Hs : d_skip (u_decls u i) = false).
      { destruct (d_skip (u_decls u i)) eqn:Es; [exfalso|reflexivity].
        destruct (Hsane eq_refl) as [Hx|Hx]; rewrite Hx in *; cbn in *; congruence. }
      unfold insert, has in Ei. rewrite Hs in Ei. apply lookup_none in Hk. rewrite Hk in Ei.
      unfold own. destruct (compute_attrs (u_decls u i)) as [[a ds']|] eqn:Ea; [|discriminate]. injection Ei as <- <-.
      unfold keys. rewrite map_app, mismatches_app, mismatches_annotations, app_nil_r. repeat split; try reflexivity.
      + intros j Hj. rewrite lookup_app. cbn [lookup_attrs]. apply Nat.eqb_neq in Hj. rewrite Hj. destruct (lookup_attrs (cs_annotations s) j); reflexivity.
      + rewrite lookup_app, Hk. cbn [lookup_attrs]. rewrite Nat.eqb_refl. reflexivity.
      + discriminate. }
  clear E. destruct H1 as (A & B & C & D & F & G & M & O). cbn [filter]. unfold context_b, alias_b, kind in *.
  destruct (d_kind (u_decls u i)) eqn:Ek; cbn [is_namespace_kind is_tag_kind is_typedef_kind orb andb];
    unfold visit_context, visit_typedef, push_context, push_alias, report_all;
    try (destruct (d_skip (u_decls u i)));
    try (destruct (has_annotations (u_decls u i) true));
    try (destruct (u_dependent u i)); try (destruct (u_qualified u i));
    cbn [negb orb andb cs_annotations cs_contexts cs_aliases cs_first cs_reports];
    rewrite ?mismatches_app, ?D, ?F, ?app_nil_r; cbn [mismatches filter is_mismatch app]; rewrite ?app_nil_r;
    (split; [exact A|split; [exact B|split; [exact C|split; [reflexivity|split; [reflexivity|split; [exact G|split; [exact M|exact O]]]]]]]).
Qed.

(** ** The whole traversal *)

Fixpoint checked (u : unit) (t : tree) : list nat :=
  match t with
  | Node i ts =>
      if ignored_namespace u i then []
      else flat_map (checked u) ts ++
           (if is_namespace_kind (kind u i) && existsb (counts_b u) (i :: flat_map (order u) ts) then [i] else [])
  end.

Definition check_pure (u : unit) (st : storage) (x : list (nat * nat) * list report) (i : nat) : list (nat * nat) * list report :=
  match assoc (fst x) (u_canonical u i) with
  | None => (fst x ++ [(u_canonical u i, i)], snd x)
  | Some f => (fst x, if equal u st i f then snd x else snd x ++ [RMismatch i f])
  end.

Lemma equal_lookup u st st' i j :
  lookup_attrs st i = lookup_attrs st' i -> lookup_attrs st j = lookup_attrs st' j -> equal u st i j = equal u st' i j.
Proof. intros Hi Hj. unfold equal, get_named, get_namespace, get_typedef, get. rewrite Hi, Hj. reflexivity. Qed.

Lemma assoc_in l k x : assoc l k = Some x -> In (k, x) l.
Proof.
  induction l as [|[j y] l IH]; cbn [assoc]; [discriminate|]. destruct (Nat.eqb k j) eqn:E.
  - apply Nat.eqb_eq in E. subst j. intros [= ->]. left. reflexivity.
  - intros H. right. auto.
Qed.

Record effect (u : unit) (l : list nat) (ch : list nat) (s s' : cstate) : Prop := {
  ef_keys : keys (cs_annotations s') = keys (cs_annotations s) ++ filter (counts_b u) l;
  ef_other : forall j, ~ In j l -> lookup_attrs (cs_annotations s') j = lookup_attrs (cs_annotations s) j;
  ef_mine : forall j, In j l -> lookup_attrs (cs_annotations s') j = if counts_b u j then own u j else None;
  ef_own : forall j, In j l -> counts_b u j = true -> own u j <> None;
  ef_contexts : cs_contexts s' = cs_contexts s ++ filter (context_b u) l;
  ef_aliases : cs_aliases s' = cs_aliases s ++ filter (alias_b u) l;
  ef_first_in : forall k x, In (k, x) (cs_first s') -> In (k, x) (cs_first s) \/ In x l;
  ef_checks : forall st, (forall j, In j l \/ (exists k, In (k, j) (cs_first s)) -> lookup_attrs st j = lookup_attrs (cs_annotations s') j) ->
    (cs_first s', mismatches (cs_reports s')) = fold_left (check_pure u st) ch (cs_first s, mismatches (cs_reports s))
}.

Lemma effect_nil u s : effect u [] [] s s.
Proof.
  constructor; cbn [filter fold_left]; rewrite ?app_nil_r; intros; try reflexivity; try contradiction; auto.
Qed.

Lemma effect_app u l1 l2 c1 c2 s0 s1 s2 :
  (forall j, In j l1 -> ~ In j l2) -> (forall k j, In (k, j) (cs_first s0) -> ~ In j l2) ->
  effect u l1 c1 s0 s1 -> effect u l2 c2 s1 s2 -> effect u (l1 ++ l2) (c1 ++ c2) s0 s2.
Proof.
  intros Hd Hf A B. constructor.
  - rewrite (ef_keys _ _ _ _ _ B), (ef_keys _ _ _ _ _ A), filter_app, app_assoc. reflexivity.
  - intros j Hj. rewrite in_app_iff in Hj. rewrite (ef_other _ _ _ _ _ B), (ef_other _ _ _ _ _ A) by tauto. reflexivity.
  - intros j Hj. apply in_app_iff in Hj as [Hj|Hj].
    + rewrite (ef_other _ _ _ _ _ B) by auto. apply (ef_mine _ _ _ _ _ A), Hj.
    + apply (ef_mine _ _ _ _ _ B), Hj.
  - intros j Hj. apply in_app_iff in Hj as [Hj|Hj]; [apply (ef_own _ _ _ _ _ A), Hj|apply (ef_own _ _ _ _ _ B), Hj].
  - rewrite (ef_contexts _ _ _ _ _ B), (ef_contexts _ _ _ _ _ A), filter_app, app_assoc. reflexivity.
  - rewrite (ef_aliases _ _ _ _ _ B), (ef_aliases _ _ _ _ _ A), filter_app, app_assoc. reflexivity.
  - intros k x Hx. rewrite in_app_iff. apply (ef_first_in _ _ _ _ _ B) in Hx as [Hx|Hx]; [apply (ef_first_in _ _ _ _ _ A) in Hx|]; tauto.
  - intros st Hst. rewrite fold_left_app, <- (ef_checks _ _ _ _ _ A st), <- (ef_checks _ _ _ _ _ B st); [reflexivity| |].
    + intros j [Hj|(k & Hj)]; [apply Hst; rewrite in_app_iff; tauto|].
      apply (ef_first_in _ _ _ _ _ A) in Hj as [Hj|Hj]; apply Hst; [right; eauto|rewrite in_app_iff; tauto].
    + intros j Hj. rewrite Hst by (rewrite in_app_iff; tauto).
      destruct Hj as [Hj|(k & Hj)]; apply (ef_other _ _ _ _ _ B); [auto|eauto].
Qed.

Lemma effect_visit u i s s' : (forall i, d_skip (u_decls u i) = true -> is_namespace_kind (kind u i) = true \/ is_tag_kind (kind u i) = true) ->
  visit u i s = Some s' -> ignored_namespace u i = false -> ~ In i (keys (cs_annotations s)) -> effect u [i] [] s s'.
Proof.
  intros Hs H Hi Hk. destruct (visit_spec u i s s' Hs H Hi Hk) as (A & B & C & D & E & F & G & O). constructor; try assumption.
  - intros j Hj. apply B. intros ->. apply Hj. left. reflexivity.
  - intros j [<-|[]]. exact C.
  - intros j [<-|[]]. exact O.
  - intros k x Hx. rewrite F in Hx. auto.
  - intros st _. cbn [fold_left]. rewrite F, G. reflexivity.
Qed.

Lemma check_first_pure u i s st :
  (forall f, assoc (cs_first s) (u_canonical u i) = Some f -> lookup_attrs st f = lookup_attrs (cs_annotations s) f) ->
  lookup_attrs st i = lookup_attrs (cs_annotations s) i ->
  (cs_first (check_first u i s), mismatches (cs_reports (check_first u i s))) = check_pure u st (cs_first s, mismatches (cs_reports s)) i.
Proof.
  intros Hf Hi. unfold check_first, check_pure. cbn [fst snd]. destruct (assoc (cs_first s) (u_canonical u i)) as [f|]; [|reflexivity].
  rewrite (equal_lookup u (cs_annotations s) st i f) by (symmetry; auto). destruct (equal u st i f); [reflexivity|].
  unfold report_all. cbn [cs_first cs_reports]. rewrite mismatches_app. reflexivity.
Qed.

Lemma check_first_annotations u i s : cs_annotations (check_first u i s) = cs_annotations s /\
  cs_contexts (check_first u i s) = cs_contexts s /\ cs_aliases (check_first u i s) = cs_aliases s.
Proof. unfold check_first. destruct (assoc _ _); [destruct (equal u _ _ _)|]; auto. Qed.

Lemma effect_check u i l ch s s' : In i l -> effect u l ch s s' -> effect u l (ch ++ [i]) s (check_first u i s').
Proof.
  intros Hi A. destruct (check_first_annotations u i s') as (E1 & E2 & E3). constructor; rewrite ?E1, ?E2, ?E3; try apply A.
  - intros k x Hx. unfold check_first in Hx. destruct (assoc (cs_first s') (u_canonical u i)) eqn:E.
    + apply (ef_first_in _ _ _ _ _ A k). destruct (equal u (cs_annotations s') i n); exact Hx.
    + cbn [cs_first] in Hx. apply in_app_iff in Hx as [Hx|[[= <- <-]|[]]]; [apply (ef_first_in _ _ _ _ _ A), Hx|auto].
  - intros st Hst. rewrite fold_left_app. cbn [fold_left]. rewrite <- (ef_checks _ _ _ _ _ A st Hst). apply check_first_pure.
    + intros f Hf. apply Hst. apply assoc_in in Hf. apply (ef_first_in _ _ _ _ _ A) in Hf as [Hf|Hf]; eauto.
    + apply Hst. auto.
Qed.

Definition good_start (l : list nat) (s : cstate) : Prop :=
  (forall j, In j l -> ~ In j (keys (cs_annotations s))) /\ (forall k j, In (k, j) (cs_first s) -> ~ In j l).

Lemma good_start_app l1 l2 s : good_start (l1 ++ l2) s -> good_start l1 s /\ (forall k j, In (k, j) (cs_first s) -> ~ In j l2).
Proof.
  intros [A B]. repeat split.
  - intros j Hj. apply A, in_app_iff. auto.
  - intros k j Hk Hj. apply (B k j Hk), in_app_iff. auto.
  - intros k j Hk Hj. apply (B k j Hk), in_app_iff. auto.
Qed.

Lemma good_start_next u l1 l2 ch s s' : NoDup (l1 ++ l2) -> good_start (l1 ++ l2) s -> effect u l1 ch s s' -> good_start l2 s'.
Proof.
  intros Hn [A B] E. split.
  - intros j Hj Hk. rewrite (ef_keys _ _ _ _ _ E), in_app_iff, filter_In in Hk. destruct Hk as [Hk|[Hk _]].
    + apply (A j); [apply in_app_iff; auto|exact Hk].
    + clear -Hn Hj Hk. induction l1 as [|a l1 IH]; [contradiction|]. cbn in Hn. inversion Hn; subst. destruct Hk as [->|Hk]; [|auto].
      apply H1, in_app_iff. auto.
  - intros k j Hk Hj. apply (ef_first_in _ _ _ _ _ E) in Hk as [Hk|Hk].
    + apply (B k j Hk), in_app_iff. auto.
    + clear -Hn Hj Hk. induction l1 as [|a l1 IH]; [contradiction|]. cbn in Hn. inversion Hn; subst. destruct Hk as [->|Hk]; [|auto].
      apply H1, in_app_iff. auto.
Qed.

Lemma nodup_app_disjoint {A} (l1 l2 : list A) : NoDup (l1 ++ l2) -> NoDup l1 /\ NoDup l2 /\ forall j, In j l1 -> ~ In j l2.
Proof.
  induction l1 as [|a l1 IH]; cbn; intros H; [repeat split; auto; constructor|]. inversion H; subst.
  destruct (IH H3) as (A1 & A2 & A3). repeat split; auto.
  - constructor; [|exact A1]. rewrite in_app_iff in H2. tauto.
  - intros j [->|Hj]; [rewrite in_app_iff in H2; tauto|auto].
Qed.

Section Traversal.
Variable u : unit.
Hypothesis Hskip : forall i, d_skip (u_decls u i) = true -> is_namespace_kind (kind u i) = true \/ is_tag_kind (kind u i) = true.

Definition traversal_ok (t : tree) : Prop :=
  forall s s', traverse u t s = Some s' -> NoDup (order u t) -> good_start (order u t) s -> effect u (order u t) (checked u t) s s'.

Lemma traverse_all_effect ts : Forall traversal_ok ts -> forall s s', traverse_all u ts s = Some s' ->
  NoDup (flat_map (order u) ts) -> good_start (flat_map (order u) ts) s ->
  effect u (flat_map (order u) ts) (flat_map (checked u) ts) s s'.
Proof.
  induction 1 as [|t ts Ht _ IH]; intros s s' H Hn Hg; cbn [traverse_all flat_map] in *.
  - injection H as <-. apply effect_nil.
  - destruct (traverse u t s) as [s1|] eqn:E; [|discriminate]. destruct (nodup_app_disjoint _ _ Hn) as (N1 & N2 & N3).
    destruct (good_start_app _ _ _ Hg) as [G1 G2]. specialize (Ht _ _ E N1 G1).
    apply (effect_app u _ _ _ _ s s1 s'); auto. apply IH; auto. eapply good_start_next; eauto.
Qed.

Lemma length_filter_existsb {A} (f : A -> bool) l : Nat.eqb (length (filter f l)) 0 = negb (existsb f l).
Proof. induction l as [|a l IH]; cbn; [reflexivity|]. destruct (f a); cbn; auto. Qed.

Lemma traverse_effect t : traversal_ok t.
Proof.
  induction t as [i ts IH] using tree_ind'. intros s s' H Hn Hg. rewrite traverse_eq in H.
  cbn [order checked] in *. unfold ignored_namespace in *.
  destruct (is_namespace_kind (kind u i)) eqn:Ek; cbn [andb] in *.
  - destruct (d_skip (u_decls u i)) eqn:Es; [injection H as <-; apply effect_nil|].
    destruct (visit u i s) as [s1|] eqn:E1; [|discriminate].
    destruct (traverse_all u ts s1) as [s2|] eqn:E2; [|discriminate].
    change (i :: flat_map (order u) ts) with ([i] ++ flat_map (order u) ts) in *.
    destruct (nodup_app_disjoint _ _ Hn) as (N1 & N2 & N3). destruct (good_start_app _ _ _ Hg) as [G1 G2].
    assert (V : effect u [i] [] s s1).
    { apply effect_visit; auto. - unfold ignored_namespace. rewrite Es. apply andb_false_r. - apply G1. left. reflexivity. }
    assert (T := traverse_all_effect ts IH _ _ E2 N2 (good_start_next _ _ _ _ _ _ Hn Hg V)).
    assert (W := effect_app u _ _ _ _ _ _ _ N3 G2 V T). cbn [app] in W.
    assert (Ec : Nat.eqb (length (cs_annotations s2)) (length (cs_annotations s)) = negb (existsb (counts_b u) (i :: flat_map (order u) ts))).
    { rewrite <- length_filter_existsb. assert (L := f_equal (@length nat) (ef_keys _ _ _ _ _ W)).
      unfold keys in L. rewrite app_length, !map_length in L. rewrite L.
      apply eq_true_iff_eq. rewrite !Nat.eqb_eq. lia. }
    cbn [app] in *. rewrite Ec, negb_involutive in H. destruct (existsb (counts_b u) (i :: flat_map (order u) ts)); injection H as <-.
    + apply effect_check; [left; reflexivity|exact W].
    + rewrite app_nil_r. exact W.
  - destruct (visit u i s) as [s1|] eqn:E1; [|discriminate]. rewrite app_nil_r.
    change (i :: flat_map (order u) ts) with ([i] ++ flat_map (order u) ts) in *.
    destruct (nodup_app_disjoint _ _ Hn) as (N1 & N2 & N3). destruct (good_start_app _ _ _ Hg) as [G1 G2].
    assert (V : effect u [i] [] s s1).
    { apply effect_visit; auto. - unfold ignored_namespace. rewrite Ek. reflexivity. - apply G1. left. reflexivity. }
    assert (T := traverse_all_effect ts IH _ _ H N2 (good_start_next _ _ _ _ _ _ Hn Hg V)).
    exact (effect_app u _ _ _ _ _ _ _ N3 G2 V T).
Qed.
End Traversal.

Lemma collect_effect u s : sane u -> collect u = Some s ->
  effect u (source_order u) (flat_map (checked u) (u_top u)) init_state s.
Proof.
  intros Hs H. apply traverse_all_effect; try exact H.
  - apply Forall_forall. intros t _. apply traverse_effect. apply Hs.
  - apply Hs.
  - split; [intros j _ []|intros k j []].
Qed.

(** ** Reopened namespaces *)

Lemma before_in {A} (l : list A) a b : before l a b -> In a l /\ In b l.
Proof. intros (l1 & l2 & l3 & ->). split; apply in_app_iff; right; [left; reflexivity|right]. apply in_app_iff. right. left. reflexivity. Qed.

Lemma before_app {A} (l1 l2 : list A) a b : before (l1 ++ l2) a b <-> before l1 a b \/ before l2 a b \/ (In a l1 /\ In b l2).
Proof.
  split.
  - intros (x & y & z & H).
    revert x H. induction l1 as [|c l1 IH]; intros x H; cbn in H.
    + right. left. exists x, y, z. exact H.
    + destruct x as [|d x]; cbn in H; injection H as -> H.
      * assert (Hb : In b (l1 ++ l2)) by (rewrite H; apply in_app_iff; cbn; auto).
        apply in_app_iff in Hb as [Hb|Hb].
        -- left. apply in_split in Hb as (p & q & ->). exists [], p, q. reflexivity.
        -- right. right. split; [left; reflexivity|exact Hb].
      * destruct (IH _ H) as [(p & q & r & ->)|[(p & q & r & ->)|[Ha Hb]]].
        -- left. exists (d :: p), q, r. reflexivity.
        -- right. left. exists p, q, r. reflexivity.
        -- right. right. split; [right; exact Ha|exact Hb].
  - intros [(p & q & r & ->)|[(p & q & r & ->)|[Ha Hb]]].
    + exists p, q, (r ++ l2). rewrite <- !app_assoc. cbn. rewrite <- !app_assoc. reflexivity.
    + exists (l1 ++ p), q, r. rewrite <- app_assoc. reflexivity.
    + apply in_split in Ha as (p & q & ->). apply in_split in Hb as (r & s & ->). exists p, (q ++ r), s.
      rewrite <- !app_assoc. cbn. rewrite <- ?app_assoc. reflexivity.
Qed.

Lemma before_cons {A} (c : A) l a b : before (c :: l) a b <-> (a = c /\ In b l) \/ before l a b.
Proof.
  change (c :: l) with ([c] ++ l). rewrite before_app. split.
  - intros [(x & y & z & E)|[H|[[->|[]] H]]]; auto. exfalso. destruct x as [|? [|]]; try discriminate. destruct y; discriminate.
  - intros [[-> H]|H]; [|auto]. right. right. split; [left; reflexivity|exact H].
Qed.

Lemma before_antisym {A} (l : list A) a b : NoDup l -> before l a b -> before l b a -> False.
Proof.
  induction l as [|c l IH]; intros Hn H1 H2.
  - destruct H1 as ([|] & ? & ? & E); discriminate.
  - apply NoDup_cons_iff in Hn as [Hc Hn]. rewrite before_cons in H1, H2. destruct H1 as [[-> H1]|H1], H2 as [[-> H2]|H2].
    + contradiction.
    + apply Hc. apply (before_in _ _ _ H2).
    + apply Hc. apply (before_in _ _ _ H1).
    + exact (IH Hn H1 H2).
Qed.

Lemma before_total {A} (l : list A) a b : In a l -> In b l -> a <> b -> before l a b \/ before l b a.
Proof.
  intros Ha Hb Hn. apply in_split in Ha as (x & y & ->). apply in_app_iff in Hb as [Hb|[Hb|Hb]]; [|contradiction|].
  - right. apply before_app. right. right. split; [exact Hb|left; reflexivity].
  - left. apply before_app. right. left. apply before_cons. auto.
Qed.

Section Blocks.
Variable u : unit.

Lemma checked_order t : forall n, In n (checked u t) -> In n (order u t).
Proof.
  induction t as [i ts IH] using tree_ind'. cbn [checked order]. destruct (ignored_namespace u i); [auto|].
  intros n. rewrite in_app_iff, in_flat_map. intros [(t & Ht & Hn)|Hn].
  - right. apply in_flat_map. exists t. split; [exact Ht|]. rewrite Forall_forall in IH. auto.
  - destruct (_ && _); [|contradiction]. destruct Hn as [->|[]]. left. reflexivity.
Qed.

Lemma checked_order_all ts n : In n (flat_map (checked u) ts) -> In n (flat_map (order u) ts).
Proof. rewrite !in_flat_map. intros (t & Ht & H). exists t. split; [exact Ht|apply checked_order, H]. Qed.

Lemma checked_before_all ts a b : (forall t, In t ts -> before (checked u t) a b -> before (order u t) a b) ->
  before (flat_map (checked u) ts) a b -> before (flat_map (order u) ts) a b.
Proof.
  induction ts as [|t ts IHl]; intros IH H; cbn [flat_map] in *; [exact H|].
  apply before_app in H. apply before_app. destruct H as [H|[H|[H1 H2]]].
  - left. apply IH; [left; reflexivity|exact H].
  - right. left. apply IHl; [|exact H]. intros t' Ht'. apply IH. right. exact Ht'.
  - right. right. split; [apply checked_order, H1|apply checked_order_all, H2].
Qed.

Lemma checked_before t : forall a b,
  (forall n ts m, inside u t (Node n ts) -> In m (flat_map (order u) ts) -> kind u n = KNamespace -> kind u m = KNamespace ->
     u_canonical u n <> u_canonical u m) ->
  kind u a = KNamespace -> kind u b = KNamespace -> u_canonical u a = u_canonical u b ->
  before (checked u t) a b -> before (order u t) a b.
Proof.
  induction t as [i ts IH] using tree_ind'. intros a b Hs Ka Kb Hc. cbn [checked order].
  destruct (ignored_namespace u i) eqn:Ei; [auto|]. intros H. apply before_cons. right. rewrite Forall_forall in IH.
  apply before_app in H as [H|[H|[H1 H2]]].
  - revert H. apply checked_before_all. intros t Ht. apply (IH t Ht); auto.
    intros n ts' m Hi. apply (Hs n ts' m). econstructor; eauto.
  - destruct (_ && _); destruct H as ([|? [|]] & [|] & ? & E); discriminate.
  - destruct (_ && _); [|contradiction]. destruct H2 as [->|[]]. exfalso.
    refine (Hs b ts a (in_self _ _) _ Kb Ka _); [|auto]. apply checked_order_all, H1.
Qed.

Lemma checked_iff t : forall n, In n (checked u t) <->
  exists ts, inside u t (Node n ts) /\ kind u n = KNamespace /\ exists j, In j (order u (Node n ts)) /\ counts u j.
Proof.
  induction t as [i ts IH] using tree_ind'. intros n. rewrite Forall_forall in IH. cbn [checked].
  assert (Ens : is_namespace_kind (kind u i) = true <-> kind u i = KNamespace) by (destruct (kind u i); cbn; split; congruence).
  destruct (ignored_namespace u i) eqn:Ei.
  - split; [intros []|]. intros (ts' & Hin & Hk & j & Hj & _). inv Hin; [|congruence]. cbn [order] in Hj. rewrite Ei in Hj. exact Hj.
  - rewrite in_app_iff, in_flat_map. split.
    + intros [(t & Ht & Hn)|Hn].
      * apply (IH t Ht) in Hn as (ts' & Hin & R). exists ts'. split; [econstructor; eauto|exact R].
      * destruct (is_namespace_kind (kind u i) && _) eqn:E; [|contradiction]. destruct Hn as [<-|[]].
        apply andb_true_iff in E as [E1 E2]. apply existsb_exists in E2 as (j & Hj & Ec). exists ts.
        split; [constructor|]. split; [apply Ens, E1|]. exists j. cbn [order]. rewrite Ei. split; [exact Hj|apply counts_b_iff, Ec].
    + intros (ts' & Hin & Hk & j & Hj & Hc). inv Hin.
      * right. cbn [order] in Hj. rewrite Ei in Hj. apply Ens in Hk. rewrite Hk. cbn [andb].
        replace (existsb (counts_b u) (n :: flat_map (order u) ts')) with true; [left; reflexivity|].
        symmetry. apply existsb_exists. exists j. split; [exact Hj|apply counts_b_iff, Hc].
      * left. match goal with H : In ?t ts, H' : inside u ?t _ |- _ => exists t; split; [exact H|]; apply (IH t H); exists ts'; split; [exact H'|] end.
        split; [exact Hk|]. eauto.
Qed.

Lemma relevant_iff n : relevant_block u n <-> In n (flat_map (checked u) (u_top u)).
Proof.
  rewrite in_flat_map. unfold relevant_block, part. split.
  - intros (ts & (t & Ht & Hi) & R). exists t. split; [exact Ht|]. apply checked_iff. eauto.
  - intros (t & Ht & H). apply checked_iff in H as (ts & Hi & R). exists ts. split; [eauto|exact R].
Qed.

End Blocks.

(** First element with a given canonical declaration. *)
Definition first_with (u : unit) (l : list nat) (c m : nat) : Prop :=
  exists l1 l2, l = l1 ++ m :: l2 /\ u_canonical u m = c /\ forall x, In x l1 -> u_canonical u x <> c.

Lemma first_with_snoc u l c m x : first_with u (l ++ [x]) c m <->
  first_with u l c m \/ (m = x /\ u_canonical u x = c /\ forall y, In y l -> u_canonical u y <> c).
Proof.
  unfold first_with. split.
  - intros (l1 & l2 & E & Hm & Hl). destruct l2 as [|y l2] using rev_ind.
    + apply app_inj_tail in E as [-> ->]. auto.
    + clear IHl2. rewrite app_comm_cons, app_assoc in E. apply app_inj_tail in E as [-> ->]. left. exists l1, l2. auto.
  - intros [(l1 & l2 & -> & Hm & Hl)|(-> & Hc & Hl)].
    + exists l1, (l2 ++ [x]). rewrite <- app_assoc. auto.
    + exists l, []. auto.
Qed.

Lemma first_with_none u l c : (forall m, ~ first_with u l c m) -> forall y, In y l -> u_canonical u y <> c.
Proof.
  induction l as [|x l IH] using rev_ind; [contradiction|]. intros H y Hy Hc.
  assert (Hl : forall y, In y l -> u_canonical u y <> c).
  { apply IH. intros m Hm. apply (H m), first_with_snoc. auto. }
  apply in_app_iff in Hy as [Hy|[->|[]]]; [exact (Hl y Hy Hc)|]. apply (H y), first_with_snoc. auto.
Qed.

Lemma fold_checks u st l : forall F M, fold_left (check_pure u st) l ([], []) = (F, M) ->
  (forall c m, assoc F c = Some m <-> first_with u l c m) /\
  (forall n m, In (RMismatch n m) M <-> exists l1 l2, l = l1 ++ n :: l2 /\ first_with u l1 (u_canonical u n) m /\ equal u st n m = false).
Proof.
  induction l as [|x l IH] using rev_ind; intros F M H.
  - injection H as <- <-. split.
    + intros c m. split; [discriminate|]. intros ([|] & ? & E & _); discriminate.
    + intros n m. split; [intros []|]. intros ([|] & ? & E & _); discriminate.
  - rewrite fold_left_app in H. destruct (fold_left (check_pure u st) l ([], [])) as [F0 M0] eqn:E0.
    destruct (IH _ _ eq_refl) as [A B]. clear IH. cbn [fold_left] in H. unfold check_pure in H. cbn [fst snd] in H.
    assert (Hsplit : forall n m, (exists l1 l2, l ++ [x] = l1 ++ n :: l2 /\ first_with u l1 (u_canonical u n) m /\ equal u st n m = false) <->
       (exists l1 l2, l = l1 ++ n :: l2 /\ first_with u l1 (u_canonical u n) m /\ equal u st n m = false) \/
       (n = x /\ first_with u l (u_canonical u x) m /\ equal u st x m = false)).
    { intros n m. split.
      - intros (l1 & l2 & E & R). destruct l2 as [|y l2] using rev_ind.
        + apply app_inj_tail in E as [-> ->]. auto.
        + clear IHl2. rewrite app_comm_cons, app_assoc in E. apply app_inj_tail in E as [-> ->]. left. exists l1, l2. auto.
      - intros [(l1 & l2 & -> & R)|(-> & R)]; [exists l1, (l2 ++ [x]); rewrite <- app_assoc; auto|exists l, []; auto]. }
    destruct (assoc F0 (u_canonical u x)) as [f|] eqn:Ef; injection H as <- <-.
    + split.
      * intros c m. rewrite A, first_with_snoc. split; [auto|]. intros [H|(-> & Hc & Hn)]; [exact H|].
        exfalso. apply A in Ef as (l1 & l2 & -> & Hm & _). apply (Hn f); [apply in_app_iff; right; left; reflexivity|]. congruence.
      * intros n m. rewrite Hsplit, <- B. destruct (equal u st x f) eqn:Eq.
        -- split; [auto|]. intros [H|(-> & Hf & E)]; [exact H|]. apply A in Hf. congruence.
        -- rewrite in_app_iff. split.
           ++ intros [H|[[= <- <-]|[]]]; [auto|]. right. split; [reflexivity|]. split; [apply A, Ef|exact Eq].
           ++ intros [H|(-> & Hf & E)]; [auto|]. apply A in Hf. right. left. congruence.
    + assert (Hn : forall y, In y l -> u_canonical u y <> u_canonical u x).
      { apply first_with_none. intros m Hm. apply A in Hm. congruence. }
      split.
      * intros c m. rewrite first_with_snoc, <- A.
        assert (Ha : assoc (F0 ++ [(u_canonical u x, x)]) c = match assoc F0 c with Some m => Some m | None => if Nat.eqb c (u_canonical u x) then Some x else None end).
        { clear. induction F0 as [|[j y] F0 IH]; cbn [assoc app]; [reflexivity|]. destruct (Nat.eqb c j); auto. }
        rewrite Ha. split.
        -- destruct (assoc F0 c) as [m'|] eqn:Ec; [auto|]. destruct (Nat.eqb c (u_canonical u x)) eqn:E; [|discriminate].
           apply Nat.eqb_eq in E. intros [= <-]. right. subst c. auto.
        -- intros [->|(-> & Hc & _)]; [reflexivity|]. subst c. rewrite Ef, Nat.eqb_refl. reflexivity.
      * intros n m. rewrite Hsplit, <- B. split; [auto|]. intros [H|(-> & Hf & E)]; [exact H|]. apply A in Hf. congruence.
Qed.

Lemma list_eqb_eq {A} (eqb : A -> A -> bool) : (forall a b, eqb a b = true <-> a = b) -> forall x y, list_eqb eqb x y = true <-> x = y.
Proof.
  intros H. induction x as [|a x IH]; intros [|b y]; cbn [list_eqb]; try (split; congruence).
  rewrite andb_true_iff, H, IH. split; [intros [-> ->]; reflexivity|intros [= -> ->]; auto].
Qed.

Lemma opt_eqb_eq {A} (eqb : A -> A -> bool) : (forall a b, eqb a b = true <-> a = b) -> forall x y, opt_eqb eqb x y = true <-> x = y.
Proof. intros H [a|] [b|]; cbn [opt_eqb]; rewrite ?H; split; congruence. Qed.

Lemma str_eqb_iff a b : str_eqb a b = true <-> a = b.
Proof. split; [apply str_eqb_eq|intros ->; apply str_eqb_refl]. Qed.

Lemma bool_eqb_iff a b : Bool.eqb a b = true <-> a = b.
Proof. apply eqb_true_iff. Qed.

Lemma named_eqb_eq a b : named_eqb a b = true <-> a = b.
Proof.
  destruct a as [s v], b as [s' v']. unfold named_eqb. cbn [n_spelling n_visible].
  rewrite andb_true_iff, str_eqb_iff, (opt_eqb_eq _ bool_eqb_iff). split; [intros [-> ->]; reflexivity|intros [= -> ->]; auto].
Qed.

Lemma namespace_eqb_eq a b : namespace_eqb a b = true <-> a = b.
Proof.
  destruct a as [s v], b as [s' v']. unfold namespace_eqb. cbn [ns_module ns_only_expose_in].
  rewrite andb_true_iff, bool_eqb_iff, (list_eqb_eq _ str_eqb_iff). split; [intros [-> ->]; reflexivity|intros [= -> ->]; auto].
Qed.

Lemma equal_namespaces u st i j : kind u i = KNamespace -> kind u j = KNamespace ->
  (equal u st i j = true <-> block_attributes st i = block_attributes st j).
Proof.
  intros Hi Hj. unfold equal, get_named, get_namespace, get_typedef, get, block_attributes. unfold kind in *.
  unfold supports_enum, supports_record, supports_field, supports_operator, supports_conversion, supports_method, supports_constructor,
    supports_function, is_method_decl, is_namespace, is_typedef, supports_constructor, supports_operator, supports_conversion, supports_function.
  rewrite Hi, Hj. cbn [andb opt_eqb]. rewrite !andb_true_r, andb_true_iff.
  rewrite (opt_eqb_eq _ named_eqb_eq), (opt_eqb_eq _ namespace_eqb_eq).
  destruct (lookup_attrs st i) as [a|], (lookup_attrs st j) as [b|]; cbn [option_map]; split;
    try (intros [? ?]; congruence); intros H; split; congruence.
Qed.

Lemma reopened_namespaces u s : sane u -> collect u = Some s -> forall n m,
  In (RMismatch n m) (cs_reports s) <->
  relevant_block u n /\ first_relevant u n m /\ n <> m /\ block_attributes (cs_annotations s) n <> block_attributes (cs_annotations s) m.
Proof.
  intros Hs Hc n m. assert (E := collect_effect u s Hs Hc).
  assert (Hch := ef_checks _ _ _ _ _ E (cs_annotations s) (fun j _ => eq_refl)). cbn [cs_first cs_reports init_state mismatches filter] in Hch.
  symmetry in Hch. apply fold_checks in Hch as [_ B]. set (ch := flat_map (checked u) (u_top u)) in *.
  assert (Hin : In (RMismatch n m) (cs_reports s) <-> In (RMismatch n m) (mismatches (cs_reports s))).
  { unfold mismatches. rewrite filter_In. cbn. tauto. }
  rewrite Hin, B. clear Hin B E.
  assert (Hkind : forall x, In x ch -> kind u x = KNamespace).
  { intros x Hx. apply relevant_iff in Hx as (ts & _ & Hk & _). exact Hk. }
  assert (Hbefore : forall a b, before ch a b -> u_canonical u a = u_canonical u b -> precedes u a b).
  { intros a b H Hcan. destruct (before_in _ _ _ H) as [Ha Hb]. apply (checked_before_all u); [|exact H].
    intros t Ht. apply checked_before; auto. intros n0 ts0 m0 Hi. apply (sane_blocks u Hs n0 ts0 m0). exists t. auto. }
  assert (Hanti : forall a b, precedes u a b -> precedes u b a -> False).
  { intros a b. apply before_antisym. apply Hs. }
  split.
  - intros (l1 & l2 & Ech & (l3 & l4 & -> & Hcan & Hno) & Hne).
    assert (Hn : In n ch) by (rewrite Ech; apply in_app_iff; right; left; reflexivity).
    assert (Hm : In m ch) by (rewrite Ech; apply in_app_iff; left; apply in_app_iff; right; left; reflexivity).
    assert (Hmn : before ch m n).
    { rewrite Ech. apply before_app. right. right. split; [apply in_app_iff; right; left; reflexivity|left; reflexivity]. }
    split; [apply relevant_iff, Hn|]. split; [|split].
    + split; [apply relevant_iff, Hm|]. split; [exact Hcan|]. intros m' Hm' Hcan'. apply relevant_iff in Hm'. fold ch in Hm'.
      destruct (Nat.eq_dec m' m) as [->|Hd]; [auto|]. right. apply Hbefore; [|congruence].
      rewrite Ech in Hm' |- *. rewrite <- app_assoc in *. apply in_app_iff in Hm' as [Hm'|Hm']; [exfalso; exact (Hno m' Hm' Hcan')|].
      cbn in Hm'. destruct Hm' as [->|Hm']; [contradiction|]. apply before_app. right. left. apply before_cons. auto.
    + intros ->. apply (Hanti m m); apply Hbefore; auto.
    + intros Heq. apply equal_namespaces with (u := u) in Heq; [congruence|auto|auto].
  - intros (Hn & (Hm & Hcan & Hfirst) & Hd & Hne). assert (Hn' := Hn). assert (Hm' := Hm). apply relevant_iff in Hn, Hm. fold ch in Hn, Hm.
    assert (Hp : precedes u m n) by (destruct (Hfirst n Hn' eq_refl); [contradiction|assumption]).
    destruct (in_split _ _ Hn) as (l1 & l2 & Ech). exists l1, l2. split; [exact Ech|].
    assert (Hl1 : In m l1).
    { rewrite Ech in Hm. apply in_app_iff in Hm as [Hm|[->|Hm]]; [exact Hm|contradiction|]. exfalso.
      apply (Hanti m n Hp). apply Hbefore; [|auto]. rewrite Ech. apply before_app. right. left. apply before_cons. auto. }
    split.
    + destruct (in_split _ _ Hl1) as (l3 & l4 & ->). exists l3, l4. split; [reflexivity|]. split; [exact Hcan|].
      intros x Hx Hcx. assert (Hxm : before ch x m).
      { rewrite Ech, <- app_assoc. apply before_app. right. right. split; [exact Hx|left; reflexivity]. }
      assert (Hpx : precedes u x m) by (apply Hbefore; [exact Hxm|congruence]).
      destruct (Hfirst x) as [->|Hmx].
      * apply relevant_iff. apply (before_in _ _ _ Hxm).
      * exact Hcx.
      * exact (Hanti _ _ Hpx Hpx).
      * exact (Hanti _ _ Hpx Hmx).
    + destruct (equal u (cs_annotations s) n m) eqn:E; [|reflexivity]. exfalso. apply Hne.
      apply (equal_namespaces u); auto.
Qed.

(** ** The attribute comparison is an equivalence *)

Record sets_ok (a : attrs) : Prop := {
  so_hide : NoDup (r_hide_base (at_record a));
  so_inline : NoDup (r_inline_base (at_record a));
  so_getter : NoDup (m_getter_for (at_method a));
  so_setter : NoDup (m_setter_for (at_method a));
  so_noconvert : NoDup (fn_noconvert (at_function a));
  so_required : NoDup (fn_required (at_function a))
}.

Lemma add_nat_nodup x l : NoDup l -> NoDup (add_nat x l).
Proof.
  unfold add_nat. destruct (existsb (Nat.eqb x) l) eqn:E; [auto|]. intros H.
  apply NoDup_rev in H. rewrite <- (rev_involutive (l ++ [x])), rev_app_distr. apply NoDup_rev. cbn. constructor; [|exact H].
  rewrite <- in_rev. intros Hx. assert (existsb (Nat.eqb x) l = true); [|congruence]. apply existsb_exists. exists x. split; [exact Hx|apply Nat.eqb_refl].
Qed.

Lemma add_str_nodup x l : NoDup l -> NoDup (add_str x l).
Proof.
  unfold add_str. destruct (existsb (str_eqb x) l) eqn:E; [auto|]. intros H.
  apply NoDup_rev in H. rewrite <- (rev_involutive (l ++ [x])), rev_app_distr. apply NoDup_rev. cbn. constructor; [|exact H].
  rewrite <- in_rev. intros Hx. assert (existsb (str_eqb x) l = true); [|congruence]. apply existsb_exists. exists x. split; [exact Hx|apply str_eqb_refl].
Qed.

Section Preserve.
Variable P : attrs -> Prop.
Definition pres (f : action) : Prop := forall a, P a -> P (fst (f a)).

Lemma pres_perform f s : pres f -> P (ds_attrs s) -> P (ds_attrs (perform f s)).
Proof. intros Hf Hs. unfold perform. specialize (Hf _ Hs). destruct (f (ds_attrs s)). exact Hf. Qed.
Lemma pres_complain d : pres (complain d).
Proof. intros a Ha. exact Ha. Qed.
Lemma pres_change g : (forall a, P a -> P (g a)) -> pres (change g).
Proof. intros H a Ha. apply H, Ha. Qed.
Lemma pres_nullary args f s : pres f -> P (ds_attrs s) -> P (ds_attrs (nullary args f s)).
Proof. intros Hf Hs. unfold nullary. destruct (unmatched s), args; auto. apply (pres_perform _ _ Hf Hs). Qed.
Lemma pres_unary args k f s : (forall v, pres (f v)) -> P (ds_attrs s) -> P (ds_attrs (unary args k f s)).
Proof.
  intros Hf Hs. unfold unary. destruct (unmatched s), args as [|v [|]]; auto. destruct (wrong_kind k [v]); [exact Hs|]. apply (pres_perform _ _ (Hf v) Hs).
Qed.
Lemma pres_binary args k f s : (forall v w, pres (f v w)) -> P (ds_attrs s) -> P (ds_attrs (binary args k f s)).
Proof.
  intros Hf Hs. unfold binary. destruct (unmatched s), args as [|v [|w [|]]]; auto. destruct (wrong_kind k [v; w]); [exact Hs|]. apply (pres_perform _ _ (Hf v w) Hs).
Qed.
Lemma pres_perform_all f args : forall s, (forall v, pres (f v)) -> P (ds_attrs s) -> P (ds_attrs (perform_all f args s)).
Proof. induction args as [|v args IH]; intros s Hf Hs; cbn [perform_all]; [exact Hs|]. apply IH; [exact Hf|]. apply pres_perform; auto. Qed.
Lemma pres_variadic args k f s : (forall v, pres (f v)) -> P (ds_attrs s) -> P (ds_attrs (variadic args k f s)).
Proof.
  intros Hf Hs. unfold variadic. destruct (unmatched s), args as [|v args]; auto. destruct (wrong_kind k (v :: args)); [exact Hs|].
  apply (pres_perform_all f (v :: args) s Hf Hs).
Qed.
Lemma pres_variadic_collect args k tr pr s : (forall l a, P a -> P (snd (fst (pr l a)))) -> P (ds_attrs s) ->
  P (ds_attrs (variadic_collect args k tr pr s)).
Proof.
  intros Hf Hs. unfold variadic_collect. destruct (unmatched s); auto. destruct (wrong_kind k args); [exact Hs|].
  cbn [perform ds_attrs]. specialize (Hf (map (fun v => fst (tr v)) args) _ Hs).
  destruct (pr (map (fun v => fst (tr v)) args) (ds_attrs s)) as [[ok a] ds]. destruct ok; exact Hf.
Qed.
Lemma pres_ensure c s : P (ds_attrs s) -> P (ds_attrs (ensure c s)).
Proof. intros Hs. unfold ensure. destruct (ds_state s), (fst c); exact Hs. Qed.
Lemma pres_on_match f s : pres f -> P (ds_attrs s) -> P (ds_attrs (on_match f s)).
Proof. intros Hf Hs. unfold on_match. destruct (ds_state s); auto. apply pres_perform; auto. Qed.
Lemma pres_check_match k s : P (ds_attrs s) -> P (snd (fst (check_match k s))).
Proof. intros H. unfold check_match. destruct (ds_state s); exact H. Qed.
Lemma pres_fold {A} (g : attrs -> A -> attrs) l : (forall x a, P a -> P (g a x)) -> forall a, P a -> P (fold_left g l a).
Proof. intros H. induction l as [|x l IH]; intros a Ha; cbn [fold_left]; [exact Ha|]. apply IH. auto. Qed.
Lemma pres_any_of hs an : (forall h, In h hs -> forall a, P a -> P (snd (fst (h an a)))) -> forall a, P a -> P (snd (fst (any_of hs an a))).
Proof.
  induction hs as [|h hs IH]; intros H a Ha; cbn [any_of]; [exact Ha|].
  assert (H0 := H h (or_introl eq_refl) a Ha). destruct (h an a) as [[ok a1] ds1]. cbn in H0. destruct ok; [exact H0|].
  assert (H1 := IH (fun h Hh => H h (or_intror Hh)) a1 H0). destruct (any_of hs an a1) as [[ok' a2] ds2]. exact H1.
Qed.
End Preserve.

Lemma handlers_sets_ok d an : forall h, In h (handlers d) -> forall a, sets_ok a -> sets_ok (snd (fst (h an a))).
Proof.
  assert (Hid : forall a b, at_record b = at_record a -> at_method b = at_method a -> at_function b = at_function a -> sets_ok a -> sets_ok b).
  { intros a b H1 H2 H3 [X1 X2 X3 X4 X5 X6]. constructor; rewrite ?H1, ?H2, ?H3; assumption. }
  assert (Hsel : forall k bs ins l a, (forall x a, sets_ok a -> sets_ok (ins x a)) -> sets_ok a -> sets_ok (snd (fst (select_bases k bs ins l a)))).
  { intros k bs ins l a Hi Ha. unfold select_bases. cbn [fst snd]. apply pres_fold; auto. }
  assert (Hadd : forall ins l a, (forall x a, sets_ok a -> sets_ok (ins x a)) -> sets_ok a -> sets_ok (snd (fst (add_properties ins l a)))).
  { intros ins l a Hi Ha. unfold add_properties. destruct l; [exact Ha|]. cbn [fst snd]. apply (pres_fold sets_ok (fun a n => ins n a) (s :: l)); auto. }
  Ltac so Hid := intros; repeat match goal with H : sets_ok ?a |- sets_ok _ => (apply (Hid a); [reflexivity|reflexivity|reflexivity|exact H]) ||
    (destruct H; constructor; cbn; auto using add_nat_nodup, add_str_nodup) end.
  intros h Hh a Ha. unfold handlers in Hh. repeat rewrite in_app_iff in Hh.
  assert (Hspell : forall k v, pres sets_ok (store_spelling k v)).
  { intros k v. unfold store_spelling. destruct (is_valid_identifier (get_string v)); [apply pres_change|apply pres_complain]. so Hid. }
  destruct Hh as [Hh|[Hh|[Hh|[Hh|[Hh|[Hh|[Hh|[Hh|[Hh|[Hh|Hh]]]]]]]]]];
    repeat match type of Hh with In _ (if ?b then _ else _) => destruct b end; cbn [In] in Hh; try contradiction;
    destruct Hh as [<-|[]];
    unfold process_named, process_namespace, process_enum, process_record, process_typedef, process_field, process_operator, process_conversion,
      process_method, process_constructor, process_function, no_check, flag;
    destruct (a_kind an); try exact Ha; cbn [fst snd];
    try apply (pres_check_match sets_ok);
    repeat first
      [ exact Ha | apply Hspell | apply Hsel | apply Hadd
      | apply (pres_nullary sets_ok) | apply (pres_unary sets_ok) | apply (pres_binary sets_ok) | apply (pres_variadic sets_ok)
      | apply (pres_variadic_collect sets_ok) | apply (pres_ensure sets_ok) | apply (pres_on_match sets_ok)
      | match goal with |- pres _ (change _) => apply pres_change | |- pres _ (complain _) => apply pres_complain
          | |- pres _ (match ?x with _ => _ end) => destruct x
          | |- forall _, _ => intro | |- _ -> _ => intro end ];
    try (so Hid).
  all: intros b Hb; exact Hb.
Qed.

Lemma process_annotations_sets_ok d ans : forall a a' dss, process_annotations d ans a = Some (a', dss) -> sets_ok a -> sets_ok a'.
Proof.
  induction ans as [|an ans IH]; intros a a' dss; cbn [process_annotations].
  - intros [= <- _]. auto.
  - destruct (process_annotation d an a) as [[a1 ds]|] eqn:E1; [|discriminate].
    destruct (process_annotations d ans a1) as [[a2 dss2]|] eqn:E2; [|discriminate]. intros [= <- _] Ha.
    apply (IH _ _ _ E2). unfold process_annotation in E1.
    assert (H := pres_any_of sets_ok (handlers d) an (handlers_sets_ok d an) a Ha).
    destruct (any_of (handlers d) an a) as [[ok a'] ds']. cbn in H.
    destruct (existsb is_error ds' || ok); [|destruct (supports_typedef_diags d)]; injection E1 as <- _ || discriminate; exact H.
Qed.

Lemma own_sets_ok u i a : own u i = Some a -> sets_ok a.
Proof.
  unfold own, compute_attrs. destruct (parse_attrs (d_attrs (u_decls u i)) []) as [ans ds].
  destruct (process_annotations (u_decls u i) ans (initial_attrs (u_decls u i))) as [[a' dss]|] eqn:E; [|discriminate]. intros [= <-].
  apply (process_annotations_sets_ok _ _ _ _ _ E). unfold initial_attrs. destruct (_ && _); constructor; constructor.
Qed.

Lemma collect_sets_ok u s : sane u -> collect u = Some s -> forall i a, lookup_attrs (cs_annotations s) i = Some a -> sets_ok a.
Proof.
  intros Hs Hc i a Hl. assert (E := collect_effect u s Hs Hc).
  destruct (in_dec Nat.eq_dec i (source_order u)) as [Hi|Hi].
  - rewrite (ef_mine _ _ _ _ _ E i Hi) in Hl. destruct (counts_b u i); [|discriminate]. apply (own_sets_ok u i a Hl).
  - rewrite (ef_other _ _ _ _ _ E i Hi) in Hl. discriminate.
Qed.

Section SetEquality.
Context {A : Type} (eqb : A -> A -> bool) (Heq : forall a b, eqb a b = true <-> a = b).
Lemma set_eqb_iff x y : NoDup x -> NoDup y -> (set_eqb eqb x y = true <-> (forall a, In a x <-> In a y)).
Proof.
  intros Hx Hy. unfold set_eqb. rewrite andb_true_iff, Nat.eqb_eq, forallb_forall.
  assert (Hin : forall a l, existsb (eqb a) l = true <-> In a l).
  { intros a l. rewrite existsb_exists. split; [intros (b & Hb & E); apply Heq in E as <-; exact Hb|intros H; exists a; split; [exact H|apply Heq; reflexivity]]. }
  split.
  - intros [Hl Hi] a. assert (Hincl : incl x y) by (intros b Hb; apply Hin, Hi, Hb). split; [apply Hincl|].
    apply (NoDup_length_incl Hx); [lia|exact Hincl].
  - intros H. split; [|intros a Ha; apply Hin, H, Ha].
    apply Nat.le_antisymm; apply NoDup_incl_length; auto; intros a; apply H.
Qed.
End SetEquality.

Lemma enum_eqb_eq a b : enum_eqb a b = true <-> a = b.
Proof.
  destruct a as [s v], b as [s' v']. unfold enum_eqb. cbn. rewrite andb_true_iff, bool_eqb_iff, (opt_eqb_eq _ bool_eqb_iff).
  split; [intros [-> ->]; reflexivity|intros [= -> ->]; auto].
Qed.
Lemma typedef_eqb_eq a b : typedef_eqb a b = true <-> a = b.
Proof.
  destruct a as [s v], b as [s' v']. unfold typedef_eqb. cbn. rewrite andb_true_iff, !bool_eqb_iff.
  split; [intros [-> ->]; reflexivity|intros [= -> ->]; auto].
Qed.
Lemma field_eqb_eq a b : field_eqb a b = true <-> a = b.
Proof.
  destruct a as [s v w], b as [s' v' w']. unfold field_eqb. cbn. rewrite !andb_true_iff, !bool_eqb_iff, (opt_eqb_eq _ Nat.eqb_eq).
  split; [intros [[-> ->] ->]; reflexivity|intros [= -> -> ->]; auto].
Qed.
Lemma pair_eqb_eq a b : pair_eqb a b = true <-> a = b.
Proof.
  destruct a as [s v], b as [s' v']. unfold pair_eqb. cbn. rewrite andb_true_iff, !Nat.eqb_eq.
  split; [intros [-> ->]; reflexivity|intros [= -> ->]; auto].
Qed.

Lemma get_opt_eqb {A} u st (sup : decl -> bool) (proj : attrs -> A) eqb i j a b :
  lookup_attrs st i = Some a -> lookup_attrs st j = Some b -> sup (u_decls u i) = sup (u_decls u j) ->
  (opt_eqb eqb (get u st sup proj i) (get u st sup proj j) = true <-> (sup (u_decls u i) = true -> eqb (proj a) (proj b) = true)).
Proof.
  intros Ha Hb Hs. unfold get. rewrite Ha, Hb, <- Hs. destruct (sup (u_decls u i)); cbn [opt_eqb option_map]; [tauto|].
  split; [discriminate|reflexivity].
Qed.

(** Declarations of the same kind compare equal if their stored attributes do. *)
Lemma equal_iff u st i j : (forall i a, lookup_attrs st i = Some a -> sets_ok a) -> kind u i = kind u j ->
  (equal u st i j = true <->
   match lookup_attrs st i, lookup_attrs st j with
   | Some a, Some b => same_attrs (u_decls u i) a b
   | None, None => True
   | _, _ => False
   end).
Proof.
  intros Hok Hk.
  assert (Hsup : forall sup : decl -> bool, (forall d d', d_kind d = d_kind d' -> sup d = sup d') -> sup (u_decls u i) = sup (u_decls u j)).
  { intros sup H. apply H. exact Hk. }
  destruct (lookup_attrs st i) as [a|] eqn:Ea, (lookup_attrs st j) as [b|] eqn:Eb.
  - unfold equal, get_named, get_namespace, get_typedef. rewrite !andb_true_iff.
    rewrite !(fun A sup proj eqb => @get_opt_eqb A u st sup proj eqb i j a b Ea Eb) by
      (reflexivity || apply Hsup; intros d d' E; unfold is_namespace, is_typedef, supports_enum, supports_record, supports_field, supports_method, is_method_decl,
        supports_operator, supports_conversion, supports_constructor, supports_function; rewrite ?E; reflexivity).
    rewrite named_eqb_eq, namespace_eqb_eq, enum_eqb_eq, typedef_eqb_eq, field_eqb_eq, bool_eqb_iff. unfold record_eqb, method_eqb, function_eqb, always.
    rewrite !andb_true_iff, !bool_eqb_iff, !str_eqb_iff, (list_eqb_eq _ pair_eqb_eq).
    destruct (Hok _ _ Ea), (Hok _ _ Eb).
    rewrite !(set_eqb_iff _ Nat.eqb_eq), !(set_eqb_iff _ str_eqb_iff) by assumption. split.
    + intros ((((((((((H1 & H2) & H3) & H4) & H5) & H6) & H7) & H8) & H9) & H10) & H11).
      constructor; unfold same_set; auto.
      * intros H. destruct (H4 H) as [[[? ?] ?] ?]. auto.
      * intros H. destruct (H11 H) as [[[? ?] ?] ?]. auto.
    + intros [X1 X2 X3 X4 X5 X6 X7 X8 X9]. unfold same_set in *.
      assert (X4' : supports_record (u_decls u i) = true -> ((r_dynamic_attr (at_record a) = r_dynamic_attr (at_record b) /\
         same_set (r_hide_base (at_record a)) (r_hide_base (at_record b))) /\ same_set (r_inline_base (at_record a)) (r_inline_base (at_record b))) /\
         r_holder_type (at_record a) = r_holder_type (at_record b)) by (intros H; destruct (X4 H) as (? & ? & ? & ?); auto).
      assert (X9' : supports_function (u_decls u i) = true -> ((fn_keep_alive (at_function a) = fn_keep_alive (at_function b) /\
         same_set (fn_noconvert (at_function a)) (fn_noconvert (at_function b))) /\ same_set (fn_required (at_function a)) (fn_required (at_function b))) /\
         fn_policy (at_function a) = fn_policy (at_function b)) by (intros H; destruct (X9 H) as (? & ? & ? & ?); auto).
      split; [split; [split; [split; [split; [split; [split; [split; [split; [split|]|]|]|]|]|]|]|]|]; auto.
  - split; [|contradiction]. unfold equal, get_named, get. rewrite Ea, Eb. cbn. discriminate.
  - split; [|contradiction]. unfold equal, get_named, get. rewrite Ea, Eb. cbn. discriminate.
  - split; [trivial|]. intros _. unfold equal, get_named, get_namespace, get_typedef, get. rewrite Ea, Eb. cbn [option_map].
    assert (Hif : forall (A : Type) (b : bool), (if b then @None A else None) = None) by (intros A []; reflexivity).
    rewrite !Hif. reflexivity.
Qed.

Lemma same_attrs_refl d a : same_attrs d a a.
Proof. constructor; unfold same_set; intros; repeat split; auto. Qed.
Lemma same_attrs_sym d d' a b : d_kind d = d_kind d' -> same_attrs d a b -> same_attrs d' b a.
Proof.
  intros E [X1 X2 X3 X4 X5 X6 X7 X8 X9].
  unfold is_namespace, is_typedef, supports_enum, supports_record, supports_field, supports_method, is_method_decl, supports_operator, supports_conversion,
    supports_constructor, supports_function in *. rewrite E in *. unfold same_set in *.
  constructor; unfold is_namespace, is_typedef, supports_enum, supports_record, supports_field, supports_method, is_method_decl, supports_operator, supports_conversion,
    supports_constructor, supports_function, same_set; try (intros; symmetry; auto).
  - intros H. destruct (X4 H) as (? & A1 & A2 & ?). repeat split; intros; try (symmetry; assumption); try apply A1; try apply A2; assumption.
  - intros H. destruct (X7 H) as (A1 & A2). repeat split; intros; try apply A1; try apply A2; assumption.
  - intros H. destruct (X9 H) as (? & A1 & A2 & ?). repeat split; intros; try (symmetry; assumption); try apply A1; try apply A2; assumption.
Qed.
Lemma same_attrs_trans d d' a b c : d_kind d = d_kind d' -> same_attrs d a b -> same_attrs d' b c -> same_attrs d a c.
Proof.
  intros E [X1 X2 X3 X4 X5 X6 X7 X8 X9] [Y1 Y2 Y3 Y4 Y5 Y6 Y7 Y8 Y9].
  unfold is_namespace, is_typedef, supports_enum, supports_record, supports_field, supports_method, is_method_decl, supports_operator, supports_conversion,
    supports_constructor, supports_function in *. rewrite <- E in *. unfold same_set in *.
  constructor; unfold is_namespace, is_typedef, supports_enum, supports_record, supports_field, supports_method, is_method_decl, supports_operator, supports_conversion,
    supports_constructor, supports_function, same_set;
    [congruence|intros H; rewrite (X2 H); auto|intros H; rewrite (X3 H); auto| |intros H; rewrite (X5 H); auto|intros H; rewrite (X6 H); auto| |intros H; rewrite (X8 H); auto|].
  - intros H. destruct (X4 H) as (? & A1 & A2 & ?), (Y4 H) as (? & B1 & B2 & ?). split; [congruence|split; [intros x; rewrite (A1 x); apply B1|split; [intros x; rewrite (A2 x); apply B2|congruence]]].
  - intros H. destruct (X7 H) as (A1 & A2), (Y7 H) as (B1 & B2). split; [intros x; rewrite (A1 x); apply B1|intros x; rewrite (A2 x); apply B2].
  - intros H. destruct (X9 H) as (? & A1 & A2 & ?), (Y9 H) as (? & B1 & B2 & ?). split; [congruence|split; [intros x; rewrite (A1 x); apply B1|split; [intros x; rewrite (A2 x); apply B2|congruence]]].
Qed.

Lemma equal_equivalence u s : sane u -> collect u = Some s ->
  let eq := equal u (cs_annotations s) in
  (forall i, eq i i = true) /\
  (forall i j, kind u i = kind u j -> eq i j = true -> eq j i = true) /\
  (forall i j k, kind u i = kind u j -> kind u j = kind u k -> eq i j = true -> eq j k = true -> eq i k = true).
Proof.
  intros Hs Hc eq. assert (Hok := collect_sets_ok u s Hs Hc). unfold eq. split; [|split].
  - intros i. apply equal_iff; auto. destruct (lookup_attrs (cs_annotations s) i); [apply same_attrs_refl|trivial].
  - intros i j Hk. rewrite !equal_iff by auto. destruct (lookup_attrs (cs_annotations s) i), (lookup_attrs (cs_annotations s) j); auto.
    apply same_attrs_sym. exact Hk.
  - intros i j k Hk Hk'. rewrite !equal_iff by (auto; congruence).
    destruct (lookup_attrs (cs_annotations s) i), (lookup_attrs (cs_annotations s) j), (lookup_attrs (cs_annotations s) k); auto; try contradiction.
    apply same_attrs_trans. exact Hk.
Qed.

Lemma equal_same u s : sane u -> collect u = Some s -> forall i j, kind u i = kind u j ->
  (equal u (cs_annotations s) i j = true <->
   match lookup_attrs (cs_annotations s) i, lookup_attrs (cs_annotations s) j with
   | Some a, Some b => same_attrs (u_decls u i) a b
   | None, None => True
   | _, _ => False
   end).
Proof. intros Hs Hc i j. apply equal_iff. apply (collect_sets_ok u s Hs Hc). Qed.

(** ** What is collected *)

Lemma filter_before {A} (f : A -> bool) l a b : before (filter f l) a b -> before l a b.
Proof.
  induction l as [|c l IH]; cbn [filter]; [auto|]. rewrite before_cons. destruct (f c) eqn:E; [|intros H; right; auto].
  rewrite before_cons. intros [[-> H]|H]; [left|right; auto]. split; [reflexivity|]. apply filter_In in H as [H _]. exact H.
Qed.

Lemma context_b_iff u i : context_b u i = true <-> context_kind (kind u i) /\ d_skip (u_decls u i) = false.
Proof. unfold context_b, context_kind. destruct (kind u i), (d_skip (u_decls u i)); cbn; intuition congruence. Qed.
Lemma alias_b_iff u i : alias_b u i = true <-> kind u i = KTypedef /\ marked (u_decls u i) /\ u_dependent u i = false.
Proof.
  unfold alias_b. rewrite <- has_annotations_marked.
  destruct (kind u i), (has_annotations (u_decls u i) true), (u_dependent u i); cbn; intuition congruence.
Qed.

Lemma collected_declarations u s : sane u -> collect u = Some s ->
  let stored := map fst (cs_annotations s) in
  (forall i, In i stored <-> In i (source_order u) /\ counts u i) /\
  (NoDup stored /\ forall i j, before stored i j -> precedes u i j) /\
  (forall i, In i stored -> exists st' ds a, AnnotModel.insert (u_decls u) i [] = Some (st', ds) /\
     lookup_attrs st' i = Some a /\ lookup_attrs (cs_annotations s) i = Some a) /\
  (forall i, In i (cs_contexts s) <-> In i (source_order u) /\ context_kind (kind u i) /\ d_skip (u_decls u i) = false) /\
  (NoDup (cs_contexts s) /\ forall i j, before (cs_contexts s) i j -> precedes u i j) /\
  (forall i, In i (cs_aliases s) <-> In i (source_order u) /\ kind u i = KTypedef /\ counts u i) /\
  (NoDup (cs_aliases s) /\ forall i j, before (cs_aliases s) i j -> precedes u i j).
Proof.
  intros Hs Hc stored. assert (E := collect_effect u s Hs Hc). assert (Hn := sane_nodup u Hs).
  assert (Ek := ef_keys _ _ _ _ _ E). assert (Ec := ef_contexts _ _ _ _ _ E). assert (Ea := ef_aliases _ _ _ _ _ E).
  cbn [init_state cs_annotations cs_contexts cs_aliases keys map app] in Ek, Ec, Ea. unfold keys in Ek. fold stored in Ek.
  assert (Ho : forall f, NoDup (filter f (source_order u)) /\ forall i j, before (filter f (source_order u)) i j -> precedes u i j).
  { intros f. split; [apply NoDup_filter, Hn|]. intros i j. apply filter_before. }
  rewrite Ek, Ec, Ea. split; [|split; [apply Ho|split; [|split; [|split; [apply Ho|split; [|apply Ho]]]]]].
  - intros i. rewrite filter_In, counts_b_iff. reflexivity.
  - intros i Hi. apply filter_In in Hi as [Hi Hcb]. assert (Hm := ef_mine _ _ _ _ _ E i Hi). rewrite Hcb in Hm.
    assert (Hw := ef_own _ _ _ _ _ E i Hi Hcb). unfold own in Hm, Hw.
    destruct (compute_attrs (u_decls u i)) as [[a ds]|] eqn:Ec'; [|contradiction].
    assert (Hsk : d_skip (u_decls u i) = false).
    { apply counts_b_iff in Hcb as (_ & _ & Ht). destruct (d_skip (u_decls u i)) eqn:Es; [|reflexivity]. exfalso.
      destruct (sane_skip u Hs i Es) as [Hk|Hk]; [|auto].
      clear -Hi Hk Es. unfold source_order in Hi. apply in_flat_map in Hi as (t & _ & Hi).
      induction t as [j ts IH] using tree_ind'. cbn [order] in Hi. destruct (ignored_namespace u j) eqn:Ej; [contradiction|].
      destruct Hi as [->|Hi]; [unfold ignored_namespace in Ej; rewrite Hk, Es in Ej; discriminate|].
      apply in_flat_map in Hi as (t & Ht & Hi). rewrite Forall_forall in IH. exact (IH t Ht Hi). }
    exists [(i, a)], ds, a. split; [|split].
    + unfold AnnotModel.insert. rewrite Hsk. cbn. rewrite Ec'. reflexivity.
    + cbn. rewrite Nat.eqb_refl. reflexivity.
    + exact Hm.
  - intros i. rewrite filter_In, context_b_iff. reflexivity.
  - intros i. rewrite filter_In, alias_b_iff. unfold counts. unfold is_tag_kind.
    split; [intros (A & B & C & D); rewrite B; repeat split; auto; intros [? _]; discriminate|intros (A & B & C & D & _); auto].
Qed.

Lemma visit_none u i s : visit u i s = None -> counts_b u i = true /\ (own u i = None).
Proof.
  unfold visit. destruct (visit_named u i s) as [s1|] eqn:E; [discriminate|]. intros _. unfold visit_named in E. unfold counts_b, kind, own.
  destruct (is_tag_kind (d_kind (u_decls u i)) && d_skip (u_decls u i) || u_dependent u i || negb (has_annotations (u_decls u i) true)); [discriminate|].
  split; [reflexivity|]. unfold AnnotModel.insert in E. destruct (d_skip (u_decls u i)); [discriminate|].
  destruct (has (cs_annotations s) i); [discriminate|]. destruct (compute_attrs (u_decls u i)) as [[? ?]|]; [discriminate|reflexivity].
Qed.

Lemma traverse_none u t : forall s, traverse u t s = None -> exists i, In i (order u t) /\ counts_b u i = true /\ own u i = None.
Proof.
  induction t as [i ts IH] using tree_ind'. intros s H. rewrite traverse_eq in H. cbn [order]. unfold ignored_namespace.
  assert (Hall : forall s, traverse_all u ts s = None -> exists i, In i (flat_map (order u) ts) /\ counts_b u i = true /\ own u i = None).
  { clear H. induction ts as [|t ts IHl]; intros s0 H; cbn [traverse_all flat_map] in *; [discriminate|]. inv IH.
    destruct (traverse u t s0) as [s1|] eqn:E.
    - destruct (IHl H3 _ H) as (j & Hj & R). exists j. rewrite in_app_iff. auto.
    - destruct (H2 _ E) as (j & Hj & R). exists j. rewrite in_app_iff. auto. }
  destruct (is_namespace_kind (kind u i)); cbn [andb].
  - destruct (d_skip (u_decls u i)); [discriminate|]. destruct (visit u i s) as [s1|] eqn:E1.
    + destruct (traverse_all u ts s1) as [s2|] eqn:E2; [destruct (negb _); discriminate|]. destruct (Hall _ E2) as (j & Hj & R). exists j. split; [right; exact Hj|exact R].
    + apply visit_none in E1. exists i. split; [left; reflexivity|exact E1].
  - destruct (visit u i s) as [s1|] eqn:E1.
    + destruct (Hall _ H) as (j & Hj & R). exists j. split; [right; exact Hj|exact R].
    + apply visit_none in E1. exists i. split; [left; reflexivity|exact E1].
Qed.

Lemma collect_none u : sane u -> (collect u = None <-> exists i, In i (source_order u) /\ counts u i /\ AnnotModel.insert (u_decls u) i [] = None).
Proof.
  intros Hs. split.
  - intros H. unfold collect in H.
    assert (Hall : forall ts s, traverse_all u ts s = None -> exists i, In i (flat_map (order u) ts) /\ counts_b u i = true /\ own u i = None).
    { clear. induction ts as [|t ts IHl]; intros s0 H; cbn [traverse_all flat_map] in *; [discriminate|].
      destruct (traverse u t s0) as [s1|] eqn:E.
      - destruct (IHl _ H) as (j & Hj & R). exists j. rewrite in_app_iff. auto.
      - destruct (traverse_none _ _ _ E) as (j & Hj & R). exists j. rewrite in_app_iff. auto. }
    destruct (Hall _ _ H) as (i & Hi & Hc & Ho). exists i. split; [exact Hi|]. split; [apply counts_b_iff, Hc|].
    unfold AnnotModel.insert, own in *. destruct (d_skip (u_decls u i)) eqn:Es.
    + exfalso. apply counts_b_iff in Hc as (_ & _ & Ht). destruct (sane_skip u Hs i Es) as [Hk|Hk]; [|auto].
      clear -Hi Hk Es. apply in_flat_map in Hi as (t & _ & Hi).
      induction t as [j ts IH] using tree_ind'. cbn [order] in Hi. destruct (ignored_namespace u j) eqn:Ej; [contradiction|].
      destruct Hi as [->|Hi]; [unfold ignored_namespace in Ej; rewrite Hk, Es in Ej; discriminate|].
      apply in_flat_map in Hi as (t & Ht & Hi). rewrite Forall_forall in IH. exact (IH t Ht Hi).
    + cbn. destruct (compute_attrs (u_decls u i)) as [[? ?]|]; [discriminate|reflexivity].
  - intros (i & Hi & Hc & Hn). destruct (collect u) as [s|] eqn:E; [|reflexivity]. exfalso.
    destruct (collected_declarations u s Hs E) as (H1 & _ & H2 & _).
    destruct (H2 i) as (st & ds & a & H & _); [apply H1; auto|congruence].
Qed.
