(** * Proofs about the fate of invalid annotations *)
From Verif Require Import Base ParserModel AnnotModel AnnotSpec AnnotProofs AnnotStore AnnotFinal CollectModel CollectSpec CollectProofs GraphModel GraphSpec GraphProofs GraphBuild GraphPlace GraphFinal OrderModel OrderSpec InlineModel InlineSpec
  EmitModel EmitSpec EmitFold EmitProofs EmitFinal ModuleModel ModuleSpec ModuleProofs ModuleChunks ModuleFinal ToolModel ToolSpec ToolProofs AccessSpec AccessProofs InvalidSpec.

(** ** Errors and validity *)

Lemma annotation_dec (a b : annotation) : {a = b} + {a <> b}.
Proof. decide equality; [apply list_eq_dec; decide equality; [apply (list_eq_dec ascii_dec)|apply N.eq_dec|decide equality]|decide equality]. Qed.

Lemma accepted_dec d before an : accepted d before an \/ ~ accepted d before an.
Proof.
  assert (D : forall (x : annotation) l, In x l \/ ~ In x l) by (intros x l; destruct (in_dec annotation_dec x l); auto).
  assert (C : conflict before an \/ ~ conflict before an).
  { unfold conflict. destruct (D (mkAnnotation ExposeHere []) (before ++ [an])) as [H1|H1]; [|right; tauto].
    destruct (D (mkAnnotation Encourage []) (before ++ [an])) as [H2|H2]; [|right; tauto].
    destruct (annotation_dec an (mkAnnotation ExposeHere [])); [left; tauto|]. destruct (annotation_dec an (mkAnnotation Encourage [])); [left; tauto|right; tauto]. }
  unfold accepted. rewrite <- wf_iff. destruct (wf_b d an); [|right; intros [H _]; discriminate H]. destruct C; [right|left]; tauto.
Qed.

Lemma has_error_concat per : has_error (concat per) <-> exists e, In e per /\ has_error e.
Proof.
  unfold has_error. split.
  - intros (x & Hx & He). apply in_concat in Hx as (e & H1 & H2). eauto 6.
  - intros (e & H1 & x & H2 & H3). exists x. split; [apply in_concat; eauto|exact H3].
Qed.

Lemma has_error_dec ds : has_error ds \/ ~ has_error ds.
Proof. rewrite <- errs_iff. destruct (errs ds); [left; reflexivity|right; discriminate]. Qed.

(** Errors are reported exactly for what is invalid. *)
Lemma insert_valid decls i st ds : insert decls i [] = Some (st, ds) -> d_skip (decls i) = false -> (has_error ds <-> ~ valid_annotations (decls i)).
Proof.
  intros H Hs. destruct (insert_no_annotation_ignored _ _ _ _ _ H eq_refl Hs) as (a & ans & bad & _ & C & (target & parse & per & Hds & Ht & Hp & Hl & Hk) & _).
  set (d := decls i) in *.
  assert (E : has_error ds <-> targetless_alias d \/ bad = true \/ exists e, In e per /\ has_error e) by (rewrite Hds, !has_error_app, Ht, Hp, has_error_concat; reflexivity).
  split.
  - intros He (Nt & ans' & C' & Hacc). destruct (carried_unique2 _ _ _ _ _ C C') as [<- Eb]. apply E in He as [He|[He|(e & He & Hx)]]; [exact (Nt He)|congruence|].
    apply In_nth_error in He as (k & Hn). destruct (nth_error ans k) as [an|] eqn:Ea.
    + exact (proj1 (Hk k an e Ea Hn) Hx (Hacc k an Ea)).
    + apply nth_error_None in Ea. assert (k < length per) by (apply nth_error_Some; congruence). lia.
  - intros Nv. destruct (has_error_dec ds) as [X|X]; [exact X|]. exfalso. apply Nv. rewrite E in X. split; [tauto|]. exists ans.
    assert (bad = false) as -> by (destruct bad; tauto). split; [exact C|]. intros k an Ea.
    destruct (accepted_dec d (firstn k ans) an) as [A|A]; [exact A|]. exfalso. apply X. right. right.
    destruct (nth_error per k) as [e|] eqn:Ee.
    + exists e. split; [eapply nth_error_In, Ee|]. apply (Hk k an e Ea Ee), A.
    + apply nth_error_None in Ee. assert (k < length ans) by (apply nth_error_Some; congruence). lia.
Qed.

(** ** Collection *)

Lemma about_app a b : about_annotations (a ++ b) = about_annotations a ++ about_annotations b.
Proof. unfold about_annotations. apply flat_map_app. Qed.

Lemma about_own i ds : about_annotations (map (RAnnotation i) ds) = map (fun d => (i, d)) ds.
Proof. unfold about_annotations. induction ds as [|d ds IH]; cbn; [reflexivity|]. rewrite IH. reflexivity. Qed.

Lemma reported_app u l rs l' rs' : reported_for u l rs -> reported_for u l' rs' -> reported_for u (l ++ l') (rs ++ rs').
Proof.
  induction 1 as [|i st ds l rs C E H IH|i l rs C H IH]; cbn [app]; auto; intros H'.
  - rewrite <- app_assoc. eapply reported_cons; eauto.
  - apply reported_skip; auto.
Qed.

Lemma visit_reports u i s s' : visit u i s = Some s' -> ~ In i (keys (cs_annotations s)) ->
  exists rs, about_annotations (cs_reports s') = about_annotations (cs_reports s) ++ rs /\ reported_for u [i] rs.
Proof.
  intros H Hk. unfold visit in H. destruct (visit_named u i s) as [s1|] eqn:E; [|discriminate].
  assert (H1 : exists rs, about_annotations (cs_reports s1) = about_annotations (cs_reports s) ++ rs /\ reported_for u [i] rs).
  { unfold visit_named in E. destruct (_ || _) eqn:Ec.
    - injection E as <-. exists []. split; [rewrite app_nil_r; reflexivity|]. apply reported_skip; [|constructor]. rewrite <- counts_b_iff. unfold counts_b, kind. rewrite Ec. discriminate.
    - destruct (insert (u_decls u) i (cs_annotations s)) as [[st ds]|] eqn:Ei; [|discriminate]. injection E as <-. cbn [cs_reports]. rewrite about_app, about_own. eexists. split; [reflexivity|].
      rewrite <- (app_nil_r (map _ ds)). apply lookup_none in Hk. unfold insert, has in Ei. rewrite Hk in Ei.
      assert (Hc : counts u i) by (rewrite <- counts_b_iff; unfold counts_b, kind; rewrite Ec; reflexivity).
      assert (Hi : exists st', insert (u_decls u) i [] = Some (st', ds)).
      { unfold insert, has. cbn [lookup_attrs]. destruct (d_skip (u_decls u i)); [injection Ei as _ <-; eexists; reflexivity|].
        destruct (compute_attrs (u_decls u i)) as [[a ds']|]; [|discriminate]. injection Ei as _ <-. eexists; reflexivity. }
      destruct Hi as (st' & Hi). eapply reported_cons; [exact Hc|exact Hi|constructor]. }
  destruct H1 as (rs & Hr & R). exists rs. split; [|exact R]. rewrite <- Hr. injection H as <-.
  destruct (kind u i); try reflexivity; unfold visit_context, visit_typedef, push_context, push_alias, report_all;
    repeat match goal with |- context [if ?b then _ else _] => destruct b end; cbn [cs_reports]; try reflexivity.
  rewrite about_app. apply app_nil_r.
Qed.

Section Traversal.
Variable u : unit.
Hypothesis Hskip : forall i, d_skip (u_decls u i) = true -> is_namespace_kind (kind u i) = true \/ is_tag_kind (kind u i) = true.

Definition traversal_reports (t : tree) : Prop :=
  forall s s', traverse u t s = Some s' -> NoDup (order u t) -> good_start (order u t) s ->
  exists rs, about_annotations (cs_reports s') = about_annotations (cs_reports s) ++ rs /\ reported_for u (order u t) rs.

Lemma traverse_all_reports ts : Forall traversal_reports ts -> forall s s', traverse_all u ts s = Some s' ->
  NoDup (flat_map (order u) ts) -> good_start (flat_map (order u) ts) s ->
  exists rs, about_annotations (cs_reports s') = about_annotations (cs_reports s) ++ rs /\ reported_for u (flat_map (order u) ts) rs.
Proof.
  induction 1 as [|t ts Ht _ IH]; intros s s' H Hn Hg; cbn [traverse_all flat_map] in *.
  - injection H as <-. exists []. split; [rewrite app_nil_r; reflexivity|constructor].
  - destruct (traverse u t s) as [s1|] eqn:E; [|discriminate]. destruct (nodup_app_disjoint _ _ Hn) as (N1 & N2 & N3).
    destruct (good_start_app _ _ _ Hg) as [G1 G2].
    destruct (Ht _ _ E N1 G1) as (rs & Hr & R). assert (Ef := traverse_effect u Hskip t s s1 E N1 G1).
    destruct (IH s1 s' H N2) as (rs' & Hr' & R'); [eapply good_start_next; eassumption|].
    exists (rs ++ rs'). split; [rewrite Hr', Hr, app_assoc; reflexivity|apply reported_app; assumption].
Qed.

Lemma traverse_reports t : traversal_reports t.
Proof.
  induction t as [i ts IH] using tree_ind'. intros s s' H Hn Hg. rewrite traverse_eq in H.
  cbn [order] in *. unfold ignored_namespace in *.
  assert (Hmain : forall s1 s2, visit u i s = Some s1 -> traverse_all u ts s1 = Some s2 -> ignored_namespace u i = false -> NoDup (i :: flat_map (order u) ts) -> good_start (i :: flat_map (order u) ts) s ->
    exists rs, about_annotations (cs_reports s2) = about_annotations (cs_reports s) ++ rs /\ reported_for u (i :: flat_map (order u) ts) rs).
  { clear H Hn Hg. intros s1 s2 E1 E2 Hi Hn Hg. change (i :: flat_map (order u) ts) with ([i] ++ flat_map (order u) ts) in *.
    destruct (nodup_app_disjoint _ _ Hn) as (N1 & N2 & N3). destruct (good_start_app _ _ _ Hg) as [G1 G2].
    assert (Hk : ~ In i (keys (cs_annotations s))) by (apply G1; left; reflexivity).
    destruct (visit_reports _ _ _ _ E1 Hk) as (rs & Hr & R).
    assert (V : effect u [i] [] s s1) by (apply effect_visit; auto).
    destruct (traverse_all_reports ts IH s1 s2 E2 N2 (good_start_next _ _ _ _ _ _ Hn Hg V)) as (rs' & Hr' & R').
    exists (rs ++ rs'). split; [rewrite Hr', Hr, app_assoc; reflexivity|apply reported_app; assumption]. }
  destruct (is_namespace_kind (kind u i)) eqn:Ek; cbn [andb] in *.
  - destruct (d_skip (u_decls u i)) eqn:Es; [injection H as <-; exists []; split; [rewrite app_nil_r; reflexivity|constructor]|].
    destruct (visit u i s) as [s1|] eqn:E1; [|discriminate].
    destruct (traverse_all u ts s1) as [s2|] eqn:E2; [|discriminate].
    destruct (Hmain s1 s2 eq_refl E2) as (rs & Hr & R); auto; [unfold ignored_namespace; rewrite Es; apply andb_false_r|].
    exists rs. split; [|exact R]. rewrite <- Hr. destruct (negb _); injection H as <-; [|reflexivity].
    unfold check_first. destruct (assoc _ _); [|reflexivity]. destruct (equal _ _ _ _); [reflexivity|]. unfold report_all. cbn [cs_reports]. rewrite about_app. apply app_nil_r.
  - destruct (visit u i s) as [s1|] eqn:E1; [|discriminate]. apply (Hmain s1 s'); auto. unfold ignored_namespace. rewrite Ek. reflexivity.
Qed.
End Traversal.

Lemma collect_reports u s : sane u -> collect u = Some s -> reported_for u (source_order u) (about_annotations (cs_reports s)).
Proof.
  intros Hs H. destruct (traverse_all_reports u (sane_skip u Hs) (u_top u)) with (s := init_state) (s' := s) as (rs & Hr & R); auto.
  - apply Forall_forall. intros t _. apply traverse_reports, Hs.
  - apply Hs.
  - split; [intros j _ []|intros k j []].
  - cbn in Hr. rewrite Hr. exact R.
Qed.

(** Kinds of reports while collecting. *)
Definition collecting (x : report) : Prop := (exists i d, x = RAnnotation i d) \/ (exists i, x = RQualifiers i) \/ exists i k, x = RMismatch i k.

Lemma visit_kinds u i s s' : visit u i s = Some s' -> Forall collecting (cs_reports s) -> Forall collecting (cs_reports s').
Proof.
  intros H F. unfold visit in H. destruct (visit_named u i s) as [s1|] eqn:E; [|discriminate].
  assert (F1 : Forall collecting (cs_reports s1)).
  { unfold visit_named in E. destruct (_ || _); [injection E as <-; exact F|]. destruct (insert _ _ _) as [[st ds]|]; [|discriminate]. injection E as <-. cbn [cs_reports].
    apply Forall_app. split; [exact F|]. apply Forall_forall. intros x Hx. apply in_map_iff in Hx as (d & <- & _). left. eauto. }
  injection H as <-. destruct (kind u i); try exact F1; unfold visit_context, visit_typedef, push_context, push_alias, report_all;
    repeat match goal with |- context [if ?b then _ else _] => destruct b end; cbn [cs_reports]; try exact F1.
  apply Forall_app. split; [exact F1|]. constructor; [|constructor]. right. left. eauto.
Qed.

Lemma traverse_kinds u t : forall s s', traverse u t s = Some s' -> Forall collecting (cs_reports s) -> Forall collecting (cs_reports s').
Proof.
  induction t as [i ts IH] using tree_ind'. intros s s' H F. rewrite traverse_eq in H.
  assert (A : forall s1 s2, traverse_all u ts s1 = Some s2 -> Forall collecting (cs_reports s1) -> Forall collecting (cs_reports s2)).
  { clear - IH. induction IH as [|t ts Ht _ IH]; intros s1 s2 H F; cbn [traverse_all] in H; [injection H as <-; exact F|].
    destruct (traverse u t s1) as [s3|] eqn:E; [|discriminate]. eapply IH; [exact H|]. eapply Ht; eassumption. }
  destruct (is_namespace_kind (kind u i)).
  - destruct (d_skip (u_decls u i)); [injection H as <-; exact F|]. destruct (visit u i s) as [s1|] eqn:E1; [|discriminate]. destruct (traverse_all u ts s1) as [s2|] eqn:E2; [|discriminate].
    assert (F2 := A s1 s2 E2 (visit_kinds _ _ _ _ E1 F)). destruct (negb _); injection H as <-; [|exact F2].
    unfold check_first. destruct (assoc _ _); [|exact F2]. destruct (equal _ _ _ _); [exact F2|]. unfold report_all. cbn [cs_reports]. apply Forall_app. split; [exact F2|].
    constructor; [|constructor]. right. right. eauto.
  - destruct (visit u i s) as [s1|] eqn:E1; [|discriminate]. apply (A s1 s' H (visit_kinds _ _ _ _ E1 F)).
Qed.

Lemma collected_kinds u s : collect u = Some s -> forall x, In x (cs_reports s) -> collecting x.
Proof.
  intros H. apply Forall_forall. unfold collect in H. revert H. assert (G : forall ts s1 s2, traverse_all u ts s1 = Some s2 -> Forall collecting (cs_reports s1) -> Forall collecting (cs_reports s2)).
  { induction ts as [|t ts IH]; intros s1 s2 H F; cbn [traverse_all] in H; [injection H as <-; exact F|].
    destruct (traverse u t s1) as [s3|] eqn:E; [|discriminate]. eapply IH; [exact H|]. eapply traverse_kinds; eassumption. }
  intros H. apply (G _ _ _ H). constructor.
Qed.

(** ** Construction of the graph *)

Lemma insert_fresh decls i st st' ds : insert decls i st = Some (st', ds) -> lookup_attrs st i = None -> exists st2, insert decls i [] = Some (st2, ds).
Proof.
  unfold insert, has. cbn [lookup_attrs]. intros H E. rewrite E in H. destruct (d_skip (decls i)); [injection H as _ <-; eexists; reflexivity|].
  destruct (compute_attrs (decls i)) as [[a ds']|]; [|discriminate]. injection H as _ <-. eexists; reflexivity.
Qed.

Lemma insert_stored decls i st st' ds : insert decls i st = Some (st', ds) -> d_skip (decls i) = false -> lookup_attrs st i <> None -> ds = [].
Proof.
  unfold insert, has. intros H Hs E. rewrite Hs in H. destruct (lookup_attrs st i); [congruence|destruct E; reflexivity].
Qed.

(** Every annotation of what is stored has been checked and reported. *)
Definition checked_all (u : unit) (st : storage) (rs : list report) : Prop :=
  forall i, lookup_attrs st i <> None -> d_skip (u_decls u i) = false /\ exists st' ds, insert (u_decls u) i [] = Some (st', ds) /\ forall d, In d ds -> In (RAnnotation i d) rs.

(** Nothing else has been reported. *)
Definition reports_own (u : unit) (early : nat -> Prop) (rs : list report) : Prop :=
  forall i d, In (RAnnotation i d) rs -> early i /\ d_skip (u_decls u i) = false /\ exists st' ds, insert (u_decls u) i [] = Some (st', ds) /\ In d ds.

Lemma checked_valid u st rs : checked_all u st rs -> errors_occurred rs = false -> forall i, lookup_attrs st i <> None -> valid_annotations (u_decls u i).
Proof.
  intros C E i Hi. destruct (C i Hi) as (Hs & st' & ds & H & Hd). destruct (has_error_dec ds) as [(d & H1 & H2)|N].
  - exfalso. assert (errors_occurred rs = true); [|congruence]. apply existsb_exists. exists (RAnnotation i d). split; [apply Hd, H1|exact H2].
  - destruct (insert_valid _ _ _ _ H Hs) as [_ V].
    destruct (insert_no_annotation_ignored _ _ _ _ _ H eq_refl Hs) as (a & ans & bad & _ & Ca & (target & parse & per & Hds & Ht & Hp & Hl & Hk) & _).
    assert (E' : ~ (targetless_alias (u_decls u i) \/ bad = true \/ exists e, In e per /\ has_error e)).
    { intros X. apply N. rewrite Hds, !has_error_app, Ht, Hp, has_error_concat. exact X. }
    split; [tauto|]. exists ans. assert (bad = false) as -> by (destruct bad; tauto). split; [exact Ca|]. intros k an Ea.
    destruct (accepted_dec (u_decls u i) (firstn k ans) an) as [A|A]; [exact A|]. exfalso. apply E'. right. right.
    destruct (nth_error per k) as [e|] eqn:Ee.
    + exists e. split; [eapply nth_error_In, Ee|]. apply (Hk k an e Ea Ee), A.
    + apply nth_error_None in Ee. assert (k < length ans) by (apply nth_error_Some; congruence). lia.
Qed.

Lemma reports_invalid u early rs i d : reports_own u early rs -> In (RAnnotation i d) rs -> is_error d = true -> early i /\ ~ valid_annotations (u_decls u i).
Proof.
  intros O Hi Hd. destruct (O i d Hi) as (He & Hs & st & ds & H & Hin). split; [exact He|]. apply (insert_valid _ _ _ _ H Hs). exists d. auto.
Qed.

Lemma in_about i d rs : In (i, d) (about_annotations rs) <-> In (RAnnotation i d) rs.
Proof.
  unfold about_annotations. rewrite in_flat_map. split.
  - intros ([j e| | | | |] & H1 & H2); try destruct H2. { injection H as -> ->. exact H1. } destruct H.
  - intros H. exists (RAnnotation i d). split; [exact H|left; reflexivity].
Qed.

Lemma reported_own u l rs : reported_for u l rs -> forall i d, In (i, d) rs -> (In i l /\ counts u i) /\ exists st' ds, insert (u_decls u) i [] = Some (st', ds) /\ In d ds.
Proof.
  induction 1 as [|j st ds l rs C E H IH|j l rs C H IH]; intros i d Hi.
  - destruct Hi.
  - apply in_app_iff in Hi as [Hi|Hi].
    + apply in_map_iff in Hi as (d' & [= <- <-] & Hd). split; [split; [left; reflexivity|exact C]|]. eauto.
    + destruct (IH i d Hi) as ((A & B) & D). split; [split; [right; exact A|exact B]|exact D].
  - destruct (IH i d Hi) as ((A & B) & D). split; [split; [right; exact A|exact B]|exact D].
Qed.

Lemma reported_all u l rs : reported_for u l rs -> forall i, In i l -> counts u i -> exists st' ds, insert (u_decls u) i [] = Some (st', ds) /\ forall d, In d ds -> In (i, d) rs.
Proof.
  induction 1 as [|j st ds l rs C E H IH|j l rs C H IH]; intros i Hi Hc.
  - destruct Hi.
  - destruct Hi as [<-|Hi].
    + exists st, ds. split; [exact E|]. intros d Hd. apply in_app_iff. left. apply in_map_iff. eauto.
    + destruct (IH i Hi Hc) as (st' & ds' & A & B). exists st', ds'. split; [exact A|]. intros d Hd. apply in_app_iff. right. apply B, Hd.
  - destruct Hi as [<-|Hi]; [contradiction|]. apply IH; assumption.
Qed.

Lemma in_keys st i : In i (map fst st) <-> lookup_attrs st i <> None.
Proof.
  split; intros H.
  - intros E. apply lookup_none in E. exact (E H).
  - destruct (in_dec Nat.eq_dec i (map fst st)) as [D|D]; [exact D|]. destruct H. apply lookup_none, D.
Qed.

Section Early.
Variables (u : unit) (s : cstate).
Hypothesis P : placed u.
Hypothesis C : collect u = Some s.
Let st0 := cs_annotations s.

Lemma collected_checked : checked_all u st0 (cs_reports s) /\ reports_own u (looked_at_early u) (cs_reports s) /\
  forall i, In i (source_order u) -> counts u i -> lookup_attrs st0 i <> None.
Proof.
  assert (R := collect_reports u s (pl_sane u P) C). destruct (collected_declarations u s (pl_sane u P) C) as (A & _ & B & _). split; [|split].
  - intros i Hi. apply in_keys in Hi. destruct (B i Hi) as (st & ds & a & H1 & H2 & _). apply A in Hi as [H3 H4]. split.
    + destruct (d_skip (u_decls u i)) eqn:E; [|reflexivity]. unfold insert in H1. rewrite E in H1. injection H1 as <- <-. discriminate H2.
    + destruct (reported_all _ _ _ R i H3 H4) as (st' & ds' & H5 & H6). exists st', ds'. split; [exact H5|]. intros d Hd. apply in_about, H6, Hd.
  - intros i d H. apply in_about in H. destruct (reported_own _ _ _ R i d H) as [H1 H2]. split; [left; exact H1|]. split; [|exact H2]. apply A, B in H1 as (st & ds & a & H3 & H4 & _). destruct (d_skip (u_decls u i)) eqn:E; [|reflexivity]. unfold insert in H3. rewrite E in H3. injection H3 as <- <-. discriminate H4.
  - intros i H1 H2. apply in_keys, A. auto.
Qed.

Lemma alias_checked a s1 s2 : alias_ok u st0 a -> In a (cs_aliases s) -> same_aliases u st0 (bs_annotations s1) -> process_alias u a s1 = Done s2 ->
  same_aliases u st0 (bs_annotations s2) /\
  (checked_all u (bs_annotations s1) (bs_reports s1) -> checked_all u (bs_annotations s2) (bs_reports s2)) /\
  (reports_own u (looked_at_early u) (bs_reports s1) -> reports_own u (looked_at_early u) (bs_reports s2)) /\
  (exists rs, bs_reports s2 = bs_reports s1 ++ rs) /\
  (forall i, lookup_attrs (bs_annotations s1) i <> None -> lookup_attrs (bs_annotations s2) i <> None) /\
  (forall i, d_target (u_decls u a) = Some i -> enc st0 a = true \/ exp st0 a = true -> lookup_attrs (bs_annotations s2) i <> None).
Proof.
  intros Ok Hin Same H. destruct (process_alias_effect u st0 a s1 Ok Same) as (s2' & rs & H' & _ & _ & Hr & _ & Hl). rewrite H in H'. injection H' as <-.
  assert (Ok' := Ok). destruct Ok' as (Hk & Hst & Ht & Htag & Hskip & Hctx).
  assert (Ha : lookup_attrs (bs_annotations s1) a = Some (alias_attrs st0 a)).
  { rewrite Same by (rewrite Hk; reflexivity). unfold alias_attrs. destruct (lookup_attrs st0 a); [reflexivity|congruence]. }
  split; [|split; [|split; [|split; [|split]]]].
  - intros i Hi. rewrite Hl. destruct ((enc st0 a || exp st0 a) && Nat.eqb i (tgt u a)) eqn:E; [|apply Same, Hi].
    apply andb_true_iff in E as [_ E]. apply Nat.eqb_eq in E. subst i. congruence.
  - intros Ch i Hi. assert (Old : lookup_attrs (bs_annotations s1) i <> None -> d_skip (u_decls u i) = false /\ exists st' ds, insert (u_decls u) i [] = Some (st', ds) /\ forall d, In d ds -> In (RAnnotation i d) (bs_reports s2)).
    { intros X. destruct (Ch i X) as (Y & st' & ds & Z1 & Z2). split; [exact Y|]. exists st', ds. split; [exact Z1|]. intros d Hd. rewrite Hr. apply in_app_iff. left. apply Z2, Hd. }
    destruct (lookup_attrs (bs_annotations s1) i) as [x|] eqn:Ei; [apply Old; discriminate|]. clear Old.
    rewrite Hl, Ei in Hi. destruct ((enc st0 a || exp st0 a) && Nat.eqb i (tgt u a)) eqn:E; [|congruence].
    apply andb_true_iff in E as [E1 E2]. apply Nat.eqb_eq in E2. subst i. split; [exact Hskip|].
    unfold process_alias, get_typedef, get, is_typedef in H. unfold kind in Hk. rewrite Hk, Ha in H. cbn [option_map] in H. fold (enc st0 a) (exp st0 a) in H.
    replace (negb (enc st0 a) && negb (exp st0 a)) with false in H by (destruct (enc st0 a), (exp st0 a); auto; discriminate E1).
    rewrite Ht in H. destruct (insert (u_decls u) (tgt u a) (bs_annotations s1)) as [[st ds]|] eqn:Ins; [|discriminate].
    destruct (insert_fresh _ _ _ _ _ Ins Ei) as (st' & Hf). exists st', ds. split; [exact Hf|]. intros d Hd.
    assert (X : In (RAnnotation (tgt u a) d) (bs_reports s1 ++ map (RAnnotation (tgt u a)) ds)) by (apply in_app_iff; right; apply in_map, Hd).
    destruct (exp st0 a); [|injection H as <-; exact X]. unfold add_edge_for_alias in H. rewrite Hctx in H. cbn [bs_relocated bs_reports bs_annotations bs_graph] in H.
    destruct (assoc (bs_relocated s1) (tgt u a)); [injection H as <-; cbn [bs_reports]; apply in_app_iff; left; exact X|].
    cbn [bs_relocated bs_reports bs_annotations bs_graph] in H. destruct (propagate _ _ _ _); try discriminate. injection H as <-. exact X.
  - intros Own i d Hi.
    unfold process_alias, get_typedef, get, is_typedef in H. unfold kind in Hk. rewrite Hk, Ha in H. cbn [option_map] in H. fold (enc st0 a) (exp st0 a) in H.
    destruct (negb (enc st0 a) && negb (exp st0 a)) eqn:En; [injection H as <-; apply Own, Hi|].
    rewrite Ht in H. destruct (insert (u_decls u) (tgt u a) (bs_annotations s1)) as [[st ds]|] eqn:Ins; [|discriminate].
    assert (X : In (RAnnotation i d) (bs_reports s1 ++ map (RAnnotation (tgt u a)) ds)).
    { destruct (exp st0 a); [|injection H as <-; exact Hi]. unfold add_edge_for_alias in H. rewrite Hctx in H. cbn [bs_relocated bs_reports bs_annotations bs_graph] in H.
      destruct (assoc (bs_relocated s1) (tgt u a)); [injection H as <-; cbn [bs_reports] in Hi; apply in_app_iff in Hi as [Hi|[Hi|[]]]; [exact Hi|discriminate]|].
      cbn [bs_relocated bs_reports bs_annotations bs_graph] in H. destruct (propagate _ _ _ _); try discriminate. injection H as <-. exact Hi. }
    apply in_app_iff in X as [X|X]; [apply Own, X|]. apply in_map_iff in X as (d' & [= <- <-] & Hd). split.
    + right. exists a. destruct (exp st0 a) eqn:Ee.
      * left. apply (relocates_iff u P s C). auto.
      * right. apply (encourages_iff u P s C). split; [exact Hin|]. split; [exact Ht|]. rewrite andb_true_r in En. apply negb_false_iff, En.
    + split; [exact Hskip|]. destruct (lookup_attrs (bs_annotations s1) (tgt u a)) as [x|] eqn:Ei; [rewrite (insert_stored _ _ _ _ _ Ins) in Hd by congruence; destruct Hd|].
      destruct (insert_fresh _ _ _ _ _ Ins Ei) as (st' & Hf). eauto.
  - eexists. exact Hr.
  - intros i Hi. rewrite Hl. destruct (_ && _); [discriminate|exact Hi].
  - intros i Hi He. rewrite Hl. assert (i = tgt u a) as -> by (unfold tgt; rewrite Hi; reflexivity). rewrite Nat.eqb_refl.
    replace (enc st0 a || exp st0 a) with true by (destruct He as [->| ->]; [reflexivity|symmetry; apply orb_true_r]). discriminate.
Qed.

Lemma aliases_checked al : forall s1 s2, (forall a, In a al -> alias_ok u st0 a /\ In a (cs_aliases s)) -> same_aliases u st0 (bs_annotations s1) -> process_aliases u al s1 = Done s2 ->
  (checked_all u (bs_annotations s1) (bs_reports s1) -> checked_all u (bs_annotations s2) (bs_reports s2)) /\
  (reports_own u (looked_at_early u) (bs_reports s1) -> reports_own u (looked_at_early u) (bs_reports s2)) /\
  (exists rs, bs_reports s2 = bs_reports s1 ++ rs) /\
  (forall i, lookup_attrs (bs_annotations s1) i <> None -> lookup_attrs (bs_annotations s2) i <> None) /\
  (forall a i, In a al -> d_target (u_decls u a) = Some i -> enc st0 a = true \/ exp st0 a = true -> lookup_attrs (bs_annotations s2) i <> None).
Proof.
  induction al as [|a al IH]; intros s1 s2 Ok Same H; cbn [process_aliases] in H.
  - injection H as <-. split; [auto|]. split; [auto|]. split; [exists []; symmetry; apply app_nil_r|]. split; [auto|]. intros a i [].
  - destruct (process_alias u a s1) as [s3| |] eqn:E; try discriminate. destruct (Ok a (or_introl eq_refl)) as [Ok1 Ok2].
    destruct (alias_checked a s1 s3 Ok1 Ok2 Same E) as (Same3 & A1 & A2 & (r1 & A3) & A4 & A5).
    destruct (IH s3 s2 (fun b Hb => Ok b (or_intror Hb)) Same3 H) as (B1 & B2 & (r2 & B3) & B4 & B5).
    split; [auto|]. split; [auto|]. split; [exists (r1 ++ r2); rewrite B3, A3, app_assoc; reflexivity|]. split; [auto|].
    intros b i [<-|Hb] Ht He; [apply B4, A5; assumption|apply (B5 b i); assumption].
Qed.

Lemma build_checked ok b : build_graph u = Done (ok, b) ->
  checked_all u (bs_annotations b) (bs_reports b) /\ reports_own u (looked_at_early u) (bs_reports b) /\ (exists rs, bs_reports b = cs_reports s ++ rs) /\
  (forall i, lookup_attrs st0 i <> None -> lookup_attrs (bs_annotations b) i <> None) /\
  (errors_occurred (cs_reports s) = false -> forall i, looked_at_early u i -> lookup_attrs (bs_annotations b) i <> None) /\ ok = negb (errors_occurred (bs_reports b)).
Proof.
  destruct collected_checked as (Ch & Own & Dom). unfold build_graph. rewrite C. cbn [bs_reports]. destruct (errors_occurred (cs_reports s)) eqn:He.
  - intros H. injection H as <- <-. cbn [bs_annotations bs_reports]. rewrite He. split; [exact Ch|]. split; [exact Own|]. split; [exists []; symmetry; apply app_nil_r|]. split; [auto|]. split; [discriminate|reflexivity].
  - fold st0. destruct (process_aliases u (cs_aliases s) (mkBuilder st0 [] (new_graph (u_root u)) (cs_reports s))) as [b1| |] eqn:E; try discriminate.
    destruct (aliases_checked (cs_aliases s) (mkBuilder st0 [] (new_graph (u_root u)) (cs_reports s)) b1 (fun a Ha => conj (aliases_ok u P s C He a Ha) Ha) (fun i _ => eq_refl) E) as (B1 & B2 & B3 & B4 & B5).
    cbn [bs_annotations bs_reports] in *. specialize (B1 Ch). specialize (B2 Own).
    assert (D : forall i, looked_at_early u i -> lookup_attrs (bs_annotations b1) i <> None).
    { intros i [[H1 H2]|(a & [H|H])]; [apply B4, Dom; assumption| |].
      - apply (relocates_iff u P s C) in H as (H1 & H2 & H3). apply (B5 a); auto.
      - apply (encourages_iff u P s C) in H as (H1 & H2 & H3). apply (B5 a); auto. }
    destruct (errors_occurred (bs_reports b1)) eqn:He1.
    + intros H. injection H as <- <-. rewrite He1. auto 8.
    + rewrite (process_contexts_effect u (cs_contexts s) b1 (contexts_ok u P s C)). intros H. injection H as <- <-. cbn [bs_annotations bs_reports] in *. rewrite He1. auto 8.
Qed.
End Early.

(** ** Results of processing *)

Lemma not_valid_error u i st ds : insert (u_decls u) i [] = Some (st, ds) -> d_skip (u_decls u i) = false -> ~ valid_annotations (u_decls u i) -> exists d, In d ds /\ is_error d = true.
Proof. intros H Hs N. apply (insert_valid _ _ _ _ H Hs), N. Qed.

Lemma early_invalid_reported u found implicit name r i : placed u -> process u found implicit name = Done r -> looked_at_early u i -> ~ valid_annotations (u_decls u i) ->
  exists rs, r = NoGraph rs /\ (exists x, In x rs /\ is_error_report x = true) /\ (In i (source_order u) -> counts u i -> exists d, In (RAnnotation i d) rs /\ is_error d = true) /\
    ((forall j, In j (source_order u) -> counts u j -> valid_annotations (u_decls u j)) -> (forall j k, ~ In (RMismatch j k) rs) -> exists d, In (RAnnotation i d) rs /\ is_error d = true).
Proof.
  intros P H Hi N. unfold process in H. destruct (build_graph u) as [[ok b]| |] eqn:B; try discriminate.
  destruct (collect u) as [s|] eqn:C; [|unfold build_graph in B; rewrite C in B; discriminate].
  destruct (build_checked u s P C ok b B) as (Ch & Own & (rs & Hrs) & Dom & Early & ->). destruct (collected_checked u s P C) as (Ch0 & Own0 & Dom0).
  destruct (errors_occurred (bs_reports b)) eqn:He; cbn [negb] in H.
  - injection H as <-. exists (bs_reports b). split; [reflexivity|]. split; [apply existsb_exists in He; exact He|]. split.
    + intros H1 H2. destruct (Ch i (Dom i (Dom0 i H1 H2))) as (Hs & st & ds & Hins & Hd). destruct (not_valid_error u i st ds Hins Hs N) as (d & Hin & Hdd). eauto.
    + intros V M. assert (E0 : errors_occurred (cs_reports s) = false).
      { destruct (errors_occurred (cs_reports s)) eqn:E0; [|reflexivity]. exfalso. apply existsb_exists in E0 as (x & Hx & Ex).
        destruct (collected_kinds u s C x Hx) as [(j & d & ->)|[(j & ->)|(j & k & ->)]].
        - destruct (reports_invalid _ _ _ _ _ Own0 Hx Ex) as [_ Nv]. apply in_about in Hx.
          destruct (reported_own _ _ _ (collect_reports u s (pl_sane u P) C) j d Hx) as [[J1 J2] _]. apply Nv, V; assumption.
        - discriminate Ex.
        - apply (M j k). rewrite Hrs. apply in_app_iff. left. exact Hx. }
      destruct (Ch i (Early E0 i Hi)) as (Hs & st & ds & Hins & Hd). destruct (not_valid_error u i st ds Hins Hs N) as (d & Hin & Hdd). eauto.
  - exfalso. apply N. apply (checked_valid u _ _ Ch He). apply Early; [|exact Hi].
    destruct (errors_occurred (cs_reports s)) eqn:E0; [|reflexivity]. apply existsb_exists in E0 as (x & Hx & Ex).
    assert (errors_occurred (bs_reports b) = true); [|congruence]. apply existsb_exists. exists x. split; [rewrite Hrs; apply in_app_iff; left; exact Hx|exact Ex].
Qed.

Lemma early_blame u found implicit name rs i d : placed u -> process u found implicit name = Done (NoGraph rs) -> In (RAnnotation i d) rs -> is_error d = true ->
  looked_at_early u i /\ ~ valid_annotations (u_decls u i).
Proof.
  intros P H Hi Hd. unfold process in H. destruct (build_graph u) as [[ok b]| |] eqn:B; try discriminate.
  destruct (collect u) as [s|] eqn:C; [|unfold build_graph in B; rewrite C in B; discriminate].
  destruct (build_checked u s P C ok b B) as (_ & Own & _). destruct ok.
  - destruct (derive_effective_visibility _ _ _); [|discriminate]. destruct (expose_here_cycles _ _ _ _); [|discriminate]. destruct (contexts_with_visible_decls _ _ _ _ _ _); [|discriminate].
    destruct (hide_namespaces _ _ _ _ _ _) as [[? ?]|]; [|discriminate]. destruct (prune_graph _ _ _ _); discriminate.
  - injection H as <-. eapply reports_invalid; eassumption.
Qed.

Lemma early_order u found implicit name rs : placed u -> process u found implicit name = Done (NoGraph rs) ->
  exists rs1 rs2, about_annotations rs = rs1 ++ rs2 /\ reported_for u (source_order u) rs1 /\ forall i d, In (i, d) rs2 -> exists a, relocates u a i \/ encourages u a i.
Proof.
  intros P H. unfold process in H. destruct (build_graph u) as [[ok b]| |] eqn:B; try discriminate.
  destruct (collect u) as [s|] eqn:C; [|unfold build_graph in B; rewrite C in B; discriminate].
  assert (R := collect_reports u s (pl_sane u P) C). destruct ok.
  - destruct (derive_effective_visibility _ _ _); [|discriminate]. destruct (expose_here_cycles _ _ _ _); [|discriminate]. destruct (contexts_with_visible_decls _ _ _ _ _ _); [|discriminate].
    destruct (hide_namespaces _ _ _ _ _ _) as [[? ?]|]; [|discriminate]. destruct (prune_graph _ _ _ _); discriminate.
  - injection H as <-. unfold build_graph in B. rewrite C in B. cbn [bs_reports] in B. destruct (errors_occurred (cs_reports s)) eqn:He.
    + injection B as <-. exists (about_annotations (cs_reports s)), []. split; [symmetry; apply app_nil_r|]. split; [exact R|]. intros i d [].
    + destruct (process_aliases u (cs_aliases s) _) as [b1| |] eqn:E; try discriminate. destruct (errors_occurred (bs_reports b1)); [|destruct (process_contexts _ _ _); discriminate]. injection B as <-.
      assert (G : forall al s1 s2, (forall a, In a al -> alias_ok u (cs_annotations s) a /\ In a (cs_aliases s)) -> same_aliases u (cs_annotations s) (bs_annotations s1) -> process_aliases u al s1 = Done s2 ->
        exists rs, bs_reports s2 = bs_reports s1 ++ rs /\ forall i d, In (i, d) (about_annotations rs) -> exists a, relocates u a i \/ encourages u a i).
      { clear - P C. induction al as [|a al IH]; intros s1 s2 Ok Same H; cbn [process_aliases] in H.
        - injection H as <-. exists []. split; [symmetry; apply app_nil_r|]. intros i d [].
        - destruct (process_alias u a s1) as [s3| |] eqn:E; try discriminate. destruct (Ok a (or_introl eq_refl)) as [Ok1 Ok2].
          destruct (alias_checked u s P C a s1 s3 Ok1 Ok2 Same E) as (Same3 & _). destruct (IH s3 s2 (fun b Hb => Ok b (or_intror Hb)) Same3 H) as (r2 & B3 & B4).
          destruct (process_alias_effect u (cs_annotations s) a s1 Ok1 Same) as (s3' & r1 & H' & _ & _ & Hr & Hr1 & _). rewrite E in H'. injection H' as <-.
          exists (r1 ++ new_conflicts u (cs_annotations s) (bs_relocated s1) a ++ r2). split; [rewrite B3, Hr, <- !app_assoc; reflexivity|]. intros i d Hi. rewrite !about_app in Hi.
          apply in_app_iff in Hi as [Hi|Hi].
          + exists a. destruct Ok1 as (Hk & Hst & Ht & _). assert (i = tgt u a) as ->. { apply in_about, Hr1 in Hi as (d' & Hi). congruence. }
            destruct (exp (cs_annotations s) a) eqn:Ee; [left; apply (relocates_iff u P s C); auto|]. right. apply (encourages_iff u P s C). split; [exact Ok2|]. split; [exact Ht|].
            destruct (enc (cs_annotations s) a) eqn:Ec; [reflexivity|]. exfalso. unfold process_alias, get_typedef, get, is_typedef in E.
            assert (Ha : lookup_attrs (bs_annotations s1) a = Some (alias_attrs (cs_annotations s) a)). { rewrite Same by (rewrite Hk; reflexivity). unfold alias_attrs. destruct (lookup_attrs (cs_annotations s) a); [reflexivity|congruence]. }
            unfold kind in Hk. rewrite Hk, Ha in E. cbn [option_map] in E. fold (enc (cs_annotations s) a) (exp (cs_annotations s) a) in E. rewrite Ee, Ec in E. cbn in E. injection E as <-.
            unfold new_conflicts in Hr. rewrite Ee, app_nil_r in Hr. assert (r1 = []) as ->. { apply (f_equal (@length _)) in Hr. rewrite app_length in Hr. destruct r1; [reflexivity|cbn in Hr; lia]. } destruct Hi.
          + apply in_app_iff in Hi as [Hi|Hi]; [|eapply B4, Hi]. exfalso. unfold new_conflicts in Hi. destruct (exp _ _); [|destruct Hi]. destruct (assoc _ _); destruct Hi. }
      destruct (G (cs_aliases s) (mkBuilder (cs_annotations s) [] (new_graph (u_root u)) (cs_reports s)) b1 (fun a Ha => conj (aliases_ok u P s C He a Ha) Ha) (fun i _ => eq_refl) E) as (rs & Hr & Ht).
      cbn [bs_reports] in Hr. rewrite Hr, about_app. exists (about_annotations (cs_reports s)), (about_annotations rs). auto.
Qed.

(** ** Generation *)

Definition exposed_checked (u : unit) (b : bstate) : Prop := forall i, lookup_attrs (bs_annotations b) i <> None -> valid_annotations (u_decls u i).

Lemma exposed_valid u found implicit name g vis b : placed u -> exposed u found implicit name g vis b -> exposed_checked u b.
Proof.
  intros P (contexts & warned & H). unfold process in H. destruct (build_graph u) as [[ok b']| |] eqn:B; try discriminate.
  destruct (collect u) as [s|] eqn:C; [|unfold build_graph in B; rewrite C in B; discriminate].
  destruct (build_checked u s P C ok b' B) as (Ch & _ & _ & _ & _ & E). destruct ok; [|discriminate].
  destruct (derive_effective_visibility _ _ _); [|discriminate]. destruct (expose_here_cycles _ _ _ _); [|discriminate]. destruct (contexts_with_visible_decls _ _ _ _ _ _); [|discriminate].
  destruct (hide_namespaces _ _ _ _ _ _) as [[? ?]|]; [|discriminate]. destruct (prune_graph _ _ _ _); [|discriminate]. injection H as _ _ _ _ <-.
  intros i Hi. apply (checked_valid u _ _ Ch); [|exact Hi]. symmetry in E. apply negb_true_iff, E.
Qed.

Lemma valid_dec u i st ds : insert (u_decls u) i [] = Some (st, ds) -> d_skip (u_decls u i) = false -> valid_annotations (u_decls u i) \/ exists d, In d ds /\ is_error d = true.
Proof.
  intros H Hs. destruct (has_error_dec ds) as [E|E]; [right; exact E|left].
  apply (checked_valid u st (map (RAnnotation i) ds)).
  - intros j Hj. assert (j = i) as ->.
    { destruct (Nat.eq_dec j i) as [X|X]; [exact X|]. destruct (insert_local _ _ _ _ _ H) as [L _]. rewrite (L j X) in Hj. destruct Hj. reflexivity. }
    split; [exact Hs|]. exists st, ds. split; [exact H|]. intros d Hd. apply in_map, Hd.
  - apply not_true_is_false. intros X. apply existsb_exists in X as (x & Hx & Ex). apply in_map_iff in Hx as (d & <- & Hd). apply E. exists d. auto.
  - unfold insert, has in H. rewrite Hs in H. cbn [lookup_attrs] in H. destruct (compute_attrs (u_decls u i)) as [[a ds']|]; [|discriminate]. injection H as <- _. cbn. rewrite Nat.eqb_refl. discriminate.
Qed.

Lemma bodies_checked u w vis ts : forall st0 st' bs rs, run_bodies u w vis st0 ts = Some (st', bs, rs) ->
  (forall i, lookup_attrs st' i <> None -> lookup_attrs st0 i <> None \/ valid_annotations (u_decls u i) \/ exists d, In (EAnnotation i d) rs /\ is_error d = true) /\
  (forall i, lookup_attrs st0 i <> None -> lookup_attrs st' i <> None) /\
  (forall t i, In t ts -> In i (flat_map (expand (w_extra w)) (decls_of u w t)) -> d_skip (u_decls u i) = false -> lookup_attrs st' i <> None) /\
  (forall i d, In (EAnnotation i d) rs -> is_error d = true -> d_skip (u_decls u i) = false ->
     (exists t, In t ts /\ In i (flat_map (expand (w_extra w)) (decls_of u w t))) /\ ~ valid_annotations (u_decls u i)).
Proof.
  induction ts as [|t ts IH]; intros st0 st' bs rs R; cbn [run_bodies] in R.
  - injection R as <- <- <-. repeat split; auto; contradiction.
  - destruct (define u (w_extra w) (wk_exposer t) (visible_by_default vis t) (decls_of u w t) st0) as [[[s b] r]|] eqn:D; [|discriminate].
    destruct (run_bodies u w vis s ts) as [[[st3 bs'] rs']|] eqn:E; [|discriminate]. injection R as <- <- <-.
    destruct (IH _ _ _ _ E) as (I1 & I2 & I3 & I4). destruct (define_spec _ _ _ _ _ _ _ _ _ D) as [_ Hst Hoth Hown Hskip _ Hann _ _].
    set (l := flat_map (expand (w_extra w)) (decls_of u w t)) in *.
    assert (M : forall i, lookup_attrs st0 i <> None -> lookup_attrs s i <> None). { intros i Hi. destruct (lookup_attrs st0 i) as [a|] eqn:Ei; [|congruence]. rewrite (Hst i a Ei). discriminate. }
    split; [|split; [auto|split]].
    + intros i Hi. destruct (I1 i Hi) as [Hs|[V|(d & H1 & H2)]]; [|auto|right; right; exists d; rewrite in_app_iff; auto].
      destruct (lookup_attrs st0 i) as [a|] eqn:Ei; [left; discriminate|right].
      destruct (in_dec Nat.eq_dec i l) as [Hl|Hl]; [|rewrite Hoth in Hs by exact Hl; congruence].
      destruct (d_skip (u_decls u i)) eqn:Es; [rewrite Hskip in Hs by exact Es; congruence|].
      destruct (Hown i Hl Es Ei) as (a & (sti & ds & Hi1 & _) & _). destruct (valid_dec u i sti ds Hi1 Es) as [V|(d & H1 & H2)]; [auto|right].
      exists d. split; [|exact H2]. apply in_app_iff. left. apply Hann. split; [exact Hl|]. split; [auto|]. eauto.
    + intros t' i [<-|Ht] Hi Hs; [|eapply I3; eassumption]. apply I2. destruct (lookup_attrs st0 i) as [a|] eqn:Ei; [apply M; congruence|].
      destruct (Hown i Hi Hs Ei) as (a & _ & H). congruence.
    + intros i d Hi Hd Hs. apply in_app_iff in Hi as [Hi|Hi].
      * apply Hann in Hi as [Hl (_ & sti & ds & Hi1 & Hin)]. split; [exists t; split; [left; reflexivity|exact Hl]|]. apply (insert_valid _ _ _ _ Hi1 Hs). exists d. auto.
      * destruct (I4 i d Hi Hd Hs) as [(t' & H1 & H2) H3]. split; [exists t'; split; [right; exact H1|exact H2]|exact H3].
Qed.

Lemma late_reported u w found implicit iteration n name b files rs st' : setting u w iteration -> 0 < n ->
  generate u w found implicit iteration n name = Some (RGraph b (EWritten files rs st')) ->
  exists g vis order all chunks post, exposed u found implicit name g vis b /\ generated u w g vis (bs_annotations b) name rs st' order all post /\ layout name post all chunks files /\
    (forall i, looked_at_late u w b all i -> (~ valid_annotations (u_decls u i) <-> exists d, In (EAnnotation i d) rs /\ is_error d = true)) /\
    (forall i d, In (EAnnotation i d) rs -> is_error d = true -> d_skip (u_decls u i) = false -> looked_at_late u w b all i /\ ~ valid_annotations (u_decls u i)) /\
    (forall i, looked_at_late u w b all i -> valid_annotations (u_decls u i) \/ exists d, In (EAnnotation i d) rs /\ is_error d = true).
Proof.
  intros S Hn G. destruct (run_work u w found implicit iteration S n name b files rs st' Hn G) as (g & vis & order & all & chunks & post & X & Ge & Lay & _ & _ & ts & bs & Rb & Hc & Hcr).
  exists g, vis, order, all, chunks, post. split; [exact X|]. split; [exact Ge|]. split; [exact Lay|].
  assert (V := exposed_valid u found implicit name g vis b (se_placed _ _ _ S) X). destruct (bodies_checked u w vis ts _ _ _ _ Rb) as (B1 & B2 & B3 & B4).
  assert (Hle : forall c i, declared_in u w b c i -> In c (map ex_context all) -> exists t, In t ts /\ In i (flat_map (expand (w_extra w)) (decls_of u w t))).
  { intros c i (x & Hx & Hi) Hin. rewrite Hc in Hin. apply in_map_iff in Hin as (t & Et & Ht). exists t. split; [exact Ht|].
    assert (x = wk_exposer t) as -> by (specialize (Hcr t Ht); rewrite Et in Hcr; congruence). subst c. exact Hi. }
  split; [|split].
  - intros i (Hs & e & He & Hd). split.
    + intros N. destruct (Hle _ i Hd (in_map _ _ _ He)) as (t & Ht & Hi). destruct (B1 i (B3 t i Ht Hi Hs)) as [H|[H|H]]; [destruct N; apply V, H|contradiction|exact H].
    + intros (d & H1 & H2). apply (B4 i d H1 H2 Hs).
  - intros i d H1 H2 Hs. destruct (B4 i d H1 H2 Hs) as [(t & Ht & Hi) N]. split; [|exact N]. split; [exact Hs|].
    assert (Hin : In (wk_context t) (map ex_context all)) by (rewrite Hc; apply in_map, Ht). apply in_map_iff in Hin as (e & Ee & He). exists e. split; [exact He|].
    rewrite Ee. exists (wk_exposer t). split; [apply Hcr, Ht|exact Hi].
  - intros i (Hs & e & He & Hd). destruct (Hle _ i Hd (in_map _ _ _ He)) as (t & Ht & Hi). destruct (B1 i (B3 t i Ht Hi Hs)) as [H|H]; [left; apply V, H|exact H].
Qed.

(** ** Runs *)

Lemma exposed_early u found implicit name g vis b i : placed u -> exposed u found implicit name g vis b -> looked_at_early u i -> valid_annotations (u_decls u i).
Proof.
  intros P X Hi. assert (V := exposed_valid _ _ _ _ _ _ _ P X). apply V. destruct X as (contexts & warned & X). unfold process in X. destruct (build_graph u) as [[ok b']| |] eqn:B; try discriminate.
  destruct (collect u) as [s|] eqn:C; [|unfold build_graph in B; rewrite C in B; discriminate].
  destruct (build_checked u s P C ok b' B) as (_ & _ & (rs & Hrs) & _ & Early & E). destruct ok; [|discriminate].
  destruct (derive_effective_visibility _ _ _); [|discriminate]. destruct (expose_here_cycles _ _ _ _); [|discriminate]. destruct (contexts_with_visible_decls _ _ _ _ _ _); [|discriminate].
  destruct (hide_namespaces _ _ _ _ _ _) as [[? ?]|]; [|discriminate]. destruct (prune_graph _ _ _ _); [|discriminate]. injection X as _ _ _ _ <-. apply Early; [|exact Hi].
  symmetry in E. apply negb_true_iff in E. rewrite Hrs in E. unfold errors_occurred in *. rewrite existsb_app in E. apply orb_false_iff in E. apply E.
Qed.

Lemma success_valid env outputs name j parts : setting (j_unit j) (j_facts j) (j_iteration j) -> outputs <> [] -> succeeds env outputs name j parts ->
  exists b g vis rs st' order all chunks post, exposed (j_unit j) (j_found j) (j_implicit j) name g vis b /\
    generated (j_unit j) (j_facts j) g vis (bs_annotations b) name rs st' order all post /\ layout name post all chunks parts /\
    forall i, looked_at_early (j_unit j) i \/ looked_at_late (j_unit j) (j_facts j) b all i -> valid_annotations (u_decls (j_unit j) i).
Proof.
  intros S Ho Su. destruct Su as [_ _ _ _ (rs & (b & st' & G) & Nr)].
  assert (Hn : 0 < length outputs) by (destruct outputs; [congruence|cbn; lia]).
  destruct (late_reported _ _ _ _ _ _ _ _ _ _ _ S Hn G) as (g & vis & order & all & chunks & post & X & Ge & Lay & L1 & _ & L3).
  exists b, g, vis, rs, st', order, all, chunks, post. split; [exact X|]. split; [exact Ge|]. split; [exact Lay|]. intros i [Hi|Hi].
  - eapply exposed_early; [apply (se_placed _ _ _ S)|exact X|exact Hi].
  - destruct (L3 i Hi) as [V|(d & H1 & H2)]; [exact V|]. specialize (Nr _ H1). cbn in Nr. congruence.
Qed.

Lemma passing_valid env outputs keep name jobs fs fs' out ns k j n : main env outputs keep false name jobs fs = Some (fs', out, 0%N) -> acceptable outputs -> names name jobs ns ->
  nth_error jobs k = Some j -> nth_error ns k = Some n -> setting (j_unit j) (j_facts j) (j_iteration j) ->
  exists parts b g vis rs st' order all chunks post, succeeds env (effective outputs) n j parts /\ exposed (j_unit j) (j_found j) (j_implicit j) n g vis b /\
    generated (j_unit j) (j_facts j) g vis (bs_annotations b) n rs st' order all post /\ layout n post all chunks parts /\
    forall i, looked_at_early (j_unit j) i \/ looked_at_late (j_unit j) (j_facts j) b all i -> valid_annotations (u_decls (j_unit j) i).
Proof.
  intros H Ha Hn Hj Hk S. destruct (proj1 (exit_status _ _ _ _ _ _ _ _ _ _ _ H Ha Hn) eq_refl) as [X _]. destruct (X eq_refl) as [_ F].
  assert (Su : exists parts, succeeds env (effective outputs) n j parts).
  { clear - F Hj Hk. revert k Hj Hk. induction F as [|x y l l' Hx F IH]; intros [|k] Hj Hk; try discriminate; cbn in Hj, Hk; [injection Hj as <-; injection Hk as <-; exact Hx|eapply IH; eassumption]. }
  destruct Su as (parts & Su).
  destruct (success_valid env (effective outputs) n j parts S) as (b & g & vis & rs & st' & order & all & chunks & post & Y); [unfold effective; destruct outputs; discriminate|exact Su|].
  exists parts, b, g, vis, rs, st', order, all, chunks, post. tauto.
Qed.
