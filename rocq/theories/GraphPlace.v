(** * Proofs about places of exposure and attributes of relocated types *)
From Verif Require Import Base ParserModel AnnotModel AnnotSpec AnnotProofs CollectModel CollectSpec CollectProofs GraphModel GraphSpec GraphWalk GraphBuild.

Section Place.
Context (u : unit) (P : placed u) (s : cstate) (Hc : collect u = Some s) (b : bstate) (B : built u s b).

Lemma edge_iff p c : edge (bs_graph b) p c <-> place u p c.
Proof.
  destruct (collected_declarations u s (pl_sane u P) Hc) as (_ & _ & _ & C & _).
  unfold edge, place. rewrite (bt_edges _ _ _ B), in_app_iff. unfold relocation_edges. rewrite !in_map_iff. split.
  - intros [([t a] & E & H)|(c' & E & H)].
    + injection E as <- <-. left. exists a. assert (Hr := proj2 (bt_relocates _ _ _ B a t) H). split; [exact Hr|].
      destruct Hr as (x & (Hs & _) & _). destruct (lookup_context_total u a P Hs) as (p & Hp). cbn [snd]. unfold ctx. rewrite Hp. apply lookup_context_iff, Hp.
    + injection E as <- <-. right. apply filter_In in H as [H Hr]. assert (Hx := H). apply C in Hx as (H1 & H2 & H3).
      split; [|repeat (split; [assumption|])].
      * intros a Ha. apply (bt_relocates _ _ _ B) in Ha. rewrite (assoc_nodup _ _ _ (bt_nodup _ _ _ B) Ha) in Hr. discriminate.
      * apply lookup_context_iff. apply (contexts_ok u P s Hc c' H).
  - intros [(a & Hr & Hn)|(Hno & H1 & H2 & H3 & Hn)].
    + left. exists (c, a). split; [|apply (bt_relocates _ _ _ B), Hr]. cbn. apply lookup_context_iff in Hn. unfold ctx. rewrite Hn. reflexivity.
    + right. exists c. apply lookup_context_iff in Hn. unfold ctx. rewrite Hn. split; [reflexivity|]. apply filter_In. split; [apply C; auto|].
      destruct (assoc (bs_relocated b) c) as [a|] eqn:E; [|reflexivity]. exfalso. apply (Hno a). apply (bt_relocates _ _ _ B), assoc_in, E.
Qed.

Lemma target_kind a t : relocates u a t -> is_tag_kind (kind u t) = true.
Proof. intros (x & (H1 & H2 & H3 & H4 & _) & _). apply (pl_target u P a t); auto. Qed.

Lemma built_tree : tree_like (bs_graph b) (u_root u).
Proof.
  destruct (collected_declarations u s (pl_sane u P) Hc) as (_ & _ & _ & C & (D & _) & _).
  assert (E1 : map snd (relocation_edges u (bs_relocated b)) = map fst (bs_relocated b)).
  { unfold relocation_edges. rewrite map_map. apply map_ext. reflexivity. }
  assert (E2 : forall l, map snd (map (fun c => (ctx u c, c)) l) = l).
  { intros l. rewrite map_map. cbn. apply map_id. }
  constructor.
  - rewrite (bt_edges _ _ _ B), map_app, E1, E2.
    assert (H1 := bt_nodup _ _ _ B). assert (H2 := NoDup_filter (fun c => match assoc (bs_relocated b) c with None => true | Some _ => false end) D).
    assert (H3 : forall x, In x (map fst (bs_relocated b)) -> ~ In x (filter (fun c => match assoc (bs_relocated b) c with None => true | Some _ => false end) (cs_contexts s))).
    { intros x Hx Hf. apply filter_In in Hf as [_ Hf]. destruct (assoc (bs_relocated b) x) eqn:E; [discriminate|]. apply assoc_none in E. contradiction. }
    revert H1 H2 H3. generalize (map fst (bs_relocated b)) (filter (fun c => match assoc (bs_relocated b) c with None => true | Some _ => false end) (cs_contexts s)).
    intros x y. induction x as [|a x IHx]; cbn; [auto|]. intros A0 B0 D0. inversion A0; subst. constructor.
    + rewrite in_app_iff. intros [?|?]; [contradiction|]. apply (D0 a); auto.
    + apply IHx; auto.
  - intros H. apply in_map_iff in H as ([p c] & E & H). cbn in E. subst c. apply edge_iff in H. assert (Hk := pl_root_kind u P).
    destruct H as [(a & Hr & _)|(_ & _ & Hk' & _)].
    + apply target_kind in Hr. rewrite Hk in Hr. discriminate.
    + rewrite Hk in Hk'. destruct Hk' as [?|[?|?]]; discriminate.
  - apply (bt_nodes_nodup _ _ _ B).
  - apply (bt_nodes _ _ _ B). auto.
  - intros p c H. split; apply (bt_nodes _ _ _ B); right; exists p, c; auto.
Qed.

Lemma relocates_unique a a' t : relocates u a t -> relocates u a' t -> a = a'.
Proof.
  intros H H'. apply (bt_relocates _ _ _ B) in H, H'. apply (assoc_nodup _ _ _ (bt_nodup _ _ _ B)) in H, H'. congruence.
Qed.

(** ** Attributes *)
Let st0 := cs_annotations s.
Let acts (t a : nat) : bool := (enc st0 a || exp st0 a) && Nat.eqb t (tgt u a).
Let act1 (a : nat) (y : attrs) : attrs :=
  let y1 := if enc st0 a then set_visible (Some true) y else y in if exp st0 a then take_over u a (alias_attrs st0 a) y1 else y1.
Let acted1 (al : list nat) (t : nat) (y : attrs) : attrs := fold_left (fun y a => if acts t a then act1 a y else y) al y.

Lemma acted_simple al t : forall rel y, conflicts u st0 rel al = [] -> acted u st0 rel al t y = acted1 al t y.
Proof.
  induction al as [|a al IH]; intros rel y Hcf; cbn [acted conflicts] in *; [reflexivity|].
  apply app_eq_nil in Hcf as [H1 H2]. rewrite (IH _ _ H2). unfold acted1. cbn [fold_left]. fold (acts t a). destruct (acts t a); [|reflexivity].
  f_equal. unfold act, act1. unfold new_conflicts in H1. destruct (exp st0 a); [|reflexivity]. destruct (assoc rel (tgt u a)); [discriminate|reflexivity].
Qed.

Lemma no_conflicts : conflicts u st0 [] (cs_aliases s) = [].
Proof. apply (bt_conflicts _ _ _ B). Qed.

Lemma acts_iff t a : In a (cs_aliases s) -> (acts t a = true <-> relocates u a t \/ encourages u a t).
Proof.
  intros Ha. rewrite (relocates_iff u P s Hc), (encourages_iff u P s Hc). fold st0. unfold acts. rewrite andb_true_iff, orb_true_iff, Nat.eqb_eq.
  destruct (bt_aliases _ _ _ B a Ha) as (_ & _ & E & _). rewrite E. split.
  - intros [[H|H] ->]; auto.
  - intros [(_ & E1 & H)|(_ & E1 & H)]; injection E1 as <-; auto.
Qed.

Lemma act1_named a y : exists n, act1 a y = set_named (fun _ => n) y.
Proof.
  unfold act1, take_over, set_visible, set_spelling, set_named. destruct (enc st0 a), (exp st0 a); cbn; try (eexists; reflexivity).
  exists (at_named y). destruct y; reflexivity.
Qed.

Lemma acted1_named al t y : same_but_named (acted1 al t y) y.
Proof.
  unfold same_but_named. induction al as [|a al IH] using rev_ind; unfold acted1 in *.
  - exists (at_named y). destruct y; reflexivity.
  - rewrite fold_left_app. cbn [fold_left]. destruct (acts t a); [|exact IH].
    destruct (act1_named a (fold_left (fun y a => if acts t a then act1 a y else y) al y)) as (n & ->). destruct IH as (m & ->). exists n. reflexivity.
Qed.

Lemma acted1_last al t y :
  (existsb (acts t) al = false /\ acted1 al t y = y) \/
  (exists l1 a l2, al = l1 ++ a :: l2 /\ acts t a = true /\ (forall x, In x l2 -> acts t x = false) /\
     n_visible (at_named (acted1 al t y)) = if exp st0 a then n_visible (at_named (alias_attrs st0 a)) else Some true).
Proof.
  induction al as [|a al IH] using rev_ind; unfold acted1 in *.
  - left. auto.
  - rewrite fold_left_app. cbn [fold_left]. destruct (acts t a) eqn:E.
    + right. exists al, a, []. split; [reflexivity|]. split; [exact E|]. split; [contradiction|].
      unfold act1. unfold acts in E. destruct (exp st0 a) eqn:Ex; [reflexivity|]. destruct (enc st0 a); [reflexivity|discriminate].
    + rewrite existsb_app. cbn [existsb]. rewrite E, orb_false_r. destruct IH as [[H1 H2]|(l1 & c & l2 & -> & H1 & H2 & H3)]; [left; auto|right].
      exists l1, c, (l2 ++ [a]). rewrite <- app_assoc. split; [reflexivity|]. split; [exact H1|]. split; [|exact H3].
      intros x Hx. apply in_app_iff in Hx as [Hx|[<-|[]]]; auto.
Qed.

Lemma acted1_spelling al t y : (forall a, In a al -> acts t a = true -> exp st0 a = false) -> n_spelling (at_named (acted1 al t y)) = n_spelling (at_named y).
Proof.
  revert y. induction al as [|a al IH]; intros y H; unfold acted1 in *; cbn [fold_left]; [reflexivity|].
  rewrite IH by (intros; apply H; [right|]; assumption). destruct (acts t a) eqn:E; [|reflexivity]. unfold act1.
  rewrite (H a (or_introl eq_refl) E). destruct (enc st0 a); reflexivity.
Qed.

Lemma acted1_relocated al t y a : In a al -> acts t a = true -> exp st0 a = true -> (forall c, In c al -> acts t c = true -> exp st0 c = true -> c = a) ->
  n_spelling (at_named (acted1 al t y)) = match n_spelling (at_named (alias_attrs st0 a)) with [] => u_name u a | x => x end.
Proof.
  intros Hin Ha Hx Hu. induction al as [|c al IH] using rev_ind; [contradiction|]. unfold acted1 in *. rewrite fold_left_app. cbn [fold_left].
  destruct (acts t c) eqn:E.
  - destruct (exp st0 c) eqn:Ec.
    + assert (c = a) as ->. { apply Hu; auto. apply in_app_iff. cbn. auto. }
      unfold act1. rewrite Ec. reflexivity.
    + apply in_app_iff in Hin as [Hin|[->|[]]]; [|congruence]. unfold act1. rewrite Ec.
      rewrite <- (IH Hin) by (intros d Hd; apply Hu; apply in_app_iff; auto). destruct (enc st0 c); reflexivity.
  - apply in_app_iff in Hin as [Hin|[->|[]]]; [|congruence]. apply (IH Hin). intros d Hd; apply Hu; apply in_app_iff; auto.
Qed.

Lemma base_own t : is_tag_kind (kind u t) = true -> d_skip (u_decls u t) = false -> own_attributes u t (base u st0 t).
Proof.
  intros Ht Hsk. unfold base. destruct (own_tag u t) as (y & Hy). { intros E. rewrite E in Ht. discriminate. }
  assert (Hl : lookup_attrs st0 t = None \/ lookup_attrs st0 t = Some y).
  { assert (E := collect_effect u s (pl_sane u P) Hc). destruct (in_dec Nat.eq_dec t (source_order u)) as [Hi|Hi].
    - unfold st0. rewrite (ef_mine _ _ _ _ _ E t Hi). destruct (counts_b u t); auto.
    - unfold st0. rewrite (ef_other _ _ _ _ _ E t Hi). auto. }
  assert (X : own_attributes u t y).
  { unfold own_attributes, insert. rewrite Hsk. cbn. unfold own in Hy. destruct (compute_attrs (u_decls u t)) as [[y' ds]|]; [|discriminate].
    cbn in Hy. injection Hy as ->. eexists _, _. split; [reflexivity|]. cbn. rewrite Nat.eqb_refl. reflexivity. }
  destruct Hl as [-> | ->]; [rewrite Hy|]; exact X.
Qed.

Lemma touched_acts al t : touched u st0 al t = existsb (acts t) al.
Proof. reflexivity. Qed.

Lemma touched_iff t : touched u st0 (cs_aliases s) t = true <-> exists a, relocates u a t \/ encourages u a t.
Proof.
  rewrite touched_acts, existsb_exists. split.
  - intros (a & Ha & H). exists a. apply acts_iff; auto.
  - intros (a & H). assert (Ha : In a (cs_aliases s)).
    { destruct H as [H|H]; [apply (relocates_iff u P s Hc) in H|apply (encourages_iff u P s Hc) in H]; apply H. }
    exists a. split; [exact Ha|]. apply acts_iff; auto.
Qed.

Lemma aliases_before a c : In a (cs_aliases s) -> In c (cs_aliases s) -> (before (cs_aliases s) a c <-> precedes u a c).
Proof.
  destruct (collected_declarations u s (pl_sane u P) Hc) as (_ & _ & _ & _ & _ & _ & (Hn & Hb)). intros Ha Hcin. split; [apply Hb|].
  intros Hp. assert (Hns := sane_nodup u (pl_sane u P)). destruct (Nat.eq_dec a c) as [->|Hne].
  - exfalso. apply (before_antisym (source_order u) c c Hns Hp Hp).
  - destruct (before_total (cs_aliases s) a c Ha Hcin Hne) as [H|H]; [exact H|]. exfalso. apply (before_antisym (source_order u) a c Hns Hp). apply Hb, H.
Qed.

Lemma untouched_attrs t : (forall a, ~ relocates u a t) -> (forall a, ~ encourages u a t) ->
  lookup_attrs (bs_annotations b) t = lookup_attrs (cs_annotations s) t.
Proof.
  intros H1 H2. rewrite (bt_attrs _ _ _ B). destruct (touched u (cs_annotations s) (cs_aliases s) t) eqn:E; [|reflexivity].
  apply touched_iff in E as (a & [E|E]); exfalso; [eapply H1|eapply H2]; eauto.
Qed.

Lemma target_ok a t : relocates u a t \/ encourages u a t -> is_tag_kind (kind u t) = true /\ d_skip (u_decls u t) = false.
Proof. intros [(x & (H1 & H2 & H3 & H4 & _) & _)|(x & (H1 & H2 & H3 & H4 & _) & _)]; apply (pl_target u P a t); auto. Qed.

Lemma touched_attrs a0 t : relocates u a0 t \/ encourages u a0 t ->
  exists y z, lookup_attrs (bs_annotations b) t = Some y /\ own_attributes u t z /\ same_but_named y z /\
    (* name *)
    (forall a x, relocates u a t -> own_attributes u a x ->
       n_spelling (at_named y) = match n_spelling (at_named x) with [] => u_name u a | n => n end) /\
    ((forall a, ~ relocates u a t) -> n_spelling (at_named y) = n_spelling (at_named z)) /\
    (* visibility *)
    (forall a x, relocates u a t -> own_attributes u a x -> (forall e, encourages u e t -> ~ precedes u a e) ->
       n_visible (at_named y) = n_visible (at_named x)) /\
    (forall e, encourages u e t -> (forall a, relocates u a t -> precedes u a e) -> n_visible (at_named y) = Some true).
Proof.
  intros H0. destruct (target_ok a0 t H0) as [Ht Hsk].
  assert (Htch : touched u (cs_annotations s) (cs_aliases s) t = true) by (apply touched_iff; eauto).
  assert (Hl := bt_attrs _ _ _ B t). rewrite Htch in Hl. fold st0 in Hl. rewrite (acted_simple _ _ _ _ no_conflicts) in Hl.
  assert (Ha : forall a, relocates u a t -> In a (cs_aliases s) /\ exp st0 a = true /\ acts t a = true).
  { intros a H. assert (X := H). apply (relocates_iff u P s Hc) in X as (X1 & X2 & X3). repeat split; auto. apply acts_iff; auto. }
  assert (He : forall a, encourages u a t -> In a (cs_aliases s) /\ acts t a = true).
  { intros a H. assert (X := H). apply (encourages_iff u P s Hc) in X as (X1 & X2 & X3). repeat split; auto. apply acts_iff; auto. }
  assert (Hx : forall a x, In a (cs_aliases s) -> own_attributes u a x -> alias_attrs st0 a = x).
  { intros a x Hin Ho. apply (collected_alias u P s Hc a x Hin) in Ho. unfold alias_attrs. unfold st0. rewrite Ho. reflexivity. }
  assert (Hexp : forall a, In a (cs_aliases s) -> acts t a = true -> exp st0 a = true -> relocates u a t).
  { intros a Hin Hact Hex. apply (relocates_iff u P s Hc). split; [exact Hin|]. split; [|exact Hex]. unfold acts in Hact.
    apply andb_true_iff in Hact as [_ Hact]. apply Nat.eqb_eq in Hact. subst t. apply (bt_aliases _ _ _ B a Hin). }
  assert (Henc : forall a, In a (cs_aliases s) -> acts t a = true -> exp st0 a = false -> encourages u a t).
  { intros a Hin Hact Hex. apply acts_iff in Hact as [H|H]; auto. apply Ha in H as (_ & H & _). congruence. }
  destruct (collected_declarations u s (pl_sane u P) Hc) as (_ & _ & _ & _ & _ & _ & (Hnd & _)).
  assert (Hlast := acted1_last (cs_aliases s) t (base u st0 t)).
  destruct Hlast as [[Hno _]|(l1 & c & l2 & Eal & Hc1 & Hc2 & Hvis)].
  { rewrite touched_acts in Htch. fold st0 in Htch. congruence. }
  assert (Hcin : In c (cs_aliases s)) by (rewrite Eal; apply in_app_iff; cbn; auto).
  assert (Hlater : forall d, In d (cs_aliases s) -> acts t d = true -> ~ precedes u c d).
  { intros d Hd Hact Hp. apply aliases_before in Hp; auto. rewrite Eal in Hp, Hnd. clear -Hp Hnd Hact Hc2.
    apply before_app in Hp as [Hp|[Hp|[Hp1 Hp2]]].
    - apply before_in in Hp as [Hp _]. apply NoDup_remove_2 in Hnd. apply Hnd, in_app_iff. auto.
    - apply before_cons in Hp as [[_ Hp]|Hp]; [rewrite (Hc2 d Hp) in Hact; discriminate|].
      apply before_in in Hp as [Hp _]. apply NoDup_remove_2 in Hnd. apply Hnd, in_app_iff. auto.
    - apply NoDup_remove_2 in Hnd. apply Hnd, in_app_iff. auto. }
  assert (Htot : forall a d, In a (cs_aliases s) -> In d (cs_aliases s) -> a = d \/ precedes u a d \/ precedes u d a).
  { intros a d H1 H2. destruct (Nat.eq_dec a d) as [E|E]; [auto|]. destruct (before_total _ a d H1 H2 E) as [H|H]; [right; left|right; right]; apply aliases_before; auto. }
  exists (acted1 (cs_aliases s) t (base u st0 t)), (base u st0 t).
  split; [exact Hl|]. split; [apply base_own; auto|]. split; [apply acted1_named|]. split; [|split; [|split]].
  - intros a x H Ho. destruct (Ha a H) as (A1 & A2 & A3). rewrite (acted1_relocated _ _ _ a A1 A3 A2).
    + rewrite (Hx a x A1 Ho). reflexivity.
    + intros d D1 D2 D3. apply (relocates_unique d a t); auto.
  - intros Hno. apply acted1_spelling. intros a A1 A2. destruct (exp st0 a) eqn:E; [|reflexivity]. exfalso. apply (Hno a), Hexp; auto.
  - intros a x H Ho Hlate. rewrite Hvis. destruct (exp st0 c) eqn:Ec.
    + assert (c = a) as -> by (apply (relocates_unique c a t); auto). rewrite (Hx a x Hcin Ho). reflexivity.
    + exfalso. assert (Hce : encourages u c t) by (apply Henc; auto). destruct (Ha a H) as (A1 & A2 & A3).
      destruct (Htot a c A1 Hcin) as [->|[Hp|Hp]]; [congruence|apply (Hlate c Hce Hp)|apply (Hlater a A1 A3 Hp)].
  - intros e H Hlate. rewrite Hvis. destruct (exp st0 c) eqn:Ec; [|reflexivity]. exfalso. destruct (He e H) as (E1 & E2).
    apply (Hlater e E1 E2). apply Hlate. apply Hexp; auto.
Qed.
End Place.

Section Theorems.
Context (u : unit) (P : placed u).

Lemma build_never_asserts : build_graph u <> AssertFails /\ (build_graph u = NestedReport <-> collect u = None).
Proof.
  destruct (collect u) as [s|] eqn:Hc.
  - destruct (build_cases u P s Hc) as [(_ & b & -> & _)|(_ & ok & b & rs & -> & _)]; (split; [discriminate|split; discriminate]).
  - unfold build_graph. rewrite Hc. split; [discriminate|]. tauto.
Qed.

Lemma build_done ok b : build_graph u = Done (ok, b) ->
  exists s, collect u = Some s /\ incl (cs_reports s) (bs_reports b) /\ ok = negb (errors_occurred (bs_reports b)) /\ (ok = true -> built u s b).
Proof.
  intros H. destruct (collect u) as [s|] eqn:Hc; [|unfold build_graph in H; rewrite Hc in H; discriminate].
  exists s. split; [reflexivity|]. destruct (build_cases u P s Hc) as [(He & b' & E & Hr)|(He & ok' & b' & rs & E & Hr & _ & Hok & Hb)]; rewrite H in E; injection E as -> ->.
  - rewrite Hr, He. split; [apply incl_refl|]. split; [reflexivity|discriminate].
  - split; [rewrite Hr; apply incl_appl, incl_refl|]. auto.
Qed.
End Theorems.
