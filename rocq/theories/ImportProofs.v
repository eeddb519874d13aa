(** * Proofs about importing the generated module *)
From Coq Require Import Sorting.Permutation.
From Verif Require Import Base ParserModel AnnotModel CollectModel GraphModel GraphSpec OrderModel OrderSpec InlineModel InlineSpec EmitModel EmitSpec ModuleModel ModuleSpec ModuleProofs
  ModuleChunks ModuleFinal GraphFinal ImportSpec.

Lemma same_object_spec o p : same_object o p = true <-> o = p.
Proof.
  destruct o as [a|r|r], p as [b|q|q]; cbn; split; intro H; try discriminate H; try (apply Nat.eqb_eq in H; congruence).
  - destruct (list_eq_dec (list_eq_dec ascii_dec) a b); [congruence|discriminate H].
  - injection H as ->. destruct (list_eq_dec (list_eq_dec ascii_dec) b b); [reflexivity|congruence].
  - injection H as ->. apply Nat.eqb_refl.
  - injection H as ->. apply Nat.eqb_refl.
Qed.

Lemma value_cons s id o vs as_ ts n : s = mkState ((id, o) :: vs) as_ ts -> value s n = if str_eqb id n then Some o else value (mkState vs as_ ts) n.
Proof. intros ->. unfold value. cbn. destruct (str_eqb id n); reflexivity. Qed.

Lemma attribute_cons vs o n c as_ ts p m : attribute (mkState vs ((o, n, c) :: as_) ts) p m = if same_object o p && str_eqb n m then Some c else attribute (mkState vs as_ ts) p m.
Proof. unfold attribute. cbn. destruct (same_object o p && str_eqb n m); reflexivity. Qed.

Lemma holding_cons vs as_ r d ts q : holding (mkState vs as_ ((r, d) :: ts)) q = if Nat.eqb r q then Some d else holding (mkState vs as_ ts) q.
Proof. unfold holding. cbn. destruct (Nat.eqb r q); reflexivity. Qed.

Lemma blocks_represent u seen l r : blocks u seen l r -> forall reps, (forall d, In d seen -> exists f, In f reps /\ (f = d \/ same_namespace u f d)) ->
  forall c, In c l -> exists f, In f (reps ++ r) /\ (f = c \/ same_namespace u f c).
Proof.
  assert (Htrans : forall f d c, f = d \/ same_namespace u f d -> same_namespace u d c -> same_namespace u f c).
  { intros f d c [->|(H1 & H2 & H3)]; [auto|]. intros (H4 & H5 & H6). repeat split; congruence. }
  induction 1 as [seen|seen c l r H B IH|seen d c l r H Hs B IH]; intros reps Hr x Hx; [destruct Hx| |].
  - assert (Hr' : forall d, In d (seen ++ [c]) -> exists f, In f (reps ++ [c]) /\ (f = d \/ same_namespace u f d)).
    { intros d Hd. apply in_app_iff in Hd as [Hd|[<-|[]]]; [destruct (Hr d Hd) as (f & Hf & Hfd); exists f; split; [apply in_app_iff; now left|exact Hfd]|].
      exists c. split; [apply in_app_iff; right; now left|now left]. }
    destruct Hx as [<-|Hx]; [exists c; split; [apply in_app_iff; right; now left|now left]|].
    destruct (IH _ Hr' x Hx) as (f & Hf & Hfx). exists f. split; [|exact Hfx]. rewrite <- app_assoc in Hf. exact Hf.
  - assert (Hc : exists f, In f reps /\ (f = c \/ same_namespace u f c)) by (destruct (Hr d H) as (f & Hf & Hfd); exists f; split; [exact Hf|right; exact (Htrans _ _ _ Hfd Hs)]).
    destruct Hx as [<-|Hx]; [destruct Hc as (f & Hf & Hfc); exists f; split; [apply in_app_iff; now left|exact Hfc]|].
    apply (IH reps); [|exact Hx]. intros e He. apply in_app_iff in He as [He|[<-|[]]]; [exact (Hr e He)|exact Hc].
Qed.

Section Import.
Context (default_holder : str -> bool) (u : unit) (w : facts) (g : graph) (vis : dmap bool) (st : storage) (name : str) (rs : list ereport) (st' : storage)
  (order : list nat) (all : list entry) (post : list nat).
Context (T : tree_like g (u_root u)) (K : kind u (u_root u) = KOther) (R : forall n, In n (g_nodes g) -> reachable g (u_root u) n)
  (Pl : forall p c, edge g p c -> place u p c) (Pu : placed u) (L : language u w)
  (G : generated u w g vis st name rs st' order all post).
Context (Nested : forall c p, In c (g_nodes g) -> scope_of u st g c p -> is_tag_kind (kind u c) = false -> is_tag_kind (kind u p) = false).
Context (Blocks : nested_blocks u) (Agree : agreeing_blocks u st g) (Distinct : distinct_names u st g).

Notation located := (located u st g).
Notation scope_of := (scope_of u st g).
Notation found_in := (found_in u st g).

Lemma named_unique c n m : named u st c n -> named u st c m -> n = m.
Proof. unfold named, called. destruct (lookup_attrs st c); [intuition congruence|congruence]. Qed.

Lemma scope_unique c p q : scope_of c p -> scope_of c q -> p = q.
Proof.
  intros (l1 & l2 & Hl & Hq & H1) (m1 & m2 & Hm & Hp & H2). assert (E' := path_unique u g T _ Hl _ Hm eq_refl). injection E' as E'.
  clear - E' Hq H1 Hp H2. revert m1 E' H2. induction l1 as [|x l1 IH]; intros [|y m1] E' H2; cbn in E'.
  + injection E' as -> _. reflexivity.
  + injection E' as -> _. exfalso. apply Hq, H2. left. reflexivity.
  + injection E' as -> _. exfalso. apply Hp, H1. left. reflexivity.
  + injection E' as -> E'. apply (IH (fun z H => H1 z (or_intror H)) m1 E'). intros z H. apply H2. right. exact H.
Qed.

Lemma located_unique c o : located c o -> forall p, located c p -> o = p.
Proof.
  induction 1 as [|c Hc|c Hc|c p path n Hm Hs Hl IH Hn|c p o Hk Hm Hs Hl IH]; intros q Hq.
  - inversion Hq as [E|c Hc E|c Hc E|c p path n Hm _ _ _ E|c p o Hk _ _ _ E]; subst; try congruence. destruct Hm as [Hm _]. congruence.
  - inversion Hq as [E|c' Hc' E|c' Hc' E|c' p path n Hm _ _ _ E|c' p o Hk _ _ _ E]; subst; try congruence. destruct Hm as [Hm _]. congruence.
  - inversion Hq as [E|c' Hc' E|c' Hc' E|c' p path n Hm _ _ _ E|c' p o Hk _ _ _ E]; subst; try congruence. destruct Hm as [Hm _]. congruence.
  - inversion Hq as [E|c' Hc' E|c' Hc' E|c' p' path' n' Hm' Hs' Hl' Hn' E|c' p' o' Hk Hm' _ _ E]; subst; try (destruct Hm as [Hm _]; congruence); [|contradiction].
    rewrite (scope_unique _ _ _ Hs' Hs) in Hl'. assert (E := IH _ Hl'). injection E as <-. now rewrite (named_unique _ _ _ Hn Hn').
  - inversion Hq as [E|c' Hc' E|c' Hc' E|c' p' path' n' Hm' Hs' Hl' Hn' E|c' p' o' Hk' Hm' Hs' Hl' E]; subst; try congruence.
    rewrite (scope_unique _ _ _ Hs' Hs) in Hl'. exact (IH _ Hl').
Qed.

Lemma path_nodes l : path (edge g) (u_root u) l -> forall c, In c l -> In c (g_nodes g).
Proof.
  induction 1 as [|p c l Hp IH He]; intros d Hd.
  - destruct Hd as [<-|[]]. apply (tl_root_node _ _ T).
  - destruct Hd as [<-|Hd]; [exact (proj2 (tl_ends _ _ T _ _ He))|exact (IH d Hd)].
Qed.

Lemma scope_nodes c p : scope_of c p -> In c (g_nodes g) /\ In p (g_nodes g).
Proof.
  intros (l1 & l2 & Hl & _). split; apply (path_nodes _ Hl); [now left|]. right. apply in_app_iff. right. now left.
Qed.

(** Objects for namespaces are modules. *)
Lemma located_mod c o : located c o -> is_tag_kind (kind u c) = false -> exists path, o = Mod path.
Proof.
  induction 1 as [|c Hc|c Hc|c p path n Hm Hs Hl IH Hn|c p o Hk Hm Hs Hl IH]; intro H; try (rewrite Hc in H; discriminate H); eauto.
  apply IH, (Nested c p); [exact (proj1 (scope_nodes _ _ Hs))|exact Hs|exact H].
Qed.

Lemma tail_path c l : path (edge g) (u_root u) (c :: l) -> c <> u_root u -> exists p r, l = p :: r /\ path (edge g) (u_root u) l /\ edge g p c.
Proof. intros H Hc. inversion H as [E|p d r Hp He E]; subst; [congruence|]. eauto. Qed.

Lemma namespace_nearest p c : edge g p c -> kind u c = KNamespace -> nearest_context u c p.
Proof.
  intros He Hk. destruct (Pl _ _ He) as [(a & (x & Ha & _) & _)|(_ & _ & _ & _ & Hn)]; [|exact Hn].
  destruct Ha as (H1 & H2 & H3 & H4 & _). destruct (pl_target u Pu a c H1 H2 H3 H4) as [H _]. rewrite Hk in H. discriminate H.
Qed.

Lemma namespace_root c : kind u c = KNamespace -> c <> u_root u.
Proof. intros H ->. congruence. Qed.

Lemma transparent_same c d : In c (g_nodes g) -> In d (g_nodes g) -> same_namespace u c d -> transparent u st c -> transparent u st d.
Proof. intros Hc Hd S (_ & a & Ha & Hm). split; [apply S|]. exists a. split; [|exact Hm]. rewrite <- Ha. symmetry. exact (Agree c d Hc Hd S). Qed.

Lemma same_sym c d : same_namespace u c d -> same_namespace u d c.
Proof. intros (? & ? & ?). repeat split; auto. Qed.

Lemma scope_same l1 : forall c d p l2, path (edge g) (u_root u) (c :: l1 ++ p :: l2) -> ~ transparent u st p -> (forall q, In q l1 -> transparent u st q) ->
  same_namespace u c d -> In d (g_nodes g) -> exists q, scope_of d q /\ (p = q \/ same_namespace u p q).
Proof.
  induction l1 as [|c1 l1 IH]; intros c d p l2 Hp Hn Ht S Hd.
  all: assert (Hdr : d <> u_root u) by (apply namespace_root, S); destruct (R d Hd) as (ld & Hld); destruct (tail_path _ _ Hld Hdr) as (d1 & rd & -> & Hld1 & Hed).
  all: assert (Hcr : c <> u_root u) by (apply namespace_root, S); destruct (tail_path _ _ Hp Hcr) as (c1' & rc & E & Hlc1 & Hec); cbn [app] in E; injection E as <- <-.
  all: destruct (proj2 (Blocks c d S) _ _ (namespace_nearest _ _ Hec (proj1 S)) (namespace_nearest _ _ Hed (proj1 (proj2 S)))) as [<-|S1].
  - exists p. split; [|now left]. exists [], rd. split; [exact Hld|]. split; [exact Hn|intros q []].
  - exists d1. split; [|now right]. exists [], rd. split; [exact Hld|]. split; [|intros q []]. intro H. apply Hn.
    apply (transparent_same d1 p); [exact (proj1 (tl_ends _ _ T _ _ Hed))|exact (proj1 (tl_ends _ _ T _ _ Hec))|now apply same_sym|exact H].
  - exists p. split; [|now left]. exists (c1 :: l1), l2. split; [|split; [exact Hn|exact Ht]]. cbn [app]. constructor; [exact Hlc1|exact Hed].
  - destruct (IH c1 d1 p l2 Hlc1 Hn (fun q Hq => Ht q (or_intror Hq)) S1 (proj1 (tl_ends _ _ T _ _ Hed))) as (q & (m1 & m2 & Hm & Hq & Hmt) & Hpq).
    exists q. split; [|exact Hpq]. exists (d1 :: m1), m2. split; [constructor; [exact Hm|exact Hed]|]. split; [exact Hq|].
    intros z [<-|Hz]; [|exact (Hmt z Hz)]. apply (transparent_same c1 d1); [exact (proj1 (tl_ends _ _ T _ _ Hec))|exact (proj1 (tl_ends _ _ T _ _ Hed))|exact S1|apply Ht; now left].
Qed.

Lemma submodule_same c d : In c (g_nodes g) -> In d (g_nodes g) -> same_namespace u c d -> is_submodule u st c -> is_submodule u st d.
Proof. intros Hc Hd S (_ & a & Ha & Hm). split; [apply S|]. exists a. split; [|exact Hm]. rewrite <- Ha. symmetry. exact (Agree c d Hc Hd S). Qed.

Lemma named_same c d n : In c (g_nodes g) -> In d (g_nodes g) -> same_namespace u c d -> named u st c n -> named u st d n.
Proof. intros Hc Hd S. unfold named, called. rewrite (Agree c d Hc Hd S), (proj1 (Blocks c d S)). auto. Qed.

Lemma located_same c o : located c o -> forall d, same_namespace u c d -> In d (g_nodes g) -> located d o.
Proof.
  induction 1 as [|c Hc|c Hc|c p path n Hm Hs Hl IH Hn|c p o Hk Hm Hs Hl IH]; intros d S Hd; try (destruct S as (S & _); congruence).
  - destruct (scope_nodes _ _ Hs) as [Nc Np]. pose proof Hs as Hs'. destruct Hs' as (l1 & l2 & Hp & Hq & Ht).
    destruct (scope_same l1 c d p l2 Hp Hq Ht S Hd) as (q & Hsq & Hpq).
    apply (located_module _ _ _ d q path n); [exact (submodule_same _ _ Nc Hd S Hm)|exact Hsq| |exact (named_same _ _ _ Nc Hd S Hn)].
    destruct Hpq as [<-|Hpq]; [exact Hl|]. apply IH; [exact Hpq|exact (proj2 (scope_nodes _ _ Hsq))].
  - destruct (scope_nodes _ _ Hs) as [Nc Np]. pose proof Hs as Hs'. destruct Hs' as (l1 & l2 & Hp & Hq & Ht).
    destruct (scope_same l1 c d p l2 Hp Hq Ht S Hd) as (q & Hsq & Hpq).
    apply (located_namespace _ _ _ d q o); [apply S| |exact Hsq|].
    + intro H. apply Hm. exact (submodule_same d c Hd Nc (same_sym _ _ S) H).
    + destruct Hpq as [<-|Hpq]; [exact Hl|]. apply IH; [exact Hpq|exact (proj2 (scope_nodes _ _ Hsq))].
Qed.

(** ** Introduction of objects *)

Definition typed (e : entry) (d : bool) : Prop :=
  match ex_intro e with NClass t _ _ _ => d = default_holder (ct_holder t) | NEnum _ _ _ _ => d = true | _ => False end.

Record so_far (l : list entry) (s : state) : Prop := {
  co_names : map fst (s_variables s) = rev (map ex_id l) ++ [$"root"];
  co_root : value s ($"root") = Some (Mod []);
  co_values : forall f, In f l -> exists o, value s (ex_id f) = Some o /\ located (ex_context f) o;
  co_attributes : forall f o n, In f l -> found_in (ex_context f) o n -> exists v, attribute s o n = Some v /\ located (ex_context f) v;
  co_only : forall o n v, attribute s o n = Some v -> exists f, In f l /\ found_in (ex_context f) o n /\ located (ex_context f) v;
  co_types : forall r d, holding s r = Some d -> exists f, In f l /\ ex_context f = r /\ typed f d;
  co_registered : forall f, In f l -> is_tag_kind (kind u (ex_context f)) = true -> holding s (ex_context f) <> None
}.

Lemma value_none s l n : so_far l s -> ~ In n (map ex_id l) -> n <> $"root" -> value s n = None.
Proof.
  intros C Hn Hr. unfold value. destruct (find _ (s_variables s)) as [[m o]|] eqn:E; [|reflexivity]. apply find_some in E as [Hin E]. apply str_eqb_eq in E. cbn in E. subst m.
  assert (H : In n (map fst (s_variables s))) by (apply in_map_iff; exists (n, o); auto). rewrite (co_names _ _ C) in H.
  apply in_app_iff in H as [H|[H|[]]]; [|congruence]. exfalso. apply Hn. now apply in_rev.
Qed.

(** The state after introducing something, apart from types. *)
Lemma extend l e r s s1 o : all = l ++ e :: r -> so_far l s -> NoDup (map ex_id all) ->
  s_variables s1 = (ex_id e, o) :: s_variables s -> located (ex_context e) o ->
  (forall p m v, attribute s1 p m = Some v <-> (found_in (ex_context e) p m /\ v = o) \/ (attribute s p m = Some v /\ (found_in (ex_context e) p m -> v = o))) ->
  (forall q d, holding s1 q = Some d <-> (q = ex_context e /\ typed e d) \/ (q <> ex_context e /\ holding s q = Some d)) ->
  (is_tag_kind (kind u (ex_context e)) = true -> exists d, typed e d) ->
  so_far (l ++ [e]) s1.
Proof.
  intros E C N Hv Ho Ha Ht Hd.
  assert (He : In e all) by (rewrite E; apply in_app_iff; right; left; reflexivity).
  assert (Hne : forall f, In f l -> ex_id e <> ex_id f).
  { intros f Hf Hef. rewrite E, map_app in N. cbn [map] in N. apply NoDup_remove_2 in N. apply N, in_app_iff. left. rewrite Hef. now apply in_map. }
  assert (Hval : forall n, value s1 n = if str_eqb (ex_id e) n then Some o else value s n).
  { intro n. unfold value. rewrite Hv. cbn [find fst]. destruct (str_eqb (ex_id e) n); reflexivity. }
  constructor.
  - rewrite Hv, map_app, rev_app_distr. cbn [map fst rev app]. f_equal. apply C.
  - rewrite Hval. destruct (str_eqb (ex_id e) ($"root")) eqn:Er; [|apply C]. apply str_eqb_eq in Er. exfalso. exact (proj2 (ids_identifiers _ _ _ _ _ _ _ _ _ _ _ G e He) Er).
  - intros f Hf. apply in_app_iff in Hf as [Hf|[<-|[]]].
    + destruct (co_values _ _ C f Hf) as (p & Hp & Hl). exists p. split; [|exact Hl]. rewrite Hval. destruct (str_eqb (ex_id e) (ex_id f)) eqn:Ef; [|exact Hp].
      apply str_eqb_eq in Ef. now apply Hne in Ef.
    + exists o. split; [|exact Ho]. rewrite Hval, (proj2 (str_eqb_eq (ex_id e) (ex_id e)) eq_refl). reflexivity.
  - intros f p n Hf Hfound. apply in_app_iff in Hf as [Hf|[<-|[]]].
    + destruct (co_attributes _ _ C f p n Hf Hfound) as (v & Hv' & Hl). exists v. split; [|exact Hl]. apply Ha. right. split; [exact Hv'|]. intro Hfe.
      destruct (Distinct _ _ _ _ Hfound Hfe) as [Hc|[K1 K2]]; [apply (located_unique _ _ Hl); rewrite Hc; exact Ho|].
      (* two namespaces *)
      destruct Hfound as (_ & Of & (pf & Sf & Lf) & Nf), Hfe as (_ & Oe & (pe & Se & Le) & Ne).
      assert (Mf : is_submodule u st (ex_context f)) by (destruct Of as [H|[H|H]]; [congruence|congruence|exact H]).
      assert (Me : is_submodule u st (ex_context e)) by (destruct Oe as [H|[H|H]]; [congruence|congruence|exact H]).
      assert (Pm : exists path, p = Mod path).
      { apply (located_mod _ _ Le). apply (Nested (ex_context e)); [exact (proj1 (scope_nodes _ _ Se))|exact Se|]. rewrite K2. reflexivity. }
      destruct Pm as (path & ->).
      rewrite (located_unique _ _ Hl _ (located_module _ _ _ _ _ _ _ Mf Sf Lf Nf)). symmetry. apply (located_unique _ _ Ho). now apply (located_module _ _ _ _ pe).
    + exists o. split; [|exact Ho]. apply Ha. left. split; [exact Hfound|reflexivity].
  - intros p n v Hav. apply Ha in Hav as [[Hf ->]|[Hav _]].
    + exists e. split; [apply in_app_iff; right; now left|]. split; assumption.
    + destruct (co_only _ _ C _ _ _ Hav) as (f & Hf & H). exists f. split; [apply in_app_iff; now left|exact H].
  - intros q d Hq. apply Ht in Hq as [[-> Hq]|[_ Hq]].
    + exists e. split; [apply in_app_iff; right; now left|]. split; [reflexivity|exact Hq].
    + destruct (co_types _ _ C _ _ Hq) as (f & Hf & H). exists f. split; [apply in_app_iff; now left|exact H].
  - intros f Hf Htag. apply in_app_iff in Hf as [Hf|[<-|[]]].
    + assert (H := co_registered _ _ C f Hf Htag). destruct (holding s (ex_context f)) as [d|] eqn:Eh; [|congruence].
      assert (Hn : ex_context f <> ex_context e).
      { intro Ec. assert (f = e) by (apply (context_unique _ _ _ _ _ _ _ _ _ _ _ T G); [rewrite E; apply in_app_iff; now left|exact He|exact Ec]). subst f. exact (Hne e Hf eq_refl). }
      rewrite (proj2 (Ht (ex_context f) d) (or_intror (conj Hn Eh))). discriminate.
    + destruct (Hd Htag) as (d & Hd'). rewrite (proj2 (Ht (ex_context e) d) (or_introl (conj eq_refl Hd'))). discriminate.
Qed.

Context (N : NoDup (map ex_id all)) (Bases : usable_bases default_holder w (map (fun e => (ex_id e, ex_intro e)) all)).

Lemma other_contexts c : In c (g_nodes g) -> c <> u_root u -> kind u c = KNamespace \/ kind u c = KRecord \/ kind u c = KEnum.
Proof.
  intros Hc Hr. destruct (R c Hc) as (l & Hl). destruct (tail_path _ _ Hl Hr) as (p & r & _ & _ & He).
  destruct (Pl _ _ He) as [(a & (x & Ha & _) & _)|(_ & _ & Hk & _)].
  - destruct Ha as (H1 & H2 & H3 & H4 & _). destruct (pl_target u Pu a c H1 H2 H3 H4) as [H _]. destruct (kind u c); try discriminate H; auto.
  - destruct Hk as [H|[H|H]]; auto.
Qed.

Lemma new_context l e r : all = l ++ e :: r -> forall f, In f l -> ex_context f <> ex_context e.
Proof.
  intros E f Hf Ec. assert (Hnd := contexts_nodup _ _ _ _ _ _ _ _ _ _ _ T G). rewrite E, map_app in Hnd. cbn [map] in Hnd. apply NoDup_remove_2 in Hnd.
  apply Hnd, in_app_iff. left. rewrite <- Ec. now apply in_map.
Qed.

(** Registration of classes and enumerations. *)
Lemma register_step l e r s o n d bases c : all = l ++ e :: r -> so_far l s ->
  is_tag_kind (kind u (ex_context e)) = true -> located (ex_context e) c -> typed e d ->
  (exists p, scope_of (ex_context e) p /\ located p o) -> named u st (ex_context e) n ->
  (forall b, In b bases -> holding s b = Some d) ->
  exists s1, register s o n (ex_context e) bases d c (ex_id e) = Some s1 /\ so_far (l ++ [e]) s1.
Proof.
  intros E C Ht Hc Hd Hp Hn Hb.
  assert (He : In e all) by (rewrite E; apply in_app_iff; right; left; reflexivity).
  assert (Ow : own_object u st (ex_context e)) by (unfold own_object; destruct (kind u (ex_context e)); try discriminate Ht; auto).
  assert (Fe : found_in (ex_context e) o n) by (split; [exact (entry_context_node _ _ _ _ _ _ _ _ _ _ _ G e He)|]; auto).
  assert (Hu : forall p m, found_in (ex_context e) p m -> p = o /\ m = n).
  { intros p m (_ & _ & (q & Sq & Lq) & Nm). destruct Hp as (q' & Sq' & Lq'). rewrite (scope_unique _ _ _ Sq Sq') in Lq. split; [exact (located_unique _ _ Lq _ Lq')|exact (named_unique _ _ _ Nm Hn)]. }
  assert (Ha : attribute s o n = None).
  { destruct (attribute s o n) as [v|] eqn:Ea; [|reflexivity]. destruct (co_only _ _ C _ _ _ Ea) as (f & Hf & Hff & _).
    destruct (Distinct _ _ _ _ Hff Fe) as [Ec|[_ Ke]]; [exfalso; exact (new_context _ _ _ E f Hf Ec)|]. rewrite Ke in Ht. discriminate Ht. }
  assert (Hh : holding s (ex_context e) = None).
  { destruct (holding s (ex_context e)) as [v|] eqn:Ea; [|reflexivity]. destruct (co_types _ _ C _ _ Ea) as (f & Hf & Ec & _). exfalso. exact (new_context _ _ _ E f Hf Ec). }
  unfold register. rewrite Ha, Hh.
  replace (forallb _ bases) with true.
  2:{ symmetry. apply forallb_forall. intros b Hin. rewrite (Hb b Hin). apply Bool.eqb_reflx. }
  eexists. split; [reflexivity|]. apply (extend l e r s _ c E C N).
  - reflexivity.
  - exact Hc.
  - intros p m v. rewrite attribute_cons. destruct s as [vs as_ ts]. cbn [s_attributes]. change (attribute (mkState _ as_ _) p m) with (attribute (mkState vs as_ ts) p m).
    destruct (same_object o p && str_eqb n m) eqn:Eb.
    + apply andb_true_iff in Eb as [E1 E2]. apply same_object_spec in E1 as <-. apply str_eqb_eq in E2 as <-. rewrite Ha. split; [intros [= <-]; auto|]. intros [[_ ->]|[H _]]; [reflexivity|discriminate H].
    + split; [intro H; right; split; [exact H|]|].
      * intro Hf. apply Hu in Hf as [-> ->]. rewrite (proj2 (same_object_spec o o) eq_refl), (proj2 (str_eqb_eq n n) eq_refl) in Eb. discriminate Eb.
      * intros [[Hf _]|[H _]]; [|exact H]. apply Hu in Hf as [-> ->]. rewrite (proj2 (same_object_spec o o) eq_refl), (proj2 (str_eqb_eq n n) eq_refl) in Eb. discriminate Eb.
  - intros q v. rewrite holding_cons. destruct s as [vs as_ ts]. cbn [s_types]. change (holding (mkState _ _ ts) q) with (holding (mkState vs as_ ts) q).
    destruct (Nat.eqb (ex_context e) q) eqn:Eq.
    + apply Nat.eqb_eq in Eq as <-. split; [intros [= <-]; auto|]. intros [[_ Hv]|[H _]]; [|congruence]. f_equal. unfold typed in Hv, Hd. destruct (ex_intro e); congruence || contradiction.
    + apply Nat.eqb_neq in Eq. split; [intro H; right; split; [congruence|exact H]|]. intros [[Hq _]|[_ H]]; [congruence|exact H].
  - intros _. now exists d.
Qed.

Lemma parent_value l e r s : all = l ++ e :: r -> so_far l s ->
  (ex_context e = u_root u /\ value s (intro_parent (ex_intro e)) = Some (Mod [])) \/
  (ex_context e <> u_root u /\ exists o p, value s (intro_parent (ex_intro e)) = Some o /\ scope_of (ex_context e) p /\ located p o).
Proof.
  intros E C. destruct (ge_places _ _ _ _ _ _ _ _ _ _ _ G l e r E) as [[Hc Hr]|(Hn & p & f & Hs & Hf & Hi & Hsame)].
  - left. split; [exact Hc|]. rewrite Hr. apply C.
  - right. split; [exact Hn|]. destruct (co_values _ _ C f Hf) as (o & Ho & Hl). exists o, p. rewrite Hi. split; [exact Ho|]. split; [exact Hs|].
    destruct Hsame as [<-|Hsame]; [exact Hl|]. exact (located_same _ _ Hl _ Hsame (proj2 (scope_nodes _ _ Hs))).
Qed.

Lemma execute_step l e r s : all = l ++ e :: r -> so_far l s -> exists s1, execute default_holder s (ex_id e, ex_intro e) = Some s1 /\ so_far (l ++ [e]) s1.
Proof.
  intros E C. assert (He : In e all) by (rewrite E; apply in_app_iff; right; left; reflexivity).
  assert (Hv : value s (ex_id e) = None).
  { apply (value_none s l); [exact C| |exact (proj2 (ids_identifiers _ _ _ _ _ _ _ _ _ _ _ G e He))]. intro H. rewrite E, map_app in N. cbn [map] in N. apply NoDup_remove_2 in N. apply N, in_app_iff. now left. }
  unfold execute. cbn [fst snd]. rewrite Hv. destruct (ge_introduces _ _ _ _ _ _ _ _ _ _ _ G e He) as [Hi _]. unfold introduces in Hi.
  destruct (parent_value l e r s E C) as [[Hr Hp]|(Hr & o & p & Hp & Hs & Hl)].
  - rewrite Hr, K in Hi. destruct Hi as (q & Ei). rewrite Hp, Ei. eexists. split; [reflexivity|].
    apply (extend l e r s _ (Mod []) E C N); [reflexivity|rewrite Hr; constructor| | |].
    + intros q' m v. rewrite Hr. change (attribute (mkState _ (s_attributes s) _) q' m) with (attribute s q' m).
      assert (Hf : ~ found_in (u_root u) q' m). { intros (_ & [H|[H|[H _]]] & _); congruence. } tauto.
    + intros q' d. change (holding (mkState _ _ (s_types s)) q') with (holding s q'). unfold typed. rewrite Ei. split; [|intros [[_ []]|[_ H]]; exact H]. intro H. right. split; [|exact H].
      intros ->. destruct (co_types _ _ C _ _ H) as (f & Hf & Ec & _). exact (new_context _ _ _ E f Hf Ec).
    + rewrite Hr, K. discriminate.
  - rewrite Hp. destruct (other_contexts _ (entry_context_node _ _ _ _ _ _ _ _ _ _ _ G e He) Hr) as [Hk|[Hk|Hk]]; rewrite Hk in Hi.
    + (* namespaces *)
      assert (Hm : exists path, o = Mod path).
      { apply (located_mod _ _ Hl). apply (Nested (ex_context e)); [exact (proj1 (scope_nodes _ _ Hs))|exact Hs|]. rewrite Hk. reflexivity. }
      destruct (ex_intro e) as [q|q n|? ? ? ?|? ? ? ?] eqn:Ei; try contradiction.
      * assert (Hno : ~ is_submodule u st (ex_context e)) by (intros (_ & a & Ha & Hx); rewrite (Hi a Ha) in Hx; discriminate Hx).
        eexists. split; [reflexivity|]. apply (extend l e r s _ o E C N); [reflexivity|now apply (located_namespace _ _ _ _ p)| | |].
        -- intros q' m v. change (attribute (mkState _ (s_attributes s) _) q' m) with (attribute s q' m).
           assert (Hf : ~ found_in (ex_context e) q' m). { intros (_ & [H|[H|H]] & _); [congruence|congruence|contradiction]. } tauto.
        -- intros q' d. change (holding (mkState _ _ (s_types s)) q') with (holding s q'). unfold typed. rewrite Ei. split; [|intros [[_ []]|[_ H]]; exact H]. intro H. right. split; [|exact H].
           intros ->. destruct (co_types _ _ C _ _ H) as (f & Hf & Ec & _). exact (new_context _ _ _ E f Hf Ec).
        -- rewrite Hk. discriminate.
      * destruct Hi as [Ha Hn]. assert (Hmod : is_submodule u st (ex_context e)) by (split; assumption). destruct Hm as (path & ->).
        eexists. split; [reflexivity|]. apply (extend l e r s _ (Mod (path ++ [n])) E C N); [reflexivity|now apply (located_module _ _ _ _ p)| | |].
        -- assert (Fe : found_in (ex_context e) (Mod path) n).
           { split; [exact (entry_context_node _ _ _ _ _ _ _ _ _ _ _ G e He)|]. split; [right; right; exact Hmod|]. eauto. }
           assert (Hu : forall p m, found_in (ex_context e) p m -> p = Mod path /\ m = n).
           { intros p' m (_ & _ & (q' & Sq & Lq) & Nm). rewrite (scope_unique _ _ _ Sq Hs) in Lq. split; [exact (located_unique _ _ Lq _ Hl)|exact (named_unique _ _ _ Nm Hn)]. }
           intros p' m v. rewrite attribute_cons. destruct s as [vs as_ ts]. cbn [s_attributes]. change (attribute (mkState _ as_ _) p' m) with (attribute (mkState vs as_ ts) p' m).
           destruct (same_object (Mod path) p' && str_eqb n m) eqn:Eb.
           ++ apply andb_true_iff in Eb as [E1 E2]. apply same_object_spec in E1 as <-. apply str_eqb_eq in E2 as <-. split; [intros [= <-]; auto|].
              intros [[_ ->]|[_ H]]; [reflexivity|]. now rewrite (H Fe).
           ++ assert (Hno : ~ found_in (ex_context e) p' m).
              { intro Hf. apply Hu in Hf as [-> ->]. rewrite (proj2 (same_object_spec (Mod path) (Mod path)) eq_refl), (proj2 (str_eqb_eq n n) eq_refl) in Eb. discriminate Eb. }
              tauto.
        -- intros q' d. change (holding (mkState _ _ (s_types s)) q') with (holding s q'). unfold typed. rewrite Ei. split; [|intros [[_ []]|[_ H]]; exact H]. intro H. right. split; [|exact H].
           intros ->. destruct (co_types _ _ C _ _ H) as (f & Hf & Ec & _). exact (new_context _ _ _ E f Hf Ec).
        -- rewrite Hk. discriminate.
    + (* classes *)
      destruct Hi as (t & q & n & b & Ei & Hn & Hrec & _). rewrite Ei. rewrite Hrec.
      apply (register_step l e r s o n (default_holder (ct_holder t)) (ct_bases t) _ E C).
      * rewrite Hk. reflexivity.
      * now constructor.
      * unfold typed. now rewrite Ei.
      * eauto.
      * exact Hn.
      * intros base Hbase.
        assert (Hin : In (ex_id e, NClass t q n b) (map (fun e => (ex_id e, ex_intro e)) all)) by (apply in_map_iff; exists e; split; [now rewrite Ei|exact He]).
        destruct (Bases _ _ _ _ _ Hin base Hbase) as [Hvia Hhold].
        destruct (bases_registered _ _ _ _ _ _ _ _ _ _ _ T G L l e r t q n b E Ei base Hbase) as (f & t' & p' & n' & d' & Hf1 & Hf2 & Hf3 & Hf4 & Hf5).
        assert (Hfl : In f l).
        { apply Hf5. rewrite <- Hrec. revert Hvia. apply base_via_mono. intros i (id1 & t1 & p1 & n1 & d1 & H1 & H2).
          apply in_map_iff in H1 as (e1 & E1 & He1). injection E1 as _ E1.
          destruct (ge_introduces _ _ _ _ _ _ _ _ _ _ _ G e1 He1) as [Hint _]. rewrite E1 in Hint. pose proof (introduces_class _ _ _ _ _ _ _ _ _ Hint) as E2.
          rewrite <- H2, <- E2. exact (entry_context_node _ _ _ _ _ _ _ _ _ _ _ G e1 He1). }
        assert (Hft : is_tag_kind (kind u (ex_context f)) = true).
        { destruct (ge_introduces _ _ _ _ _ _ _ _ _ _ _ G f Hf1) as [Hint _]. rewrite Hf3 in Hint. unfold introduces in Hint.
          destruct (kind u (ex_context f)); try reflexivity; try contradiction; destruct Hint as (? & Hx); discriminate Hx. }
        assert (Hreg := co_registered _ _ C f Hfl Hft). rewrite Hf2 in Hreg. destruct (holding s base) as [d1|] eqn:Eh; [|congruence]. f_equal.
        destruct (co_types _ _ C _ _ Eh) as (f' & Hf' & Ec & Hty).
        assert (f' = f). { apply (context_unique _ _ _ _ _ _ _ _ _ _ _ T G); [rewrite E; apply in_app_iff; now left|exact Hf1|congruence]. } subst f'.
        unfold typed in Hty. rewrite Hf3 in Hty. rewrite Hty. apply (Hhold (ex_id f) t' p' n' d'); [apply in_map_iff; exists f; split; [now rewrite Hf3|exact Hf1]|exact Hf4].
    + destruct Hi as (q & n & b & Ei & Hn & _). rewrite Ei. apply (register_step l e r s o n true [] _ E C).
      * rewrite Hk. reflexivity.
      * now constructor.
      * unfold typed. now rewrite Ei.
      * eauto.
      * exact Hn.
      * intros ? [].
Qed.

Lemma import_so_far : exists s, import default_holder (map (fun e => (ex_id e, ex_intro e)) all) = Some s /\ so_far all s.
Proof.
  unfold import. assert (H : forall r l s, all = l ++ r -> so_far l s -> exists s1, fold_opt (execute default_holder) (map (fun e => (ex_id e, ex_intro e)) r) s = Some s1 /\ so_far all s1).
  { induction r as [|e r IH]; intros l s E C; [exists s; rewrite app_nil_r in E; subst l; split; [reflexivity|exact C]|].
    cbn [map fold_opt]. destruct (execute_step l e r s E C) as (s1 & -> & C1). apply (IH (l ++ [e]) s1); [now rewrite <- app_assoc|exact C1]. }
  apply (H all [] _ eq_refl). constructor; try (now intros ? []); try reflexivity; discriminate.
Qed.

(** ** Results *)

Lemma entry_for c : In c (g_nodes g) -> exists f, In f all /\ (ex_context f = c \/ same_namespace u (ex_context f) c).
Proof.
  intro Hc. destruct (ge_order _ _ _ _ _ _ _ _ _ _ _ G) as [Hp _].
  destruct (blocks_represent _ _ _ _ (ge_blocks _ _ _ _ _ _ _ _ _ _ _ G) [] (fun d H => match H with end) c (Permutation_in _ Hp Hc)) as (d & Hd & Hdc).
  apply in_map_iff in Hd as (f & <- & Hf). eauto.
Qed.

Lemma submodule_dec c : is_submodule u st c \/ ~ is_submodule u st c.
Proof.
  unfold is_submodule. destruct (lookup_attrs st c) as [a|]; [|right; intros (_ & a & H & _); discriminate H].
  destruct (ns_module (at_namespace a)) eqn:E; [|right; intros (_ & b & [= <-] & H); congruence].
  destruct (kind u c); try (right; intros [H _]; discriminate H). left. split; [reflexivity|eauto].
Qed.

Lemma python_path_total : forall k c l, length l < k -> path (edge g) (u_root u) (c :: l) -> exists n, python_path u st g c n.
Proof.
  induction k as [|k IH]; intros c l Hk Hl; [inversion Hk|]. destruct (Nat.eq_dec c (u_root u)) as [->|Hc]; [exists []; constructor|].
  destruct (scope_spec u st g T K) as (m & _ & _ & _ & H). destruct (H c l Hl Hc) as (l1 & p & l2 & -> & Ht & Hq & _).
  assert (Hs : scope_of c p) by (exists l1, l2; auto).
  assert (Hp : path (edge g) (u_root u) (p :: l2)).
  { clear - Hl. revert c Hl. induction l1 as [|x l1 IH]; intros c Hl; cbn in Hl; inversion Hl; subst; [assumption|]. eapply IH. eassumption. }
  destruct (IH p l2) as (n & Hn); [rewrite app_length in Hk; cbn in Hk; lia|exact Hp|].
  assert (Nc := path_nodes _ Hl c (or_introl eq_refl)).
  destruct (submodule_dec c) as [Hm|Hm].
  - exists (n ++ [spelling u st c []]). apply (python_named _ _ _ c p); [right; right; exact Hm|exact Hs|exact Hn|apply named_spelling].
  - destruct (other_contexts c Nc Hc) as [Hkc|Hkc].
    + exists n. now apply (python_namespace _ _ _ c p).
    + exists (n ++ [spelling u st c []]). apply (python_named _ _ _ c p); [unfold own_object; tauto|exact Hs|exact Hn|apply named_spelling].
Qed.


Lemma attributes_exact s : so_far all s -> forall o n v, attribute s o n = Some v <-> exists c, found_in c o n /\ located c v.
Proof.
  intros C o n v. split.
  - intro H. destruct (co_only _ _ C _ _ _ H) as (f & _ & H1 & H2). eauto.
  - intros (c & Hf & Hl). destruct (entry_for c (proj1 Hf)) as (f & Hfa & Hc).
    assert (H : found_in (ex_context f) o n /\ located (ex_context f) v).
    { destruct Hc as [->|Hc]; [auto|]. assert (Nf := entry_context_node _ _ _ _ _ _ _ _ _ _ _ G f Hfa). destruct Hf as (Nc & Ow & (p & Sp & Lp) & Nm). apply same_sym in Hc.
      split; [|exact (located_same _ _ Hl _ Hc Nf)]. pose proof Sp as Sp'. destruct Sp' as (l1 & l2 & Hp & Hq & Ht).
      destruct (scope_same l1 c _ p l2 Hp Hq Ht Hc Nf) as (q & Hsq & Hpq). split; [exact Nf|]. split; [|split].
      - destruct Ow as [H|[H|H]]; [destruct Hc; congruence|destruct Hc; congruence|]. right. right. exact (submodule_same _ _ Nc Nf Hc H).
      - exists q. split; [exact Hsq|]. destruct Hpq as [<-|Hpq]; [exact Lp|]. exact (located_same _ _ Lp _ Hpq (proj2 (scope_nodes _ _ Hsq))).
      - exact (named_same _ _ _ Nc Nf Hc Nm). }
    destruct H as [H1 H2]. destruct (co_attributes _ _ C f o n Hfa H1) as (v' & Hv & Hl'). rewrite Hv. f_equal. exact (located_unique _ _ Hl' _ H2).
Qed.

Lemma resolve_app s a b : forall o, resolve s o (a ++ b) = match resolve s o a with Some p => resolve s p b | None => None end.
Proof. induction a as [|n a IH]; intro o; [reflexivity|]. cbn. destruct (attribute s o n); [apply IH|reflexivity]. Qed.

Lemma own_located c p o n : own_object u st c -> scope_of c p -> located p o -> named u st c n -> exists v, located c v.
Proof.
  intros [H|[H|H]] Hs Hl Hn; [eexists; now apply located_class|eexists; now apply located_enum|].
  assert (Hm : exists path, o = Mod path).
  { apply (located_mod _ _ Hl), (Nested c); [exact (proj1 (scope_nodes _ _ Hs))|exact Hs|]. rewrite (proj1 H). reflexivity. }
  destruct Hm as (path & ->). eexists. now apply (located_module _ _ _ c p path n).
Qed.

Lemma path_resolves s : so_far all s -> forall c l, python_path u st g c l -> exists o, located c o /\ resolve s (Mod []) l = Some o.
Proof.
  intros C c l. induction 1 as [|c p l n Ho Hs Hp IH Hn|c p l Hk Hm Hs Hp IH].
  - exists (Mod []). split; constructor.
  - destruct IH as (o & Hl & Hr). destruct (own_located c p o n Ho Hs Hl Hn) as (v & Hv). exists v. split; [exact Hv|].
    rewrite resolve_app, Hr. cbn. assert (Ha : attribute s o n = Some v); [|now rewrite Ha].
    apply (attributes_exact s C). exists c. split; [|exact Hv]. split; [exact (proj1 (scope_nodes _ _ Hs))|]. eauto.
  - destruct IH as (o & Hl & Hr). exists o. split; [|exact Hr]. now apply (located_namespace _ _ _ c p).
Qed.
End Import.

(** ** Whole runs *)

Lemma run_imports default_holder u w found implicit iteration n name b files rs st' : setting u w iteration -> nested_blocks u -> 0 < n ->
  generate u w found implicit iteration n name = Some (RGraph b (EWritten files rs st')) ->
  exists g vis order all chunks post, exposed u found implicit name g vis b /\
    generated u w g vis (bs_annotations b) name rs st' order all post /\ layout name post all chunks files /\
    let intros := map (fun e => (ex_id e, ex_intro e)) all in
    (NoDup (map fst intros) -> agreeing_blocks u (bs_annotations b) g -> distinct_names u (bs_annotations b) g -> usable_bases default_holder w intros ->
     exists s, import default_holder intros = Some s /\
       (forall e, In e all -> exists o, value s (ex_id e) = Some o /\ located u (bs_annotations b) g (ex_context e) o) /\
       (forall o m v, attribute s o m = Some v <-> exists c, found_in u (bs_annotations b) g c o m /\ located u (bs_annotations b) g c v) /\
       (forall c, In c (g_nodes g) -> exists l, python_path u (bs_annotations b) g c l) /\
       forall c l, python_path u (bs_annotations b) g c l -> exists o, located u (bs_annotations b) g c o /\ resolve s (Mod []) l = Some o).
Proof.
  intros S NB Hn HG. destruct (run_written _ _ _ _ _ S _ _ _ _ _ _ Hn HG) as (g & vis & order & all & chunks & post & X & G & Ly & _).
  destruct (exposed_graph _ _ _ _ _ S _ _ _ _ X) as (T & K & R & _ & Pl).
  exists g, vis, order, all, chunks, post. split; [exact X|]. split; [exact G|]. split; [exact Ly|]. intros intros Nd Ag Di Ba. unfold intros in Nd. rewrite map_map in Nd. cbn [fst] in Nd.
  pose proof (modules_nested _ _ _ _ _ S _ _ _ _ X) as Ne.
  assert (H : exists s, import default_holder (map (fun e => (ex_id e, ex_intro e)) all) = Some s /\ so_far default_holder u g (bs_annotations b) all s)
    by (eapply import_so_far; try eassumption; [exact (se_placed _ _ _ S)|exact (se_language _ _ _ S)]).
  destruct H as (s & Hs & C).
  exists s. split; [exact Hs|]. split; [intros e He; exact (co_values _ _ _ _ _ _ C e He)|].
  split; [eapply attributes_exact; try eassumption; exact (se_placed _ _ _ S)|].
  split.
  - intros c Hc. destruct (R c Hc) as (l & Hl). eapply python_path_total; try eassumption; [exact (se_placed _ _ _ S)|apply Nat.lt_succ_diag_r].
  - eapply path_resolves; try eassumption; exact (se_placed _ _ _ S).
Qed.
