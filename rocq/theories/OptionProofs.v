(** * Proofs about the options of classes and enumerations in Python *)
From Verif Require Import Base ParserModel AnnotModel AnnotSpec AnnotStore AnnotFinal CollectModel CollectSpec CollectProofs GraphModel GraphSpec GraphFinal OrderModel InlineModel EmitModel EmitSpec EmitProofs EmitFold EmitFinal
  ModuleModel ModuleSpec ModuleProofs ModuleFinal ImportSpec ImportProofs ExecSpec ExecProofs AccessSpec AccessProofs InvalidSpec InvalidProofs FindProofs StoreSpec StoreProofs OptionSpec.

(** ** Annotations of classes and enumerations *)

Lemma unmarked_carried texts : (forall rest, ~ In (lozenge ++ rest) texts) -> carried texts [] false.
Proof. induction texts as [|t texts IH]; intros H; constructor; [intros rest ->; apply (H rest); left; reflexivity|]. apply IH. intros rest Hr. apply (H rest). right. exact Hr. Qed.

Section Stored.
Variables (u : unit) (P : placed u) (found : nat -> list nat) (implicit : nat -> bool) (name : str) (g : graph) (vis : dmap bool) (b : bstate).
Hypothesis X : exposed u found implicit name g vis b.

Lemma stored_said c : u_dependent u c = false -> d_skip (u_decls u c) = false -> In c (source_order u) \/ (exists a, relocates u a c) ->
  exists ans, carried (d_attrs (u_decls u c)) ans false /\
    match lookup_attrs (bs_annotations b) c with
    | Some a => exists z v, described (u_decls u c) v ans z /\ same_but_named a z
    | None => ans = []
    end.
Proof.
  intros Hd Hs Hin. assert (Va := exposed_valid _ _ _ _ _ _ _ P X).
  destruct X as (contexts & warned & E). assert (H := process_spec u P found implicit name). rewrite E in H. destruct H as (vis0 & contexts0 & Hb & _).
  destruct (collect u) as [s|] eqn:C; [|unfold build_graph in Hb; rewrite C in Hb; discriminate].
  destruct (attributes_of_targets u P b s C Hb c) as [A1 A2]. destruct (collected_declarations u s (pl_sane u P) C) as (K & _ & O & _).
  assert (F : forall a z, lookup_attrs (bs_annotations b) c = Some a -> own_attributes u c z -> same_but_named a z ->
    exists ans, carried (d_attrs (u_decls u c)) ans false /\ exists z v, described (u_decls u c) v ans z /\ same_but_named a z).
  { intros a z Ea Ow Sb. destruct (valid_described u c z Ow) as (ans & v & Ca & De & _); [apply Va; congruence|exact Hs|]. eauto 6. }
  destruct (lookup_attrs (bs_annotations b) c) as [a|] eqn:Ea.
  - assert (T : (forall a, ~ relocates u a c) /\ (forall a, ~ encourages u a c) \/ exists a, relocates u a c \/ encourages u a c).
    { destruct (stated_total u s b P C Hb c) as (v & [v' N1 N2 _ _ _|N1 N2 _|a0 v' Hr _ _|e He _]); eauto 6. }
    destruct T as [[N1 N2]|(a0 & Ha)].
    + specialize (A1 N1 N2). assert (Hk : In c (map fst (cs_annotations s))) by (apply in_keys; congruence). destruct (O c Hk) as (st & ds & y & E1 & E2 & E3).
      apply (F a a eq_refl); [exists st, ds; split; [exact E1|congruence]|]. exists (at_named a). destruct a; reflexivity.
    + destruct (A2 a0 Ha) as (y & z & Ey & Ow & Sb & _). injection Ey as <-. exact (F a z eq_refl Ow Sb).
  - exists []. split; [|reflexivity]. apply unmarked_carried. intros rest Hr.
    assert (N : forall a, ~ (relocates u a c \/ encourages u a c)) by (intros a Ha; destruct (A2 a Ha) as (y & z & Ey & _); discriminate Ey).
    assert (A := A1 (fun a Ha => N a (or_introl Ha)) (fun a Ha => N a (or_intror Ha))). destruct Hin as [Hin|(a & Ha)]; [|destruct (N a); auto].
    assert (Hk : In c (map fst (cs_annotations s))) by (apply K; split; [exact Hin|]; split; [exists rest; exact Hr|]; split; [exact Hd|]; intros [_ Q]; congruence).
    destruct (O c Hk) as (st & ds & y & E1 & E2 & E3). congruence.
Qed.

Lemma node_said c : In c (g_nodes g) -> is_tag_kind (kind u c) = true -> tree_like g (u_root u) -> (forall n, In n (g_nodes g) -> reachable g (u_root u) n) -> (forall p c, edge g p c -> place u p c) ->
  d_skip (u_decls u c) = false /\ (In c (source_order u) \/ exists a, relocates u a c).
Proof.
  intros Hc Hk T Re Pl. destruct (Re c Hc) as (l & Hl). inversion Hl as [E|p c' l' H1 H2 E]; subst.
  - rewrite (pl_root_kind u P) in Hk. discriminate.
  - apply Pl in H2 as [(a & Ha & _)|(_ & H & _ & Hs & _)]; [|auto]. split; [|right; eauto].
    destruct Ha as (x & (H & H' & H'' & H3 & _) & _). exact (proj2 (pl_target u P a c H H' H'' H3)).
Qed.
End Stored.

(** ** Instances with further attributes *)

Lemma mem_in x l : existsb (Nat.eqb x) l = true <-> In x l.
Proof. rewrite existsb_exists. split; [intros (y & Hy & E); apply Nat.eqb_eq in E as ->; exact Hy|]. intros H. exists x. split; [exact H|apply Nat.eqb_refl]. Qed.

Section Dictionaries.
Context (default_holder : str -> bool).

Lemma execute_types s i s' : execute default_holder s i = Some s' ->
  (forall t parent n d, snd i = NClass t parent n d -> (forall b, In b (ct_bases t) -> holding s b <> None) /\ holding s (ct_record t) = None /\ forall r, holding s' r <> None <-> r = ct_record t \/ holding s r <> None) /\
  (forall r, holding s r <> None -> holding s' r <> None).
Proof.
  unfold execute. destruct (value s (fst i)); [discriminate|]. destruct (value s (intro_parent (snd i))) as [o|]; [|discriminate].
  assert (Reg : forall n r bases d c, register s o n r bases d c (fst i) = Some s' ->
    (forall b, In b bases -> holding s b <> None) /\ holding s r = None /\ forall q, holding s' q <> None <-> q = r \/ holding s q <> None).
  { intros n r bases d c. unfold register. destruct (attribute s o n); [discriminate|]. destruct (holding s r) eqn:Er; [discriminate|].
    destruct (forallb _ bases) eqn:Ef; [|discriminate]. intros [= <-]. split; [|split; [reflexivity|]].
    - intros b Hb. rewrite forallb_forall in Ef. specialize (Ef b Hb). destruct (holding s b); [discriminate|discriminate Ef].
    - intros q. unfold holding at 1. cbn. destruct (Nat.eqb r q) eqn:E.
      + apply Nat.eqb_eq in E. subst. split; [auto|discriminate].
      + apply Nat.eqb_neq in E. split; [auto|]. intros [->|H]; [contradiction|exact H]. }
  destruct (snd i) as [p|p n|e p n d|t p n d].
  - intros [= <-]. split; [discriminate|auto].
  - destruct o; try discriminate. intros [= <-]. split; [discriminate|auto].
  - intros H. apply Reg in H as (_ & _ & H). split; [discriminate|]. intros r Hr. apply H. auto.
  - intros H. apply Reg in H as (H1 & H2 & H3). split; [intros t' p' n' d' [= <- <- <- <-]; auto|]. intros r Hr. apply H3. auto.
Qed.

Lemma import_snoc intros i : import default_holder (intros ++ [i]) = match import default_holder intros with Some s => execute default_holder s i | None => None end.
Proof.
  unfold import. generalize (mkState [($"root", Mod [])] [] []). induction intros as [|j intros IH]; intros s; cbn.
  - destruct (execute default_holder s i); reflexivity.
  - destruct (execute default_holder s j); [apply IH|reflexivity].
Qed.

Lemma registered intros : forall s, import default_holder intros = Some s -> forall id t parent n d, In (id, NClass t parent n d) intros ->
  holding s (ct_record t) <> None /\ forall b, In b (ct_bases t) -> holding s b <> None.
Proof.
  induction intros as [|i intros IH] using rev_ind; intros s H id t parent n d Hi; [destruct Hi|].
  rewrite import_snoc in H. destruct (import default_holder intros) as [s0|] eqn:E0; [|discriminate]. destruct (execute_types _ _ _ H) as [H1 H2].
  apply in_app_iff in Hi as [Hi|[->|[]]].
  - destruct (IH s0 eq_refl _ _ _ _ _ Hi) as [A B]. split; [apply H2, A|]. intros b Hb. apply H2, B, Hb.
  - destruct (H1 _ _ _ _ eq_refl) as (A & B & C). split; [apply C; auto|]. intros b Hb. apply H2, A, Hb.
Qed.

Lemma inherits_more intros i c r : inherits intros c r -> inherits (intros ++ [i]) c r.
Proof. induction 1 as [|id t parent n d b r Hi Hb H IH]; [constructor|]. eapply inherits_base; [|exact Hb|exact IH]. apply in_app_iff. left. exact Hi. Qed.

(** Bases come first, so that all of them are taken into account. *)
Lemma dictionaries intros : forall s, import default_holder intros = Some s ->
  forall c, In c (fold_left with_dictionary intros []) <-> exists r, inherits intros c r /\ exists id t parent n, In (id, NClass t parent n true) intros /\ ct_record t = r.
Proof.
  induction intros as [|[id i] intros IH] using rev_ind; intros s H c.
  - split; [intros []|]. intros (r & _ & id & t & parent & n & [] & _).
  - rewrite import_snoc in H. destruct (import default_holder intros) as [s0|] eqn:E0; [|discriminate]. specialize (IH s0 eq_refl). assert (R := registered intros s0 E0).
    rewrite fold_left_app. cbn [fold_left]. destruct (execute_types _ _ _ H) as [H1 _]. cbn [snd] in H1.
    assert (More : forall c, In c (fold_left with_dictionary intros []) -> exists r, inherits (intros ++ [(id, i)]) c r /\ exists id' t parent n, In (id', NClass t parent n true) (intros ++ [(id, i)]) /\ ct_record t = r).
    { intros c0 Hc. apply IH in Hc as (r & Hr & id' & t & parent & n & Hi & E). exists r. split; [apply inherits_more, Hr|]. exists id', t, parent, n. split; [apply in_app_iff; auto|exact E]. }
    (* what is inherited from classes introduced before *)
    assert (Less : forall c r, inherits (intros ++ [(id, i)]) c r -> (forall t parent n d, i = NClass t parent n d -> c <> ct_record t) ->
      inherits intros c r /\ forall t parent n d, i = NClass t parent n d -> r <> ct_record t).
    { intros c0 r Hr. induction Hr as [c0|id' t' parent' n' d' b r Hi Hb Hr IHr]; intros Hne; [split; [constructor|exact Hne]|].
      apply in_app_iff in Hi as [Hi|[Hi|[]]]; [|injection Hi as _ ->; destruct (Hne _ _ _ _ eq_refl); reflexivity].
      destruct IHr as [A B].
      { intros t parent n d -> ->. destruct (H1 _ _ _ _ eq_refl) as (_ & Hh & _). exact (proj2 (R _ _ _ _ _ Hi) _ Hb Hh). }
      split; [|exact B]. eapply inherits_base; eassumption. }
    assert (Old : forall c, (forall t parent n d, i = NClass t parent n d -> c <> ct_record t) ->
      (exists r, inherits (intros ++ [(id, i)]) c r /\ exists id' t parent n, In (id', NClass t parent n true) (intros ++ [(id, i)]) /\ ct_record t = r) -> In c (fold_left with_dictionary intros [])).
    { intros c0 Hne (r & Hr & id' & t & parent & n & Hi & E). destruct (Less c0 r Hr Hne) as [A B]. apply IH. exists r. split; [exact A|]. exists id', t, parent, n. split; [|exact E].
      apply in_app_iff in Hi as [Hi|[Hi|[]]]; [exact Hi|]. injection Hi as _ ->. destruct (B _ _ _ _ eq_refl). auto. }
    unfold with_dictionary at 1. cbn [snd]. destruct i as [p|p n|e p n d|t p n d]; try (split; [apply More|apply Old; discriminate]).
    destruct (H1 _ _ _ _ eq_refl) as (Hbases & Hnew & _).
    assert (Nb : forall b, In b (ct_bases t) -> forall t' parent n' d', NClass t p n d = NClass t' parent n' d' -> b <> ct_record t') by (intros b Hb t' parent n' d' [= <- <- <- <-] ->; exact (Hbases _ Hb Hnew)).
    assert (New : In c (if d || existsb (fun b => existsb (Nat.eqb b) (fold_left with_dictionary intros [])) (ct_bases t) then ct_record t :: fold_left with_dictionary intros [] else fold_left with_dictionary intros []) <->
      In c (fold_left with_dictionary intros []) \/ (c = ct_record t /\ (d = true \/ exists b, In b (ct_bases t) /\ In b (fold_left with_dictionary intros [])))).
    { assert (D : d || existsb (fun b => existsb (Nat.eqb b) (fold_left with_dictionary intros [])) (ct_bases t) = true <-> (d = true \/ exists b, In b (ct_bases t) /\ In b (fold_left with_dictionary intros []))).
      { rewrite orb_true_iff, existsb_exists. split; (intros [Hd|(b & Hb & Hm)]; [left; exact Hd|right; exists b; split; [exact Hb|apply mem_in, Hm]]). }
      destruct (d || _) eqn:Ed; cbn [In]; split.
      - intros [<-|Hc]; [right; split; [reflexivity|apply D; reflexivity]|left; exact Hc].
      - intros [Hc|[-> _]]; auto.
      - auto.
      - intros [Hc|[_ Hc]]; [exact Hc|]. apply D in Hc. discriminate. }
    rewrite New. split.
    + intros [Hc|[-> [->|(b & Hb & Hd)]]].
      * apply More, Hc.
      * exists (ct_record t). split; [constructor|]. exists id, t, p, n. split; [apply in_app_iff; right; left; reflexivity|reflexivity].
      * destruct (More b Hd) as (r & Hr & Hx). exists r. split; [|exact Hx]. eapply inherits_base; [apply in_app_iff; right; left; reflexivity|exact Hb|exact Hr].
    + intros (r & Hr & Hx). destruct (Nat.eq_dec c (ct_record t)) as [->|Hne].
      2: { left. apply Old; [intros t' p' n' d' [= <- <- <- <-]; exact Hne|eauto]. }
      right. split; [reflexivity|]. inversion Hr as [c' E|id' t' parent' n' d' b r' Hi Hb Hr' E]; subst.
      * destruct Hx as (id' & t' & p' & n' & Hi & E). apply in_app_iff in Hi as [Hi|[Hi|[]]]; [|injection Hi as _ _ _ _ ->; left; reflexivity].
        destruct (R _ _ _ _ _ Hi) as [Hh _]. rewrite E in Hh. contradiction.
      * apply in_app_iff in Hi as [Hi|[Hi|[]]]; [destruct (R _ _ _ _ _ Hi) as [Hh _]; rewrite E in Hh; contradiction|].
        injection Hi as <- <- <- <- <-. right. exists b. split; [exact Hb|]. apply Old; [apply Nb, Hb|eauto].
Qed.
End Dictionaries.

Section Module.
Context (u : unit) (w : facts) (found : nat -> list nat) (implicit : nat -> bool) (iteration : list nat -> list nat) (n : nat) (name : str) (b : bstate).
Context (files : list (list item)) (rs : list ereport) (st' : storage).
Hypothesis (Se : setting u w iteration) (Hn : 0 < n) (HG : generate u w found implicit iteration n name = Some (RGraph b (EWritten files rs st'))).

Theorem options_as_said nm intros calls post : In (IModule nm intros calls post) (concat files) -> independent u intros -> forall id i, In (id, i) intros -> as_said u i.
Proof.
  intros Hm Hd id i Hi. specialize (Hd id i Hi).
  destruct (run_written _ _ _ _ _ Se _ _ _ _ _ _ Hn HG) as (g & vis & order & all & chunks & post0 & X & G & Ly & Hlen & _).
  assert (Hf : 0 < length files) by lia. destruct (layout_definitions _ _ _ _ _ Ly Hf) as [_ Hmod].
  assert (H : In (IModule nm intros calls post) (filter is_module (concat files))) by (apply filter_In; auto). rewrite Hmod in H. destruct H as [H|[]].
  injection H as _ <- _ _. apply in_map_iff in Hi as (e & Ee & He). injection Ee as _ Ei. destruct (ge_introduces _ _ _ _ _ _ _ _ _ _ _ G e He) as [In_ _]. rewrite Ei in In_.
  assert (Hin : In (ex_context e) (g_nodes g)) by (eapply entry_context_node; eassumption).
  destruct (exposed_graph _ _ _ _ _ Se _ _ _ _ X) as (T & _ & Re & _ & Pl). assert (P := se_placed _ _ _ Se). unfold introduces in In_.
  assert (Said : is_tag_kind (kind u (ex_context e)) = true -> u_dependent u (ex_context e) = false -> exists ans, carried (d_attrs (u_decls u (ex_context e))) ans false /\
    match lookup_attrs (bs_annotations b) (ex_context e) with Some a => exists z v, described (u_decls u (ex_context e)) v ans z /\ same_but_named a z | None => ans = [] end).
  { intros Hk Hd'. destruct (node_said u P g (ex_context e) Hin Hk T Re Pl) as [Hs Ho]. eapply stored_said; eassumption. }
  destruct (kind u (ex_context e)) eqn:K; destruct i as [p|p m|c p m d|t p m d]; cbn [as_said]; try exact I;
    try (destruct In_ as (t1 & p1 & m1 & d1 & E1 & R1); discriminate E1); try (destruct In_ as (t1 & p1 & m1 & E1 & R1); discriminate E1); try (destruct In_ as (p1 & E1); discriminate E1); try contradiction.
  - destruct In_ as (p1 & m1 & d1 & [= Ec <- <- <-] & _ & Hy). subst c.
    destruct (Said eq_refl Hd) as (ans & Ca & D). exists ans. split; [exact Ca|]. destruct (lookup_attrs (bs_annotations b) (ex_context e)) as [a|] eqn:Ea.
    + destruct D as (z & v & De & nn & ->). assert (D := de_arithmetic _ _ _ _ De).
      destruct d, (e_arithmetic (at_enum z)) eqn:Er; try exact D; exfalso.
      * destruct (proj1 Hy eq_refl) as (a' & [= <-] & Hr). cbn in Hr. congruence.
      * assert (false = true) by (apply Hy; eexists; split; [reflexivity|exact Er]). discriminate.
    + subst ans. destruct d; [|left; split; [reflexivity|intros an []]]. destruct (proj1 Hy eq_refl) as (a' & E & _). discriminate E.
  - destruct In_ as (t1 & p1 & m1 & d1 & [= <- <- <- <-] & _ & Hc & Hy & Hh & _). rewrite <- Hc in *.
    destruct (Said eq_refl Hd) as (ans & Ca & D). exists ans. split; [exact Ca|]. destruct (lookup_attrs (bs_annotations b) (ct_record t)) as [a|] eqn:Ea.
    + destruct D as (z & v & De & nn & ->). rewrite Hh. split; [|exact (de_holder_type _ _ _ _ De)]. assert (D := de_dynamic_attr _ _ _ _ De).
      destruct d, (r_dynamic_attr (at_record z)) eqn:Er; try exact D; exfalso.
      * destruct (proj1 Hy eq_refl) as (a' & [= <-] & Hr). cbn in Hr. congruence.
      * assert (false = true) by (apply Hy; eexists; split; [reflexivity|exact Er]). discriminate.
    + subst ans. rewrite Hh. split; [|left; split; [reflexivity|intros an []]]. destruct d; [|left; split; [reflexivity|intros an []]]. destruct (proj1 Hy eq_refl) as (a' & E & _). discriminate E.
Qed.

Lemma said_dynamic_iff c ans d : carried (d_attrs (u_decls u c)) ans false -> latest (flag_of DynamicAttr) ans false d -> (said_dynamic u c <-> d = true).
Proof.
  intros C L. split; [|intros ->; exists ans; auto]. intros (ans' & C' & L'). destruct (carried_unique2 _ _ _ _ _ C C') as [<- _]. eapply latest_unique; eassumption.
Qed.

Lemma open_iff default_holder mro manual fails nm intros calls post s p : In (IModule nm intros calls post) (concat files) -> independent u intros ->
  run_module mro manual fails default_holder files (IModule nm intros calls post) = Some (s, p) -> forall c, has_dictionary intros c = true <-> open u intros c.
Proof.
  intros Hm Hd R c. unfold run_module in R. destruct (import default_holder intros) as [s0|] eqn:Es; [|discriminate]. clear R.
  assert (As := options_as_said _ _ _ _ Hm Hd). unfold has_dictionary, open. rewrite mem_in, (dictionaries default_holder intros s0 Es c). split.
  - intros (r & Hr & id & t & parent & k & Hi & <-). exists (ct_record t). split; [exact Hr|]. split; [exists id, t, parent, k, true; auto|].
    destruct (As _ _ Hi) as (ans & C & L & _). exists ans. auto.
  - intros (r & Hr & (id & t & parent & k & d & Hi & <-) & Sd). exists (ct_record t). split; [exact Hr|]. destruct (As _ _ Hi) as (ans & C & L & _).
    rewrite (said_dynamic_iff _ _ _ C L) in Sd. subst d. eauto 7.
Qed.

(** Attributes that the class does not have can be added to its instances, or not. *)
Theorem attributes_added default_holder mro manual fails nm intros calls post s p : In (IModule nm intros calls post) (concat files) -> independent u intros ->
  run_module mro manual fails default_holder files (IModule nm intros calls post) = Some (s, p) ->
  forall V class_of (convert : nat -> V -> option V) getter setter initial (wd : world V) o k v, attribute_along p mro wd (class_of o) k = None ->
    let set := set_attr p mro class_of (has_dictionary intros) convert setter wd (Instance o) k v in
    (open u intros (class_of o) -> snd set = Accepted /\ wd_memory (fst set) = wd_memory wd /\ wd_set (fst set) = wd_set wd /\
      forall q j, get_attr p mro class_of initial getter (fst set) (Instance q) j =
        if Nat.eqb o q && str_eqb k j then Value v else get_attr p mro class_of initial getter wd (Instance q) j) /\
    (~ open u intros (class_of o) -> set = (wd, Refused)).
Proof.
  intros Hm Hd R V class_of convert getter setter initial wd o k v Ha set. assert (D := open_iff _ _ _ _ _ _ _ _ _ _ Hm Hd R (class_of o)).
  unfold set, set_attr. rewrite Ha. destruct (has_dictionary intros (class_of o)).
  - split; [|intros N; destruct N; apply D; reflexivity]. intros _. cbn [fst snd wd_memory wd_set]. repeat (split; [reflexivity|]). intros q j.
    unfold get_attr. change (attribute_along p mro {| wd_set := wd_set wd; wd_dict := (o, k, v) :: wd_dict wd; wd_memory := wd_memory wd |}) with (attribute_along p mro wd).
    unfold added. cbn [wd_dict find fst snd wd_memory]. destruct (Nat.eqb o q) eqn:Eo; cbn [andb].
    + apply Nat.eqb_eq in Eo. subst q. destruct (str_eqb k j) eqn:Ek; [|reflexivity]. apply str_eqb_eq in Ek. subst j. rewrite Ha. reflexivity.
    + reflexivity.
  - split; [intros O; apply D in O; discriminate|]. reflexivity.
Qed.
End Module.
