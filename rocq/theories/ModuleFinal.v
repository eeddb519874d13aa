(** * Emission of the module: final proofs *)
From Coq Require Import Sorting.Permutation.
From Verif Require Import Base ParserModel StringModel StringSpec StringProofs AnnotModel AnnotStore CollectModel CollectSpec GraphModel GraphSpec GraphProofs GraphFinal GraphWalk
  OrderModel OrderSpec OrderProofs InlineModel InlineSpec InlineProofs EmitModel EmitSpec EmitProofs EmitFold EmitFinal ModuleModel ModuleSpec ModuleChunks ModuleProofs.

(** ** Objects *)

Lemma named_spelling u st c : named u st c (spelling u st c []).
Proof.
  unfold named. destruct (lookup_attrs st c) as [a|] eqn:E; [apply spelling_called, E|].
  unfold spelling, lookup_or, get. rewrite E. reflexivity.
Qed.

Lemma get_iff {A} u st supports (proj : attrs -> A) (test : A -> bool) i : supports (u_decls u i) = true ->
  match get u st supports proj i with Some a => test a | None => false end = true <-> exists a, lookup_attrs st i = Some a /\ test (proj a) = true.
Proof.
  intros S. unfold get. rewrite S. destruct (lookup_attrs st i) as [a|]; cbn; split; try discriminate; eauto.
  - intros (a' & [= <-] & H). exact H.
  - intros (a & H & _). discriminate.
Qed.

Lemma lists_mono h (inl hid e1 e2 : nat -> Prop) r b : (forall x, e1 x -> e2 x) -> lists h inl hid e1 r b -> lists h inl hid e2 r b.
Proof.
  intros H. induction 1 as [r s H1 H2 H3 H4 H5|r s b H1 H2 H3 H4 H5 IH]; [apply lists_direct; auto|eapply lists_inlined; eauto].
Qed.

Lemma introduces_spec u w g st : language u w -> forall c x, create u st (w_hierarchy w) c = Some x -> forall parent i, introducer_of u w g st x parent = Some i ->
  introduces u w g st c i /\ intro_parent i = parent /\
  parameter_of u w g st x = Some (match i with NAlias _ | NSubmodule _ _ => PModule | NEnum i _ _ _ => PEnum i | NClass t _ _ _ => PClass t end).
Proof.
  intros L c x Hx parent i Hi. destruct (create_some u w st (la_acyclic u w L) c) as (x' & Hx' & Hk). assert (x' = x) as -> by congruence. clear Hx'.
  unfold introduces. destruct (kind u c) eqn:K.
  all: try (subst x; cbn [introducer_of] in Hi; injection Hi as <-; split; [eexists; reflexivity|split; reflexivity]).
  - subst x. cbn [introducer_of] in Hi. injection Hi as <-.
    assert (S : is_namespace (u_decls u c) = true) by (unfold is_namespace; unfold kind in K; rewrite K; reflexivity).
    assert (H := get_iff u st is_namespace at_namespace ns_module c S). fold (get_namespace u st c) in H.
    destruct (match get_namespace u st c with Some a => ns_module a | None => false end).
    + split; [split; [apply H; reflexivity|apply named_spelling]|split; reflexivity].
    + split; [|split; reflexivity]. intros a Ha. destruct (ns_module (at_namespace a)) eqn:E; [|reflexivity]. destruct H as [_ H]. discriminate H. eauto.
  - subst x. cbn [introducer_of] in Hi. injection Hi as <-.
    assert (S : supports_enum (u_decls u c) = true) by (unfold supports_enum; unfold kind in K; rewrite K; reflexivity).
    split; [|split; reflexivity]. do 3 eexists. split; [reflexivity|]. split; [apply named_spelling|]. apply (get_iff u st supports_enum at_enum e_arithmetic c S).
  - destruct Hk as (p & -> & Hp). cbn [introducer_of parameter_of] in *. unfold class_of in *.
    destruct (class_bases_spec (w_hierarchy w) (la_acyclic u w L) p g c) as (l & El & Hl). rewrite El in *. cbn [option_map] in *. injection Hi as <-.
    assert (S : supports_record (u_decls u c) = true) by (unfold supports_record; unfold kind in K; rewrite K; reflexivity).
    split; [|split; reflexivity]. do 4 eexists. split; [reflexivity|]. split; [apply named_spelling|]. split; [reflexivity|].
    split; [apply (get_iff u st supports_record at_record r_dynamic_attr c S)|]. split.
    { cbn [ct_holder]. unfold get. rewrite S. destruct (lookup_attrs st c); reflexivity. }
    exists p. split; [exact Hp|]. cbn [ct_bases]. split.
    { intros b. rewrite Hl. split; apply lists_mono; intros y; unfold has_node; rewrite mem_iff; tauto. }
    eapply listing_mono; [|exact (class_bases_listing _ _ _ _ _ El)]. intros y. unfold has_node. apply mem_iff.
Qed.

(** ** Code at the end *)

Lemma postamble_final u w st : final_code u st (w_variables w) (postamble u w st).
Proof.
  unfold postamble. induction (w_variables w) as [|i vs IH]; [constructor|]. cbn [flat_map].
  assert (Skip : (forall a, supports_field (u_decls u i) = true -> lookup_attrs st i = Some a -> f_manual (at_field a) = None \/ f_postamble (at_field a) = false) ->
    match f_manual (lookup_or u st supports_field at_field i) with
    | Some l => if f_postamble (lookup_or u st supports_field at_field i) then [l] else [] | None => [] end = []).
  { intros H. unfold lookup_or, get. destruct (supports_field (u_decls u i)) eqn:S; [|reflexivity]. destruct (lookup_attrs st i) as [a|] eqn:E; [|reflexivity].
    cbn [option_map]. destruct (H a eq_refl eq_refl) as [H'|H']; rewrite H'; [reflexivity|]. destruct (f_manual (at_field a)); reflexivity. }
  destruct (supports_field (u_decls u i)) eqn:S.
  2:{ rewrite Skip by discriminate. apply final_skip; [congruence|exact IH]. }
  destruct (lookup_attrs st i) as [a|] eqn:E.
  2:{ rewrite Skip by discriminate. apply final_skip; [congruence|exact IH]. }
  destruct (f_manual (at_field a)) as [l|] eqn:M.
  2:{ rewrite Skip by (intros a' _ [= <-]; auto). apply final_skip; [|exact IH]. intros a' _ E'. left. congruence. }
  destruct (f_postamble (at_field a)) eqn:F.
  2:{ rewrite Skip by (intros a' _ [= <-]; auto). apply final_skip; [|exact IH]. intros a' _ E'. right. congruence. }
  clear Skip. unfold lookup_or at 1 2, get. rewrite S, E. cbn [option_map]. rewrite M, F. eapply final_take; eauto.
Qed.

(** ** Bodies *)

Lemma bodies_spec u w vis st1 ts : forall st0 st' bs rs, run_bodies u w vis st0 ts = Some (st', bs, rs) -> extends st1 st0 ->
  (faithful u st1 -> faithful u st0) ->
  exists rss, concat rss = rs /\ extends st0 st' /\ length rss = length ts /\ length bs = length ts /\
    forall k t b r, nth_error ts k = Some t -> nth_error bs k = Some b -> nth_error rss k = Some r ->
      exists s1 s2, define u (w_extra w) (wk_exposer t) (visible_by_default vis t) (decls_of u w t) s1 = Some (s2, b, r) /\
        extends st1 s1 /\ extends s2 st' /\ (faithful u st1 -> faithful u s1).
Proof.
  induction ts as [|t ts IH]; intros st0 st' bs rs R X F; cbn [run_bodies] in R.
  - injection R as <- <- <-. exists []. repeat split; [intros i a; auto|]. intros [|k] t b r; discriminate.
  - destruct (define u (w_extra w) (wk_exposer t) (visible_by_default vis t) (decls_of u w t) st0) as [[[s b] r]|] eqn:D; [|discriminate].
    destruct (run_bodies u w vis s ts) as [[[st3 bs'] rss']|] eqn:E; [|discriminate]. injection R as <- <- <-.
    assert (X1 : extends st0 s). { destruct (define_spec _ _ _ _ _ _ _ _ _ D) as [_ H _ _ _ _ _ _ _]. exact H. }
    destruct (IH s st3 bs' rss' E) as (rss & Hc & X2 & Hl & Hb & H). { intros i a Ha. apply X1, X, Ha. } { intros Hf. eapply define_faithful; [exact D|apply F, Hf]. }
    exists (r :: rss). split; [cbn; congruence|]. split; [intros i a Ha; apply X2, X1, Ha|]. split; [cbn; congruence|]. split; [cbn; congruence|].
    intros [|k] t' b' r' Ht Hb' Hr.
    + cbn in Ht, Hb', Hr. injection Ht as <-. injection Hb' as <-. injection Hr as <-. exists st0, s. auto.
    + eapply H; eassumption.
Qed.

Lemma Forall2_nth {A B} (P : A -> B -> Prop) l : forall r, length l = length r -> (forall k a b, nth_error l k = Some a -> nth_error r k = Some b -> P a b) -> Forall2 P l r.
Proof.
  induction l as [|a l IH]; intros [|b r] Hl H; try discriminate; constructor.
  - apply (H 0); reflexivity.
  - apply IH; [cbn in Hl; congruence|]. intros k x y Hx Hy. apply (H (S k)); assumption.
Qed.

Lemma nth_map {A B} (f : A -> B) l k y : nth_error (map f l) k = Some y -> exists x, nth_error l k = Some x /\ f x = y.
Proof.
  revert k. induction l as [|x l IH]; intros [|k] H; try discriminate; cbn in *; [injection H as <-; eauto|apply IH, H].
Qed.

(** ** The module *)

Section Final.
Variables (u : unit) (w : facts) (g : graph) (vis : dmap bool) (st : storage) (nodes : list nat) (location : nat -> N).
Hypothesis T : tree_like g (u_root u).
Hypothesis K : kind u (u_root u) = KOther.
Hypothesis R : forall n, In n (g_nodes g) -> reachable g (u_root u) n.
Hypothesis L : language u w.
Hypothesis Q : good_queue location (w_pop w).
Hypothesis P : Permutation (g_nodes g) nodes.

Local Notation dep scopes := (depends u (public_bases_of (w_hierarchy w)) g scopes).

Lemma path_unique l : path (edge g) (u_root u) l -> forall l', path (edge g) (u_root u) l' -> hd_error l = hd_error l' -> l = l'.
Proof.
  induction 1 as [|p c l Hp IH He]; intros l' Hl' E.
  - inversion Hl' as [|p c l Hp He]; subst; [reflexivity|]. cbn in E. injection E as <-. exfalso. apply (tl_root _ _ T). apply in_map_iff. exists (p, u_root u). auto.
  - inversion Hl' as [|q d m Hq Hd]; subst.
    + cbn in E. injection E as ->. exfalso. apply (tl_root _ _ T). apply in_map_iff. exists (p, u_root u). auto.
    + cbn in E. injection E as <-. f_equal. apply IH; [exact Hq|]. cbn. f_equal.
      assert (N := tl_parents _ _ T). unfold edge in *. clear - N He Hd. induction (g_edges g) as [|[a b] es IH]; [destruct He|].
      cbn in N. inversion N as [|? ? Hn N']. subst. destruct He as [He|He], Hd as [Hd|Hd].
      * congruence.
      * injection He as -> ->. exfalso. apply Hn. apply in_map_iff. exists (q, c). auto.
      * injection Hd as -> ->. exfalso. apply Hn. apply in_map_iff. exists (p, c). auto.
      * auto.
Qed.

Lemma scope_of_iff scopes : find_enclosing_scopes u st g = Some scopes -> forall c p, dlookup scopes c = Some (Some p) <-> scope_of u st g c p.
Proof.
  intros E. destruct (scope_spec u st g T K) as (m & Em & Hdom & Hroot & Hs). assert (m = scopes) as -> by congruence.
  intros c p. split.
  - intros Hc. assert (Hr : reachable g (u_root u) c) by (apply Hdom; eauto). destruct Hr as (l & Hl).
    assert (Hn : c <> u_root u) by congruence. destruct (Hs c l Hl Hn) as (l1 & q & l2 & -> & Ht & Hi & Hq). assert (q = p) as -> by congruence.
    exists l1, l2. auto.
  - intros (l1 & l2 & Hl & Hp & Ht).
    assert (Hn : c <> u_root u).
    { intros ->. inversion Hl as [E0|q d l Hq He E0]; subst; [destruct l1; discriminate|]. apply (tl_root _ _ T). apply in_map_iff. exists (q, u_root u). auto. }
    destruct (Hs c _ Hl Hn) as (m1 & q & m2 & E' & Hq & Hm & Hlook). rewrite Hlook. f_equal. f_equal.
    clear - E' Hp Ht Hq Hm. revert m1 E' Hm. induction l1 as [|x l1 IH]; intros [|y m1] E' Hm; cbn in E'.
    + injection E' as -> _. reflexivity.
    + injection E' as -> _. exfalso. apply Hp, Hm. left. reflexivity.
    + injection E' as -> _. exfalso. apply Hq, Ht. left. reflexivity.
    + injection E' as -> E'. apply (IH (fun z H => Ht z (or_intror H)) m1 E'). intros z H. apply Hm. right. exact H.
Qed.

Lemma needed_iff scopes : find_enclosing_scopes u st g = Some scopes -> forall m c, dep scopes m c <-> needed u w st g m c.
Proof.
  intros E m c. unfold depends, needed. rewrite (scope_of_iff scopes E). unfold public_bases_of. rewrite in_map_iff.
  split; intros (H1 & H2 & H3); split; auto; split; auto; (destruct H3 as [H3|[H3 (s & H4 & H5)]]; [left; exact H3|right; split; [exact H3|]]).
  - apply filter_In in H5 as [H5 H6]. eauto.
  - destruct H5 as [H5 H6]. exists s. rewrite filter_In. auto.
Qed.

(** Contexts in the order of their entries. *)
Definition worked (rs : list ereport) (st' : storage) (all : list entry) : Prop :=
  exists ts bs, run_bodies u w vis st ts = Some (st', bs, rs) /\ map ex_context all = map wk_context ts /\
    forall t, In t ts -> create u st (w_hierarchy w) (wk_context t) = Some (wk_exposer t).

Lemma written_work n name : 0 < n -> forall files rs st', emit_module u w g vis st nodes n name = Some (EWritten files rs st') ->
  exists order all chunks post, generated u w g vis st name rs st' order all post /\ layout name post all chunks files /\ length files = n /\
    (forall c, In c chunks -> length c = length all / n \/ length c = length all / n + 1) /\ worked rs st' all.
Proof.
  intros Hn files rs st' E. destruct (emit_core u w g vis st nodes location T K R L Q P n name Hn) as (scopes & Es & r & Er & H).
  destruct r as [order|c]; [|destruct H; congruence]. destruct H as (Hv & _ & p & Ep & Hp & H).
  destruct (run_bodies u w vis st (pl_work p)) as [[[st1 bs] rs1]|] eqn:Rb; [|congruence].
  destruct H as (Hl & files1 & chunks & Ef & Hlen & Hlay & Hsize). rewrite E in Ef. injection Ef as <- <- <-.
  exists order, (module_entries u w g st scopes p bs), chunks, (postamble u w st).
  split; [|repeat (split; [assumption|]); exists (pl_work p), bs; split; [exact Rb|]; split; [apply (entries_map u w g st scopes p (pl_work p) bs Hl)|apply (po_create _ _ _ _ _ Hp)]].
  destruct (entries_map u w g st scopes p (pl_work p) bs Hl) as (M1 & M2 & M3 & M4 & M5 & M6). fold (module_entries u w g st scopes p bs) in *.
  set (all := module_entries u w g st scopes p bs) in *.
  assert (Hent : forall k e, nth_error all k = Some e -> exists t b, nth_error (pl_work p) k = Some t /\ nth_error bs k = Some b /\ e = entry_of u w g st scopes (pl_identifiers p) t b).
  { clear - Hl. unfold all, module_entries. clear all. revert bs Hl. induction (pl_work p) as [|t ts IH]; intros [|b bs] Hl k e H; try discriminate; cbn [entries] in H; [destruct k; discriminate|].
    destruct k as [|k]; cbn in H.
    - injection H as <-. exists t, b. auto.
    - destruct (IH bs (eq_add_S _ _ Hl) k e H) as (t' & b' & H1 & H2 & H3). exists t', b'. auto. }
  split.
  - destruct Hv as [Hv1 Hv2]. split; [exact Hv1|]. intros l1 x l2 Ex y Hy. apply (Hv2 l1 x l2 Ex). apply (needed_iff scopes Es), Hy.
  - rewrite M1. apply (po_blocks _ _ _ _ _ Hp).
  - rewrite M1, M2. apply (po_names _ _ _ _ _ Hp).
  - intros e He. apply In_nth_error in He as (k & Hk). destruct (Hent k e Hk) as (t & b & Ht & Hb & ->). apply nth_error_In in Ht.
    destruct (introduce_some u w g st T K R L scopes order p Es Hv Hp t Ht) as (_ & parent & Hi & _).
    destruct (introduces_spec u w g st L _ _ (po_create _ _ _ _ _ Hp t Ht) _ _ Hi) as (H1 & H2 & H3). cbn [ex_context ex_intro entry_of]. split; [exact H1|].
    unfold accepts. cbn [ex_param ex_intro entry_of]. unfold param_of. rewrite H3. reflexivity.
  - intros before e after Eall.
    assert (Hk : nth_error all (length before) = Some e) by (rewrite Eall, nth_error_app2, Nat.sub_diag; [reflexivity|lia]).
    destruct (Hent _ e Hk) as (t & b & Ht & Hb & Ee). assert (Ht' := nth_error_In _ _ Ht).
    destruct (introduce_some u w g st T K R L scopes order p Es Hv Hp t Ht') as (_ & parent & Hi & Hparent).
    destruct (introduces_spec u w g st L _ _ (po_create _ _ _ _ _ Hp t Ht') _ _ Hi) as (_ & H2 & _).
    assert (Ec : ex_context e = wk_context t) by (rewrite Ee; reflexivity). assert (Ei : intro_parent (ex_intro e) = parent) by (rewrite Ee; exact H2).
    unfold placed_in_scope. rewrite Ec, Ei. destruct Hparent as [Hparent|(Hc & q & t' & Hq & Ht2 & -> & Hsame & Hbefore)]; [left; exact Hparent|right].
    split; [exact Hc|]. apply In_nth_error in Ht2 as (j & Hj).
    assert (Hj' : exists f, nth_error all j = Some f).
    { destruct (nth_error all j) eqn:E1; [eauto|]. apply nth_error_None in E1. assert (j < length (pl_work p)) by (apply nth_error_Some; congruence). lia. }
    destruct Hj' as (f & Hf). destruct (Hent _ _ Hf) as (t2 & b2 & Ht2 & _ & ->). assert (t2 = t') as -> by congruence.
    exists q, (entry_of u w g st scopes (pl_identifiers p) t' b2). split; [apply (scope_of_iff scopes Es), Hq|]. split; [|split; [reflexivity|exact Hsame]].
    (* position *)
    assert (No := order_nodup u w g T scopes order Hv).
    assert (Hin : In (wk_context t) order) by (apply (work_in u w st order p Hp), Ht'). apply in_split in Hin as (o1 & o2 & Eo).
    assert (Hb1 : In (wk_context t') (map ex_context before)).
    { apply (blocks_before u order (map ex_context all) (map ex_context before) (wk_context t) (map ex_context after) (wk_context t') o1 o2).
      - rewrite M1. apply (po_blocks _ _ _ _ _ Hp).
      - exact No.
      - rewrite Eall, map_app. cbn [map]. rewrite Ec. reflexivity.
      - exact Eo.
      - apply (Hbefore o1 o2 Eo).
      - rewrite M1. apply in_map. eapply nth_error_In, Hj. }
    apply in_map_iff in Hb1 as (f & Ef & Hinf).
    assert (Nd : NoDup (map ex_context all)) by (rewrite M1; eapply blocks_nodup; [apply (po_blocks _ _ _ _ _ Hp)|exact No]).
    assert (Hfall : In f all) by (rewrite Eall; apply in_app_iff; auto). apply In_nth_error in Hfall as (i & Hfi).
    assert (i = j).
    { apply (proj1 (NoDup_nth_error (map ex_context all)) Nd).
      - apply nth_error_Some. rewrite (map_nth_error _ _ _ Hfi). discriminate.
      - rewrite (map_nth_error _ _ _ Hfi), (map_nth_error _ _ _ Hf). cbn [ex_context entry_of]. rewrite Ef. reflexivity. }
    subst i. rewrite Hf in Hfi. injection Hfi as ->. exact Hinf.
  - destruct (bodies_spec u w vis st (pl_work p) st st' bs rs Rb) as (rss & Hc & _ & Hlr & _ & Hb). { intros i a; auto. } { auto. }
    exists rss. split; [|exact Hc]. apply Forall2_nth; [congruence|]. intros k e r He Hr.
    destruct (Hent k e He) as (t & b & Ht & Hbk & ->). destruct (Hb k t b r Ht Hbk Hr) as (s1 & s2 & D & X1 & X2 & F).
    exists (wk_exposer t), s1, s2. cbn [ex_context ex_body entry_of]. split; [apply (po_create _ _ _ _ _ Hp), (nth_error_In _ _ Ht)|]. split; [exact D|]. auto.
  - apply postamble_final.
Qed.
End Final.

(** ** Identifiers *)

Lemma context_name_prefix u w c : exists r, context_name u w c = "c"%char :: r.
Proof.
  unfold context_name. set (s := _ ++ _). change s with ("c"%char :: ($"ontext" ++ match kind u c with KRecord | KEnum => w_qualified w c | KNamespace => $"_" ++ w_qualified w c | _ => [] end)).
  clear s. set (s := _ ++ _). assert (H := proj1 (make_valid_identifier_spec ("c"%char :: s) _) eq_refl).
  remember ("c"%char :: s) as x eqn:Ex. remember (make_valid_identifier x) as y eqn:Ey. clear Ey. destruct H as [x y St Co|run x y N F _ Co].
  - destruct Co as [|c' x y Hc Co|run x y N F St' Co]; [discriminate|injection Ex as -> _; eauto|]. exfalso.
    destruct run as [|d run]; [congruence|]. cbn in Ex. injection Ex as -> _. cbn in F. discriminate.
  - exfalso. destruct run as [|d run]; [congruence|]. cbn in Ex. injection Ex as -> _. cbn in F. discriminate.
Qed.

Lemma context_name_identifier u w c : identifier (context_name u w c).
Proof. apply make_id_valid. discriminate. Qed.

Lemma digit_continue s : Forall (fun c => is_digit_char c = true) s -> forallb is_ident_continue s = true.
Proof.
  intros H. apply forallb_forall. intros c Hc. rewrite Forall_forall in H. apply H in Hc. unfold is_ident_continue.
  change (is_digit c) with (is_digit_char c). rewrite Hc. apply orb_true_r.
Qed.

Lemma numbered_identifier n k : identifier n -> identifier (numbered n k).
Proof.
  intros (c & r & -> & Hc & Hr). unfold numbered. destruct (k =? 1)%N; [exists c, r; auto|].
  exists c, (r ++ $"_" ++ decimal k). split; [reflexivity|]. split; [exact Hc|]. rewrite forallb_app, Hr. change (forallb is_ident_continue (decimal k) = true).
  apply digit_continue, decimal_digits.
Qed.

Section Generated.
Variables (u : unit) (w : facts) (g : graph) (vis : dmap bool) (st : storage) (name : str) (rs : list ereport) (st' : storage)
  (order : list nat) (all : list entry) (post : list nat).
Hypothesis T : tree_like g (u_root u).
Hypothesis G : generated u w g vis st name rs st' order all post.

Lemma some_inj {A} (a b : A) : Some a = Some b -> a = b.
Proof. intros [= H]. exact H. Qed.

Lemma ids_from_names e : In e all -> exists k, ex_id e = numbered (context_name u w (ex_context e)) k.
Proof.
  intros He. apply In_nth_error in He as (k & Hk). assert (H := map_nth_error ex_id _ _ Hk). rewrite (ge_names _ _ _ _ _ _ _ _ _ _ _ G) in H.
  apply numbered_names_nth in H as (n & Hn & E). rewrite map_map in Hn. rewrite (map_nth_error _ _ _ Hk) in Hn. apply some_inj in Hn. subst n. eexists. exact E.
Qed.

Lemma ids_identifiers e : In e all -> identifier (ex_id e) /\ ex_id e <> $"root".
Proof.
  intros He. destruct (ids_from_names e He) as (k & ->). split; [apply numbered_identifier, context_name_identifier|].
  destruct (context_name_prefix u w (ex_context e)) as (r & ->). destruct (numbered_prefix ("c"%char :: r) k) as (r' & ->). discriminate.
Qed.

Lemma order_nodup' : NoDup order.
Proof. destruct (ge_order _ _ _ _ _ _ _ _ _ _ _ G) as [Hp _]. eapply Permutation_NoDup; [exact Hp|apply T]. Qed.

Lemma contexts_nodup : NoDup (map ex_context all).
Proof. eapply blocks_nodup; [apply (ge_blocks _ _ _ _ _ _ _ _ _ _ _ G)|exact order_nodup']. Qed.

Lemma context_unique e f : In e all -> In f all -> ex_context e = ex_context f -> e = f.
Proof.
  intros He Hf E. apply In_nth_error in He as (i & Hi). apply In_nth_error in Hf as (j & Hj). assert (i = j); [|congruence].
  apply (proj1 (NoDup_nth_error (map ex_context all)) contexts_nodup).
  - apply nth_error_Some. rewrite (map_nth_error _ _ _ Hi). discriminate.
  - rewrite (map_nth_error _ _ _ Hi), (map_nth_error _ _ _ Hj). congruence.
Qed.

Lemma entry_context_node e : In e all -> In (ex_context e) (g_nodes g).
Proof.
  intros He. destruct (ge_order _ _ _ _ _ _ _ _ _ _ _ G) as [Hp _]. apply (Permutation_in _ (Permutation_sym Hp)).
  apply (blocks_incl _ _ _ _ (ge_blocks _ _ _ _ _ _ _ _ _ _ _ G)), in_map, He.
Qed.

(** Whatever comes before in the order comes before in the module. *)
Lemma entry_before before e after f l1 l2 : all = before ++ e :: after -> order = l1 ++ ex_context e :: l2 -> In f all -> In (ex_context f) l1 -> In f before.
Proof.
  intros E Eo Hf Hl. assert (Hb : In (ex_context f) (map ex_context before)).
  { eapply (blocks_before u order (map ex_context all) _ (ex_context e) (map ex_context after)); [apply (ge_blocks _ _ _ _ _ _ _ _ _ _ _ G)|exact order_nodup'| |exact Eo|exact Hl|apply in_map, Hf].
    rewrite E, map_app. reflexivity. }
  apply in_map_iff in Hb as (f' & Ef & Hf'). assert (f' = f) as <-; [|exact Hf']. apply context_unique; [rewrite E; apply in_app_iff; auto|exact Hf|exact Ef].
Qed.

(** ** Bases *)

Lemma via_precedes r b : base_via (w_hierarchy w) (fun i => In i (g_nodes g)) r b -> language u w -> kind u r = KRecord -> In r (g_nodes g) -> In b (g_nodes g) ->
  forall l1 l2, order = l1 ++ r :: l2 -> In b l1.
Proof.
  destruct (ge_order _ _ _ _ _ _ _ _ _ _ _ G) as [_ Hr]. intros V L. induction V as [r s Hs Hp|r s b Hs Hp He V IH]; intros Kr Nr Nb l1 l2 E.
  - apply (Hr l1 r l2 E). split; [exact Nr|]. split; [exact Nb|]. right. split; [exact Kr|]. eauto.
  - assert (Hm : In (sp_base s) l1).
    { apply (Hr l1 r l2 E). split; [exact Nr|]. split; [exact He|]. right. split; [exact Kr|]. eauto. }
    apply in_split in Hm as (a & a' & ->). rewrite <- app_assoc in E. cbn in E. apply in_app_iff. left.
    apply (IH (la_bases _ _ L _ _ Hs) He Nb a _ E).
Qed.

Lemma listed_base_is_class h inl hid exposed' r b : lists h inl hid exposed' r b -> (forall r s, In s (h_direct h r) -> kind u (sp_base s) = KRecord) -> exposed' b /\ kind u b = KRecord.
Proof. induction 1 as [r s H1 H2 H3 H4 H5|r s b H1 H2 H3 H4 H5 IH]; intros H; [split; [exact H5|eapply H, H1]|apply IH, H]. Qed.

Lemma bases_registered : language u w -> forall before e after t parent n d, all = before ++ e :: after -> ex_intro e = NClass t parent n d ->
  forall b, In b (ct_bases t) -> exists f t' parent' n' d', In f all /\ ex_context f = b /\ ex_intro f = NClass t' parent' n' d' /\ ct_record t' = b /\
    (base_via (w_hierarchy w) (fun i => In i (g_nodes g)) (ex_context e) b -> In f before).
Proof.
  intros L before e after t parent n d E Ei b Hb. assert (He : In e all) by (rewrite E; apply in_app_iff; right; left; reflexivity).
  destruct (ge_introduces _ _ _ _ _ _ _ _ _ _ _ G e He) as (Hint & _). unfold introduces in Hint. rewrite Ei in Hint.
  destruct (kind u (ex_context e)) eqn:Ke; try (destruct Hint as (x & Hx); discriminate); try (destruct Hint as (x & y & z & Hx & _); discriminate); try contradiction.
  destruct Hint as (t0 & p0 & n0 & d0 & Et & _ & Hrec & _ & _ & pol & Hpol & Hlist & _). injection Et as <- _ _ _. apply Hlist in Hb.
  destruct (listed_base_is_class _ _ _ _ _ _ Hb (la_bases _ _ L)) as [Nb Kb].
  assert (Hf : In b (map ex_context all)).
  { apply (blocks_keeps _ _ _ _ (ge_blocks _ _ _ _ _ _ _ _ _ _ _ G)); [|rewrite Kb; discriminate]. destruct (ge_order _ _ _ _ _ _ _ _ _ _ _ G) as [Hp _]. apply (Permutation_in _ Hp), Nb. }
  apply in_map_iff in Hf as (f & Ef & Hf). destruct (ge_introduces _ _ _ _ _ _ _ _ _ _ _ G f Hf) as (Hintf & _). unfold introduces in Hintf. rewrite Ef, Kb in Hintf.
  destruct Hintf as (t1 & p1 & n1 & d1 & Et1 & _ & Hrec1 & _). exists f, t1, p1, n1, d1. split; [exact Hf|]. split; [exact Ef|]. split; [exact Et1|]. split; [exact Hrec1|].
  intros V. assert (Ho : In (ex_context e) order) by (apply (blocks_incl _ _ _ _ (ge_blocks _ _ _ _ _ _ _ _ _ _ _ G)), in_map, He).
  apply in_split in Ho as (l1 & l2 & Eo). apply (entry_before before e after f l1 l2 E Eo Hf). rewrite Ef.
  apply (via_precedes _ _ V L Ke (entry_context_node e He) Nb l1 l2 Eo).
Qed.

(** ** Reopened namespaces *)

Lemma namespace_object before e after p : (forall c d, same_namespace u c d -> u_name u c = u_name u d) ->
  all = before ++ e :: after -> ex_context e <> u_root u -> scope_of u st g (ex_context e) p -> kind u p = KNamespace ->
  (forall f, In f all -> same_namespace u (ex_context f) p -> lookup_attrs st (ex_context f) = lookup_attrs st p) ->
  exists f, In f before /\ intro_parent (ex_intro e) = ex_id f /\ same_namespace u (ex_context f) p /\ introduces u w g st p (ex_intro f).
Proof.
  intros Hnames E Hn Hs Kp Ha. destruct (ge_places _ _ _ _ _ _ _ _ _ _ _ G before e after E) as [[H _]|(_ & q & f & Hq & Hf & Hi & Hsame)]; [congruence|].
  assert (q = p) as ->.
  { destruct Hq as (l1 & l2 & Hl & Hq & H1), Hs as (m1 & m2 & Hm & Hp & H2). assert (E' := path_unique u g T _ Hl _ Hm eq_refl). injection E' as E'.
    clear - E' Hq H1 Hp H2. revert m1 E' H2. induction l1 as [|x l1 IH]; intros [|y m1] E' H2; cbn in E'.
    + injection E' as -> _. reflexivity.
    + injection E' as -> _. exfalso. apply Hq, H2. left. reflexivity.
    + injection E' as -> _. exfalso. apply Hp, H1. left. reflexivity.
    + injection E' as -> E'. apply (IH (fun z H => H1 z (or_intror H)) m1 E'). intros z H. apply H2. right. exact H. }
  assert (Hf' : In f all) by (rewrite E; apply in_app_iff; auto).
  assert (Hsn : same_namespace u (ex_context f) p). { destruct Hsame as [->|Hsame]; [repeat split; assumption|exact Hsame]. }
  exists f. split; [exact Hf|]. split; [exact Hi|]. split; [exact Hsn|].
  destruct (ge_introduces _ _ _ _ _ _ _ _ _ _ _ G f Hf') as (Hint & _). assert (Hnm := Hnames _ _ Hsn). destruct Hsn as (Kf & _ & Hcan).
  unfold introduces in *. rewrite Kf in Hint. rewrite Kp. unfold named, called in *. rewrite <- Hnm, <- (Ha f Hf'); [exact Hint|]. repeat split; assumption.
Qed.

(** ** Compilation of the module block *)

Lemma param_module e : In e all -> (ex_param e = PModule <-> is_tag_kind (kind u (ex_context e)) = false).
Proof.
  intros He. destruct (ge_introduces _ _ _ _ _ _ _ _ _ _ _ G e He) as (H & A). unfold accepts in A. rewrite A. unfold introduces in H.
  destruct (kind u (ex_context e)) eqn:Ke; cbn [is_tag_kind].
  all: try (destruct H as (p & ->); split; reflexivity).
  - destruct (ex_intro e); try contradiction; split; reflexivity.
  - destruct H as (p & n & b & -> & _). split; discriminate.
  - destruct H as (t & p & n & b & -> & _). split; discriminate.
Qed.

Definition bound (l : list entry) : variables := rev (map (fun e => (ex_id e, ex_param e)) l) ++ [($"root", PModule)].

Lemma variable_app n a b : variable n (a ++ b) = match variable n a with Some t => Some t | None => variable n b end.
Proof. induction a as [|[m t] a IH]; [reflexivity|]. cbn [app variable]. destruct (str_eqb n m); [reflexivity|apply IH]. Qed.

Lemma variable_none n a : ~ In n (map fst a) -> variable n a = None.
Proof.
  induction a as [|[m t] a IH]; intros H; [reflexivity|]. cbn [variable]. destruct (str_eqb n m) eqn:E.
  - apply str_eqb_eq in E. exfalso. apply H. left. cbn. congruence.
  - apply IH. intros H'. apply H. right. exact H'.
Qed.

Lemma variable_some n t a : NoDup (map fst a) -> In (n, t) a -> variable n a = Some t.
Proof.
  induction a as [|[m t'] a IH]; intros N H; [destruct H|]. cbn in N. inversion N as [|? ? Hm N']. subst. cbn [variable]. destruct H as [H|H].
  - injection H as -> ->. rewrite (proj2 (str_eqb_eq n n) eq_refl). reflexivity.
  - destruct (str_eqb n m) eqn:E; [|apply IH; assumption]. apply str_eqb_eq in E. subst m. exfalso. apply Hm. apply in_map_iff. exists (n, t). auto.
Qed.

Lemma bound_fst l : map fst (bound l) = rev (map ex_id l) ++ [$"root"].
Proof. unfold bound. rewrite map_app, map_rev, map_map. reflexivity. Qed.

Lemma NoDup_snoc {A} (l : list A) a : NoDup l -> ~ In a l -> NoDup (l ++ [a]).
Proof.
  intros N H. apply (Permutation_NoDup (l := a :: l)); [apply Permutation_cons_append|]. constructor; assumption.
Qed.

Lemma bound_nodup l : incl l all -> NoDup (map ex_id l) -> NoDup (map fst (bound l)).
Proof.
  intros I N. rewrite bound_fst. apply NoDup_snoc; [apply NoDup_rev, N|]. intros H. apply in_rev in H. apply in_map_iff in H as (e & E & He).
  apply (ids_identifiers e (I e He)), E.
Qed.

Lemma block_compiles : NoDup (map ex_id all) ->
  (forall c p, In c (g_nodes g) -> scope_of u st g c p -> is_tag_kind (kind u c) = false -> is_tag_kind (kind u p) = false) ->
  run_block (map (fun e => (ex_id e, ex_intro e)) all) = Some (bound all) /\ forall e, In e all -> variable (ex_id e) (bound all) = Some (ex_param e).
Proof.
  intros N Hmod. split.
  2:{ intros e He. apply variable_some; [apply bound_nodup; [apply incl_refl|exact N]|]. unfold bound. apply in_app_iff. left. apply -> in_rev. apply in_map_iff. eauto. }
  unfold run_block. assert (H : forall l r, all = l ++ r -> fold_opt run_intro (map (fun e => (ex_id e, ex_intro e)) r) (bound l) = Some (bound all)).
  2:{ apply (H [] all eq_refl). }
  intros l r. revert l. induction r as [|e r IH]; intros l E.
  - rewrite app_nil_r in E. subst l. reflexivity.
  - cbn [map fold_opt].
    assert (He : In e all) by (rewrite E; apply in_app_iff; right; left; reflexivity).
    assert (Il : incl l all) by (rewrite E; apply incl_appl, incl_refl).
    assert (Nl : NoDup (map ex_id l ++ map ex_id (e :: r))) by (rewrite <- map_app, <- E; exact N).
    assert (Hnew : ~ In (ex_id e) (map ex_id l)).
    { cbn [map] in Nl. apply NoDup_remove_2 in Nl. intros H. apply Nl, in_app_iff. auto. }
    assert (Nl' : NoDup (map ex_id l)).
    { clear - Nl. revert Nl. generalize (map ex_id (e :: r)). induction (map ex_id l) as [|x m IHm]; intros q Nl; [constructor|]. cbn in Nl. inversion Nl as [|? ? Hx N']. subst.
      constructor; [|eapply IHm, N']. intros H. apply Hx, in_app_iff. auto. }
    assert (Hb := bound_nodup l Il Nl').
    assert (Hstep : run_intro (bound l) (ex_id e, ex_intro e) = Some ((ex_id e, ex_param e) :: bound l)).
    { unfold run_intro. cbn [fst snd]. rewrite (variable_none (ex_id e)).
      2:{ rewrite bound_fst. intros H. apply in_app_iff in H as [H|[H|[]]]; [apply in_rev in H; auto|]. apply (ids_identifiers e He). congruence. }
      destruct (ge_introduces _ _ _ _ _ _ _ _ _ _ _ G e He) as (_ & A). unfold accepts in A.
      assert (Hp : exists t, variable (intro_parent (ex_intro e)) (bound l) = Some t /\ (is_tag_kind (kind u (ex_context e)) = false -> t = PModule)).
      { destruct (ge_places _ _ _ _ _ _ _ _ _ _ _ G l e r E) as [[Hc Hr]|(Hn & p & f & Hs & Hf & Hi & Hsame)].
        - exists PModule. split; [|reflexivity]. apply variable_some; [exact Hb|]. unfold bound. rewrite Hr. apply in_app_iff. right. left. reflexivity.
        - exists (ex_param f). split; [apply variable_some; [exact Hb|]; rewrite Hi; unfold bound; apply in_app_iff; left; apply -> in_rev; apply in_map_iff; eauto|].
          intros Ht. apply param_module; [apply Il, Hf|]. assert (Hp := Hmod _ _ (entry_context_node e He) Hs Ht). destruct Hsame as [->|(K1 & _)]; [exact Hp|rewrite K1; reflexivity]. }
      destruct Hp as (t & -> & Hmodule).
      assert (Hm := param_module e He). destruct (ex_intro e); rewrite A in *; try reflexivity.
      - rewrite Hmodule; [reflexivity|]. apply Hm. reflexivity.
      - rewrite Hmodule; [reflexivity|]. apply Hm. reflexivity. }
    rewrite Hstep.
    assert (Hb' : (ex_id e, ex_param e) :: bound l = bound (l ++ [e])) by (unfold bound; rewrite map_app, rev_app_distr; reflexivity).
    rewrite Hb'. apply IH. rewrite <- app_assoc. exact E.
Qed.
End Generated.

(** ** Whole runs *)

Lemma layout_definitions name post all chunks files : layout name post all chunks files -> 0 < length files ->
  filter is_definition (concat files) = map definition all /\
  filter is_module (concat files) = [IModule name (map (fun e => (ex_id e, ex_intro e)) all) (map (fun e => (ex_id e, ex_id e)) all) post].
Proof.
  intros (E & Hl & H) Hpos.
  assert (D1 : forall l, filter is_definition (map definition l) = map definition l) by (induction l as [|x l IH]; [reflexivity|cbn; f_equal; exact IH]).
  assert (D2 : forall l, filter is_definition (map declaration l) = []) by (induction l as [|x l IH]; [reflexivity|exact IH]).
  assert (D3 : forall l, filter is_definition (flat_map (fun e => [declaration e; definition e]) l) = map definition l) by (induction l as [|x l IH]; [reflexivity|cbn; f_equal; exact IH]).
  assert (M1 : forall l, filter is_module (map definition l) = []) by (induction l as [|x l IH]; [reflexivity|exact IH]).
  assert (M2 : forall l, filter is_module (map declaration l) = []) by (induction l as [|x l IH]; [reflexivity|exact IH]).
  assert (M3 : forall l, filter is_module (flat_map (fun e => [declaration e; definition e]) l) = []) by (induction l as [|x l IH]; [reflexivity|exact IH]).
  assert (Rest : forall cs fs, length cs = length fs -> (forall k c f, nth_error cs k = Some c -> nth_error fs k = Some f -> f = flat_map (fun e => [declaration e; definition e]) c) ->
    filter is_definition (concat fs) = map definition (concat cs) /\ filter is_module (concat fs) = []).
  { induction cs as [|c cs IH]; intros [|f fs] Hlen Hk; try discriminate; [split; reflexivity|]. cbn [concat].
    destruct (IH fs (eq_add_S _ _ Hlen)) as [I1 I2]. { intros k c' f' H1 H2. apply (Hk (S k)); assumption. }
    rewrite !filter_app, I1, I2, map_app. rewrite (Hk 0 c f eq_refl eq_refl), D3, M3. split; reflexivity. }
  destruct files as [|f fs]; [cbn in Hpos; lia|]. destruct chunks as [|c cs]; [discriminate|].
  destruct (Rest cs fs (eq_add_S _ _ Hl)) as [R1 R2]. { intros k c' f' H1 H2. apply (H (S k)); assumption. }
  cbn [concat] in *. rewrite !filter_app, R1, R2. rewrite (H 0 c f eq_refl eq_refl). rewrite !filter_app. cbn [filter is_definition is_module]. rewrite D1, D2, M1, M2.
  split; [|reflexivity]. cbn [app]. rewrite <- map_app, E. reflexivity.
Qed.

Section Runs.
Variables (u : unit) (w : facts) (found : nat -> list nat) (implicit : nat -> bool) (iteration : list nat -> list nat).
Hypothesis S : setting u w iteration.

Lemma exposed_graph name g vis b : exposed u found implicit name g vis b ->
  tree_like g (u_root u) /\ kind u (u_root u) = KOther /\ (forall n, In n (g_nodes g) -> reachable g (u_root u) n) /\
  faithful u (bs_annotations b) /\ (forall p c, edge g p c -> place u p c).
Proof.
  intros (contexts & warned & E). destruct S as [Hp L _ _]. assert (H := process_spec u Hp found implicit name). rewrite E in H. cbn zeta in H.
  destruct H as (vis0 & contexts0 & Hb & Hv & _ & Hcx & Hh & Hpr & _).
  destruct (one_place u Hp b Hb) as (T & He & _).
  destruct (derive_spec u (bs_annotations b) (bs_graph b) T) as (vis1 & Hv1 & Hk & _). rewrite Hv in Hv1. injection Hv1 as <-.
  destruct (hide_spec u (bs_annotations b) name (bs_graph b) T contexts0 vis0) as (contexts1 & vis1 & Hh' & Hh1 & Hh2). rewrite Hh in Hh'. injection Hh' as <- <-.
  destruct (pruned_spec u contexts vis (bs_graph b) T) as (g' & Hpr' & T' & He' & Hn & Hr & Hpath).
  { intros n Hr. assert (Hr' := Hr). destruct Hr' as (l & Hpn). destruct (Hh1 n l Hpn) as (_ & X & Y).
    destruct (exists_foreign_dec u (bs_annotations b) name (n :: l)) as [F|F]; [rewrite (X F); eauto|]. rewrite (Y F). apply Hk, Hr. }
  rewrite Hpr in Hpr'. injection Hpr' as <-. split; [exact T'|]. split; [apply pl_root_kind, Hp|]. split; [intros n; apply Hr|].
  split; [apply graph_faithful; assumption|]. intros p c Hc. apply He. apply He' in Hc as (l & Hl & _). inversion Hl. assumption.
Qed.

Lemma generate_inv n name b e : generate u w found implicit iteration n name = Some (RGraph b e) <->
  exists g vis, exposed u found implicit name g vis b /\ emit_module u w g vis (bs_annotations b) (iteration (g_nodes g)) n name = Some e.
Proof.
  unfold generate, exposed. split.
  - destruct (process u found implicit name) as [[rs|aliases|g contexts vis warned b']| |]; try discriminate.
    destruct (emit_module u w g vis (bs_annotations b') (iteration (g_nodes g)) n name) as [e'|] eqn:E; [|discriminate]. intros [= <- <-]. exists g, vis. split; [eauto|exact E].
  - intros (g & vis & (contexts & warned & ->) & ->). reflexivity.
Qed.

(** Namespaces are not nested in classes. *)
Lemma modules_nested name g vis b : exposed u found implicit name g vis b ->
  forall c p, In c (g_nodes g) -> scope_of u (bs_annotations b) g c p -> is_tag_kind (kind u c) = false -> is_tag_kind (kind u p) = false.
Proof.
  intros X c p Hc (l1 & l2 & Hl & _ & _) Hk. destruct (exposed_graph name g vis b X) as (T & Kr & _ & _ & He).
  assert (H : forall l, path (edge g) (u_root u) l -> forall x m, l = x :: m -> is_tag_kind (kind u x) = false -> forall y, In y l -> is_tag_kind (kind u y) = false).
  { induction 1 as [|q d l Hp IH Hed]; intros x m E Hx y Hy.
    - destruct Hy as [<-|[]]. rewrite Kr. reflexivity.
    - injection E as <- <-. assert (Hq : is_tag_kind (kind u q) = false).
      { apply He in Hed. destruct Hed as [(a & (xa & Ha & _) & _)|(_ & _ & Hck & _ & Hnear)].
        - destruct Ha as (Ha1 & Ha2 & Ha3 & Ha4 & _). destruct (pl_target u (se_placed _ _ _ S) a d Ha1 Ha2 Ha3 Ha4) as [Ht _]. congruence.
        - apply (la_namespaces u w (se_language _ _ _ S) d q); [|exact Hnear]. destruct Hck as [Hck|[Hck|Hck]]; [exact Hck| |]; rewrite Hck in Hx; discriminate. }
      destruct Hy as [<-|Hy]; [exact Hx|]. apply (IH q l eq_refl Hq y Hy). }
  apply (H _ Hl c _ eq_refl Hk). right. apply in_app_iff. right. left. reflexivity.
Qed.

Lemma run_work n name b files rs st' : 0 < n -> generate u w found implicit iteration n name = Some (RGraph b (EWritten files rs st')) ->
  exists g vis order all chunks post, exposed u found implicit name g vis b /\
    generated u w g vis (bs_annotations b) name rs st' order all post /\ layout name post all chunks files /\ length files = n /\
    (forall c, In c chunks -> length c = length all / n \/ length c = length all / n + 1) /\ worked u w vis (bs_annotations b) rs st' all.
Proof.
  intros Hn E. apply generate_inv in E as (g & vis & X & E). destruct (exposed_graph name g vis b X) as (T & K & R & _).
  destruct S as [_ L (location & Q) P].
  destruct (written_work u w g vis (bs_annotations b) (iteration (g_nodes g)) location T K R L Q (P _) n name Hn files rs st' E) as (order & all & chunks & post & H).
  exists g, vis, order, all, chunks, post. tauto.
Qed.

Lemma run_written n name b files rs st' : 0 < n -> generate u w found implicit iteration n name = Some (RGraph b (EWritten files rs st')) ->
  exists g vis order all chunks post, exposed u found implicit name g vis b /\
    generated u w g vis (bs_annotations b) name rs st' order all post /\ layout name post all chunks files /\ length files = n /\
    (forall c, In c chunks -> length c = length all / n \/ length c = length all / n + 1).
Proof.
  intros Hn E. destruct (run_work n name b files rs st' Hn E) as (g & vis & order & all & chunks & post & H). exists g, vis, order, all, chunks, post. tauto.
Qed.

(** The number of files does not matter. *)
Lemma run_files n m name b files rs st' : 0 < n -> 0 < m -> generate u w found implicit iteration n name = Some (RGraph b (EWritten files rs st')) ->
  exists files', generate u w found implicit iteration m name = Some (RGraph b (EWritten files' rs st')) /\
    filter is_definition (concat files') = filter is_definition (concat files) /\ filter is_module (concat files') = filter is_module (concat files).
Proof.
  intros Hn Hm E. apply generate_inv in E as (g & vis & X & E). destruct (exposed_graph name g vis b X) as (T & K & R & _).
  assert (S' := S). destruct S' as [_ L (location & Q) P].
  destruct (emit_core u w g vis (bs_annotations b) (iteration (g_nodes g)) location T K R L Q (P _) n name Hn) as (scopes & Es & r & Er & H).
  destruct (emit_core u w g vis (bs_annotations b) (iteration (g_nodes g)) location T K R L Q (P _) m name Hm) as (scopes' & Es' & r' & Er' & H').
  assert (scopes' = scopes) as -> by congruence. assert (r' = r) as -> by congruence. clear Es' Er'.
  destruct r as [order|c]; [|destruct H; congruence]. destruct H as (Hv & _ & p & Ep & Hp & H), H' as (_ & _ & p' & Ep' & _ & H').
  assert (p' = p) as -> by congruence. destruct (run_bodies u w vis (bs_annotations b) (pl_work p)) as [[[st1 bs] rs1]|]; [|congruence].
  destruct H as (Hl & files1 & chunks & Ef & Hlen & Hlay & _), H' as (_ & files2 & chunks2 & Ef2 & Hlen2 & Hlay2 & _).
  rewrite E in Ef. injection Ef as <- <- <-. exists files2. split; [apply generate_inv; eauto|].
  destruct (layout_definitions _ _ _ _ _ Hlay) as [A1 A2]; [lia|]. destruct (layout_definitions _ _ _ _ _ Hlay2) as [B1 B2]; [lia|]. split; congruence.
Qed.

(** Cycles *)
Lemma run_cycle n name b : 0 < n -> forall g vis, exposed u found implicit name g vis b ->
  (cyclic (needed u w (bs_annotations b) g) <-> exists c, generate u w found implicit iteration n name = Some (RGraph b (ECycle c))).
Proof.
  intros Hn g vis X. destruct (exposed_graph name g vis b X) as (T & K & R & _). assert (S' := S). destruct S' as [_ L (location & Q) P].
  destruct (emit_core u w g vis (bs_annotations b) (iteration (g_nodes g)) location T K R L Q (P _) n name Hn) as (scopes & Es & r & Er & H).
  assert (Hc : cyclic (needed u w (bs_annotations b) g) <-> cyclic (depends u (public_bases_of (w_hierarchy w)) g scopes)).
  { assert (Hlead : forall (E F : nat -> nat -> Prop), (forall x y, E x y -> F x y) -> cyclic E -> cyclic F).
    { intros E F HEF (x & l & Hl). exists x, l. clear - HEF Hl. revert Hl. generalize x at 2 4. intros y Hl. induction Hl as [a c He|a c d l He Hl IH]; [apply leads_one, HEF, He|apply (leads_more F a c d l); [apply HEF, He|exact IH]]. }
    split; apply Hlead; intros x y; apply (needed_iff u w g (bs_annotations b) T K scopes Es). }
  rewrite Hc. destruct r as [order|c].
  - destruct H as (_ & Hnc & p & _ & _ & H). split; [contradiction|]. intros (c & E). apply generate_inv in E as (g' & vis' & X' & E).
    assert (g' = g /\ vis' = vis) as [-> ->]. { destruct X as (c1 & w1 & X), X' as (c2 & w2 & X'). split; congruence. }
    destruct (run_bodies u w vis (bs_annotations b) (pl_work p)) as [[[st1 bs] rs1]|]; [|congruence]. destruct H as (_ & files & chunks & E' & _). congruence.
  - destruct H as (Hcy & E). split; [|auto]. intros _. exists c. apply generate_inv. eauto.
Qed.

Lemma run_bodies_total vis ts : proper_declarations u w -> forall st0 st1, (forall t, In t ts -> create u st0 (w_hierarchy w) (wk_context t) = Some (wk_exposer t)) ->
  faithful u st1 -> run_bodies u w vis st1 ts <> None.
Proof.
  intros D st0. induction ts as [|t ts IH]; intros st1 Hc F; cbn [run_bodies]; [discriminate|].
  destruct (define u (w_extra w) (wk_exposer t) (visible_by_default vis t) (decls_of u w t) st1) as [[[st2 bd] rs]|] eqn:E.
  2:{ exfalso. revert E. apply define_total; [exact F|]. intros i Hi. apply (D st0 (wk_context t) (wk_exposer t) (Hc t (or_introl eq_refl)) i Hi). }
  assert (F2 := define_faithful _ _ _ _ _ _ _ _ _ E F). specialize (IH st2 (fun t H => Hc t (or_intror H)) F2).
  destruct (run_bodies u w vis st2 ts) as [[[? ?] ?]|]; [discriminate|congruence].
Qed.

Lemma run_total n name : 0 < n -> proper_declarations u w -> generate u w found implicit iteration n name = None -> collect u = None.
Proof.
  intros Hn D E. assert (S' := S). destruct S' as [Hp L (location & Q) P].
  assert (H := process_spec u Hp found implicit name). unfold generate in E.
  destruct (process u found implicit name) as [[rs|aliases|g contexts vis warned b]| |] eqn:Ep; try discriminate; try contradiction; [|exact H].
  exfalso. assert (X : exposed u found implicit name g vis b) by (exists contexts, warned; exact Ep).
  destruct (exposed_graph name g vis b X) as (T & K & R & F & _).
  destruct (emit_core u w g vis (bs_annotations b) (iteration (g_nodes g)) location T K R L Q (P _) n name Hn) as (scopes & Es & r & Er & H').
  destruct (emit_module u w g vis (bs_annotations b) (iteration (g_nodes g)) n name); [discriminate|].
  destruct r as [order|c]; [|destruct H'; discriminate]. destruct H' as (_ & _ & p & _ & Hpl & H').
  assert (Hb := run_bodies_total vis (pl_work p) D (bs_annotations b) (bs_annotations b) (po_create _ _ _ _ _ Hpl) F).
  destruct (run_bodies u w vis (bs_annotations b) (pl_work p)) as [[[st1 bs] rs1]|]; [|congruence]. destruct H' as (_ & files & chunks & E' & _). discriminate.
Qed.
End Runs.

(** ** Determinism *)

Definition with_pop (w : facts) (pop : queue -> option (nat * queue)) : facts :=
  mkFacts (w_extra w) (w_hierarchy w) (w_members w) (w_results w) (w_qualified w) (w_variables w) pop.

Lemma run_deterministic u w found implicit n name : placed u -> language u w ->
  forall location location', (forall i, i <> u_root u -> location i = location' i) ->
  (forall g vis b, exposed u found implicit name g vis b -> forall i j, In i (g_nodes g) -> In j (g_nodes g) -> i <> u_root u -> j <> u_root u -> location i = location j -> i = j) ->
  forall pop pop', good_queue location pop -> good_queue location' pop' ->
  forall iteration iteration', (forall l, Permutation l (iteration l)) -> (forall l, Permutation l (iteration' l)) ->
  generate u (with_pop w pop) found implicit iteration n name = generate u (with_pop w pop') found implicit iteration' n name.
Proof.
  intros Hp L loc loc' Hloc Hinj pop pop' Q Q' it it' P P'. unfold generate.
  destruct (process u found implicit name) as [[rs|l|g contexts vis warned b]| |] eqn:E; try reflexivity.
  assert (X : exposed u found implicit name g vis b) by (exists contexts, warned; exact E).
  assert (S : setting u (with_pop w pop) it). { constructor; [exact Hp|destruct L; constructor; assumption|exists loc; exact Q|exact P]. }
  destruct (exposed_graph u _ found implicit it S name g vis b X) as (T & K & R & _).
  f_equal. unfold emit_module. destruct n as [|n]; [reflexivity|]. destruct (find_enclosing_scopes u (bs_annotations b) g) as [scopes|] eqn:Es; [|reflexivity].
  cbn [w_pop with_pop w_hierarchy].
  rewrite (order_deterministic u _ g T K R (public_bases_of (w_hierarchy w)) (fun r => public_bases_proper _ r (la_acyclic u w L)) scopes Es loc loc' Hloc (Hinj g vis b X) pop pop' Q Q' _ _ (P _) (P' _)).
  reflexivity.
Qed.

(** ** Observable structure *)

Section Structure.
Variables (u : unit) (w : facts) (found : nat -> list nat) (implicit : nat -> bool) (iteration : list nat -> list nat).
Hypothesis S : setting u w iteration.

Lemma first_file name post all chunks files : layout name post all chunks files -> 0 < length files ->
  exists chunk rest, files = (map declaration all ++ IModule name (map (fun e => (ex_id e, ex_intro e)) all) (map (fun e => (ex_id e, ex_id e)) all) post :: map definition chunk) :: rest.
Proof.
  intros (_ & Hl & H) Hn. destruct files as [|file rest]; [cbn in Hn; lia|]. destruct chunks as [|chunk chunks]; [discriminate|].
  exists chunk, rest. f_equal. exact (H 0 chunk file eq_refl eq_refl).
Qed.

Lemma run_structure n name b files rs st' : 0 < n -> generate u w found implicit iteration n name = Some (RGraph b (EWritten files rs st')) ->
  exists intros calls post defs file rest,
    files = file :: rest /\ filter is_module (concat files) = [IModule name intros calls post] /\ filter is_definition (concat files) = defs /\
    map name_of defs = map fst intros /\ calls = map (fun i => (fst i, fst i)) intros /\
    (forall i, In i (map fst intros) -> identifier i /\ i <> $"root") /\
    (forall id p body, In (IDefine id p body) defs -> exists before after, file = before ++ IModule name intros calls post :: after /\ In (IDeclare id p) before) /\
    (NoDup (map fst intros) -> exists vs, run_block intros = Some vs /\ forall id p body, In (IDefine id p body) defs -> variable id vs = Some p).
Proof.
  intros Hn HG. destruct (run_written _ _ _ _ _ S _ _ _ _ _ _ Hn HG) as (g & vis & order & all & chunks & post & X & G & Ly & Hlen & _).
  destruct (exposed_graph _ _ _ _ _ S _ _ _ _ X) as (T & _).
  assert (Hf : 0 < length files) by lia. destruct (layout_definitions _ _ _ _ _ Ly Hf) as [Hd Hm]. destruct (first_file _ _ _ _ _ Ly Hf) as (chunk & rest & Ef).
  exists (map (fun e => (ex_id e, ex_intro e)) all), (map (fun e => (ex_id e, ex_id e)) all), post, (map definition all). eexists. exists rest.
  split; [exact Ef|]. split; [exact Hm|]. split; [exact Hd|].
  split; [rewrite !map_map; reflexivity|]. split; [rewrite map_map; reflexivity|].
  split. { intros i Hi. rewrite map_map in Hi. apply in_map_iff in Hi as (e & <- & He). exact (ids_identifiers _ _ _ _ _ _ _ _ _ _ _ G e He). }
  split. { intros id p body Hi. apply in_map_iff in Hi as (e & Ee & He). unfold definition in Ee. injection Ee as <- <- _.
    exists (map declaration all). eexists. split; [reflexivity|]. apply in_map_iff. exists e. split; [reflexivity|exact He]. }
  intros Hnd. rewrite map_map in Hnd. cbn [fst] in Hnd.
  destruct (block_compiles _ _ _ _ _ _ _ _ _ _ _ G Hnd (modules_nested _ _ _ _ _ S _ _ _ _ X)) as [Hr Hv]. eexists. split; [exact Hr|].
  intros id p body Hi. apply in_map_iff in Hi as (e & Ee & He). unfold definition in Ee. injection Ee as <- <- _. apply Hv, He.
Qed.

Lemma run_identifiers n name b files rs st' : 0 < n -> generate u w found implicit iteration n name = Some (RGraph b (EWritten files rs st')) ->
  exists contexts, map name_of (filter is_definition (concat files)) = numbered_names [] (map (context_name u w) contexts) /\ NoDup contexts /\
    (NoDup (map name_of (filter is_definition (concat files))) <->
       ~ exists m k, (2 <= k)%N /\ (k <= N.of_nat (occurrences (map (context_name u w) contexts) m))%N /\ In (m ++ $"_" ++ decimal k) (map (context_name u w) contexts)) /\
    ((forall c, In c contexts -> ~ ends_in_number (context_name u w c)) -> NoDup (map name_of (filter is_definition (concat files)))).
Proof.
  intros Hn HG. destruct (run_written _ _ _ _ _ S _ _ _ _ _ _ Hn HG) as (g & vis & order & all & chunks & post & X & G & Ly & Hlen & _).
  destruct (exposed_graph _ _ _ _ _ S _ _ _ _ X) as (T & _).
  assert (Hf : 0 < length files) by lia. destruct (layout_definitions _ _ _ _ _ Ly Hf) as [Hd _]. rewrite Hd, map_map. cbn [name_of definition].
  exists (map ex_context all). change (map (fun x => ex_id x) all) with (map ex_id all). rewrite (ge_names _ _ _ _ _ _ _ _ _ _ _ G).
  split; [reflexivity|]. split; [exact (contexts_nodup _ _ _ _ _ _ _ _ _ _ _ T G)|]. split; [apply numbered_names_distinct|].
  intros H. apply numbered_names_plain. intros m Hm. apply in_map_iff in Hm as (c & <- & Hc). exact (H c Hc).
Qed.

Lemma sizes_close {A} (all : list A) n a b : a = length all / n \/ a = length all / n + 1 -> b = length all / n \/ b = length all / n + 1 -> a <= b + 1.
Proof. generalize (length all / n). lia. Qed.

Lemma run_distribution n name b files rs st' : 0 < n -> generate u w found implicit iteration n name = Some (RGraph b (EWritten files rs st')) ->
  length files = n /\
  (forall file file', In file files -> In file' files -> length (filter is_definition file) <= length (filter is_definition file') + 1) /\
  forall m, 0 < m -> exists files', generate u w found implicit iteration m name = Some (RGraph b (EWritten files' rs st')) /\
    filter is_definition (concat files') = filter is_definition (concat files) /\ filter is_module (concat files') = filter is_module (concat files).
Proof.
  intros Hn HG. destruct (run_written _ _ _ _ _ S _ _ _ _ _ _ Hn HG) as (g & vis & order & all & chunks & post & X & G & Ly & Hlen & Hsz).
  split; [exact Hlen|]. split; [|intros m Hm; exact (run_files _ _ _ _ _ S _ _ _ _ _ _ _ Hn Hm HG)].
  assert (Hc : forall file, In file files -> exists c, In c chunks /\ length (filter is_definition file) = length c).
  { intros file Hi. apply In_nth_error in Hi as (k & Hk). destruct Ly as (_ & Hl & H).
    destruct (nth_error chunks k) as [c|] eqn:Ec; [|apply nth_error_None in Ec; assert (k < length files) by (apply nth_error_Some; congruence); lia].
    exists c. split; [eapply nth_error_In, Ec|]. rewrite (H k c file Ec Hk). destruct k.
    - rewrite filter_app. cbn [filter is_definition]. rewrite app_length.
      replace (filter is_definition (map declaration all)) with (@nil item) by (clear; induction all; [reflexivity|cbn; assumption]).
      clear; induction c as [|e c IH]; [reflexivity|]. cbn in *. lia.
    - clear; induction c as [|e c IH]; [reflexivity|]. cbn in *. lia. }
  intros file file' Hi Hi'. destruct (Hc file Hi) as (c & Hcc & ->). destruct (Hc file' Hi') as (c' & Hcc' & ->). eapply (sizes_close all n); apply Hsz; assumption.
Qed.

End Structure.

Section Bases.
Variables (u : unit) (w : facts) (found : nat -> list nat) (implicit : nat -> bool) (iteration : list nat -> list nat).
Hypothesis S : setting u w iteration.

Lemma base_via_mono h (e1 e2 : nat -> Prop) r b : (forall i, e1 i -> e2 i) -> base_via h e1 r b -> base_via h e2 r b.
Proof. intros H. induction 1 as [r s H1 H2|r s b H1 H2 H3 H4 IH]; [apply via_direct; auto|eapply via_exposed; eauto]. Qed.

Lemma introduces_class g st c t p n d : introduces u w g st c (NClass t p n d) -> c = ct_record t.
Proof.
  unfold introduces. destruct (kind u c); try contradiction; try (intros (? & H); discriminate).
  - intros (? & ? & ? & H & _). discriminate.
  - intros (t' & ? & ? & ? & E & _ & H & _). injection E as <- _ _ _. symmetry. exact H.
Qed.

Lemma run_bases n name b files rs st' : 0 < n -> generate u w found implicit iteration n name = Some (RGraph b (EWritten files rs st')) ->
  forall before id t parent nm d after calls post, In (IModule name (before ++ (id, NClass t parent nm d) :: after) calls post) (concat files) ->
  forall base, In base (ct_bases t) ->
    let intros := before ++ (id, NClass t parent nm d) :: after in
    introduced_class intros base /\
    (base_via (w_hierarchy w) (introduced_class intros) (ct_record t) base -> introduced_class before base).
Proof.
  intros Hn HG before id t parent nm d after calls post Hin base Hbase intros.
  destruct (run_written _ _ _ _ _ S _ _ _ _ _ _ Hn HG) as (g & vis & order & all & chunks & post' & X & G & Ly & Hlen & _).
  destruct (exposed_graph _ _ _ _ _ S _ _ _ _ X) as (T & _).
  assert (Hf : 0 < length files) by lia. destruct (layout_definitions _ _ _ _ _ Ly Hf) as [_ Hm].
  assert (Hi : In (IModule name intros calls post) (filter is_module (concat files))) by (apply filter_In; split; [exact Hin|reflexivity]).
  rewrite Hm in Hi. destruct Hi as [E|[]]. injection E as Ei _ _.
  unfold intros in Ei. symmetry in Ei. pose proof Ei as Ei'. symmetry in Ei'. apply map_eq_app in Ei' as (before0 & l & El & Eb & Ea).
  apply map_eq_cons in Ea as (e & after0 & -> & Ee & Ea). injection Ee as _ Ee.
  assert (Ec : ex_context e = ct_record t).
  { destruct (ge_introduces _ _ _ _ _ _ _ _ _ _ _ G e) as [Hint _]; [rewrite El; apply in_or_app; right; left; reflexivity|]. rewrite Ee in Hint. exact (introduces_class _ _ _ _ _ _ _ Hint). }
  destruct (bases_registered _ _ _ _ _ _ _ _ _ _ _ T G (se_language _ _ _ S) before0 e after0 t parent nm d El Ee base Hbase) as (f & t' & p' & n' & d' & Hf1 & Hf2 & Hf3 & Hf4 & Hf5).
  assert (Hmap : forall l, In f l -> introduced_class (map (fun e => (ex_id e, ex_intro e)) l) base).
  { intros l Hl. exists (ex_id f), t', p', n', d'. split; [|exact Hf4]. apply in_map_iff. exists f. split; [rewrite Hf3; reflexivity|exact Hl]. }
  split; [unfold intros; rewrite Ei; apply Hmap, Hf1|].
  intros Hvia. rewrite <- Eb. apply Hmap, Hf5. rewrite Ec. revert Hvia. apply base_via_mono. intros i (id1 & t1 & p1 & n1 & d1 & H1 & H2).
  unfold intros in H1. rewrite Ei in H1. apply in_map_iff in H1 as (e1 & E1 & He1). injection E1 as _ E1.
  destruct (ge_introduces _ _ _ _ _ _ _ _ _ _ _ G e1 He1) as [Hint _]. rewrite E1 in Hint.
  pose proof (introduces_class _ _ _ _ _ _ _ Hint) as E2.
  rewrite <- H2, <- E2. exact (entry_context_node _ _ _ _ _ _ _ _ _ _ _ G e1 He1).
Qed.

Lemma run_namespaces : (forall c d, same_namespace u c d -> u_name u c = u_name u d) -> forall n name b files rs st', 0 < n -> generate u w found implicit iteration n name = Some (RGraph b (EWritten files rs st')) ->
  exists g vis order all chunks post, exposed u found implicit name g vis b /\
    generated u w g vis (bs_annotations b) name rs st' order all post /\ layout name post all chunks files /\
    forall before e after p, all = before ++ e :: after -> ex_context e <> u_root u -> scope_of u (bs_annotations b) g (ex_context e) p -> kind u p = KNamespace ->
      (forall f, In f all -> same_namespace u (ex_context f) p -> lookup_attrs (bs_annotations b) (ex_context f) = lookup_attrs (bs_annotations b) p) ->
      exists f, In f before /\ intro_parent (ex_intro e) = ex_id f /\ same_namespace u (ex_context f) p /\ introduces u w g (bs_annotations b) p (ex_intro f).
Proof.
  intros Hnm n name b files rs st' Hn HG. destruct (run_written _ _ _ _ _ S _ _ _ _ _ _ Hn HG) as (g & vis & order & all & chunks & post & X & G & Ly & Hlen & _).
  destruct (exposed_graph _ _ _ _ _ S _ _ _ _ X) as (T & _).
  exists g, vis, order, all, chunks, post. split; [exact X|]. split; [exact G|]. split; [exact Ly|].
  intros before e after p Ea Hr Hs Hk Ha. exact (namespace_object _ _ _ _ _ _ _ _ _ _ _ T G before e after p Hnm Ea Hr Hs Hk Ha).
Qed.

End Bases.
