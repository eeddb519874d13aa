(** * Proofs about the effect of exposing functions in Python *)
From Verif Require Import Base ParserModel AnnotModel CollectModel GraphModel GraphSpec GraphFinal OrderModel OrderSpec InlineModel InlineSpec EmitModel EmitSpec EmitFold EmitProofs EmitFinal ModuleModel ModuleSpec ModuleProofs
  ModuleChunks ModuleFinal ImportSpec ImportProofs ExecSpec.

Lemma own_cons o n m ms es p k : own (mkPy ((o, n, m) :: ms) es) p k = if same_object o p && str_eqb n k then Some m else own (mkPy ms es) p k.
Proof. unfold own. cbn. destruct (same_object o p && str_eqb n k); reflexivity. Qed.

Lemma given_app a b o n : given (a ++ b) o n = given a o n ++ given b o n.
Proof. unfold given. now rewrite filter_app, map_app. Qed.

Lemma given_one o n s p k : given [(o, n, s)] p k = if same_object o p && str_eqb n k then [s] else [].
Proof. unfold given. cbn. unfold at_place. cbn. destruct (same_object o p && str_eqb n k); reflexivity. Qed.

Lemma given_in cs o n s : In s (given cs o n) <-> In (o, n, s) cs.
Proof.
  unfold given. rewrite in_map_iff. split.
  - intros ([[p k] t] & <- & H). apply filter_In in H as [H Hp]. unfold at_place in Hp. cbn in Hp. apply andb_true_iff in Hp as [E1 E2].
    apply same_object_spec in E1 as ->. apply str_eqb_eq in E2 as ->. exact H.
  - intro H. exists (o, n, s). split; [reflexivity|]. apply filter_In. split; [exact H|]. unfold at_place. cbn.
    rewrite (proj2 (same_object_spec o o) eq_refl), (proj2 (str_eqb_eq n n) eq_refl). reflexivity.
Qed.

Lemma place_eq o n p k : same_object o p && str_eqb n k = true <-> o = p /\ n = k.
Proof. rewrite andb_true_iff, same_object_spec, str_eqb_eq. tauto. Qed.

Lemma first_some_in {A B} (f : A -> option B) l b : first_some f l = Some b -> exists a, In a l /\ f a = Some b.
Proof. induction l as [|a l IH]; cbn; [discriminate|]. destruct (f a) eqn:E; [intros [= <-]; eauto|]. intro H. destruct (IH H) as (c & Hc & Hf). eauto. Qed.

Section States.
Context (mro : nat -> list nat) (manual : nat -> object -> pystate -> option pystate) (fails : stmt -> bool).
Context (u : unit) (st : storage) (g : graph) (cs : list (object * str * stmt)) (objects : object -> str -> option object).
Context (NC : no_clashes mro u st g cs).
Context (A : forall o n v, objects o n = Some v -> exists c, found_in u st g c o n).

Definition so_done (l : list (object * str * stmt)) (p : pystate) : Prop := forall o n, consists (objects o n) (given l o n) (own p o n).

Lemma set_done l p o n m es : so_done l p -> forall s, consists (objects o n) (given (l ++ [(o, n, s)]) o n) (Some m) -> so_done (l ++ [(o, n, s)]) (mkPy ((o, n, m) :: p_members p) es).
Proof.
  intros I s H p' k. rewrite own_cons. destruct (same_object o p' && str_eqb n k) eqn:E.
  - apply place_eq in E as [<- <-]. exact H.
  - rewrite given_app, given_one, E, app_nil_r. exact (I p' k).
Qed.

(** Attributes of bases. *)
Lemma inherited_given l r o n s p m : cs = l ++ (o, n, s) :: r -> so_done l p -> own p o n = None -> getattr mro p o n = Some m ->
  exists c b, o = Class c /\ In b (mro c) /\ own p (Class b) n = Some m /\
    forall s', In s' (given l (Class b) n) -> In (Class b, n, s') cs.
Proof.
  intros E I Ho Hg. unfold getattr in Hg. rewrite Ho in Hg. unfold inherited in Hg. destruct o as [|c|]; try discriminate Hg.
  apply first_some_in in Hg as (b & Hb & Hm). exists c, b. split; [reflexivity|]. split; [exact Hb|]. split; [exact Hm|].
  intros s' Hs. apply given_in in Hs. rewrite E. apply in_app_iff. now left.
Qed.

Lemma static_given l r o n s p m : cs = l ++ (o, n, s) :: r -> so_done l p -> own p o n = None -> getattr mro p o n = Some m -> static_member m = true ->
  exists ro k j, s = SMember true ro k j.
Proof.
  intros E I Ho Hg Hm. destruct (inherited_given _ _ _ _ _ _ _ E I Ho Hg) as (c & b & -> & Hb & Hown & Hin).
  assert (C := I (Class b) n). rewrite Hown in C. destruct m as [|? ?|t]; try discriminate Hm. destruct t as [| | | | | | | | |static ro k j| | |]; try discriminate Hm. cbn in Hm. subst static.
  destruct C as (_ & Hl & _). apply (nc_static _ _ _ _ _ NC c n s b ro k j).
  - rewrite E. apply in_app_iff. right. now left.
  - exact Hb.
  - apply Hin. rewrite Hl. now left.
Qed.

Lemma no_object l r o n s : cs = l ++ (o, n, s) :: r -> objects o n = None.
Proof.
  intro E. destruct (objects o n) as [v|] eqn:Ev; [|reflexivity]. destruct (A _ _ _ Ev) as (c & Hc). exfalso.
  apply (nc_objects _ _ _ _ _ NC o n s) with (c := c); [rewrite E; apply in_app_iff; right; now left|exact Hc].
Qed.

Lemma previous l r o n s t : cs = l ++ (o, n, s) :: r -> In t (given l o n) -> overload t <> None /\ overload t = overload s.
Proof.
  intros E Ht. apply given_in in Ht. apply in_split in Ht as (l1 & l2 & ->). apply (nc_overloads _ _ _ _ _ NC l1 l2 r o n). rewrite E, <- app_assoc. reflexivity.
Qed.

Lemma value_step l r o n s p : cs = l ++ (o, n, s) :: r -> so_done l p -> overload s = None ->
  exists p', setattr mro p o n (MValue s) = Some p' /\ p_entries p' = p_entries p /\ so_done (l ++ [(o, n, s)]) p'.
Proof.
  intros E I Hs. assert (Hob := no_object _ _ _ _ _ E).
  assert (Hg : given l o n = []).
  { destruct (given l o n) as [|t ts] eqn:Eg; [reflexivity|]. destruct (previous _ _ _ _ _ t E) as [H1 H2]; [rewrite Eg; now left|]. congruence. }
  assert (Ho : own p o n = None).
  { assert (C := I o n). rewrite Hg, Hob in C. destruct (own p o n) as [[v|f l'|t]|]; [destruct C; discriminate|destruct C as (_ & -> & C & _); congruence|destruct C as (_ & C & _); discriminate C|reflexivity]. }
  exists (mkPy ((o, n, MValue s) :: p_members p) (p_entries p)). split; [|split; [reflexivity|]].
  - unfold setattr. destruct o as [|c|]; try reflexivity. destruct (getattr mro p (Class c) n) as [old|] eqn:Eg; [|reflexivity].
    destruct (static_member old) eqn:Es; [|reflexivity]. destruct (static_given _ _ _ _ _ _ _ E I Ho Eg Es) as (ro & k & j & ->). reflexivity.
  - apply set_done; [exact I|]. rewrite given_app, given_one, Hg, (proj2 (place_eq o n o n) (conj eq_refl eq_refl)). cbn. auto.
Qed.

Lemma function_step l r o n s p static : cs = l ++ (o, n, s) :: r -> so_done l p -> overload s = Some static ->
  exists p', define_function mro p o n static s = Some p' /\ p_entries p' = p_entries p /\ so_done (l ++ [(o, n, s)]) p'.
Proof.
  intros E I Hs. assert (Hob := no_object _ _ _ _ _ E). assert (C := I o n). rewrite Hob in C. unfold define_function.
  destruct (own p o n) as [[v|f l'|t]|] eqn:Eo.
  - destruct C as [C _]. discriminate C.
  - destruct C as (_ & -> & Hne & Hall).
    assert (f = static).
    { destruct (given l o n) as [|t ts] eqn:Eg; [congruence|]. destruct (previous _ _ _ _ _ t E) as [_ H]; [rewrite Eg; now left|]. rewrite (Hall t) in H by now left. congruence. }
    subst f. rewrite Bool.eqb_reflx. exists (mkPy ((o, n, MFunction static (given l o n ++ [s])) :: p_members p) (p_entries p)). split; [unfold setattr, getattr; destruct o; [reflexivity|rewrite Eo; reflexivity|reflexivity]|]. split; [reflexivity|]. apply set_done; [exact I|].
    rewrite given_app, given_one, (proj2 (place_eq o n o n) (conj eq_refl eq_refl)). cbn. split; [exact Hob|]. split; [reflexivity|]. split; [destruct (given l o n); discriminate|].
    intros t Ht. apply in_app_iff in Ht as [Ht|[<-|[]]]; [exact (Hall t Ht)|exact Hs].
  - destruct C as (_ & Hl & Ht). destruct (previous _ _ _ _ _ t E) as [H _]; [rewrite Hl; now left|]. congruence.
  - destruct C as (_ & Hg).
    assert (Hset : exists p', setattr mro p o n (MFunction static [s]) = Some p' /\ p_entries p' = p_entries p /\ so_done (l ++ [(o, n, s)]) p').
    { exists (mkPy ((o, n, MFunction static [s]) :: p_members p) (p_entries p)). split; [|split; [reflexivity|]].
      - unfold setattr. destruct o as [|c|]; try reflexivity. destruct (getattr mro p (Class c) n) as [old|] eqn:Eg; [|reflexivity].
        destruct (static_member old) eqn:Es; [|reflexivity]. destruct (static_given _ _ _ _ _ _ _ E I Eo Eg Es) as (ro & k & j & ->). discriminate Hs.
      - apply set_done; [exact I|]. rewrite given_app, given_one, Hg, (proj2 (place_eq o n o n) (conj eq_refl eq_refl)). cbn. split; [exact Hob|]. split; [reflexivity|]. split; [discriminate|].
        intros t [<-|[]]. exact Hs. }
    destruct (getattr mro p o n) as [m|] eqn:Eg; [|exact Hset].
    destruct (private n) eqn:Ep; [destruct m; exact Hset|].
    destruct (inherited_given _ _ _ _ _ _ _ E I Eo Eg) as (c & b & -> & Hb & Hown & Hin).
    destruct (nc_inherited _ _ _ _ _ NC c n s b) as [H1 H2]; [rewrite E; apply in_app_iff; right; now left|congruence|exact Ep|exact Hb|].
    assert (C := I (Class b) n). rewrite Hown in C. destruct m as [v|f l'|t]; [|exact Hset|].
    + destruct C as [C _]. destruct (A _ _ _ C) as (x & Hx). exfalso. exact (H2 x Hx).
    + destruct C as (_ & Hl & Ht). exfalso. apply (H1 t); [|exact Ht]. apply Hin. rewrite Hl. now left.
Qed.

(** ** Bodies *)

Lemma values_snoc b s : values_of (b ++ [s]) = values_of b ++ values_of [s].
Proof. unfold values_of. now rewrite flat_map_app. Qed.

Lemma entries_snoc ms es e n s e' : entries (mkPy ms (es ++ [(e, (n, s))])) e' = entries (mkPy ms es) e' ++ if Nat.eqb e e' then [(n, s)] else [].
Proof. unfold entries. cbn. rewrite filter_app, map_app. cbn. destruct (Nat.eqb e e'); reflexivity. Qed.

Lemma entries_same p p' e : p_entries p' = p_entries p -> entries p' e = entries p e.
Proof. unfold entries. now intros ->. Qed.

Lemma exports k vs : forall l r p, cs = l ++ map (fun v => (k, fst v, snd v)) vs ++ r -> so_done l p -> (forall v, In v vs -> overload (snd v) = None) ->
  exists p', fold_opt (fun p v => setattr mro p k (fst v) (MValue (snd v))) vs p = Some p' /\ p_entries p' = p_entries p /\ so_done (l ++ map (fun v => (k, fst v, snd v)) vs) p'.
Proof.
  induction vs as [|[n s] vs IH]; intros l r p E I Hv; cbn [map app fold_opt].
  - exists p. rewrite app_nil_r. auto.
  - destruct (value_step l (map (fun v => (k, fst v, snd v)) vs ++ r) k n s p E I (Hv _ (or_introl eq_refl))) as (p1 & H1 & H2 & H3). cbn [fst snd]. rewrite H1.
    destruct (IH (l ++ [(k, n, s)]) r p1) as (p2 & H4 & H5 & H6); [rewrite <- app_assoc; exact E|exact H3|intros v Hin; apply Hv; now right|].
    exists p2. split; [exact H4|]. split; [congruence|]. rewrite <- app_assoc in H6. exact H6.
Qed.

Lemma values_overload b v : In v (values_of b) -> overload (snd v) = None.
Proof. intro H. apply in_flat_map in H as (s & _ & H). destruct s; try (now destruct H). destruct H as [<-|[]]. reflexivity. Qed.

(** A statement can be executed for the object. *)
Definition suitable (types : list nat) (o : object) (q : option object) (s : stmt) : Prop :=
  fails s = false /\
  match s with
  | SManual l => forall p, manual l o p = Some p
  | SConvertible _ r => In r types
  | SValue _ _ => exists e, o = Enum e
  | SExportValues => (exists e, o = Enum e) /\ q <> None
  | _ => True
  end.

Lemma body_steps types o q before body cb : contributes o q before body cb ->
  forall l r p, cs = l ++ cb ++ r -> so_done l p -> Forall (suitable types o q) body ->
    (forall e, o = Enum e -> entries p e = values_of before) -> (forall v, In v (values_of before) -> In (o, fst v, snd v) l) ->
  exists p', fold_opt (statement mro manual fails types o q) body p = Some p' /\ so_done (l ++ cb) p' /\ forall e, o <> Enum e -> entries p' e = entries p e.
Proof.
  induction 1 as [before|before s n b cb Hd _ IH|before n i b cb _ IH|before k b cb Hq _ IH|before s b cb Hd Hv Hx _ IH]; intros l r p E I Su He Hb; cbn [fold_opt].
  - exists p. rewrite app_nil_r. auto.
  - pose proof (Forall_inv Su) as [Hf _]; pose proof (Forall_inv_tail Su) as Su'.
    assert (H : exists p', statement mro manual fails types o q p s = Some p' /\ p_entries p' = p_entries p /\ so_done (l ++ [(o, n, s)]) p').
    { unfold statement. rewrite Hf. destruct s; cbn [defines] in Hd; try discriminate Hd; injection Hd as <-;
        first [apply (value_step l (cb ++ r)); [exact E|exact I|reflexivity]|apply (function_step l (cb ++ r)); [exact E|exact I|reflexivity]]. }
    destruct H as (p1 & H1 & H2 & H3). rewrite H1.
    assert (Hn : values_of (before ++ [s]) = values_of before) by (rewrite values_snoc; destruct s; try discriminate Hd; apply app_nil_r).
    destruct (IH (l ++ [(o, n, s)]) r p1) as (p2 & H4 & H5 & H6).
    + rewrite <- app_assoc. exact E.
    + exact H3.
    + exact Su'.
    + intros e Ho. rewrite Hn, <- (He e Ho). now apply entries_same.
    + rewrite Hn. intros v Hin. apply in_app_iff. left. exact (Hb v Hin).
    + exists p2. split; [exact H4|]. split; [rewrite <- app_assoc in H5; exact H5|]. intros e Ho. rewrite (H6 e Ho). now apply entries_same.
  - pose proof (Forall_inv Su) as [Hf (e & Ho)]; pose proof (Forall_inv_tail Su) as Su'; subst o. unfold statement at 1. rewrite Hf.
    replace (existsb _ _) with false.
    2:{ symmetry. rewrite (He e eq_refl). apply not_true_iff_false. intro H. apply existsb_exists in H as (v & Hin & Hv). apply str_eqb_eq in Hv. subst n.
        destruct (previous l (cb ++ r) (Enum e) (fst v) (SValue (fst v) i) (snd v) E) as [H _]; [apply given_in; exact (Hb v Hin)|]. apply H. exact (values_overload _ _ Hin). }
    destruct (value_step l (cb ++ r) (Enum e) n (SValue n i) p E I eq_refl) as (p1 & H1 & H2 & H3). rewrite H1. cbn [option_map].
    destruct (IH (l ++ [(Enum e, n, SValue n i)]) r (mkPy (p_members p1) (p_entries p1 ++ [(e, (n, SValue n i))]))) as (p2 & H4 & H5 & H6).
    + rewrite <- app_assoc. exact E.
    + intros o' k. exact (H3 o' k).
    + exact Su'.
    + intros e' [= <-]. rewrite entries_snoc, Nat.eqb_refl, values_snoc, <- (He e eq_refl). cbn [values_of flat_map app]. f_equal. now apply entries_same.
    + rewrite values_snoc. intros v Hin. apply in_app_iff in Hin as [Hin|[<-|[]]]; apply in_app_iff; [left; exact (Hb v Hin)|right; now left].
    + exists p2. split; [exact H4|]. split; [rewrite <- app_assoc in H5; exact H5|]. intros e' Ho. rewrite (H6 e' Ho), entries_snoc.
      destruct (Nat.eqb e e') eqn:Ee; [apply Nat.eqb_eq in Ee; congruence|]. rewrite app_nil_r. now apply entries_same.
  - pose proof (Forall_inv Su) as [Hf ((e & Ho) & Hq')]; pose proof (Forall_inv_tail Su) as Su'; subst o q. unfold statement at 1. rewrite Hf, (He e eq_refl).
    destruct (exports k (values_of before) l (cb ++ r) p) as (p1 & H1 & H2 & H3); [rewrite app_assoc in E |- *; rewrite E, <- !app_assoc; reflexivity|exact I|exact (values_overload before)|].
    rewrite H1. destruct (IH (l ++ map (fun v => (k, fst v, snd v)) (values_of before)) r p1) as (p2 & H4 & H5 & H6).
    + rewrite E, <- !app_assoc. reflexivity.
    + exact H3.
    + exact Su'.
    + intros e' [= <-]. rewrite values_snoc. cbn. rewrite app_nil_r, <- (He e eq_refl). now apply entries_same.
    + rewrite values_snoc. cbn. rewrite app_nil_r. intros v Hin. apply in_app_iff. left. exact (Hb v Hin).
    + exists p2. split; [exact H4|]. split; [rewrite <- app_assoc in H5; exact H5|]. intros e' Ho. rewrite (H6 e' Ho). now apply entries_same.
  - pose proof (Forall_inv Su) as [Hf Hs]; pose proof (Forall_inv_tail Su) as Su'.
    assert (H : statement mro manual fails types o q p s = Some p).
    { unfold statement. rewrite Hf. destruct s; cbn [defines] in Hd; try discriminate Hd; try (apply Hs); try reflexivity; try (now destruct Hx).
      - replace (existsb _ types) with true; [reflexivity|]. symmetry. apply existsb_exists. exists r0. split; [exact Hs|apply Nat.eqb_refl].
      - exfalso. eapply Hv. reflexivity. }
    rewrite H.
    assert (Hn : values_of (before ++ [s]) = values_of before) by (rewrite values_snoc; destruct s; try apply app_nil_r; exfalso; eapply Hv; reflexivity).
    apply (IH l r p E I Su'); rewrite Hn; assumption.
Qed.

Lemma contributes_total o q : forall body before, (In SExportValues body -> q <> None) -> exists cb, contributes o q before body cb.
Proof.
  induction body as [|s body IH]; intros before Hq; [exists []; constructor|].
  destruct (IH (before ++ [s]) (fun H => Hq (or_intror H))) as (cb & H).
  destruct (defines s) as [n|] eqn:Ed; [eexists; eapply con_named; eassumption|].
  destruct s; try discriminate Ed; try (eexists; apply con_other; [reflexivity|discriminate|discriminate|exact H]).
  - eexists. apply con_value. exact H.
  - destruct q as [k|]; [|exfalso; apply (Hq (or_introl eq_refl)); reflexivity]. eexists. exact (con_export o (Some k) before k body cb eq_refl H).
Qed.

Lemma contributes_scope o q q' before body cb : contributes o q before body cb -> (In SExportValues body -> q = q') -> contributes o q' before body cb.
Proof.
  induction 1 as [before|before s n b cb Hd _ IH|before n i b cb _ IH|before k b cb Hq _ IH|before s b cb Hd Hv Hx _ IH]; intro E.
  - constructor.
  - apply con_named; [exact Hd|]. apply IH. intro H. apply E. now right.
  - apply con_value, IH. intro H. apply E. now right.
  - apply con_export; [rewrite <- E by (now left); exact Hq|]. apply IH. intro H. apply E. now right.
  - apply con_other; try assumption. apply IH. intro H. apply E. now right.
Qed.
End States.

(** ** Modules *)

Lemma find_first {A B} (f : A -> str) (h : A -> B) l e : NoDup (map f l) -> In e l -> find (fun i => str_eqb (fst i) (f e)) (map (fun e => (f e, h e)) l) = Some (f e, h e).
Proof.
  induction l as [|a l IH]; intros N He; [destruct He|]. cbn [map find fst]. cbn [map] in N. apply NoDup_cons_iff in N as [Ha N]. destruct He as [<-|He].
  - rewrite (proj2 (str_eqb_eq (f a) (f a)) eq_refl). reflexivity.
  - destruct (str_eqb (f a) (f e)) eqn:E; [|exact (IH N He)]. apply str_eqb_eq in E. exfalso. apply Ha. rewrite E. now apply in_map.
Qed.

Lemma body_filter id l : first_some (fun i => match i with IDefine n _ body => if str_eqb n id then Some body else None | _ => None end) l =
  first_some (fun i => match i with IDefine n _ body => if str_eqb n id then Some body else None | _ => None end) (filter is_definition l).
Proof. induction l as [|i l IH]; [reflexivity|]. destruct i; cbn [filter is_definition first_some]; try exact IH. destruct (str_eqb _ id); [reflexivity|exact IH]. Qed.

Lemma body_found files all e : filter is_definition (concat files) = map definition all -> NoDup (map ex_id all) -> In e all -> body_named files (ex_id e) = Some (ex_body e).
Proof.
  intros F N He. unfold body_named. rewrite body_filter, F. clear F. induction all as [|a l IH]; [destruct He|]. cbn [map] in N |- *. apply NoDup_cons_iff in N as [Ha N].
  unfold definition at 1. cbn [first_some]. destruct He as [<-|He].
  - rewrite (proj2 (str_eqb_eq (ex_id a) (ex_id a)) eq_refl). reflexivity.
  - destruct (str_eqb (ex_id a) (ex_id e)) eqn:E; [|exact (IH N He)]. apply str_eqb_eq in E. exfalso. apply Ha. rewrite E. now apply in_map.
Qed.

Section Module.
Context (default_holder : str -> bool) (u : unit) (w : facts) (g : graph) (vis : dmap bool) (st : storage) (name : str) (rs : list ereport) (st' : storage)
  (order : list nat) (all : list entry) (post : list nat).
Context (T : tree_like g (u_root u)) (K : kind u (u_root u) = KOther) (R : forall n, In n (g_nodes g) -> reachable g (u_root u) n)
  (Pl : forall p c, edge g p c -> place u p c) (Pu : placed u) (L : language u w)
  (G : generated u w g vis st name rs st' order all post).
Context (Nested : forall c p, In c (g_nodes g) -> scope_of u st g c p -> is_tag_kind (kind u c) = false -> is_tag_kind (kind u p) = false).
Context (Blocks : nested_blocks u) (Agree : agreeing_blocks u st g) (Distinct : distinct_names u st g).
Context (N : NoDup (map ex_id all)) (s : state) (C : so_far default_holder u g st all s).
Context (files : list (list item)) (F : filter is_definition (concat files) = map definition all).
Context (mro : nat -> list nat) (manual : nat -> object -> pystate -> option pystate) (fails : stmt -> bool).

Notation located := (located u st g).
Notation scope_of := (scope_of u st g).
Notation intros_ := (map (fun e => (ex_id e, ex_intro e)) all).

Lemma scope_value e : In e all -> ex_context e <> u_root u -> exists o p, value s (intro_parent (ex_intro e)) = Some o /\ scope_of (ex_context e) p /\ located p o.
Proof.
  intros He Hr. apply in_split in He as (l & r & E). destruct (ge_places _ _ _ _ _ _ _ _ _ _ _ G l e r E) as [[Hc _]|(_ & p & f & Hs & Hf & Hi & Hsame)]; [congruence|].
  destruct (co_values _ _ _ _ _ _ C f) as (o & Ho & Hl); [rewrite E; apply in_app_iff; now left|]. exists o, p. rewrite Hi. split; [exact Ho|]. split; [exact Hs|].
  destruct Hsame as [<-|Hsame]; [exact Hl|]. eapply located_same; try eassumption. exact (proj2 (scope_nodes u g st T _ _ Hs)).
Qed.

Lemma scope_given e : In e all -> exists q, scope_object u st g (ex_context e) q /\ (ex_context e <> u_root u -> q = scope_in intros_ s (ex_id e) /\ q <> None).
Proof.
  intro He. destruct (Nat.eq_dec (ex_context e) (u_root u)) as [Hr|Hr].
  - exists None. split; [|contradiction]. rewrite Hr. intros p (l1 & l2 & Hp & _).
    assert (E := path_unique u g T _ Hp [u_root u] (path_root _ _) eq_refl). destruct l1; discriminate E.
  - destruct (scope_value e He Hr) as (o & p & Hv & Hs & Hl). exists (Some o). split; [exists p; auto|]. intros _. split; [|discriminate].
    unfold scope_in. rewrite (find_first ex_id ex_intro all e N He). symmetry. exact Hv.
Qed.

(** Which statements there are in bodies. *)
Lemma body_kinds e t : In e all -> In t (ex_body e) ->
  match t with
  | SConvertible _ r => kind u (ex_context e) = KRecord /\ r = ex_context e
  | SValue _ _ | SExportValues => kind u (ex_context e) = KEnum
  | _ => True
  end.
Proof.
  intros He Ht. destruct (ge_bodies _ _ _ _ _ _ _ _ _ _ _ G) as (rss & Fb & _). destruct (forall2_in_l _ _ _ _ Fb He) as (r0 & _ & (x & st1 & st2 & Hc & D & _)).
  assert (Hx : match x with XEnum i => i = ex_context e /\ kind u i = KEnum | XRecord r _ => r = ex_context e /\ kind u r = KRecord | _ => True end).
  { unfold create in Hc. destruct (kind u (ex_context e)) eqn:Ek; try (injection Hc as <-; auto).
    destruct (create_policy u st (w_hierarchy w) (ex_context e)); [|discriminate Hc]. cbn in Hc. injection Hc as <-. auto. }
  destruct t; try exact I.
  - apply (in_parts _ _ _ _ _ _ _ _ _ D) in Ht as (i & _ & (a & _ & _ & Hb)); [|reflexivity].
    destruct x as [|c|c|c pol]; cbn [bound] in Hb; inversion Hb; subst; try (match goal with H : bound_function _ _ _ _ _ |- _ => inversion H end); try (match goal with H : bound_alias _ _ _ _ _ |- _ => inversion H end).
    destruct Hx as [-> Hx]. auto.
  - apply (in_parts _ _ _ _ _ _ _ _ _ D) in Ht as (j & _ & (a & _ & _ & Hb)); [|reflexivity].
    destruct x as [|c|c|c pol]; cbn [bound] in Hb; inversion Hb; subst; try (match goal with H : bound_function _ _ _ _ _ |- _ => inversion H end); try (match goal with H : bound_alias _ _ _ _ _ |- _ => inversion H end).
    destruct Hx as [<- Hx]. exact Hx.
  - apply (df_export _ _ _ _ _ _ _ _ _ (define_spec _ _ _ _ _ _ _ _ _ D)) in Ht as (i & a & -> & _). destruct Hx as [<- Hx]. exact Hx.
Qed.

Lemma contributions_total : forall l, (forall e, In e l -> In e all) -> exists cs, contributions u st g l cs.
Proof.
  induction l as [|e l IH]; intro Hl; [exists []; constructor|]. destruct (IH (fun f H => Hl f (or_intror H))) as (r & Hr).
  assert (He := Hl e (or_introl eq_refl)). destruct (co_values _ _ _ _ _ _ C e He) as (o & _ & Ho). destruct (scope_given e He) as (q & Hq & Hq').
  destruct (contributes_total o q (ex_body e) []) as (cb & Hcb).
  { intro Hx. apply Hq'. assert (Hk := body_kinds e _ He Hx). cbn in Hk. intro E. rewrite E, K in Hk. discriminate Hk. }
  exists (cb ++ r). now apply (contributions_cons _ _ _ e l o q).
Qed.

Context (cs : list (object * str * stmt)) (CS : contributions u st g all cs) (NC : no_clashes mro u st g cs) (Ex : executable manual fails all post).

Lemma located_enum_inv c e : located c (Enum e) -> c = e.
Proof.
  intro H. destruct (is_tag_kind (kind u c)) eqn:Ht.
  - inversion H as [E|? ? E|? ? E|? ? ? ? Hm _ _ _ E|? ? ? Hk _ _ _ E]; subst; try reflexivity; rewrite Hk in Ht; discriminate Ht.
  - destruct (located_mod u g st T Nested _ _ H Ht) as (path & E). discriminate E.
Qed.

Lemma calls_run : forall l2 l1 p cs1 cs2, all = l1 ++ l2 -> contributions u st g l2 cs2 -> cs = cs1 ++ cs2 -> so_done (attribute s) cs1 p ->
  (forall e, entries p e <> [] -> exists f, In f l1 /\ located (ex_context f) (Enum e)) ->
  exists p', fold_opt (call mro manual fails files intros_ s) (map (fun e => (ex_id e, ex_id e)) l2) p = Some p' /\ so_done (attribute s) cs p'.
Proof.
  induction l2 as [|e l2 IH]; intros l1 p cs1 cs2 E H2 Ec I He.
  { assert (E0 : cs2 = []) by (inversion H2; reflexivity). exists p. rewrite Ec, E0, app_nil_r. auto. }
  assert (H3 : exists o q cb r, located (ex_context e) o /\ scope_object u st g (ex_context e) q /\ contributes o q [] (ex_body e) cb /\ contributions u st g l2 r /\ cs2 = cb ++ r).
  { inversion H2. do 4 eexists. eauto. }
  destruct H3 as (o & q & cb & r & Ho & Hq & Hcb & Hr & E2). clear H2. rewrite E2 in Ec. clear E2 cs2. cbn [map fold_opt].
  assert (Hin : In e all) by (rewrite E; apply in_app_iff; right; now left).
  destruct (co_values _ _ _ _ _ _ C e Hin) as (o' & Hv & Ho'). assert (o' = o) as ->.
  { exact (located_unique default_holder u g st name T K Distinct _ _ Ho' _ Ho). }
  destruct (scope_given e Hin) as (q1 & Hq1 & Hq1').
  assert (Hx : In SExportValues (ex_body e) -> q = scope_in intros_ s (ex_id e) /\ q <> None /\ exists i, o = Enum i).
  { intro Hx. assert (Hk := body_kinds e _ Hin Hx). cbn in Hk. assert (Hne : ex_context e <> u_root u) by (intro Er; rewrite Er, K in Hk; discriminate Hk).
    destruct (Hq1' Hne) as [E1 E2]. assert (Eq : q = q1).
    { destruct q as [k|], q1 as [k1|]; [|congruence| |congruence].
      - destruct Hq as (x & Sx & Lx), Hq1 as (y & Sy & Ly). rewrite (scope_unique u g st T _ _ _ Sx Sy) in Lx. f_equal. exact (located_unique default_holder u g st name T K Distinct _ _ Lx _ Ly).
      - destruct Hq1 as (y & Sy & _). exfalso. exact (Hq y Sy). }
    rewrite <- Eq in E1, E2. split; [exact E1|]. split; [exact E2|]. exists (ex_context e). exact (located_unique default_holder u g st name T K Distinct _ _ Ho _ (located_enum _ _ _ _ Hk)). }
  assert (Hcb' : contributes o (scope_in intros_ s (ex_id e)) [] (ex_body e) cb) by (apply (contributes_scope o q); [exact Hcb|]; intro H; apply Hx, H).
  assert (Su : Forall (suitable manual fails (map fst (s_types s)) o (scope_in intros_ s (ex_id e))) (ex_body e)).
  { apply Forall_forall. intros t Ht. split; [exact (proj1 Ex e t Hin Ht)|]. assert (Hk := body_kinds e t Hin Ht). destruct t; try exact Logic.I.
    - intro p'. apply (proj2 Ex). right. eauto.
    - destruct Hk as [Hk ->]. assert (H := co_registered _ _ _ _ _ _ C e Hin). rewrite Hk in H. specialize (H eq_refl).
      unfold holding in H. destruct (find _ (s_types s)) as [[x d]|] eqn:Ef; [|contradiction]. apply find_some in Ef as [H1 H3]. apply Nat.eqb_eq in H3. cbn in H3. subst x.
      apply in_map_iff. exists (ex_context e, d). auto.
    - exists (ex_context e). exact (located_unique default_holder u g st name T K Distinct _ _ Ho _ (located_enum _ _ _ _ Hk)).
    - destruct (Hx Ht) as (<- & H1 & H3). auto. }
  destruct (body_steps mro manual fails u st g cs (attribute s) NC) with (types := map fst (s_types s)) (o := o) (q := scope_in intros_ s (ex_id e)) (before := @nil stmt) (body := ex_body e) (cb := cb)
    (l := cs1) (r := r) (p := p) as (p1 & H1 & H3 & H4); try assumption.
  - intros o1 n1 v1 H. apply (attributes_exact default_holder u w g vis st name rs st' order all post) with (s := s) in H; try assumption. destruct H as (c & H & _). eauto.
  - intros i ->. destruct (entries p i) as [|v vs] eqn:Ee; [reflexivity|]. destruct (He i) as (f & Hf & Hl); [rewrite Ee; discriminate|].
    exfalso. apply located_enum_inv in Hl. apply located_enum_inv in Ho. assert (Hnd := contexts_nodup _ _ _ _ _ _ _ _ _ _ _ T G). rewrite E, map_app in Hnd. cbn [map] in Hnd.
    apply NoDup_remove_2 in Hnd. apply Hnd, in_app_iff. left. rewrite Ho, <- Hl. now apply in_map.
  - intros v [].
  - unfold call at 1. cbn [fst snd]. rewrite Hv, (body_found files all e F N Hin), H1.
    apply (IH (l1 ++ [e]) p1 (cs1 ++ cb) r); [rewrite <- app_assoc; exact E|exact Hr|rewrite <- app_assoc; exact Ec|exact H3|].
    intros i Hi. destruct (Nat.eq_dec (ex_context e) i) as [<-|Hne].
    + destruct o as [path|c|i].
      * destruct (He (ex_context e)) as (f & Hf & Hl); [rewrite <- H4 by discriminate; exact Hi|]. exists f. split; [apply in_app_iff; now left|exact Hl].
      * destruct (He (ex_context e)) as (f & Hf & Hl); [rewrite <- H4 by discriminate; exact Hi|]. exists f. split; [apply in_app_iff; now left|exact Hl].
      * exists e. split; [apply in_app_iff; right; now left|]. rewrite (located_enum_inv _ _ Ho) at 2. exact Ho.
    + destruct (He i) as (f & Hf & Hl); [|exists f; split; [apply in_app_iff; now left|exact Hl]]. rewrite <- H4; [exact Hi|]. intros ->. apply Hne. exact (located_enum_inv _ _ Ho).
Qed.

Lemma initial_done : so_done (attribute s) [] (initial s).
Proof.
  intros o n. unfold initial, own, attribute. cbn [p_members given filter map].
  assert (H : find (fun a : object * str * member => same_object (fst (fst a)) o && str_eqb (snd (fst a)) n) (map (fun a => (fst a, MObject (snd a))) (s_attributes s)) =
    option_map (fun a => (fst a, MObject (snd a))) (find (fun a : object * str * object => same_object (fst (fst a)) o && str_eqb (snd (fst a)) n) (s_attributes s))).
  { induction (s_attributes s) as [|a l IH]; [reflexivity|]. cbn. destruct (same_object (fst (fst a)) o && str_eqb (snd (fst a)) n); [reflexivity|exact IH]. }
  rewrite H. destruct (find _ (s_attributes s)) as [[[? ?] v]|]; cbn; auto.
Qed.

Lemma module_runs : exists p, fold_opt (call mro manual fails files intros_ s) (map (fun e => (ex_id e, ex_id e)) all) (initial s) = Some p /\
  fold_opt (fun p l => manual l (Mod []) p) post p = Some p /\ so_done (attribute s) cs p.
Proof.
  destruct (calls_run all [] (initial s) [] cs eq_refl CS eq_refl initial_done) as (p & H1 & H2); [intros e H; now destruct H|].
  exists p. split; [exact H1|]. split; [|exact H2]. assert (Hp : forall l, In l post -> manual l (Mod []) p = Some p) by (intros l Hl; apply (proj2 Ex); now left).
  clear - Hp. induction post as [|l r IH]; [reflexivity|]. cbn. rewrite Hp by now left. apply IH. intros x Hx. apply Hp. now right.
Qed.

Lemma contributes_in o q before body cb : contributes o q before body cb -> forall t n, In t body -> defines t = Some n -> In (o, n, t) cb.
Proof.
  induction 1 as [before|before s1 n1 b cb Hd _ IH|before n1 i b cb _ IH|before k b cb Hq _ IH|before s1 b cb Hd Hv Hx _ IH]; intros t n Ht Hn; [destruct Ht| | | |];
    (destruct Ht as [<-|Ht]; [|specialize (IH t n Ht Hn)]).
  - left. congruence.
  - now right.
  - discriminate Hn.
  - now right.
  - discriminate Hn.
  - apply in_app_iff. now right.
  - congruence.
  - exact IH.
Qed.

Lemma contributions_in l cs' : contributions u st g l cs' -> forall e o t n, In e l -> located (ex_context e) o -> In t (ex_body e) -> defines t = Some n -> In (o, n, t) cs'.
Proof.
  induction 1 as [|e l o q cb r Ho Hq Hcb Hr IH]; intros f o' t n Hf Hl Ht Hn; [destruct Hf|]. apply in_app_iff. destruct Hf as [<-|Hf]; [left|right; eauto].
  rewrite (located_unique default_holder u g st name T K Distinct _ _ Hl _ Ho). exact (contributes_in _ _ _ _ _ Hcb _ _ Ht Hn).
Qed.
End Module.

(** What a declaration becomes. *)
Lemma reached p objects cs o n t : so_done objects cs p -> In (o, n, t) cs -> exists m, own p o n = Some m /\ reaches m t.
Proof.
  intros I H. assert (C := I o n). apply given_in in H. destruct (own p o n) as [[v|f l|s]|].
  - destruct C as [_ C]. rewrite C in H. destruct H.
  - destruct C as (_ & -> & _). eexists. split; [reflexivity|exact H].
  - destruct C as (_ & C & _). rewrite C in H. destruct H as [<-|[]]. eexists. split; [reflexivity|reflexivity].
  - destruct C as [_ C]. rewrite C in H. destruct H.
Qed.

Lemma run_members default_holder mro manual fails u w found implicit iteration n name b files rs st' : setting u w iteration -> nested_blocks u -> 0 < n ->
  generate u w found implicit iteration n name = Some (RGraph b (EWritten files rs st')) ->
  exists g vis order all chunks post, exposed u found implicit name g vis b /\
    generated u w g vis (bs_annotations b) name rs st' order all post /\ layout name post all chunks files /\
    let intros := map (fun e => (ex_id e, ex_intro e)) all in
    let m := IModule name intros (map (fun e => (ex_id e, ex_id e)) all) post in
    filter is_module (concat files) = [m] /\
    (NoDup (map fst intros) -> agreeing_blocks u (bs_annotations b) g -> distinct_names u (bs_annotations b) g -> usable_bases default_holder w intros ->
     exists cs, contributions u (bs_annotations b) g all cs /\
       (no_clashes mro u (bs_annotations b) g cs -> executable manual fails all post ->
        exists s p, run_module mro manual fails default_holder files m = Some (s, p) /\
          (forall o k v, attribute s o k = Some v <-> exists c, found_in u (bs_annotations b) g c o k /\ located u (bs_annotations b) g c v) /\
          (forall o k, consists (attribute s o k) (given cs o k) (own p o k)) /\
          forall e o t k, In e all -> located u (bs_annotations b) g (ex_context e) o -> In t (ex_body e) -> defines t = Some k -> exists x, own p o k = Some x /\ reaches x t)).
Proof.
  intros S NB Hn HG. destruct (run_written _ _ _ _ _ S _ _ _ _ _ _ Hn HG) as (g & vis & order & all & chunks & post & X & G & Ly & Hlen & _).
  destruct (exposed_graph _ _ _ _ _ S _ _ _ _ X) as (T & K & R & _ & Pl).
  exists g, vis, order, all, chunks, post. split; [exact X|]. split; [exact G|]. split; [exact Ly|]. intros intros m.
  destruct (layout_definitions _ _ _ _ _ Ly) as [F M]; [lia|]. split; [exact M|]. intros Nd Ag Di Ba. unfold intros in Nd. rewrite map_map in Nd. cbn [fst] in Nd.
  pose proof (modules_nested _ _ _ _ _ S _ _ _ _ X) as Ne. pose proof (se_placed _ _ _ S) as Pu. pose proof (se_language _ _ _ S) as La.
  assert (H : exists s, import default_holder intros = Some s /\ so_far default_holder u g (bs_annotations b) all s) by (eapply import_so_far; eassumption).
  destruct H as (s & Hs & C).
  assert (H : exists cs, contributions u (bs_annotations b) g all cs) by (eapply contributions_total; try eassumption; auto).
  destruct H as (cs & CS). exists cs. split; [exact CS|]. intros NC Ex.
  assert (H : exists p, fold_opt (call mro manual fails files intros s) (map (fun e => (ex_id e, ex_id e)) all) (initial s) = Some p /\
     fold_opt (fun p l => manual l (Mod []) p) post p = Some p /\ so_done (attribute s) cs p) by (eapply module_runs; eassumption).
  destruct H as (p & H1 & H2 & I). exists s, p. split; [|split; [|split]].
  - unfold run_module, m. cbn. rewrite Hs, H1, H2. reflexivity.
  - eapply attributes_exact; eassumption.
  - exact I.
  - intros e o t k He Hl Ht Hk. apply (reached p (attribute s) cs o k t I). eapply contributions_in; eassumption.
Qed.
