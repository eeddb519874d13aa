(** * Proofs about properties at run time *)
From Coq Require Import Sorting.Sorted.
From Verif Require Import Base ParserModel AnnotModel AnnotSpec AnnotStore AnnotFinal CollectModel CollectSpec GraphModel GraphSpec GraphFinal OrderModel InlineModel EmitModel EmitSpec EmitProofs EmitFold EmitFinal
  ModuleModel ModuleSpec ModuleProofs ModuleFinal ImportSpec ImportProofs ExecSpec ExecProofs AccessSpec AccessProofs InvalidSpec InvalidProofs FindProofs DispatchProofs StoreSpec StoreProofs PropertySpec.

(** ** Where properties come from *)

Section Trace.
Context (mro : nat -> list nat) (manual : nat -> object -> pystate -> option pystate) (fails : stmt -> bool).
Context (M : adds_no_properties manual) (P : object -> str -> str -> nat -> option nat -> Prop).

Definition sourced (p : pystate) : Prop :=
  (forall o k nm g st, own p o k = Some (MValue (SProperty nm g st)) -> P o k nm g st) /\ forall e k nm g st, ~ In (k, SProperty nm g st) (entries p e).

Lemma sourced_set p o n m p' : setattr mro p o n m = Some p' -> sourced p -> (forall nm g st, m = MValue (SProperty nm g st) -> P o n nm g st) -> sourced p'.
Proof.
  unfold setattr. destruct (_ && _); [discriminate|]. intros [= <-] [H1 H2] Hm. split; [|exact H2]. intros o' k nm g st Ho.
  rewrite own_cons in Ho. destruct (same_object o o' && str_eqb n k) eqn:E; [|apply H1; destruct p; exact Ho].
  apply place_eq in E as [-> ->]. injection Ho as ->. apply Hm. reflexivity.
Qed.

Lemma sourced_function p o n static s p' : define_function mro p o n static s = Some p' -> sourced p -> sourced p'.
Proof.
  intros D H. assert (One : forall l q, setattr mro p o n (MFunction static l) = Some q -> sourced q).
  { intros l q E. eapply sourced_set; [exact E|exact H|]. discriminate. }
  unfold define_function in D. destruct (own p o n) as [[v|f l|t]|] eqn:Eo.
  - destruct (getattr mro p o n) as [[| |]|]; try destruct (private n); try discriminate D; exact (One _ _ D).
  - destruct (Bool.eqb f static); [|discriminate D]. exact (One _ _ D).
  - destruct (getattr mro p o n) as [[| |]|]; try destruct (private n); try discriminate D; exact (One _ _ D).
  - destruct (getattr mro p o n) as [[| |]|]; try destruct (private n); try discriminate D; exact (One _ _ D).
Qed.

Lemma sourced_exports q vs : forall p p', fold_opt (fun p v => setattr mro p q (fst v) (MValue (snd v))) vs p = Some p' ->
  sourced p -> (forall v nm g st, In v vs -> snd v <> SProperty nm g st) -> sourced p'.
Proof.
  induction vs as [|v vs IH]; cbn [fold_opt]; intros p p' E H Hv; [injection E as <-; exact H|].
  destruct (setattr mro p q (fst v) (MValue (snd v))) as [p1|] eqn:E1; [|discriminate E]. eapply IH; [exact E| |intros x nm g st Hx; apply Hv; now right].
  eapply sourced_set; [exact E1|exact H|]. intros nm g st [= Ev]. destruct (Hv v nm g st (or_introl eq_refl) Ev).
Qed.

Lemma sourced_statement types o scope p s p' : statement mro manual fails types o scope p s = Some p' -> sourced p ->
  (forall nm g st, s = SProperty nm g st -> P o nm nm g st) -> sourced p'.
Proof.
  unfold statement. destruct (fails s); [discriminate|]. intros E H Hs. destruct s;
    try (eapply sourced_set; [exact E|exact H|]; intros nm g st [= ?]; subst; eauto; fail);
    try (eapply sourced_function; [exact E|exact H]).
  - destruct (M _ _ _ _ E) as [M1 M2]. destruct H as [H1 H2]. split; [intros q k nm g st Ho; apply H1, M1, Ho|intros e k nm g st Hi; apply (H2 e k nm g st), M2, Hi].
  - destruct (existsb _ _); [|discriminate E]. injection E as <-. exact H.
  - destruct o as [|c|e]; try discriminate E. destruct (existsb _ _); [discriminate E|].
    destruct (setattr mro p (Enum e) spelling (MValue (SValue spelling i))) as [q|] eqn:Eq; [|discriminate E]. injection E as <-.
    assert (Hq : sourced q) by (eapply sourced_set; [exact Eq|exact H|]; discriminate). destruct Hq as [Q1 Q2]. split; [exact Q1|].
    intros e' k nm g st Hi. rewrite entries_snoc in Hi. apply in_app_iff in Hi as [Hi|Hi]; [exact (Q2 _ _ _ _ _ Hi)|]. destruct (Nat.eqb e e'); [|destruct Hi]. destruct Hi as [Hi|[]]; discriminate Hi.
  - destruct o as [|c|e]; try discriminate E. destruct scope as [q|]; [|discriminate E]. eapply sourced_exports; [exact E|exact H|].
    intros [k t] nm g st Hv Et. cbn in Et. subst t. exact (proj2 H _ _ _ _ _ Hv).
  - injection E as <-. exact H.
Qed.

Lemma sourced_body types o scope body : forall p p', fold_opt (statement mro manual fails types o scope) body p = Some p' -> sourced p ->
  (forall nm g st, In (SProperty nm g st) body -> P o nm nm g st) -> sourced p'.
Proof.
  induction body as [|s body IH]; cbn [fold_opt]; intros p p' E H Hb; [injection E as <-; exact H|].
  destruct (statement mro manual fails types o scope p s) as [p1|] eqn:E1; [|discriminate E]. eapply IH; [exact E| |intros nm g st Hx; apply Hb; now right].
  eapply sourced_statement; [exact E1|exact H|]. intros nm g st ->. apply Hb. now left.
Qed.

Lemma sourced_calls files intros s cs : (forall c o id body, In c cs -> value s (snd c) = Some o -> body_named files (fst c) = Some body -> fst c = id ->
    forall nm g st, In (SProperty nm g st) body -> P o nm nm g st) ->
  forall p p', fold_opt (call mro manual fails files intros s) cs p = Some p' -> sourced p -> sourced p'.
Proof.
  induction cs as [|c cs IH]; cbn [fold_opt]; intros F p p' E H; [injection E as <-; exact H|].
  destruct (call mro manual fails files intros s p c) as [p1|] eqn:E1; [|discriminate E]. eapply IH; [intros c' o id body Hc; apply F; now right|exact E|].
  unfold call in E1. destruct (value s (snd c)) as [o|] eqn:Ev; [|discriminate]. destruct (body_named files (fst c)) as [body|] eqn:Eb; [|discriminate].
  eapply sourced_body; [exact E1|exact H|]. eapply F; [now left|exact Ev|exact Eb|reflexivity].
Qed.

Lemma sourced_manual o post : forall p p', fold_opt (fun p l => manual l o p) post p = Some p' -> sourced p -> sourced p'.
Proof.
  induction post as [|l post IH]; cbn [fold_opt]; intros p p' E H; [injection E as <-; exact H|].
  destruct (manual l o p) as [p1|] eqn:E1; [|discriminate E]. eapply IH; [exact E|]. destruct (M _ _ _ _ E1) as [M1 M2]. destruct H as [H1 H2].
  split; [intros q k nm g st Ho; apply H1, M1, Ho|intros e k nm g st Hi; apply (H2 e k nm g st), M2, Hi].
Qed.

Lemma sourced_initial s : sourced (initial s).
Proof.
  split; [|intros e k nm g st []]. intros o n nm g st Ho. unfold own, initial in Ho. cbn [p_members] in Ho.
  destruct (find _ _) as [x|] eqn:Ef; [|discriminate Ho]. apply find_some in Ef as [Hx _]. apply in_map_iff in Hx as (y & <- & _). discriminate Ho.
Qed.
End Trace.

(** ** Variables of the module block *)

Lemma value_cons id o vs at_ ts k : value (mkState ((id, o) :: vs) at_ ts) k = if str_eqb id k then Some o else value (mkState vs at_ ts) k.
Proof. unfold value. cbn. destruct (str_eqb id k); reflexivity. Qed.

Lemma execute_value default_holder s i s' : execute default_holder s i = Some s' -> value s (fst i) = None /\ exists o, s_variables s' = (fst i, o) :: s_variables s /\
  match snd i with NClass t _ _ _ => o = Class (ct_record t) | _ => True end.
Proof.
  unfold execute. destruct (value s (fst i)) as [v|] eqn:Ev; [discriminate|]. destruct (value s (intro_parent (snd i))) as [o|]; [|discriminate]. intros E. split; [reflexivity|].
  destruct (snd i); unfold register in E; repeat match type of E with context[match ?x with _ => _ end] => destruct x; try discriminate E end; injection E as <-; eexists; (split; [reflexivity|]); first [exact I|reflexivity].
Qed.

Lemma import_class default_holder intros : forall s0 s, fold_opt (execute default_holder) intros s0 = Some s ->
  (forall id o, value s0 id = Some o -> value s id = Some o) /\
  forall id t q k d, In (id, NClass t q k d) intros -> value s id = Some (Class (ct_record t)).
Proof.
  induction intros as [|i l IH]; cbn [fold_opt]; intros s0 s E; [injection E as <-; split; [auto|intros id t q k d []]|].
  destruct (execute default_holder s0 i) as [s1|] eqn:E1; [|discriminate E]. destruct (IH _ _ E) as [K I]. destruct (execute_value _ _ _ _ E1) as (Hn & o & Hv & Ho).
  assert (Hs1 : forall id, value s1 id = if str_eqb (fst i) id then Some o else value s0 id) by (intros id; unfold value; rewrite Hv; cbn; destruct (str_eqb (fst i) id); reflexivity).
  split.
  - intros id o' H. apply K. rewrite Hs1. destruct (str_eqb (fst i) id) eqn:Ei; [|exact H]. apply str_eqb_eq in Ei. congruence.
  - intros id t q k d [->|H]; [|eauto]. apply K. rewrite Hs1. cbn [fst snd] in *. rewrite Base.str_eqb_refl, Ho. reflexivity.
Qed.

(** ** Getters and setters *)

Section Users.
Context (u : unit) (w : facts) (found : nat -> list nat) (implicit : nat -> bool) (iteration : list nat -> list nat) (name : str) (g : graph) (vis : dmap bool) (b : bstate).
Context (S : setting u w iteration) (X : exposed u found implicit name g vis b) (c : nat) (Hc : In c (g_nodes g)).
Context (r : nat) (q : policy) (C : create u (bs_annotations b) (w_hierarchy w) c = Some (XRecord r q)).
Context (st1 st2 : storage) (ss : list stmt) (rs : list ereport).
Context (D : define u (w_extra w) (XRecord r q) (lookup_vis vis c) (looked_up u w c (XRecord r q)) st1 = Some (st2, ss, rs)) (Fa : faithful u st1).
Context (Va : forall i, declared_in u w b c i -> d_skip (u_decls u i) = false -> valid_annotations (u_decls u i)).

Definition kind_of (setter : bool) : akind := if setter then SetterFor else GetterFor.
Definition names_of (setter : bool) (a : attrs) : list str := if setter then m_setter_for (at_method a) else m_getter_for (at_method a).

Lemma shown_dec (a : attrs) dv : {shown dv a} + {~ shown dv a}.
Proof.
  unfold shown. destruct (n_visible (at_named a)) as [[]|]; [left; auto|right; intros [?|[? _]]; discriminate|].
  destruct dv; [left; auto|right; intros [?|[_ ?]]; discriminate].
Qed.

Lemma in_users us k setter i : In i (users us k setter) <-> In (i, setter, k) us.
Proof.
  unfold users. rewrite in_map_iff. split.
  - intros ([[j s'] k'] & <- & H). apply filter_In in H as [H E]. cbn [fst snd] in *. apply andb_true_iff in E as [E1 E2]. apply eqb_prop in E1. apply str_eqb_eq in E2. subst. exact H.
  - intros H. exists (i, setter, k). split; [reflexivity|]. apply filter_In. split; [exact H|]. cbn. rewrite eqb_reflx, Base.str_eqb_refl. reflexivity.
Qed.

Lemma uses_by_in i a us : uses_by i a us -> forall j setter k, In (j, setter, k) us <-> j = i /\ In k (if setter then m_setter_for a else m_getter_for a).
Proof.
  intros (gs & sts & _ & G & _ & T & ->) j setter k. rewrite in_app_iff, !in_map_iff. split.
  - intros [(m & [= <- <- <-] & Hm)|(m & [= <- <- <-] & Hm)]; (split; [reflexivity|]); [apply G|apply T]; exact Hm.
  - intros [-> H]. destruct setter; [right; exists k; split; [reflexivity|apply T, H]|left; exists k; split; [reflexivity|apply G, H]].
Qed.

Lemma method_kind i : supports_method (u_decls u i) = true -> is_tag_kind (kind u i) = false.
Proof. unfold supports_method, supports_function, kind. destruct (d_kind (u_decls u i)); try (rewrite ?andb_false_r; discriminate); reflexivity. Qed.

Lemma users_accessors uss : Forall2 (method_uses u (XRecord r q) (lookup_vis vis c) st2) (flat_map (expand (w_extra w)) (looked_up u w c (XRecord r q))) uss ->
  forall i k setter, In i (users (concat uss) k setter) <-> accessor u w b name c (kind_of setter) i k.
Proof.
  intros F i k setter. rewrite in_users. destruct (define_spec _ _ _ _ _ _ _ _ _ D) as [_ H1 _ H3 _ _ _ _ _].
  assert (F2 := define_faithful _ _ _ _ _ _ _ _ _ D Fa).
  assert (Nm : forall j a ans v, described (u_decls u j) v ans a -> (In k (if setter then m_setter_for (at_method a) else m_getter_for (at_method a)) <-> named_by (kind_of setter) ans k)).
  { intros j a ans v De. destruct setter; [apply (de_setter_for _ _ _ _ De)|apply (de_getter_for _ _ _ _ De)]. }
  split.
  - intros Hu. apply concat_in in Hu as (us & Hus & Hu). destruct (forall2_in_r _ _ _ _ F Hus) as (j & Hj & U1 & U2).
    destruct (lookup_attrs st2 j) as [a|] eqn:El; [|exfalso; rewrite U2 in Hu; [destruct Hu|intros (r0 & p0 & a0 & _ & E & _); discriminate]].
    destruct (shown_dec a (lookup_vis vis c)) as [Sh|Sh]; [|exfalso; rewrite U2 in Hu; [destruct Hu|intros (r0 & p0 & a0 & _ & [= <-] & E & _); auto]].
    destruct (supports_method (u_decls u j)) eqn:Es; [|exfalso; rewrite U2 in Hu; [destruct Hu|intros (r0 & p0 & a0 & _ & _ & _ & E); discriminate]].
    assert (Ub := U1 _ _ _ eq_refl eq_refl Sh eq_refl). rewrite (uses_by_in _ _ _ Ub) in Hu. destruct Hu as [Ei Hk]. subst i.
    assert (Ho := F2 j a (method_kind j Es) El). assert (Sy := own_says _ _ _ Ho). destruct Sy as [Hs Sy].
    assert (Dc : declared_in u w b c j) by (exists (XRecord r q); auto).
    destruct (valid_described u j a Ho (Va j Dc Hs) Hs) as (ans & v & Ca & De & _).
    split; [exact Dc|]. split; [|exists ans; split; [exact Ca|apply (Nm _ _ _ _ De), Hk]].
    assert (Sy' := own_says _ _ _ Ho). destruct Sh as [V|[V Dv]]; rewrite V in Sy'; [left; exact Sy'|right]. split; [exact Sy'|]. eapply lookup_visible; eassumption.
  - intros (Dc & Vi & ans & Ca & Hk).
    assert (Hs : d_skip (u_decls u i) = false) by (destruct Vi as [[Hs _]|[[Hs _] _]]; exact Hs).
    assert (Hv := Va i Dc Hs). destruct Dc as (x & C' & Hi). rewrite C in C'. injection C' as <-.
    assert (Wf : exists an, In an ans /\ a_kind an = kind_of setter /\ well_formed (u_decls u i) an).
    { destruct Hk as (an & Han & Ka & _). exists an. split; [exact Han|]. split; [exact Ka|]. destruct Hv as (_ & ans' & Ca' & Acc).
      destruct (carried_unique2 _ _ _ _ _ Ca Ca') as [<- _]. apply In_nth_error in Han as (m & Hm). apply (Acc m an Hm). }
    assert (Es : supports_method (u_decls u i) = true).
    { destruct Wf as (an & _ & Ka & Wf). assert (Om : is_ordinary_method (u_decls u i)) by (destruct setter; destruct Wf; try discriminate Ka; assumption).
      unfold supports_method, supports_function, supports_operator, supports_conversion, is_method_decl, supports_constructor. destruct Om as [-> | ->]; reflexivity. }
    assert (Hl : exists a, own_attributes u i a /\ lookup_attrs st2 i = Some a).
    { destruct (lookup_attrs st1 i) as [a|] eqn:El; [|apply H3; assumption]. exists a. split; [apply (Fa i a (method_kind i Es) El)|apply H1, El]. }
    destruct Hl as (a & Ho & Hl). assert (Sh := visible_shown _ _ _ _ _ _ _ _ _ _ _ _ S X Hc Ho Vi).
    destruct (valid_described u i a Ho Hv Hs) as (ans' & v & Ca' & De & _). destruct (carried_unique2 _ _ _ _ _ Ca Ca') as [<- _].
    destruct (forall2_in_l _ _ _ _ F Hi) as (us & Hus & U1 & _). apply concat_in. exists us. split; [exact Hus|].
    apply (uses_by_in _ _ _ (U1 _ _ _ eq_refl Hl Sh Es)). split; [reflexivity|]. apply (Nm _ _ _ _ De), Hk.
Qed.

Lemma two_users (l : list nat) : (forall l1 a b l2, l <> l1 ++ a :: b :: l2) -> l = [] \/ exists a, l = [a].
Proof. destruct l as [|a [|b' l]]; [auto|eauto|]. intros H. destruct (H [] a b' l eq_refl). Qed.

(** Without errors, properties are as annotated. *)
Lemma property_users : (forall e, In e rs -> is_error_ereport e = false) ->
  (forall k f m, In (SProperty k f m) ss <-> accessor u w b name c GetterFor f k /\ forall h, m = Some h <-> accessor u w b name c SetterFor h k) /\
  (forall k f f', accessor u w b name c GetterFor f k -> accessor u w b name c GetterFor f' k -> f = f') /\
  (forall k f, accessor u w b name c SetterFor f k -> (exists h, accessor u w b name c GetterFor h k) /\ forall f', accessor u w b name c SetterFor f' k -> f = f') /\
  (forall k f, accessor u w b name c GetterFor f k -> exists m, In (SProperty k f m) ss).
Proof.
  intros Ne. destruct (define_spec _ _ _ _ _ _ _ _ _ D) as [_ _ _ _ _ _ _ (uss & F & P & _ & N & A) _]. assert (U := users_accessors uss F).
  assert (One : forall k s', users (concat uss) k s' = [] \/ exists f, users (concat uss) k s' = [f]).
  { intros k s'. apply two_users. intros l1 a d l2 E. assert (Al : In (EAlreadyDefined d k s' a) rs) by (apply A; eauto). specialize (Ne _ Al). discriminate Ne. }
  assert (Un : forall k s' f f', In f (users (concat uss) k s') -> In f' (users (concat uss) k s') -> f = f').
  { intros k s' f f' H H'. destruct (One k s') as [E|(d & E)]; rewrite E in H, H'; [destruct H|]. destruct H as [<-|[]], H' as [<-|[]]. reflexivity. }
  assert (La : forall k s' f, last_of (users (concat uss) k s') = Some f <-> In f (users (concat uss) k s')).
  { intros k s' f. destruct (One k s') as [E|(d & E)]; rewrite E; cbn; [split; [discriminate|intros []]|]. split; [intros [= ->]; auto|intros [->|[]]; reflexivity]. }
  split; [|split; [|split]].
  - intros k f m. rewrite P, La, (U f k false). cbn [kind_of]. split; intros [H1 H2]; (split; [exact H1|]).
    + intros h. subst m. rewrite La. apply (U h k true).
    + destruct m as [h|]; [symmetry; apply La, (U h k true), H2; reflexivity|]. destruct (last_of (users (concat uss) k true)) as [h|] eqn:E; [|reflexivity].
      apply La in E. apply (U h k true) in E. apply H2 in E. discriminate E.
  - intros k f f' H H'. apply (U f k false) in H. apply (U f' k false) in H'. eapply Un; eassumption.
  - intros k f H. apply (U f k true) in H. split.
    + destruct (One k false) as [E|(d & E)].
      * specialize (Ne _ (proj2 (N f k) (conj E (proj2 (La k true f) H)))). discriminate Ne.
      * exists d. apply (U d k false). rewrite E. now left.
    + intros f' H'. apply (U f' k true) in H'. eapply Un; eassumption.
  - intros k f H. apply (U f k false) in H. apply La in H. eexists. apply P. split; [exact H|reflexivity].
Qed.
End Users.

(** ** The imported module *)

Section Module.
Context (default_holder : str -> bool) (mro : nat -> list nat) (manual : nat -> object -> pystate -> option pystate) (fails : stmt -> bool).
Context (u : unit) (w : facts) (found : nat -> list nat) (implicit : nat -> bool) (iteration : list nat -> list nat) (n : nat) (name : str) (b : bstate).
Context (files : list (list item)) (rs : list ereport) (st' : storage).
Hypothesis (Se : setting u w iteration) (Hn : 0 < n) (HG : generate u w found implicit iteration n name = Some (RGraph b (EWritten files rs st'))).
Hypothesis (Ne : forall r, In r rs -> is_error_ereport r = false).

(** For the entries of classes. *)
Lemma entry_properties : exists g vis order all chunks post, exposed u found implicit name g vis b /\
  generated u w g vis (bs_annotations b) name rs st' order all post /\ layout name post all chunks files /\
  forall e, In e all ->
    (kind u (ex_context e) <> KRecord -> forall k f m, ~ In (SProperty k f m) (ex_body e)) /\
    (kind u (ex_context e) = KRecord ->
      (forall k f m, In (SProperty k f m) (ex_body e) <-> accessor u w b name (ex_context e) GetterFor f k /\ forall h, m = Some h <-> accessor u w b name (ex_context e) SetterFor h k) /\
      (forall k f f', accessor u w b name (ex_context e) GetterFor f k -> accessor u w b name (ex_context e) GetterFor f' k -> f = f') /\
      (forall k f, accessor u w b name (ex_context e) SetterFor f k -> (exists h, accessor u w b name (ex_context e) GetterFor h k) /\ forall f', accessor u w b name (ex_context e) SetterFor f' k -> f = f') /\
      (forall k f, accessor u w b name (ex_context e) GetterFor f k -> exists m, In (SProperty k f m) (ex_body e))).
Proof.
  destruct (late_reported u w found implicit iteration n name b files rs st' Se Hn HG) as (g & vis & order & all & chunks & post & X & G & Ly & _ & _ & V).
  exists g, vis, order, all, chunks, post. split; [exact X|]. split; [exact G|]. split; [exact Ly|]. intros e He.
  destruct (ge_bodies _ _ _ _ _ _ _ _ _ _ _ G) as (rss & Fb & Er).
  destruct (forall2_in_l _ _ _ _ Fb He) as (r & Hr & x & st1 & st2 & Hc & D & X1 & X2 & Ff).
  destruct (exposed_graph _ _ _ _ _ Se _ _ _ _ X) as (_ & _ & _ & Fa & _). split.
  - intros K k f m Hin. destruct (define_spec _ _ _ _ _ _ _ _ _ D) as [_ _ _ _ _ _ _ (uss & F & P & _) _]. rewrite P in Hin. destruct Hin as [Hg _]. apply last_of_in in Hg.
    rewrite in_users in Hg. apply concat_in in Hg as (us & Hus & Hg). destruct (forall2_in_r _ _ _ _ F Hus) as (j & _ & _ & U2).
    rewrite U2 in Hg; [destruct Hg|]. intros (r0 & p0 & a0 & -> & _). apply K. unfold create in Hc. destruct (kind u (ex_context e)); try discriminate Hc. reflexivity.
  - intros K. assert (Ex : exists r0 q, x = XRecord r0 q).
    { unfold create in Hc. rewrite K in Hc. destruct (create_policy u (bs_annotations b) (w_hierarchy w) (ex_context e)); [|discriminate Hc]. injection Hc as <-. eauto. }
    destruct Ex as (r0 & q & ->). eapply property_users; try eassumption.
    + eapply entry_context_node; eassumption.
    + exact (Ff Fa).
    + intros i Hi Hs. destruct (V i) as [Q|(d & H1 & H2)]; [|exact Q|].
      * split; [exact Hs|]. exists e. split; [exact He|exact Hi].
      * specialize (Ne _ H1). cbn in Ne. congruence.
    + intros e0 H0. apply Ne. rewrite <- Er. apply in_concat. eauto.
Qed.

Context (m : item) (s : ImportSpec.state) (p : pystate).
Hypothesis (M : adds_no_properties manual) (Hm : In m (concat files)) (R : run_module mro manual fails default_holder files m = Some (s, p)).

Lemma property_origin o k nm f st : own p o k = Some (MValue (SProperty nm f st)) -> exists d, o = Class d /\ nm = k /\ exposed_class u found implicit name b d /\
  (forall f', accessor u w b name d GetterFor f' k <-> f' = f) /\ (forall h, accessor u w b name d SetterFor h k <-> st = Some h).
Proof.
  intros Ho. destruct entry_properties as (g & vis & order & all & chunks & post & X & G & Ly & H).
  assert (Hf : 0 < length files) by (destruct (run_written _ _ _ _ _ Se _ _ _ _ _ _ Hn HG) as (_ & _ & _ & _ & _ & _ & _ & _ & _ & Hlen & _); lia).
  destruct (layout_definitions _ _ _ _ _ Ly Hf) as [Hd Hmo].
  unfold run_module in R. destruct m as [|name' intros calls post'|]; try discriminate R.
  assert (Hin : In (IModule name' intros calls post') (filter is_module (concat files))) by (apply filter_In; auto).
  rewrite Hmo in Hin. destruct Hin as [Hin|[]]. injection Hin as <- Hi Hcalls _.
  destruct (import default_holder intros) as [s0|] eqn:Ei; [|discriminate R].
  destruct (fold_opt (call mro manual fails files intros s0) calls (initial s0)) as [p0|] eqn:E0; [|discriminate R].
  destruct (fold_opt (fun p l => manual l (Mod []) p) post' p0) as [p1|] eqn:E1; [|discriminate R]. injection R as -> ->.
  pose (P := fun o k nm f st => exists e, In e all /\ kind u (ex_context e) = KRecord /\ o = Class (ex_context e) /\ nm = k /\ In (SProperty nm f st) (ex_body e)).
  assert (Sp : sourced P p).
  { eapply sourced_manual; [exact M|exact E1|]. eapply sourced_calls; [exact M| |exact E0|apply sourced_initial].
    intros c o' id body Hc Hv Hb _ nm' g' st0 Hp. apply first_some_in in Hb as (i & Hi' & Eb). destruct i as [| |id' q body']; try discriminate Eb.
    destruct (str_eqb id' (fst c)) eqn:Es; [|discriminate Eb]. injection Eb as ->. apply str_eqb_eq in Es. subst id'.
    assert (Hdf : In (IDefine (fst c) q body) (filter is_definition (concat files))) by (apply filter_In; auto).
    rewrite Hd in Hdf. apply in_map_iff in Hdf as (e & Ee & He). unfold definition in Ee. injection Ee as Eid _ Ebo.
    rewrite <- Hcalls in Hc. apply in_map_iff in Hc as (e' & <- & He'). cbn [fst snd] in *.
    assert (K : kind u (ex_context e) = KRecord).
    { destruct (kind u (ex_context e)) eqn:K; try reflexivity; exfalso; refine (proj1 (H e He) _ nm' g' st0 _); try (rewrite K; discriminate); rewrite Ebo; exact Hp. }
    exists e. split; [exact He|]. split; [exact K|]. split; [|split; [reflexivity|rewrite Ebo; exact Hp]].
    destruct (ge_introduces _ _ _ _ _ _ _ _ _ _ _ G e He) as [I _]. unfold introduces in I. rewrite K in I. destruct I as (t & pa & nn & bb & It & _ & Et & _).
    unfold import in Ei. destruct (import_class _ _ _ _ Ei) as [_ Ic]. rewrite <- Eid in Hv.
    rewrite (Ic (ex_id e) t pa nn bb) in Hv; [injection Hv as <-; rewrite Et; reflexivity|]. rewrite <- Hi, <- It. apply in_map_iff. exists e. auto. }
  destruct (proj1 Sp _ _ _ _ _ Ho) as (e & He & K & -> & -> & Hp). exists (ex_context e). split; [reflexivity|]. split; [reflexivity|].
  split; [exists g, vis; split; [exact X|]; split; [eapply entry_context_node; eassumption|exact K]|].
  destruct (proj2 (H e He) K) as (H1 & H2 & _). apply H1 in Hp as [Hg Hst]. split; [|intros h; symmetry; apply Hst].
  intros f'. split; [intros Hf'; eapply H2; eassumption|intros ->; exact Hg].
Qed.

Context {V : Type} (class_of : nat -> nat) (has_dict : nat -> bool) (convert : nat -> V -> option V) (initial : nat -> V).
Context (read : nat -> nat -> memory V -> option V) (write : nat -> nat -> V -> memory V -> option (memory V)).

Theorem properties_live d k nm f st : own p (Class d) k = Some (MValue (SProperty nm f st)) ->
  nm = k /\ exposed_class u found implicit name b d /\
  (forall f', accessor u w b name d GetterFor f' k <-> f' = f) /\ (forall h, accessor u w b name d SetterFor h k <-> st = Some h) /\
  forall (wd : world V) o, comes_from p mro wd (class_of o) d k ->
    let value := get_attr p mro class_of initial (with_object u read) wd (Instance o) k in
    let set v := set_attr p mro class_of has_dict convert (with_value u write) wd (Instance o) k v in
    (arity u f = 1 -> value = match read f o (wd_memory wd) with Some v => Value v | None => Refused end) /\
    (arity u f <> 1 -> value = Refused) /\
    (forall h v, accessor u w b name d SetterFor h k -> arity u h = 2 ->
      set v = match write h o v (wd_memory wd) with Some mem => (mkWorld (wd_set wd) (wd_dict wd) mem, Accepted) | None => (wd, Refused) end) /\
    (forall v, (forall h, accessor u w b name d SetterFor h k -> arity u h <> 2) -> set v = (wd, Refused)).
Proof.
  intros Ho. destruct (property_origin _ _ _ _ _ Ho) as (d' & [= <-] & Hk & Hx & Hg & Hs). split; [exact Hk|]. split; [exact Hx|]. split; [exact Hg|]. split; [exact Hs|].
  intros wd o Hc value set. assert (A := found_along p mro wd _ _ _ _ Hc Ho). unfold value, set. cbn [get_attr set_attr]. rewrite A. unfold with_object, with_value.
  split; [intros ->; reflexivity|]. split; [intros E; apply Nat.eqb_neq in E; rewrite E; reflexivity|]. split.
  - intros h v Hh E. apply Hs in Hh. rewrite Hh, E. reflexivity.
  - intros v Hh. destruct st as [h|]; [|reflexivity]. specialize (Hh h (proj2 (Hs h) eq_refl)). apply Nat.eqb_neq in Hh. rewrite Hh. reflexivity.
Qed.
End Module.

(** Getters become attributes. *)
Theorem properties_defined default_holder mro manual fails u w found implicit iteration n name b files rs st' : setting u w iteration -> nested_blocks u -> 0 < n ->
  generate u w found implicit iteration n name = Some (RGraph b (EWritten files rs st')) -> (forall r, In r rs -> is_error_ereport r = false) ->
  exists g vis order all chunks post, exposed u found implicit name g vis b /\
    generated u w g vis (bs_annotations b) name rs st' order all post /\ layout name post all chunks files /\
    let intros := map (fun e => (ex_id e, ex_intro e)) all in
    let m := IModule name intros (map (fun e => (ex_id e, ex_id e)) all) post in
    filter is_module (concat files) = [m] /\
    (NoDup (map fst intros) -> agreeing_blocks u (bs_annotations b) g -> distinct_names u (bs_annotations b) g -> usable_bases default_holder w intros ->
     exists cs, contributions u (bs_annotations b) g all cs /\
       (no_clashes mro u (bs_annotations b) g cs -> executable manual fails all post ->
        exists s p, run_module mro manual fails default_holder files m = Some (s, p) /\
          forall d k f, In d (map ex_context all) -> kind u d = KRecord -> accessor u w b name d GetterFor f k -> exists st, own p (Class d) k = Some (MValue (SProperty k f st)))).
Proof.
  intros S NB Hn HG Ne. destruct (run_members default_holder mro manual fails _ _ _ _ _ _ _ _ _ _ _ S NB Hn HG) as (g & vis & order & all & chunks & post & X & G & Ly & Hm & H).
  exists g, vis, order, all, chunks, post. split; [exact X|]. split; [exact G|]. split; [exact Ly|]. intros intros m. split; [exact Hm|].
  intros Nd Ag Di Ba. destruct (H Nd Ag Di Ba) as (cs & C & H'). exists cs. split; [exact C|]. intros NC Ex. destruct (H' NC Ex) as (s & p & R & _ & _ & A).
  exists s, p. split; [exact R|]. intros d k f Hd K Hg. apply in_map_iff in Hd as (e & <- & He).
  destruct (entry_properties u w found implicit iteration n name b files rs st' S Hn HG Ne) as (g0 & vis0 & order0 & all0 & chunks0 & post0 & X0 & G0 & Ly0 & E0).
  assert (Hf : 0 < length files) by (destruct (run_written _ _ _ _ _ S _ _ _ _ _ _ Hn HG) as (_ & _ & _ & _ & _ & _ & _ & _ & _ & Hlen & _); lia).
  destruct (layout_definitions _ _ _ _ _ Ly Hf) as [D1 M1]. destruct (layout_definitions _ _ _ _ _ Ly0 Hf) as [D0 M0].
  assert (Ei : intros = map (fun e => (ex_id e, ex_intro e)) all0) by (rewrite M0 in M1; injection M1 as E _ _; symmetry; exact E).
  destruct (ge_introduces _ _ _ _ _ _ _ _ _ _ _ G e He) as [I _]. unfold introduces in I. rewrite K in I. destruct I as (t & pa & nn & bb & It & _ & Et & _).
  assert (Hi : In (ex_id e, ex_intro e) intros) by (apply in_map_iff; exists e; auto). rewrite Ei in Hi. apply in_map_iff in Hi as (e0 & E & He0). injection E as Eid Ein.
  destruct (ge_introduces _ _ _ _ _ _ _ _ _ _ _ G0 e0 He0) as [I0 _]. rewrite Ein, It in I0. apply introduces_class in I0. rewrite Et in I0.
  assert (Hd : In (definition e0) (map definition all)) by (rewrite <- D1, D0; apply in_map, He0). apply in_map_iff in Hd as (e1 & E & He1).
  unfold definition in E. injection E as Eid1 _ Eb.
  assert (e1 = e) as ->.
  { clear - Nd He He1 Eid Eid1. unfold intros in Nd. rewrite map_map in Nd. cbn [fst] in Nd. rewrite Eid in Eid1. clear Eid e0. induction all as [|a l IH]; [destruct He|].
    inversion Nd as [|? ? N1 N2]; subst. destruct He as [->|He], He1 as [->|He1]; try reflexivity; [| |exact (IH N2 He He1)]; exfalso; apply N1; [rewrite <- Eid1; apply (in_map (fun x => ex_id x)), He1|rewrite Eid1; apply (in_map (fun x => ex_id x)), He]. }
  destruct (proj2 (E0 e0 He0)) as (P1 & P2 & P3); [rewrite I0; exact K|]. rewrite I0 in *.
  destruct (proj2 P3 k f Hg) as (m0 & Hp).
  destruct (A e (Class (ex_context e)) (SProperty k f m0) k He) as (v & Hv & Hr); [constructor; exact K|rewrite Eb; exact Hp|reflexivity|].
  exists m0. rewrite Hv. destruct v as [q|sta l|t0]; cbn in Hr; [destruct Hr| |rewrite Hr; reflexivity].
  exfalso. destruct (H' NC Ex) as (s1 & p1 & R1 & _ & Co & _). rewrite R in R1. injection R1 as <- <-. specialize (Co (Class (ex_context e)) k). rewrite Hv in Co.
  destruct Co as (_ & -> & _ & O). specialize (O _ Hr). discriminate O.
Qed.
