(** * Proofs about lifetimes of objects *)
From Verif Require Import Base ParserModel AnnotModel AnnotSpec AnnotProofs AnnotStore AnnotFinal CollectModel CollectSpec GraphModel GraphSpec GraphFinal OrderModel InlineModel EmitModel EmitSpec EmitProofs EmitFold EmitFinal
  ModuleModel ModuleSpec ModuleProofs ModuleFinal ImportSpec ImportProofs ExecSpec ExecProofs AccessSpec AccessProofs InvalidSpec InvalidProofs FindProofs DispatchSpec DispatchProofs LifeSpec.

(** ** Objects *)

Section Objects.
Context {V : Type} (is_none : V -> bool) (tuple : list V -> V) (dict : keywords V -> V) (referable : V -> bool) (x : extra).
Notation pairs := (pairs is_none tuple dict referable x).
Notation step := (step is_none tuple dict referable x).
Notation steps := (steps is_none tuple dict referable x).

Definition sound (h : heap V) : Prop := (forall v, hp_alive h v -> hp_seen h v) /\ forall v v', hp_keeps h v v' -> hp_alive h v /\ hp_alive h v'.

Lemma step_sound h e h' : step h e h' -> sound h -> sound h'.
Proof.
  intros St [H1 H2]. destruct St as [v N|e _ _ P|v A K]; split; cbn.
  - intros a [->|H]; auto.
  - intros a a' H. destruct (H2 _ _ H). auto.
  - exact H1.
  - intros a a' [H|H]; auto.
  - intros a [H _]. auto.
  - intros a a' [H N]. destruct (H2 _ _ H) as [A1 A2]. split; [auto|]. split; [exact A2|]. intros ->. exact (K _ H).
Qed.

Lemma steps_sound h es h' : steps h es h' -> sound h -> sound h'.
Proof. induction 1; [auto|]. intros S. apply IHsteps. eapply step_sound; eassumption. Qed.

Lemma nothing_sound : sound nothing.
Proof. split; [intros v []|intros v v' []]. Qed.

Definition holds (v v' : V) (h : heap V) : Prop := hp_seen h v /\ (hp_alive h v -> hp_keeps h v v').

Lemma step_holds v v' h e h' : step h e h' -> holds v v' h -> holds v v' h'.
Proof.
  intros St [H1 H2]. destruct St as [a N|e _ _ P|a A K]; split; cbn; auto.
  - intros [->|H]; [contradiction|auto].
  - intros [H N]. auto.
Qed.

Lemma steps_holds v v' h es h' : steps h es h' -> holds v v' h -> holds v v' h'.
Proof. induction 1; [auto|]. intros H'. apply IHsteps. eapply step_holds; eassumption. Qed.

Lemma steps_app h1 l l' h3 : steps h1 (l ++ l') h3 -> exists h2, steps h1 l h2 /\ steps h2 l' h3.
Proof.
  revert h1. induction l as [|e l IH]; cbn; intros h1 H; [exists h1; split; [constructor|exact H]|].
  inversion H as [|? ? h2 ? ? S1 S2]; subst. destruct (IH _ S2) as (h & A & B). exists h. split; [econstructor; eassumption|exact B].
Qed.

Lemma kept_from_then_on es1 e es2 h v v' : steps nothing (es1 ++ e :: es2) h -> In (v, v') (pairs e) -> hp_alive h v -> hp_alive h v'.
Proof.
  intros S Hp Ha. apply steps_app in S as (h1 & S1 & S2). assert (So := steps_sound _ _ _ S1 nothing_sound). inversion S2 as [|? ? h2 ? ? St S3]; subst.
  assert (So2 := step_sound _ _ _ St So). assert (So3 := steps_sound _ _ _ S3 So2).
  assert (Ho : holds v v' h2).
  { destruct So as [A1 A2]. destruct St as [a N|e N1 N2 P|a A K]; cbn in Hp; try destruct Hp. split; cbn; [apply A1, (P v v' Hp)|auto]. }
  destruct (steps_holds _ _ _ _ _ S3 Ho) as [_ K]. apply (proj2 So3 v v'), K, Ha.
Qed.

Lemma keeps_origin h es h' v v' : steps h es h' -> hp_keeps h' v v' -> hp_keeps h v v' \/ exists e, In e es /\ In (v, v') (pairs e).
Proof.
  induction 1 as [h|h1 e h2 es h3 St _ IH]; intros K; [auto|]. destruct (IH K) as [K'|(e' & H1 & H2)]; [|right; exists e'; split; [right; exact H1|exact H2]].
  destruct St as [a N|e N1 N2 P|a A N]; cbn in K'; [auto| |destruct K'; auto]. destruct K' as [K'|K']; [|auto]. right. exists e. split; [left; reflexivity|exact K'].
Qed.

(** ** Calls *)

Notation activate := (activate is_none referable).
Notation activate_all := (activate_all is_none referable).
Notation slot_value := (@slot_value V).

Definition meant (result : option V) (vs : list V) (ks : list (nat * nat)) (v v' : V) : Prop :=
  exists k, In k ks /\ slot_value result vs (fst k) = Some v /\ slot_value result vs (snd k) = Some v' /\ is_none v = false /\ is_none v' = false.

Lemma activate_some result vs k l : activate result vs k = Some l -> forall v v', In (v, v') l <-> meant result vs [k] v v'.
Proof.
  unfold LifeSpec.activate. intros H v v'. split.
  - intros Hin. exists k. split; [left; reflexivity|]. destruct (slot_value result vs (fst k)) as [a|]; [|discriminate H]. destruct (slot_value result vs (snd k)) as [a'|]; [|discriminate H].
    destruct (is_none a) eqn:N1; cbn in H; [injection H as <-; destruct Hin|]. destruct (is_none a') eqn:N2; [injection H as <-; destruct Hin|]. destruct (referable a); [|discriminate H].
    injection H as <-. destruct Hin as [[= <- <-]|[]]. auto.
  - intros (k' & [<-|[]] & E1 & E2 & N1 & N2). rewrite E1, E2, N1, N2 in H. cbn in H. destruct (referable v); [|discriminate H]. injection H as <-. now left.
Qed.

Lemma activate_all_sound result vs ks : forall l ok, activate_all result vs ks = (l, ok) -> forall v v', In (v, v') l -> meant result vs ks v v'.
Proof.
  induction ks as [|k ks IH]; cbn; intros l ok H v v' Hin; [injection H as <- <-; destruct Hin|].
  destruct (activate result vs k) as [l1|] eqn:E1; [|injection H as <- <-; destruct Hin]. destruct (activate_all result vs ks) as [l2 ok2]. injection H as <- <-.
  apply in_app_or in Hin as [Hin|Hin].
  - apply (activate_some _ _ _ _ E1) in Hin as (k' & [<-|[]] & H). exists k. split; [now left|exact H].
  - destruct (IH _ _ eq_refl v v' Hin) as (k' & H1 & H). exists k'. split; [now right|exact H].
Qed.

Lemma activate_all_complete result vs ks : forall l, activate_all result vs ks = (l, true) -> forall v v', meant result vs ks v v' -> In (v, v') l.
Proof.
  induction ks as [|k ks IH]; cbn; intros l H v v' (k' & Hk & M); [destruct Hk|].
  destruct (activate result vs k) as [l1|] eqn:E1; [|discriminate H]. destruct (activate_all result vs ks) as [l2 ok2] eqn:E2. injection H as <- ->. apply in_or_app.
  destruct Hk as [<-|Hk]; [left; apply (activate_some _ _ _ _ E1); exists k; split; [now left|exact M]|right; apply (IH _ eq_refl); exists k'; auto].
Qed.

Lemma activate_all_ok result vs ks : (forall k, In k ks -> exists v v', slot_value result vs (fst k) = Some v /\ slot_value result vs (snd k) = Some v' /\ (is_none v = false -> is_none v' = false -> referable v = true)) ->
  exists l, activate_all result vs ks = (l, true).
Proof.
  induction ks as [|k ks IH]; cbn; intros H; [eauto|]. destruct (H k (or_introl eq_refl)) as (v & v' & E1 & E2 & R). destruct IH as (l & ->); [intros k' Hk; apply H; now right|].
  unfold LifeSpec.activate. rewrite E1, E2. destruct (is_none v); cbn; [eauto|]. destruct (is_none v'); [eauto|]. rewrite (R eq_refl eq_refl). eauto.
Qed.
End Objects.

(** ** Names in annotations *)

Lemma keyword_unique {V} (kw : keywords V) n v v' : proper_keywords kw -> In (n, v) kw -> In (n, v') kw -> v = v'.
Proof.
  intros [Nd _] A B. induction kw as [|[m w] kw IH]; [destruct A|]. inversion Nd as [|? ? N1 N2]; subst. destruct A as [E|A], B as [E'|B]; try congruence.
  - injection E as -> ->. exfalso. apply N1, in_map_iff. exists (n, v'). auto.
  - injection E' as -> ->. exfalso. apply N1, in_map_iff. exists (n, v). auto.
  - auto.
Qed.

Lemma source_unique {V} (pos : list V) kw k q d v v' : proper_keywords kw -> source pos kw k q d v -> source pos kw k q d v' -> v = v'.
Proof.
  intros Pk A B.
  assert (Np : forall v, nth_error pos k = Some v -> length pos <= k -> False) by (intros w E L; apply nth_error_None in L; congruence).
  inversion A as [a A1 A2|a A1 A2|A1 A2 A3]; inversion B as [b B1 B2|b B1 B2|B1 B2 B3]; subst; try reflexivity; try congruence; try (exfalso; eapply Np; eassumption);
    try (exfalso; eapply A2; eassumption); try (exfalso; eapply B2; eassumption).
  exact (keyword_unique _ _ _ _ Pk A2 B2).
Qed.

Lemma variadic_exclusive q : is_ordinary q = true -> is_args q = false /\ is_kwargs q = false.
Proof. unfold is_ordinary, is_args, is_kwargs. destruct (pm_variadic q); [discriminate|auto]. Qed.
Lemma args_exclusive q : is_args q = true -> is_kwargs q = false.
Proof. unfold is_args, is_kwargs. destruct (pm_variadic q) as [[]|]; congruence. Qed.

Section Names.
Context {V : Type} (tuple : list V -> V) (dict : keywords V -> V) (default : nat -> nat -> V) (u : unit) (x : extra) (o : object) (f : nat).
Context (pos : list V) (kw : keywords V) (b : binding V).
Notation params := (fi_params (x_fn x f)).
Hypothesis (Hk : proper_keywords kw) (Hr : ~ In ($"return") (map pm_name params)) (Ht : ~ In ($"this") (map pm_name params)).

Lemma stands_for_unique result n v v' : stands_for tuple dict default u x o f pos kw b result n v -> stands_for tuple dict default u x o f pos kw b result n v' -> v = v'.
Proof.
  assert (Pr : forall i, ~ first_index (map pm_name params) ($"return") i) by (intros i [H _]; apply Hr; eapply nth_error_In; exact H).
  assert (Pt : forall i, ~ first_index (map pm_name params) ($"this") i) by (intros i [H _]; apply Ht; eapply nth_error_In; exact H).
  intros A B.
  destruct A as [v E|v T E|n i q v before F N O B1 B2 So|n i q F N O|n i q F N O];
    inversion B as [v2 E' Q|v2 T' E' Q|n2 i2 q2 v2 before2 F' N' O' B1' B2' So' Q|n2 i2 q2 F' N' O' Q|n2 i2 q2 F' N' O' Q]; subst;
    try (exfalso; eapply Pr; eassumption); try (exfalso; eapply Pt; eassumption); try congruence.
  - destruct E as [E|[E1 E2]], E' as [E'|[E1' E2']]; try congruence; try (subst pos; discriminate). exact (keyword_unique _ _ _ _ Hk E2 E2').
  - assert (i2 = i) as -> by (eapply first_index_unique; eassumption). rewrite N in N'. injection N' as <-.
    assert (before2 = before) as -> by (destruct before as [|[|]], before2 as [|[|]]; try reflexivity; exfalso; revert B1 B2 B1' B2'; clear; intuition (try congruence; try lia)).
    exact (source_unique _ _ _ _ _ _ _ Hk So So').
  - assert (i2 = i) as -> by (eapply first_index_unique; eassumption). rewrite N in N'. injection N' as <-. apply variadic_exclusive in O as [O _]. congruence.
  - assert (i2 = i) as -> by (eapply first_index_unique; eassumption). rewrite N in N'. injection N' as <-. apply variadic_exclusive in O as [_ O]. congruence.
  - assert (i2 = i) as -> by (eapply first_index_unique; eassumption). rewrite N in N'. injection N' as <-. apply variadic_exclusive in O' as [O' _]. congruence.
  - assert (i2 = i) as -> by (eapply first_index_unique; eassumption). rewrite N in N'. injection N' as <-. apply args_exclusive in O. congruence.
  - assert (i2 = i) as -> by (eapply first_index_unique; eassumption). rewrite N in N'. injection N' as <-. apply variadic_exclusive in O' as [_ O']. congruence.
  - assert (i2 = i) as -> by (eapply first_index_unique; eassumption). rewrite N in N'. injection N' as <-. apply args_exclusive in O'. congruence.
Qed.
End Names.

(** ** Calls of generated functions *)

Lemma variadic_nth ps i q : variadic_last ps -> nth_error ps i = Some q ->
  let c := length (filter is_ordinary ps) in
  (is_ordinary q = true -> nth_error (filter is_ordinary ps) i = Some q) /\
  (is_args q = true -> i = c /\ existsb is_args ps = true) /\
  (is_kwargs q = true -> i = (if existsb is_args ps then 1 else 0) + c /\ existsb is_kwargs ps = true).
Proof.
  intros (l1 & l2 & -> & O1 & O2 & V) Hi.
  assert (F1 : filter is_ordinary l1 = l1). { clear -O1. induction l1 as [|p l IH]; [reflexivity|]. cbn. rewrite (O1 p (or_introl eq_refl)). f_equal. apply IH. intros r Hr. apply O1. right. exact Hr. }
  assert (F2 : filter is_ordinary l2 = []). { clear -O2. induction l2 as [|p l IH]; [reflexivity|]. cbn. rewrite (O2 p (or_introl eq_refl)). apply IH. intros r Hr. apply O2. right. exact Hr. }
  rewrite filter_app, F1, F2, app_nil_r. cbn zeta.
  assert (A1 : existsb is_args l1 = false). { clear -O1. induction l1 as [|p l IH]; [reflexivity|]. cbn. destruct (variadic_exclusive p (O1 p (or_introl eq_refl))) as [-> _]. apply IH. intros r Hr. apply O1. right. exact Hr. }
  rewrite !existsb_app, A1. cbn [orb].
  destruct (Nat.lt_ge_cases i (length l1)) as [L|L].
  - rewrite nth_error_app1 in Hi by exact L. assert (Ho : is_ordinary q = true) by (apply O1; eapply nth_error_In; exact Hi). destruct (variadic_exclusive _ Ho) as [E1 E2].
    split; [auto|]. split; congruence.
  - rewrite nth_error_app2 in Hi by exact L. assert (Hin := nth_error_In _ _ Hi). assert (Ho := O2 _ Hin). split; [congruence|].
    destruct V as [->|[(p & ->)|(p & r & -> & Vp & Vr)]]; [destruct Hin| |].
    + destruct (i - length l1) as [|[|]] eqn:E; try discriminate Hi. injection Hi as ->. cbn [existsb]. rewrite !orb_false_r. split.
      * intros ->. split; [lia|reflexivity].
      * intros K. rewrite K, orb_true_r. split; [|reflexivity]. destruct (is_args q) eqn:Ea; [apply args_exclusive in Ea; congruence|]. lia.
    + cbn [existsb]. rewrite Vp. cbn [orb]. destruct (i - length l1) as [|[|[|]]] eqn:E; try discriminate Hi; injection Hi as ->; split.
      * intros _. split; [lia|reflexivity].
      * intros K. apply args_exclusive in Vp. congruence.
      * intros K. apply args_exclusive in K. congruence.
      * intros _. rewrite Vr. cbn. rewrite !orb_true_r. split; [lia|reflexivity].
Qed.

Section Module.
Context {V : Type} (is_none : V -> bool) (tuple : list V -> V) (dict : keywords V -> V) (referable : V -> bool) (default : nat -> nat -> V) (accepts : stmt -> nat -> bool -> V -> bool).
Context (default_holder : str -> bool) (mro : nat -> list nat) (manual : nat -> object -> pystate -> option pystate) (fails : stmt -> bool).
Context (u : unit) (w : facts) (found : nat -> list nat) (implicit : nat -> bool) (iteration : list nat -> list nat) (n : nat) (name : str) (b : bstate).
Context (files : list (list item)) (rs : list ereport) (st' : storage) (m : item) (s : ImportSpec.state) (p : pystate).
Hypothesis (Se : setting u w iteration) (Hn : 0 < n) (HG : generate u w found implicit iteration n name = Some (RGraph b (EWritten files rs st'))).
Hypothesis (M : adds_nothing manual) (R : run_module mro manual fails default_holder files m = Some (s, p)).
Notation proper := (proper_call is_none default accepts u (w_extra w) p).
Notation stands o f pos kw bi := (stands_for tuple dict default u (w_extra w) o f pos kw bi).
Notation kept := (to_be_kept is_none tuple dict default u (w_extra w)).

Lemma policies_described o t f ans pos kw bi : proper o t f ans pos kw bi ->
  Forall2 (fun an k => exists n m, a_args an = [LString n; LString m] /\ first_index (slots (u_decls u f)) n (fst k) /\ first_index (slots (u_decls u f)) m (snd k))
    (filter (fun an => akind_eqb (a_kind an) KeepAlive) ans) (policies t).
Proof.
  intros P. destruct (pc_function _ _ _ _ _ _ _ _ _ _ _ _ _ P) as (k & static & l & Ho & Ht).
  destruct (overload_origin is_none default accepts default_holder mro manual fails u w found implicit iteration n name b files rs st' m s p Se Hn HG M R _ _ _ _ _ Ho Ht) as (vis & st2 & e & r & B & Fa & Hte).
  destruct B as (ex & st1 & st3 & Hc & D & _ & _ & Ff). destruct (function_arguments _ _ (pc_declaration _ _ _ _ _ _ _ _ _ _ _ _ _ P)) as (args & Hm).
  assert (Hcl : closing t = false) by (destruct Hm as [(? & ? & ? & ->)|(? & ? & ->)]; reflexivity).
  destruct (proj1 (in_parts _ _ _ _ _ _ _ _ _ D t Hcl) Hte) as (i & Hin & a & Ha & Hsh & Hb).
  destruct (bound_parameters _ _ _ _ _ _ Hb _ _ Hm) as (E & Hsf & _). 
  assert (Hp : policies t = fn_keep_alive (at_function a)).
  { clear -Hb Hm. assert (Hf : forall t, bound_function u (w_extra w) i a t -> policies t = fn_keep_alive (at_function a)) by (intros t0 []; reflexivity).
    assert (Hal : forall t, bound_alias u (w_extra w) i a t -> policies t = fn_keep_alive (at_function a) \/ ~ has_arguments t f args) by (intros t0 []; right; intros [(? & ? & ? & E)|(? & ? & E)]; discriminate E).
    destruct ex; cbn [EmitSpec.bound] in Hb; destruct Hb; try reflexivity; try (apply Hf; assumption); try (destruct Hm as [(? & ? & ? & E)|(? & ? & E)]; discriminate E);
      match goal with H : bound_alias _ _ _ _ _ |- _ => destruct (Hal _ H) as [E|N]; [exact E|contradiction] end. }
  subst i.
  assert (Hoa : own_attributes u f a).
  { apply (define_faithful _ _ _ _ _ _ _ _ _ D (Ff Fa)); [|exact Ha]. unfold is_tag_kind, kind. unfold supports_function in Hsf. destruct (d_kind (u_decls u f)); try discriminate; reflexivity. }
  destruct (own_says _ _ _ Hoa) as [Hs _]. destruct (valid_described u f a Hoa (pc_valid _ _ _ _ _ _ _ _ _ _ _ _ _ P) Hs) as (ans' & v & Ca & De & _).
  destruct (carried_unique2 _ _ _ _ _ Ca (pc_annotations _ _ _ _ _ _ _ _ _ _ _ _ _ P)) as [-> _]. rewrite Hp. exact (de_keep_alive _ _ _ _ De).
Qed.

(** The index stored for a name designates the object the name stands for. *)
Lemma slot_stands o t f ans pos kw bi : proper o t f ans pos kw bi -> forall nm k, first_index (slots (u_decls u f)) nm k ->
  (k = 0 <-> nm = $"return") /\
  forall result, (k = 0 -> result <> None) -> exists v, slot_value result (passed tuple dict (w_extra w) t bi) k = Some v /\ stands o f pos kw bi result nm v.
Proof.
  intros P nm k Hi. destruct P as [(ky & static & l & Ho & Ht) Hf Of C Va Ca Vl [Nr Nt] Pk (convert & Su)].
  assert (Ep := cs_params _ _ _ C).
  assert (Hfn : is_function (u_decls u f)) by (unfold is_function; destruct Of as [K|? K|K|? K]; unfold kind in K; rewrite K; exact I).
  rewrite <- Ep in Nr, Nt. destruct (slot_index (u_decls u f) nm k Nr Nt Hfn Hi) as (sl & Rf & Bi).
  assert (Bi' : binding_index (u_decls u f) sl = Some k).
  { rewrite Bi. destruct Of as [K|? K S|K S|? K]; unfold kind in K; rewrite K; try rewrite S; try reflexivity; destruct (d_static (u_decls u f)); reflexivity. }
  clear Bi. assert (Ts : has_object (u_decls u f) = true <-> takes_self u o f).
  { unfold has_object, takes_self. destruct Of as [K|? K S I|K S I|? K I]; unfold kind in K |- *; rewrite K.
    - split; [auto|reflexivity].
    - rewrite S. split; [intros _; right; split; [exact I|]; intros [_ E]; discriminate E|reflexivity].
    - split; [intros _; right; split; [exact I|]; intros [_ E]; congruence|reflexivity].
    - split; [discriminate|]. intros [E|[E _]]; congruence. }
  destruct (overloads_declared is_none default (fun _ _ _ _ => true) default_holder mro manual fails u w found implicit iteration n name b files rs st' m s p Se Hn HG M R _ _ _ _ _ _ _ Ho Ht Hf C Va Ca Vl) as [Hs (fl & Lf & Ef & Hd)].
  destruct (calls_honoured is_none default _ default_holder mro manual fails u w found implicit iteration n name b files rs st' m s p Se Hn HG M R _ _ _ _ _ _ _ _ _ _ _ Ho Ht Hf C Va Ca Vl Su)
    as (before & B1 & B2 & H).
  destruct Su as [Fi _].
  assert (Eb : before = if has_object (u_decls u f) then 1 else 0).
  { destruct (has_object (u_decls u f)); [apply B1, Ts; reflexivity|]. apply B2. intros T. apply Ts in T. discriminate T. }
  assert (Em : is_method_of o t = has_object (u_decls u f)).
  { destruct (is_method_of o t), (has_object (u_decls u f)); try reflexivity; [symmetry; apply Ts, Hs; reflexivity|apply Hs, Ts; reflexivity]. }
  assert (Lv : length (bi_values bi) = before + length (filter is_ordinary (fi_params (x_fn (w_extra w) f)))).
  { rewrite (ft_length _ _ _ _ _ _ _ _ Fi), Ef, Em, Eb. destruct (has_object (u_decls u f)); [|exact Lf]. rewrite <- Lf. destruct fl; reflexivity. }
  destruct sl as [| |i]; cbn [refers_to] in Rf; cbn [binding_index] in Bi'.
  - injection Bi' as <-. subst nm. split; [split; reflexivity|]. intros result Hres. destruct result as [v|]; [|destruct (Hres eq_refl eq_refl)]. exists v. split; [reflexivity|]. apply sf_return. reflexivity.
  - destruct (has_object (u_decls u f)) eqn:Eo; [|discriminate Bi']. injection Bi' as <-. subst nm. split; [split; intros E; discriminate E|]. intros result _.
    assert (L : exists g v, nth_error (formals default o t) 0 = Some g /\ nth_error (bi_values bi) 0 = Some v /\ (g = plain \/ g = mkFormal (Some ($"self")) true false None)).
    { rewrite Ef, Em. destruct (bi_values bi) as [|v vs]; [cbn in Lv; lia|]. destruct fl; cbn; eauto 6. }
    destruct L as (g & v & Hg & Hv & Eg). exists v. split; [unfold passed; cbn [slot_value]; rewrite nth_error_app1 by lia; exact Hv|].
    destruct (ft_values _ _ _ _ _ _ _ _ Fi 0 g v Hg Hv) as [Q _]. apply sf_this; [apply Ts; reflexivity|].
    destruct Q as [[Q _]|[L [(g' & Hg' & Q)|[_ Q]]]]; [left; exact Q| |].
    + right. split; [destruct pos; [reflexivity|cbn in L; lia]|]. destruct Eg as [-> | ->]; [discriminate Hg'|]. injection Hg' as <-. exact Q.
    + destruct Eg as [-> | ->]; discriminate Q.
  - destruct (Nat.ltb i (length (d_params (u_decls u f)))) eqn:El; [|discriminate Bi'].
    assert (Ek : k = S (before + i)) by (rewrite Eb; destruct (has_object (u_decls u f)); injection Bi' as <-; reflexivity). subst k.
    split. { split; [discriminate|]. intros ->. destruct Rf as [Rf _]. apply nth_error_In in Rf. contradiction. }
    intros result _. cbn [slot_value]. rewrite Ep in Rf. assert (Rf' := Rf). destruct Rf' as [Rq _]. rewrite nth_error_map in Rq. destruct (nth_error (fi_params (x_fn (w_extra w) f)) i) as [q|] eqn:Eq; [|discriminate Rq].
    destruct (variadic_nth _ _ _ Vl Eq) as (Q1 & Q2 & Q3). unfold passed, collects. rewrite Hf.
    destruct (is_ordinary q) eqn:Oq.
    + specialize (Q1 eq_refl). destruct (H i q Q1) as (v & Hv & Sv & _). exists v. split; [|eapply sf_parameter; eassumption].
      rewrite nth_error_app1; [exact Hv|]. apply nth_error_Some. congruence.
    + destruct (is_args q) eqn:Aq.
      * destruct (Q2 eq_refl) as [-> ->]. exists (tuple (bi_args bi)). split; [|eapply sf_args; eassumption].
        rewrite nth_error_app2 by lia. rewrite Lv, Nat.sub_diag. reflexivity.
      * assert (Kq : is_kwargs q = true) by (unfold is_ordinary, is_args, is_kwargs in *; destruct (pm_variadic q) as [[]|]; congruence).
        destruct (Q3 Kq) as [-> ->]. exists (dict (bi_kwargs bi)). split; [|eapply sf_kwargs; eassumption].
        rewrite nth_error_app2 by lia. rewrite Lv. destruct (existsb is_args (fi_params (x_fn (w_extra w) f))); cbn [app].
        -- replace (before + (1 + length (filter is_ordinary (fi_params (x_fn (w_extra w) f)))) - (before + length (filter is_ordinary (fi_params (x_fn (w_extra w) f))))) with 1 by lia. reflexivity.
        -- replace (before + (0 + length (filter is_ordinary (fi_params (x_fn (w_extra w) f)))) - (before + length (filter is_ordinary (fi_params (x_fn (w_extra w) f))))) with 0 by lia. reflexivity.
Qed.

Notation called := (called is_none tuple dict referable (w_extra w)).

(** Values for a stored pair of indices. *)
Lemma policy_values o t f ans pos kw bi : proper o t f ans pos kw bi -> forall k, In k (policies t) -> exists n m, annotated_alive ans n m /\
  (early k = true <-> n <> $"return" /\ m <> $"return") /\
  forall result, (early k = false -> result <> None) -> exists v v',
    slot_value result (passed tuple dict (w_extra w) t bi) (fst k) = Some v /\ slot_value result (passed tuple dict (w_extra w) t bi) (snd k) = Some v' /\
    stands o f pos kw bi result n v /\ stands o f pos kw bi result m v'.
Proof.
  intros P k Hk. destruct (forall2_in_r _ _ _ _ (policies_described _ _ _ _ _ _ _ P) Hk) as (an & Han & n1 & n2 & Ea & F1 & F2).
  apply filter_In in Han as [Han Kan]. apply akind_eqb_eq in Kan.
  destruct (slot_stands _ _ _ _ _ _ _ P _ _ F1) as [Z1 V1]. destruct (slot_stands _ _ _ _ _ _ _ P _ _ F2) as [Z2 V2].
  exists n1, n2. split; [exists an; auto|].
  assert (Ee : early k = true <-> fst k <> 0 /\ snd k <> 0) by (unfold early; rewrite andb_true_iff, !negb_true_iff, !Nat.eqb_neq; reflexivity).
  split; [rewrite Ee, Z1, Z2; reflexivity|]. intros result Hres.
  assert (Hz : forall j, (j = fst k \/ j = snd k) -> j = 0 -> result <> None).
  { intros j Hj ->. apply Hres. destruct (early k); [|reflexivity]. destruct (proj1 Ee eq_refl) as [A B]. destruct Hj as [Hj|Hj]; symmetry in Hj; contradiction. }
  destruct (V1 result (Hz _ (or_introl eq_refl))) as (v & E1 & S1). destruct (V2 result (Hz _ (or_intror eq_refl))) as (v' & E2 & S2). exists v, v'. auto.
Qed.

(** The other way round. *)
Lemma annotated_policy o t f ans pos kw bi : proper o t f ans pos kw bi -> forall n m, annotated_alive ans n m -> exists k, In k (policies t) /\
  (early k = true <-> n <> $"return" /\ m <> $"return") /\
  forall result v v', (early k = false -> result <> None) -> stands o f pos kw bi result n v -> stands o f pos kw bi result m v' ->
    slot_value result (passed tuple dict (w_extra w) t bi) (fst k) = Some v /\ slot_value result (passed tuple dict (w_extra w) t bi) (snd k) = Some v'.
Proof.
  intros P n1 n2 (an & Han & Kan & Ea).
  assert (Hin : In an (filter (fun an => akind_eqb (a_kind an) KeepAlive) ans)) by (apply filter_In; split; [exact Han|apply akind_eqb_eq, Kan]).
  destruct (forall2_in_l _ _ _ _ (policies_described _ _ _ _ _ _ _ P) Hin) as (k & Hk & m1 & m2 & Ea' & F1 & F2). rewrite Ea in Ea'. injection Ea' as <- <-.
  destruct (slot_stands _ _ _ _ _ _ _ P _ _ F1) as [Z1 V1]. destruct (slot_stands _ _ _ _ _ _ _ P _ _ F2) as [Z2 V2].
  exists k. split; [exact Hk|].
  assert (Ee : early k = true <-> fst k <> 0 /\ snd k <> 0) by (unfold early; rewrite andb_true_iff, !negb_true_iff, !Nat.eqb_neq; reflexivity).
  split; [rewrite Ee, Z1, Z2; reflexivity|]. intros result v v' Hres S1 S2.
  assert (Hz : forall j, (j = fst k \/ j = snd k) -> j = 0 -> result <> None).
  { intros j Hj ->. apply Hres. destruct (early k); [|reflexivity]. destruct (proj1 Ee eq_refl) as [A B]. destruct Hj as [Hj|Hj]; symmetry in Hj; contradiction. }
  destruct (V1 result (Hz _ (or_introl eq_refl))) as (a & E1 & T1). destruct (V2 result (Hz _ (or_intror eq_refl))) as (a' & E2 & T2).
  destruct (pc_names _ _ _ _ _ _ _ _ _ _ _ _ _ P) as [Nr Nt]. assert (Pk := pc_keywords _ _ _ _ _ _ _ _ _ _ _ _ _ P).
  rewrite (stands_for_unique _ _ _ _ _ _ _ _ _ _ Pk Nr Nt _ _ _ _ S1 T1), (stands_for_unique _ _ _ _ _ _ _ _ _ _ Pk Nr Nt _ _ _ _ S2 T2). auto.
Qed.

Lemma early_value k result vs j : early k = true -> j = fst k \/ j = snd k -> slot_value result vs j = @slot_value V None vs j.
Proof.
  unfold early. rewrite andb_true_iff, !negb_true_iff, !Nat.eqb_neq. intros [A B] [-> | ->]; [destruct (fst k)|destruct (snd k)]; congruence || reflexivity.
Qed.

Theorem kept_pairs o t f ans pos kw bi result l out : proper o t f ans pos kw bi -> called t bi result = (l, out) ->
  (forall v v', In (v, v') l -> kept o f ans pos kw bi result v v') /\
  (out <> None -> forall v v', kept o f ans pos kw bi result v v' -> In (v, v') l) /\
  ((forall v v', kept o f ans pos kw bi result v v' -> referable v = true) -> out = result /\ forall v v', kept o f ans pos kw bi result v v' -> In (v, v') l).
Proof.
  intros P Hc. set (vs := passed tuple dict (w_extra w) t bi) in *.
  set (k1 := filter early (policies t)). set (k2 := filter (fun k => negb (early k)) (policies t)).
  (* what is registered is meant *)
  assert (I1 : forall v v', meant is_none None vs k1 v v' -> kept o f ans pos kw bi result v v').
  { intros v v' (k & Hk & E1 & E2 & N1 & N2). apply filter_In in Hk as [Hk Ek]. destruct (policy_values _ _ _ _ _ _ _ P k Hk) as (n1 & n2 & An & _ & Vs).
    destruct (Vs result) as (a & a' & A1 & A2 & S1 & S2); [congruence|]. fold vs in A1, A2.
    rewrite (early_value k result vs _ Ek (or_introl eq_refl)), E1 in A1. rewrite (early_value k result vs _ Ek (or_intror eq_refl)), E2 in A2. injection A1 as <-. injection A2 as <-.
    exists n1, n2. auto. }
  assert (I2 : forall r v v', result = Some r -> meant is_none result vs k2 v v' -> kept o f ans pos kw bi result v v').
  { intros r v v' Er (k & Hk & E1 & E2 & N1 & N2). apply filter_In in Hk as [Hk Ek]. destruct (policy_values _ _ _ _ _ _ _ P k Hk) as (n1 & n2 & An & _ & Vs).
    destruct (Vs result) as (a & a' & A1 & A2 & S1 & S2); [congruence|]. fold vs in A1, A2. rewrite E1 in A1. rewrite E2 in A2. injection A1 as <-. injection A2 as <-. exists n1, n2. auto. }
  (* what is meant is among one of these *)
  assert (J : forall v v', kept o f ans pos kw bi result v v' -> meant is_none None vs k1 v v' \/ (result <> None /\ meant is_none result vs k2 v v')).
  { intros v v' (n1 & n2 & An & S1 & S2 & N1 & N2). destruct (annotated_policy _ _ _ _ _ _ _ P n1 n2 An) as (k & Hk & Ee & Vs). destruct (early k) eqn:Ek.
    - left. destruct (Vs result v v') as [E1 E2]; [discriminate|exact S1|exact S2|]. fold vs in E1, E2.
      rewrite (early_value k result vs _ Ek (or_introl eq_refl)) in E1. rewrite (early_value k result vs _ Ek (or_intror eq_refl)) in E2.
      exists k. split; [apply filter_In; auto|auto].
    - right. destruct result as [r|].
      + split; [discriminate|]. destruct (Vs (Some r) v v') as [E1 E2]; [discriminate|exact S1|exact S2|]. fold vs in E1, E2.
        exists k. split; [apply filter_In; split; [exact Hk|rewrite Ek; reflexivity]|auto].
      + exfalso. destruct (pc_names _ _ _ _ _ _ _ _ _ _ _ _ _ P) as [Nr Nt].
        assert (Nn : forall nm a, stands o f pos kw bi None nm a -> nm <> $"return").
        { intros nm a St ->. assert (Pr : forall i, ~ first_index (map pm_name (fi_params (x_fn (w_extra w) f))) ($"return") i) by (intros i [H _]; apply Nr; eapply nth_error_In; exact H).
          inversion St as [? E|? ? ? E|? ? ? ? ? F|? ? ? F|? ? ? F]; try discriminate E; exact (Pr _ F). }
        assert (E := proj2 Ee (conj (Nn _ _ S1) (Nn _ _ S2))). discriminate E. }
  unfold LifeSpec.called in Hc. fold vs k1 k2 in Hc.
  destruct (activate_all is_none referable None vs k1) as [l1 ok1] eqn:A1.
  assert (Sd1 := activate_all_sound _ _ _ _ _ _ _ A1).
  destruct ok1.
  - assert (Cm1 := activate_all_complete _ _ _ _ _ _ A1). destruct result as [r|].
    + destruct (activate_all is_none referable (Some r) vs k2) as [l2 ok2] eqn:A2. injection Hc as <- <-. assert (Sd2 := activate_all_sound _ _ _ _ _ _ _ A2).
      split; [intros v v' Hin; apply in_app_or in Hin as [Hin|Hin]; [apply I1, Sd1, Hin|eapply I2, Sd2, Hin; reflexivity]|].
      assert (Al : ok2 = true -> forall v v', kept o f ans pos kw bi (Some r) v v' -> In (v, v') (l1 ++ l2)).
      { intros -> v v' K. apply in_or_app. destruct (J v v' K) as [K'|[_ K']]; [left; apply Cm1, K'|right; apply (activate_all_complete _ _ _ _ _ _ A2), K']. }
      split; [intros Ho; apply Al; destruct ok2; [reflexivity|destruct (Ho eq_refl)]|]. intros Rf.
      assert (Ok : ok2 = true).
      { destruct (activate_all_ok is_none referable (Some r) vs k2) as (l' & E); [|rewrite A2 in E; injection E as _ ->; reflexivity].
        intros k Hk. assert (Hk' := Hk). apply filter_In in Hk' as [Hp _]. destruct (policy_values _ _ _ _ _ _ _ P k Hp) as (n1 & n2 & An & _ & Vs).
        destruct (Vs (Some r)) as (a & a' & E1 & E2 & S1 & S2); [discriminate|]. exists a, a'. split; [exact E1|]. split; [exact E2|]. intros N1 N2. apply (Rf a a'). exists n1, n2. auto. }
      rewrite Ok. split; [reflexivity|apply Al, Ok].
    + injection Hc as <- <-. split; [intros v v' Hin; apply I1, Sd1, Hin|]. split; [intros Ho; destruct (Ho eq_refl)|]. intros _. split; [reflexivity|].
      intros v v' K. destruct (J v v' K) as [K'|[K' _]]; [apply Cm1, K'|destruct (K' eq_refl)].
  - injection Hc as <- <-. split; [intros v v' Hin; apply I1, Sd1, Hin|]. split; [intros Ho; destruct (Ho eq_refl)|]. intros Rf. exfalso.
    destruct (activate_all_ok is_none referable None vs k1) as (l' & E); [|rewrite A1 in E; discriminate E].
    intros k Hk. assert (Hk' := Hk). apply filter_In in Hk' as [Hp Ek]. destruct (policy_values _ _ _ _ _ _ _ P k Hp) as (n1 & n2 & An & _ & Vs).
    destruct (Vs result) as (a & a' & E1 & E2 & S1 & S2); [congruence|]. fold vs in E1, E2.
    rewrite (early_value k result vs _ Ek (or_introl eq_refl)) in E1. rewrite (early_value k result vs _ Ek (or_intror eq_refl)) in E2.
    exists a, a'. split; [exact E1|]. split; [exact E2|]. intros N1 N2. apply (Rf a a'). exists n1, n2. auto.
Qed.

Notation steps := (steps is_none tuple dict referable (w_extra w)).
Notation step := (step is_none tuple dict referable (w_extra w)).

Theorem kept_alive es1 o t f ans pos kw bi result es2 h v v' : steps nothing (es1 ++ ECall o t pos kw bi result :: es2) h -> proper o t f ans pos kw bi ->
  snd (called t bi result) <> None \/ (forall a a', kept o f ans pos kw bi result a a' -> referable a = true) ->
  kept o f ans pos kw bi result v v' -> hp_alive h v -> hp_alive h v'.
Proof.
  intros S P Hs K Ha. destruct (called t bi result) as [l out] eqn:Hc. destruct (kept_pairs _ _ _ _ _ _ _ _ _ _ P Hc) as (_ & C1 & C2).
  assert (Hin : In (v, v') l) by (destruct Hs as [Hs|Hs]; [exact (C1 Hs _ _ K)|exact (proj2 (C2 Hs) _ _ K)]).
  eapply (kept_from_then_on is_none tuple dict referable (w_extra w)); [exact S| |exact Ha]. cbn [pairs]. rewrite Hc. exact Hin.
Qed.

Theorem kept_only es h : steps nothing es h -> (forall o t pos kw bi result, In (ECall o t pos kw bi result) es -> exists f ans, proper o t f ans pos kw bi) ->
  forall v', hp_alive h v' ->
    (forall v o t f ans pos kw bi result, hp_alive h v -> In (ECall o t pos kw bi result) es -> proper o t f ans pos kw bi -> ~ kept o f ans pos kw bi result v v') ->
    (forall v l, hp_alive h v -> In (EOther l) es -> ~ In (v, v') l) ->
    exists h', step h (EDelete v') h' /\ ~ hp_alive h' v'.
Proof.
  intros S Pr v' Ha N1 N2. eexists. split; [apply step_delete; [exact Ha|]|cbn; tauto]. intros v K.
  assert (So := steps_sound _ _ _ _ _ _ _ _ S nothing_sound). assert (Hv := proj1 (proj2 So _ _ K)).
  destruct (keeps_origin _ _ _ _ _ _ _ _ _ _ S K) as [[]|(e & He & Hp)]. destruct e as [a|o t pos kw bi result|l|a]; cbn [pairs] in Hp; try destruct Hp.
  - destruct (Pr _ _ _ _ _ _ He) as (f & ans & P). destruct (called t bi result) as [l out] eqn:Hc. apply (N1 v o t f ans pos kw bi result Hv He P).
    exact (proj1 (kept_pairs _ _ _ _ _ _ _ _ _ _ P Hc) _ _ Hp).
  - exact (N2 v l Hv He Hp).
Qed.
End Module.
