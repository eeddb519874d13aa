(** * Proofs about reading and assigning variables and data members from Python *)
From Verif Require Import Base ParserModel AnnotModel AnnotSpec AnnotStore AnnotFinal CollectModel CollectSpec GraphModel GraphSpec GraphFinal OrderModel InlineModel EmitModel EmitSpec EmitProofs EmitFold EmitFinal
  ModuleModel ModuleSpec ModuleProofs ModuleFinal ImportSpec ImportProofs ExecSpec ExecProofs AccessSpec AccessProofs InvalidSpec InvalidProofs DispatchProofs StoreSpec.

Lemma same_location_iff l k : same_location l k = true <-> l = k.
Proof.
  destruct l as [i|o i], k as [j|q j]; cbn; try (split; discriminate); rewrite ?andb_true_iff, !Nat.eqb_eq; split.
  - intros ->. reflexivity.
  - intros [= ->]. reflexivity.
  - intros [-> ->]. reflexivity.
  - intros [= -> ->]. auto.
Qed.

Lemma said_unique u i v v' : said_readonly u i v -> said_readonly u i v' -> v = v'.
Proof. intros (ans & C & L) (ans' & C' & L'). destruct (carried_unique2 _ _ _ _ _ C C') as [<- _]. eapply latest_unique; eassumption. Qed.

Lemma own_readonly u i a : own_attributes u i a -> valid_annotations (u_decls u i) -> said_readonly u i (f_readonly (at_field a)).
Proof.
  intros (st0 & ds & Hi & Hl) Va.
  assert (Hskip : d_skip (u_decls u i) = false).
  { destruct (d_skip (u_decls u i)) eqn:Es; [|reflexivity]. exfalso. unfold insert in Hi. rewrite Es in Hi. injection Hi as <- <-. discriminate Hl. }
  assert (He : ~ has_error ds) by (intros E; apply (insert_valid _ _ _ _ Hi Hskip) in E; contradiction).
  destruct (insert_no_annotation_ignored _ _ _ _ _ Hi eq_refl Hskip) as (a' & ans & bad & Ha' & Hca & _ & Hok).
  rewrite Hl in Ha'. injection Ha' as <-. destruct (Hok He) as (-> & v & _ & De). exists ans. split; [exact Hca|]. exact (de_readonly _ _ _ _ De).
Qed.

Section Attributes.
Context {V : Type} (p : pystate) (mro : nat -> list nat) (class_of : nat -> nat) (has_dict : nat -> bool) (initial : nat -> V) (convert : nat -> V -> option V).
Context (getter : nat -> nat -> memory V -> option V) (setter : nat -> nat -> V -> memory V -> option (memory V)).

Lemma along_own (w : world V) c n m : attribute_along p mro w c n = Some (Member m) -> exists d, own p (Class d) n = Some m.
Proof.
  unfold attribute_along. intros H. apply first_some_in in H as (d & _ & H). exists d. unfold attribute_in in H.
  destruct (find _ (wd_set w)); [discriminate|]. destruct (own p (Class d) n); [|discriminate]. injection H as ->. reflexivity.
Qed.

Lemma assign_keeps (w : world V) l k readonly v : (readonly = false -> l <> k) -> wd_memory (fst (assign convert w k readonly v)) l = wd_memory w l.
Proof.
  intros H. unfold assign. destruct readonly; [reflexivity|]. destruct (convert (declaration_at k) v); [|reflexivity]. cbn. unfold store.
  destruct (same_location k l) eqn:E; [|reflexivity]. apply same_location_iff in E. destruct (H eq_refl). auto.
Qed.

(** Nothing but members that are not read-only can be changed. *)
Lemma set_keeps (w : world V) t n v l : (forall f o v m m', setter f o v m = Some m' -> m' l = m l) ->
  wd_memory (fst (set_attr p mro class_of has_dict convert setter w t n v)) l = wd_memory w l \/
  exists d nm, own p (Class d) n = Some (MValue (SMember (match l with Variable_ _ => true | _ => false end) false nm (declaration_at l))).
Proof.
  intros Hs.
  assert (A : forall c static readonly nm i k, attribute_along p mro w c n = Some (Member (MValue (SMember static readonly nm i))) -> declaration_at k = i -> (match k with Variable_ _ => true | _ => false end) = static ->
    wd_memory (fst (assign convert w k readonly v)) l = wd_memory w l \/ exists d nm, own p (Class d) n = Some (MValue (SMember (match l with Variable_ _ => true | _ => false end) false nm (declaration_at l)))).
  { intros c static readonly nm i k H <- <-. apply along_own in H as (d & H). destruct readonly; [left; reflexivity|]. destruct (same_location k l) eqn:E.
    - apply same_location_iff in E. subst k. right. eauto.
    - left. apply assign_keeps. intros _ ->. assert (same_location k k = true) by (apply same_location_iff; reflexivity). congruence. }
  destruct t as [o|[path|c|c]]; cbn [set_attr]; try (left; reflexivity).
  - destruct (attribute_along p mro w (class_of o) n) as [[g|[q|st ov|s]]|] eqn:E; try (left; destruct (has_dict (class_of o)); reflexivity).
    destruct s; try (left; destruct (has_dict (class_of o)); reflexivity).
    + destruct setter0 as [f|]; [|left; reflexivity]. destruct (setter f o v (wd_memory w)) as [m|] eqn:Em; left; [|reflexivity]. cbn. eapply Hs, Em.
    + eapply A; [exact E| |]; destruct static; reflexivity.
  - destruct (attribute_along p mro w c n) as [[g|[q|st ov|s]]|] eqn:E; try (left; reflexivity).
    destruct s; try (left; reflexivity). destruct static; [|left; reflexivity]. eapply A; [exact E| |]; reflexivity.
Qed.

Lemma program_keeps l program : forall w : world V, kept setter l program ->
  wd_memory (fold_left (act p mro class_of has_dict convert setter) program w) l = wd_memory w l \/
  exists d n nm, own p (Class d) n = Some (MValue (SMember (match l with Variable_ _ => true | _ => false end) false nm (declaration_at l))).
Proof.
  induction program as [|a program IH]; intros w [K1 K2]; [left; reflexivity|]. cbn [fold_left].
  destruct (IH (act p mro class_of has_dict convert setter w a)) as [E|H]; [split; [intros f Hf; apply K1; right; exact Hf|exact K2]| |right; exact H].
  destruct a as [t n|t n v|f]; cbn [act] in E.
  - left. exact E.
  - destruct (set_keeps w t n v l K2) as [E'|(d & nm & H)]; [|right; eauto]. left. cbn [act]. rewrite E. exact E'.
  - left. cbn [act]. rewrite E. cbn. apply K1. left. reflexivity.
Qed.

Lemma no_set (w : world V) q n : (forall v, ~ In (q, n, v) (wd_set w)) -> attribute_in p w q n = option_map Member (own p q n).
Proof.
  intros H. unfold attribute_in. destruct (find _ (wd_set w)) as [[[q' n'] v]|] eqn:E; [|reflexivity]. apply find_some in E as [Hin E]. cbn in E.
  apply place_eq in E as [-> ->]. destruct (H v Hin).
Qed.

Lemma found_along (w : world V) c d n m : comes_from p mro w c d n -> own p (Class d) n = Some m -> attribute_along p mro w c n = Some (Member m).
Proof.
  intros (before & after & E & Hb & Hs) Ho. unfold attribute_along. rewrite E. clear E. induction before as [|b before IH]; cbn [app first_some].
  - rewrite no_set, Ho; [reflexivity|]. intros v. apply Hs. left. reflexivity.
  - rewrite no_set; [|intros v; apply Hs; left; reflexivity]. rewrite (Hb b (or_introl eq_refl)). cbn [option_map]. apply IH.
    + intros b' Hb'. apply Hb. right. exact Hb'.
    + intros b' Hb'. apply Hs. right. exact Hb'.
Qed.
End Attributes.

Section Module.
Context (default_holder : str -> bool) (mro : nat -> list nat) (manual : nat -> object -> pystate -> option pystate) (fails : stmt -> bool).
Context (u : unit) (w : facts) (found : nat -> list nat) (implicit : nat -> bool) (iteration : list nat -> list nat) (n : nat) (name : str) (b : bstate).
Context (files : list (list item)) (rs : list ereport) (st' : storage) (m : item) (s : ImportSpec.state) (p : pystate).
Hypothesis (Se : setting u w iteration) (Hn : 0 < n) (HG : generate u w found implicit iteration n name = Some (RGraph b (EWritten files rs st'))).
Hypothesis (M : adds_nothing manual) (R : run_module mro manual fails default_holder files m = Some (s, p)).

(** Attributes that stand for variables and data members are due to declarations. *)
Lemma member_origin o k static readonly nm i : own p o k = Some (MValue (SMember static readonly nm i)) ->
  member_of u w found implicit name b i static /\ (valid_annotations (u_decls u i) -> (readonly = true <-> x_const (w_extra w) i = true \/ said_readonly u i true)).
Proof.
  intros Ho. destruct (run_written _ _ _ _ _ Se _ _ _ _ _ _ Hn HG) as (g & vis & order & all & chunks & post & X & G & Ly & Hlen & _).
  assert (Hf : 0 < length files) by lia. set (t := SMember static readonly nm i) in *.
  assert (H : exists e, In e all /\ In t (ex_body e)).
  { refine (only_module mro manual fails M (fun t => exists e, In e all /\ In t (ex_body e)) files _ default_holder m s p R t _).
    - intros id q body s0 Hi Hs. destruct (definitions_in _ _ _ _ _ Ly Hf id q body Hi) as (e & He & <-). eauto.
    - left. exists o, k, (MValue t). split; [exact Ho|reflexivity]. }
  destruct H as (e & He & Hte). destruct (ge_bodies _ _ _ _ _ _ _ _ _ _ _ G) as (rss & Fb & _).
  destruct (forall2_in_l _ _ _ _ Fb He) as (r & _ & x & st1 & st2 & Hc & D & X1 & X2 & Ff).
  destruct (exposed_graph _ _ _ _ _ Se _ _ _ _ X) as (T & _ & _ & Fa & _).
  apply (in_parts _ _ _ _ _ _ _ _ _ D t eq_refl) in Hte as (j & Hj & a & Ha & Sh & Hb).
  rewrite <- (bound_mentions _ _ _ _ _ _ _ Hb eq_refl) in *.
  assert (Hm : ((kind u i = KField /\ static = false) \/ (kind u i = KVar /\ static = true)) /\ (readonly = true <-> x_const (w_extra w) i = true \/ f_readonly (at_field a) = true) /\ exists r q, x = XRecord r q).
  { unfold t in Hb. destruct x; cbn in Hb; inversion Hb; subst; try match goal with H : bound_function _ _ _ _ _ |- _ => inversion H | H : bound_alias _ _ _ _ _ |- _ => inversion H end; eauto. }
  destruct Hm as (Hk & Hr & rr & qq & ->).
  assert (Hki : is_tag_kind (kind u i) = false) by (destruct Hk as [[-> _]|[-> _]]; reflexivity).
  assert (Hoa : own_attributes u i a) by exact (define_faithful _ _ _ _ _ _ _ _ _ D (Ff Fa) i a Hki Ha).
  split.
  - exists g, vis, (ex_context e). split; [exact X|]. split; [eapply entry_context_node; eassumption|]. 
    split.
    { unfold create in Hc. destruct (kind u (ex_context e)); try discriminate Hc. reflexivity. }
    split; [exact Hk|]. split; [exists (XRecord rr qq); auto|]. assert (Hs := own_says _ _ _ Hoa). unfold visible_in.
    destruct Sh as [V|[V Dv]]; rewrite V in Hs; [left; exact Hs|right]. split; [exact Hs|]. eapply lookup_visible; [exact Se|exact X| |exact Dv]. eapply entry_context_node; eassumption.
  - intros Va. assert (Hs := own_readonly _ _ _ Hoa Va). rewrite Hr. split; (intros [H|H]; [left; exact H|right]); [rewrite H in Hs; exact Hs|].
    exact (said_unique _ _ _ _ Hs H).
Qed.

Context {V : Type} (class_of : nat -> nat) (has_dict : nat -> bool) (convert : nat -> V -> option V).
Context (getter : nat -> nat -> memory V -> option V) (setter : nat -> nat -> V -> memory V -> option (memory V)) (initial : nat -> V).

(** Programs only change visible members that are neither constant nor read-only. *)
Theorem only_writable_changed l program (wd : world V) : valid_annotations (u_decls u (declaration_at l)) -> kept setter l program ->
  wd_memory (fold_left (act p mro class_of has_dict convert setter) program wd) l <> wd_memory wd l ->
  member_of u w found implicit name b (declaration_at l) (match l with Variable_ _ => true | _ => false end) /\
  x_const (w_extra w) (declaration_at l) = false /\ ~ said_readonly u (declaration_at l) true.
Proof.
  intros Va K C. destruct (program_keeps p mro class_of has_dict convert setter l program wd K) as [E|(d & k & nm & Ho)]; [destruct (C E)|].
  destruct (member_origin _ _ _ _ _ _ Ho) as [Hm Hr]. split; [exact Hm|]. specialize (Hr Va). split.
  - destruct (x_const (w_extra w) (declaration_at l)); [|reflexivity]. discriminate (proj2 Hr (or_introl eq_refl)).
  - intros H. discriminate (proj2 Hr (or_intror H)).
Qed.

Theorem members_live (wd : world V) d k static readonly nm i : own p (Class d) k = Some (MValue (SMember static readonly nm i)) -> valid_annotations (u_decls u i) ->
  (static = true <-> kind u i = KVar) /\ (static = false <-> kind u i = KField) /\
  forall t l, holder p mro class_of wd d k static i t l ->
    get_attr p mro class_of initial getter wd t k = Value (wd_memory wd l) /\
    (x_const (w_extra w) i = true \/ said_readonly u i true -> forall v, set_attr p mro class_of has_dict convert setter wd t k v = (wd, Refused)) /\
    (x_const (w_extra w) i = false -> ~ said_readonly u i true -> forall v,
      (convert i v = None -> set_attr p mro class_of has_dict convert setter wd t k v = (wd, Refused)) /\
      forall v', convert i v = Some v' -> set_attr p mro class_of has_dict convert setter wd t k v = (mkWorld (wd_set wd) (wd_dict wd) (store (wd_memory wd) l v'), Accepted) /\
        get_attr p mro class_of initial getter (mkWorld (wd_set wd) (wd_dict wd) (store (wd_memory wd) l v')) t k = Value v').
Proof.
  intros Ho Va. destruct (member_origin _ _ _ _ _ _ Ho) as [(_ & _ & _ & _ & _ & _ & Hk & _) Hr]. specialize (Hr Va).
  split; [destruct Hk as [[-> ->]|[-> ->]]; split; congruence|]. split; [destruct Hk as [[-> ->]|[-> ->]]; split; congruence|].
  intros t l Hl.
  assert (A : (forall m, get_attr p mro class_of initial getter (mkWorld (wd_set wd) (wd_dict wd) m) t k = Value (m l)) /\ declaration_at l = i /\
    forall v, set_attr p mro class_of has_dict convert setter wd t k v = assign convert wd l readonly v).
  { assert (F : forall c m, comes_from p mro wd c d k -> attribute_along p mro (mkWorld (wd_set wd) (wd_dict wd) m) c k = Some (Member (MValue (SMember static readonly nm i)))).
    { intros c m0 Hc. eapply found_along; [exact Hc|exact Ho]. }
    destruct Hl as [o Hc Es|o Hc Es|c Hc Es]; (split; [intros m0; cbn [get_attr]; rewrite (F _ _ Hc); subst; reflexivity|]); (split; [reflexivity|]);
      intros v; cbn [set_attr]; rewrite (found_along _ _ _ _ _ _ _ Hc Ho); subst; reflexivity. }
  destruct A as (A1 & A2 & A3). split; [destruct wd as [ws wdi wm]; exact (A1 wm)|]. split.
  - intros H v. apply Hr in H. rewrite A3, H. reflexivity.
  - intros H1 H2 v. assert (E : readonly = false) by (destruct readonly; [destruct (proj1 Hr eq_refl); [congruence|contradiction]|reflexivity]).
    rewrite A3. unfold assign. rewrite E, A2. split; [intros ->; reflexivity|intros v' ->; split; [reflexivity|]].
    rewrite A1. unfold store. rewrite (proj2 (same_location_iff l l) eq_refl). reflexivity.
Qed.
End Module.
