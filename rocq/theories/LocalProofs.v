(** * Proofs about what annotations of single declarations affect *)
From Coq Require Import Lia.
From Verif Require Import Base ParserModel StringModel AnnotModel AnnotSpec CollectModel CollectProofs GraphModel GraphSpec OrderModel InlineModel EmitModel EmitSpec ModuleModel ModuleSpec LocalSpec.

Definition rel_opt {A B} (R : A -> B -> Prop) (o : option A) (o' : option B) : Prop :=
  match o, o' with Some a, Some b => R a b | None, None => True | _, _ => False end.

Definition rel_out {A B} (R : A -> B -> Prop) (o : outcome A) (o' : outcome B) : Prop :=
  match o, o' with Done a, Done b => R a b | NestedReport, NestedReport => True | AssertFails, AssertFails => True | _, _ => False end.

Lemma rel_fold {A B C} (R : A -> C -> Prop) (f : A -> B -> option A) (f' : C -> B -> option C) :
  (forall s s' t, R s s' -> rel_opt R (f s t) (f' s' t)) -> forall l s s', R s s' -> rel_opt R (fold_opt f l s) (fold_opt f' l s').
Proof.
  intros H. induction l as [|t l IH]; intros s s' Hs; cbn [fold_opt]; [exact Hs|]. specialize (H s s' t Hs).
  destruct (f s t), (f' s' t); cbn [rel_opt] in *; try contradiction; auto.
Qed.

Lemma fold_same {A B} (f f' : A -> B -> option A) : (forall s t, f s t = f' s t) -> forall l s, fold_opt f l s = fold_opt f' l s.
Proof. intros H. induction l as [|t l IH]; intros s; cbn [fold_opt]; [reflexivity|]. rewrite H. destruct (f' s t); auto. Qed.

Lemma similar_refl a : similar a a.
Proof. constructor; reflexivity. Qed.

Section Like.
Variables (u : unit) (i : nat) (texts : list str).
Notation u' := (reannotated u i texts).
Hypothesis Hi : single u i.
Variables (a0 a0' : attrs).
Hypothesis V : valid_with u i a0.
Hypothesis V' : valid_with u' i a0'.
Hypothesis S0 : similar a0 a0'.
Hypothesis Ha : has_annotations (u_decls u' i) true = has_annotations (u_decls u i) true.

(** ** Declarations *)

Lemma decls_other j : j <> i -> u_decls u' j = u_decls u j.
Proof. intros E. cbn. apply Nat.eqb_neq in E. rewrite E. reflexivity. Qed.

Lemma decls_cases j : u_decls u' j = u_decls u j \/ (j = i /\ u_decls u' j = with_texts (u_decls u j) texts).
Proof. cbn. destruct (Nat.eqb j i) eqn:E; [right|left; reflexivity]. apply Nat.eqb_eq in E. auto. Qed.

Lemma decls_field {A} (f : decl -> A) : (forall d, f (with_texts d texts) = f d) -> forall j, f (u_decls u' j) = f (u_decls u j).
Proof. intros H j. destruct (decls_cases j) as [-> | [_ ->]]; auto. Qed.

Lemma kind_same j : kind u' j = kind u j.
Proof. unfold kind. apply (decls_field d_kind). reflexivity. Qed.

Lemma skip_same j : d_skip (u_decls u' j) = d_skip (u_decls u j).
Proof. apply (decls_field d_skip). reflexivity. Qed.

Lemma annotated_same j : has_annotations (u_decls u' j) true = has_annotations (u_decls u j) true.
Proof. destruct (Nat.eq_dec j i) as [->|E]; [exact Ha|]. rewrite decls_other by exact E. reflexivity. Qed.

Lemma not_typedef : is_typedef (u_decls u i) = false.
Proof. unfold single, kind in Hi. unfold is_typedef. destruct (d_kind (u_decls u i)) as [| | | | | |[]|[]| | | | |]; try contradiction; reflexivity. Qed.

(** ** Storages *)

Definition like_entry (e e' : nat * attrs) : Prop := fst e = fst e' /\ similar (snd e) (snd e') /\ (fst e <> i -> snd e = snd e').
Definition like : storage -> storage -> Prop := Forall2 like_entry.
Definition like_attrs (j : nat) (a a' : attrs) : Prop := similar a a' /\ (j <> i -> a = a').

Lemma like_lookup st st' j : like st st' -> rel_opt (like_attrs j) (lookup_attrs st j) (lookup_attrs st' j).
Proof.
  induction 1 as [|[k a] [k' a'] st st' (Hk & Hs & He) _ IH]; [exact I|]. cbn in *. subst k'. destruct (Nat.eqb j k) eqn:E; [|exact IH].
  apply Nat.eqb_eq in E. subst k. split; auto.
Qed.

Lemma like_has st st' j : like st st' -> has st' j = has st j.
Proof. intros H. unfold has. pose proof (like_lookup _ _ j H) as L. destruct (lookup_attrs st j), (lookup_attrs st' j); try contradiction; reflexivity. Qed.

Lemma like_length st st' : like st st' -> length st' = length st.
Proof. intros H. induction H; cbn; congruence. Qed.

Lemma like_update j f f' st st' : (forall a a', like_attrs j a a' -> like_attrs j (f a) (f' a')) -> like st st' -> like (update_named j f st) (update_named j f' st').
Proof.
  intros Hf. induction 1 as [|[k a] [k' a'] st st' (Hk & Hs & He) Hl IH]; cbn.
  - constructor; [|constructor]. destruct (Hf default_attrs default_attrs) as [H1 H2]; [split; [apply similar_refl|reflexivity]|]. split; [reflexivity|split; [assumption|auto]].
  - cbn in *. subst k'. destruct (Nat.eqb j k) eqn:E.
    + apply Nat.eqb_eq in E. subst k. constructor; [|exact Hl]. destruct (Hf a a') as [H1 H2]; [split; auto|]. split; [reflexivity|split; [assumption|auto]].
    + constructor; [split; [reflexivity|split; [assumption|auto]]|exact IH].
Qed.

Lemma valid_inv (v : unit) (a : attrs) : valid_with v i a -> d_skip (u_decls v i) = false /\ compute_attrs (u_decls v i) = Some (a, []).
Proof.
  unfold valid_with, insert. destruct (d_skip (u_decls v i)); [intros [=]|]. cbn. destruct (compute_attrs (u_decls v i)) as [[b ds]|]; [|intros [=]].
  intros [= -> ->]. auto.
Qed.

Lemma like_insert st st' j : like st st' ->
  rel_opt (fun r r' => like (fst r) (fst r') /\ snd r = snd r') (insert (u_decls u) j st) (insert (u_decls u') j st').
Proof.
  intros H. unfold insert. rewrite skip_same, (like_has _ _ j H). destruct (d_skip (u_decls u j)); [cbn; auto|]. destruct (has st j); [cbn; auto|].
  destruct (Nat.eq_dec j i) as [->|E].
  - destruct (valid_inv _ _ V) as [_ ->]. destruct (valid_inv _ _ V') as [_ ->]. cbn. split; [|reflexivity].
    apply Forall2_app; [exact H|]. constructor; [|constructor]. split; [reflexivity|split; [exact S0|cbn; congruence]].
  - rewrite decls_other by exact E. destruct (compute_attrs (u_decls u j)) as [[a ds]|]; [|exact I]. cbn. split; [|reflexivity].
    apply Forall2_app; [exact H|]. constructor; [|constructor]. split; [reflexivity|]. split; [apply similar_refl|reflexivity].
Qed.

Lemma get_other {A} st st' (sup : decl -> bool) (proj : attrs -> A) j : like st st' -> j <> i -> get u' st' sup proj j = get u st sup proj j.
Proof.
  intros H E. unfold get. rewrite decls_other by exact E. destruct (sup (u_decls u j)); [|reflexivity]. pose proof (like_lookup _ _ j H) as L.
  destruct (lookup_attrs st j), (lookup_attrs st' j); cbn in *; try contradiction; [|reflexivity]. destruct L as [_ L]. rewrite (L E). reflexivity.
Qed.

Lemma get_same {A} st st' (sup : decl -> bool) (proj : attrs -> A) j : (forall d, sup (with_texts d texts) = sup d) -> (forall a a', similar a a' -> proj a = proj a') ->
  like st st' -> get u' st' sup proj j = get u st sup proj j.
Proof.
  intros Hs Hp H. unfold get. rewrite (decls_field sup Hs). destruct (sup (u_decls u j)); [|reflexivity]. pose proof (like_lookup _ _ j H) as L.
  destruct (lookup_attrs st j), (lookup_attrs st' j); cbn in *; try contradiction; [|reflexivity]. destruct L as [L _]. rewrite (Hp _ _ L). reflexivity.
Qed.

Lemma get_rel {A} st st' (sup : decl -> bool) (proj : attrs -> A) (R : A -> A -> Prop) j : (forall d, sup (with_texts d texts) = sup d) ->
  (forall a a', similar a a' -> R (proj a) (proj a')) -> like st st' -> rel_opt R (get u st sup proj j) (get u' st' sup proj j).
Proof.
  intros Hs Hp H. unfold get. rewrite (decls_field sup Hs). destruct (sup (u_decls u j)); [|exact I]. pose proof (like_lookup _ _ j H) as L.
  destruct (lookup_attrs st j), (lookup_attrs st' j); cbn in *; try contradiction; [|exact I]. destruct L as [L _]. auto.
Qed.

Lemma get_typedef_same st st' j : like st st' -> get_typedef u' st' j = get_typedef u st j.
Proof. apply get_same; [reflexivity|]. intros a a' S. apply (si_typedef _ _ S). Qed.
Lemma get_namespace_same st st' j : like st st' -> get_namespace u' st' j = get_namespace u st j.
Proof. apply get_same; [reflexivity|]. intros a a' S. apply (si_namespace _ _ S). Qed.
Lemma get_enum_same st st' j : like st st' -> get u' st' supports_enum at_enum j = get u st supports_enum at_enum j.
Proof. apply get_same; [reflexivity|]. intros a a' S. apply (si_enum _ _ S). Qed.
Lemma get_record_same st st' j : like st st' -> get u' st' supports_record at_record j = get u st supports_record at_record j.
Proof. apply get_same; [reflexivity|]. intros a a' S. apply (si_record _ _ S). Qed.
Lemma get_method_same st st' j : like st st' -> get u' st' supports_method at_method j = get u st supports_method at_method j.
Proof. apply get_same; [reflexivity|]. intros a a' S. apply (si_method _ _ S). Qed.
Lemma get_constructor_same st st' j : like st st' -> get u' st' supports_constructor at_implicit_conversion j = get u st supports_constructor at_implicit_conversion j.
Proof. apply get_same; [reflexivity|]. intros a a' S. apply (si_implicit _ _ S). Qed.
Lemma get_visible st st' j : like st st' -> rel_opt (fun n n' => n_visible n = n_visible n') (get_named u st j) (get_named u' st' j).
Proof. apply get_rel; [reflexivity|]. intros a a' S. apply (si_visible _ _ S). Qed.
Lemma get_field_rel st st' j : like st st' -> rel_opt (fun v v' => f_manual v = f_manual v' /\ f_postamble v = f_postamble v') (get u st supports_field at_field j) (get u' st' supports_field at_field j).
Proof. apply get_rel; [reflexivity|]. intros a a' S. split; [apply (si_manual _ _ S)|apply (si_postamble _ _ S)]. Qed.
Lemma get_function_rel st st' j : like st st' -> rel_opt (fun _ _ => True) (get u st supports_function at_function j) (get u' st' supports_function at_function j).
Proof. apply get_rel; [reflexivity|]. auto. Qed.

(** ** Collection *)

Record csim (s s' : cstate) : Prop := {
  cm_annotations : like (cs_annotations s) (cs_annotations s');
  cm_reports : cs_reports s' = cs_reports s;
  cm_first : cs_first s' = cs_first s;
  cm_contexts : cs_contexts s' = cs_contexts s;
  cm_aliases : cs_aliases s' = cs_aliases s;
  cm_other : forall c j, In (c, j) (cs_first s) -> j <> i }.

Lemma visit_named_sim j s s' : csim s s' -> rel_opt csim (visit_named u j s) (visit_named u' j s').
Proof.
  intros [H1 H2 H3 H4 H5 H6]. unfold visit_named. rewrite skip_same, annotated_same. fold (kind u' j). rewrite kind_same. fold (kind u j).
  change (u_dependent u' j) with (u_dependent u j).
  destruct (is_tag_kind (kind u j) && d_skip (u_decls u j) || u_dependent u j || negb (has_annotations (u_decls u j) true)); [constructor; assumption|].
  pose proof (like_insert _ _ j H1) as L. destruct (insert (u_decls u) j (cs_annotations s)) as [[st ds]|], (insert (u_decls u') j (cs_annotations s')) as [[st' ds']|]; cbn [rel_opt] in *; try contradiction; [|exact I].
  destruct L as [L1 L2]. cbn [fst snd] in L1, L2. subst ds'. constructor; cbn; auto. rewrite H2. reflexivity.
Qed.

Lemma visit_sim j s s' : csim s s' -> rel_opt csim (visit u j s) (visit u' j s').
Proof.
  intros H. unfold visit. pose proof (visit_named_sim j s s' H) as L. destruct (visit_named u j s) as [s1|], (visit_named u' j s') as [s1'|]; cbn [rel_opt] in *; try contradiction; [|exact I].
  rewrite kind_same. destruct L as [H1 H2 H3 H4 H5 H6].
  assert (C : csim (visit_context u j s1) (visit_context u' j s1')).
  { unfold visit_context. rewrite skip_same. destruct (d_skip (u_decls u j)); constructor; cbn; auto. rewrite H4. reflexivity. }
  destruct (kind u j); try exact C; try (constructor; assumption).
  unfold visit_typedef. rewrite annotated_same. change (u_dependent u' j) with (u_dependent u j). change (u_qualified u' j) with (u_qualified u j).
  destruct (negb (has_annotations (u_decls u j) true) || u_dependent u j); [constructor; assumption|].
  destruct (u_qualified u j); constructor; cbn; auto; try (rewrite H5; reflexivity). rewrite H2. reflexivity.
Qed.

Lemma equal_same st st' j k : like st st' -> j <> i -> k <> i -> equal u' st' j k = equal u st j k.
Proof. intros H Hj Hk. unfold equal, get_named, get_namespace, get_typedef. rewrite !(get_other st st') by assumption. reflexivity. Qed.

Lemma check_first_sim j s s' : j <> i -> csim s s' -> csim (check_first u j s) (check_first u' j s').
Proof.
  intros Hj [H1 H2 H3 H4 H5 H6]. unfold check_first. rewrite H3. change (u_canonical u' j) with (u_canonical u j).
  destruct (assoc (cs_first s) (u_canonical u j)) as [first|] eqn:E.
  - assert (Hf : first <> i).
    { assert (G : exists c, In (c, first) (cs_first s)).
      { clear - E. induction (cs_first s) as [|[c k] l IH]; cbn in *; [discriminate E|]. destruct (Nat.eqb (u_canonical u j) c); [injection E as ->; exists c; left; reflexivity|].
        destruct (IH E) as (d & Hd). exists d. right. exact Hd. }
      destruct G as (c & G). exact (H6 c first G). }
    rewrite (equal_same _ _ j first H1 Hj Hf). destruct (equal u (cs_annotations s) j first); constructor; cbn; auto. rewrite H2. reflexivity.
  - constructor; cbn; auto. intros c k Hin. apply in_app_iff in Hin as [Hin|[Hin|[]]]; [exact (H6 c k Hin)|]. injection Hin as _ <-. exact Hj.
Qed.

Lemma namespace_other j : is_namespace_kind (kind u j) = true -> j <> i.
Proof. intros E ->. unfold single in Hi. destruct (kind u i) as [| | | | | |[]|[]| | | | |]; try discriminate E; contradiction. Qed.

Lemma traverse_sim t : forall s s', csim s s' -> rel_opt csim (traverse u t s) (traverse u' t s').
Proof.
  induction t as [j ts IH] using tree_ind'. intros s s' H. rewrite !traverse_eq, kind_same, skip_same.
  assert (A : forall s s', csim s s' -> rel_opt csim (traverse_all u ts s) (traverse_all u' ts s')).
  { clear - IH. induction IH as [|t ts Ht _ IH]; intros s s' H; [exact H|]. cbn [traverse_all]. specialize (Ht s s' H).
    destruct (traverse u t s), (traverse u' t s'); cbn [rel_opt] in *; try contradiction; auto. }
  pose proof (visit_sim j s s' H) as L.
  destruct (is_namespace_kind (kind u j)) eqn:E.
  - destruct (d_skip (u_decls u j)); [exact H|].
    destruct (visit u j s) as [s1|], (visit u' j s') as [s1'|]; cbn [rel_opt] in *; try contradiction; [|exact I].
    specialize (A s1 s1' L). destruct (traverse_all u ts s1) as [s2|], (traverse_all u' ts s1') as [s2'|]; cbn [rel_opt] in *; try contradiction; [|exact I].
    rewrite (like_length _ _ (cm_annotations _ _ A)), (like_length _ _ (cm_annotations _ _ H)).
    destruct (negb (Nat.eqb (length (cs_annotations s2)) (length (cs_annotations s)))); [|exact A]. apply check_first_sim; [apply namespace_other, E|exact A].
  - destruct (visit u j s) as [s1|], (visit u' j s') as [s1'|]; cbn [rel_opt] in *; try contradiction; auto.
Qed.

Lemma traverse_all_sim ts : forall s s', csim s s' -> rel_opt csim (traverse_all u ts s) (traverse_all u' ts s').
Proof.
  induction ts as [|t ts IH]; intros s s' H; [exact H|]. cbn [traverse_all]. pose proof (traverse_sim t s s' H) as Ht.
  destruct (traverse u t s), (traverse u' t s'); cbn [rel_opt] in *; try contradiction; auto.
Qed.

Lemma collect_sim : rel_opt csim (collect u) (collect u').
Proof. apply traverse_all_sim. constructor; try reflexivity; [constructor|intros c j []]. Qed.

(** ** The graph *)

Record bsim (b b' : bstate) : Prop := {
  bm_annotations : like (bs_annotations b) (bs_annotations b');
  bm_relocated : bs_relocated b' = bs_relocated b;
  bm_graph : bs_graph b' = bs_graph b;
  bm_reports : bs_reports b' = bs_reports b }.

Lemma propagate_sim alias target st st' : alias <> i -> like st st' -> rel_out like (propagate u alias target st) (propagate u' alias target st').
Proof.
  intros E H. unfold propagate. rewrite (like_has _ _ target H). destruct (negb (has st target)); [exact I|].
  assert (L : lookup_attrs st' alias = lookup_attrs st alias).
  { pose proof (like_lookup _ _ alias H) as L. destruct (lookup_attrs st alias), (lookup_attrs st' alias); cbn in L; try contradiction; [|reflexivity]. destruct L as [_ L]. rewrite (L E). reflexivity. }
  rewrite L. change (u_name u' alias) with (u_name u alias). apply like_update; [|exact H]. intros a a' [S He].
  destruct (n_visible _) as [b|]; cbn; (split; [destruct S; constructor; cbn; auto|intros N; rewrite (He N); reflexivity]).
Qed.

Lemma process_alias_sim alias b b' : bsim b b' -> rel_out bsim (process_alias u alias b) (process_alias u' alias b').
Proof.
  intros [H1 H2 H3 H4]. unfold process_alias. rewrite (get_typedef_same _ _ alias H1). destruct (get_typedef u (bs_annotations b) alias) as [t|] eqn:Et; [|exact I].
  assert (E : alias <> i). { intros ->. unfold get_typedef, get in Et. rewrite not_typedef in Et. discriminate Et. }
  destruct (negb (t_encourage t) && negb (t_expose_here t)); [constructor; assumption|].
  rewrite (decls_field d_target (fun d => eq_refl)). destruct (d_target (u_decls u alias)) as [target|]; [|exact I].
  pose proof (like_insert _ _ target H1) as L. destruct (insert (u_decls u) target (bs_annotations b)) as [[st ds]|], (insert (u_decls u') target (bs_annotations b')) as [[st' ds']|]; cbn [rel_opt] in L; try contradiction; [|exact I].
  destruct L as [L1 L2]. cbn [fst snd] in L1, L2. subst ds'. rewrite H4.
  assert (Lu : like (if t_encourage t then update_named target (set_visible (Some true)) st else st) (if t_encourage t then update_named target (set_visible (Some true)) st' else st')).
  { destruct (t_encourage t); [|exact L1]. apply like_update; [|exact L1]. intros a a' [S He]. split; [destruct S; constructor; cbn; auto|intros N; rewrite (He N); reflexivity]. }
  destruct (t_expose_here t); [|constructor; cbn; auto].
  unfold add_edge_for_alias. change (lookup_context u' alias) with (lookup_context u alias). destruct (lookup_context u alias) as [parent|]; [|exact I]. cbn [bs_relocated bs_annotations bs_graph bs_reports].
  rewrite H2, H3. destruct (assoc (bs_relocated b) target); [constructor; cbn; auto|]. cbn [bs_relocated bs_annotations bs_graph bs_reports].
  pose proof (propagate_sim alias target _ _ E Lu) as P. destruct (propagate u alias target _), (propagate u' alias target _); cbn [rel_out] in P; try contradiction; try exact I.
  constructor; cbn; auto.
Qed.

Lemma process_aliases_sim l : forall b b', bsim b b' -> rel_out bsim (process_aliases u l b) (process_aliases u' l b').
Proof.
  induction l as [|a l IH]; intros b b' H; [exact H|]. cbn [process_aliases]. pose proof (process_alias_sim a b b' H) as L.
  destruct (process_alias u a b), (process_alias u' a b'); cbn [rel_out] in *; try contradiction; auto.
Qed.

Lemma process_contexts_sim l : forall b b', bsim b b' -> rel_out bsim (process_contexts u l b) (process_contexts u' l b').
Proof.
  induction l as [|c l IH]; intros b b' H; [exact H|]. cbn [process_contexts].
  assert (L : rel_out bsim (process_context u c b) (process_context u' c b')).
  { destruct H as [H1 H2 H3 H4]. unfold process_context. rewrite H2. destruct (assoc (bs_relocated b) c); [constructor; assumption|].
    change (lookup_context u' c) with (lookup_context u c). destruct (lookup_context u c); [|exact I]. constructor; cbn; auto. rewrite H3. reflexivity. }
  destruct (process_context u c b), (process_context u' c b'); cbn [rel_out] in *; try contradiction; auto.
Qed.

Lemma build_graph_sim : rel_out (fun r r' => fst r = fst r' /\ bsim (snd r) (snd r')) (build_graph u) (build_graph u').
Proof.
  unfold build_graph. pose proof collect_sim as C. destruct (collect u) as [s|], (collect u') as [s'|]; cbn [rel_opt] in C; try contradiction; [|exact I].
  destruct C as [H1 H2 H3 H4 H5 _]. cbn [bs_reports]. rewrite H2, H4, H5. change (u_root u') with (u_root u).
  destruct (errors_occurred (cs_reports s)); [split; [reflexivity|constructor; cbn; auto]|].
  assert (B : bsim (mkBuilder (cs_annotations s) [] (new_graph (u_root u)) (cs_reports s)) (mkBuilder (cs_annotations s') [] (new_graph (u_root u)) (cs_reports s))) by (constructor; cbn; auto).
  pose proof (process_aliases_sim (cs_aliases s) _ _ B) as A.
  destruct (process_aliases u _ _) as [b| |], (process_aliases u' _ _) as [b'| |]; cbn [rel_out] in A; try contradiction; try exact I.
  rewrite (bm_reports _ _ A). destruct (errors_occurred (bs_reports b)); [split; [reflexivity|exact A]|].
  pose proof (process_contexts_sim (cs_contexts s) _ _ A) as D.
  destruct (process_contexts u _ _) as [c| |], (process_contexts u' _ _) as [c'| |]; cbn [rel_out] in D; try contradiction; try exact I. split; [reflexivity|exact D].
Qed.

Lemma is_tag_same j : is_tag u' j = is_tag u j.
Proof. unfold is_tag. rewrite kind_same. reflexivity. Qed.

Lemma visibility_same st st' g : like st st' -> derive_effective_visibility u' st' g = derive_effective_visibility u st g.
Proof.
  intros H. unfold derive_effective_visibility. change (u_root u') with (u_root u). destruct (depth_first g (u_root u) (fun _ => true)); [|reflexivity].
  apply fold_same. intros m [|n above]; [reflexivity|]. unfold visibility_step. change (u_hidden_access u' n) with (u_hidden_access u n).
  pose proof (get_visible _ _ n H) as L. destruct (get_named u st n), (get_named u' st' n); cbn [rel_opt] in L; try contradiction; [rewrite L|]; reflexivity.
Qed.

Lemma any_same {A} (f f' : A -> option bool) l : (forall a, f a = f' a) -> any_opt f l = any_opt f' l.
Proof. intros E. induction l as [|a l IH]; [reflexivity|]. cbn [any_opt]. rewrite E, IH. reflexivity. Qed.

Lemma existsb_same {A} (f f' : A -> bool) l : (forall a, f a = f' a) -> existsb f l = existsb f' l.
Proof. intros E. induction l as [|a l IH]; [reflexivity|]. cbn [existsb]. rewrite E, IH. reflexivity. Qed.

Lemma contexts_same st st' found implicit vis g : like st st' -> contexts_with_visible_decls u' st' found implicit vis g = contexts_with_visible_decls u st found implicit vis g.
Proof.
  intros H. unfold contexts_with_visible_decls. change (u_root u') with (u_root u). destruct (post_order g (u_root u)); [|reflexivity].
  apply fold_same. intros result n. unfold nonempty_step.
  assert (E1 : parent_of_nonempty u' vis g result n = parent_of_nonempty u vis g result n).
  { unfold parent_of_nonempty. apply any_same. intros c. unfold is_hidden_tag. rewrite is_tag_same. reflexivity. }
  assert (E2 : contains_visible u' st' found implicit vis g n = contains_visible u st found implicit vis g n).
  { unfold contains_visible. rewrite (any_same _ (fun c => match dlookup vis c with None => None | Some b => Some (is_tag u c && b) end)) by (intros c; rewrite is_tag_same; reflexivity).
    destruct (any_opt _ _) as [[|]|]; try reflexivity. destruct (dlookup vis n); [|reflexivity]. f_equal. apply existsb_same. intros d. f_equal.
    pose proof (get_visible _ _ d H) as L. destruct (get_named u st d), (get_named u' st' d); cbn [rel_opt] in L; try contradiction; [rewrite L|]; reflexivity. }
  rewrite E1, E2. reflexivity.
Qed.

Lemma fold_left_same {A B} (f f' : A -> B -> A) l : (forall s t, f s t = f' s t) -> forall s, fold_left f l s = fold_left f' l s.
Proof. intros E. induction l as [|t l IH]; intros s; [reflexivity|]. cbn [fold_left]. rewrite E. apply IH. Qed.

Lemma hide_same st st' g name contexts vis : like st st' -> hide_namespaces u' st' g name contexts vis = hide_namespaces u st g name contexts vis.
Proof.
  intros H. unfold hide_namespaces. change (u_root u') with (u_root u). destruct (depth_first g (u_root u) (fun _ => true)); [|reflexivity].
  rewrite (fold_left_same (hide_step u' st' name) (hide_step u st name)); [reflexivity|]. intros s e. unfold hide_step, for_different_module.
  destruct e as [[|n p]|n]; try reflexivity. rewrite (get_namespace_same _ _ n H). reflexivity.
Qed.

Lemma df_same g (f f' : nat -> bool) : (forall n, f n = f' n) -> forall fuel visited stack, df fuel g f visited stack = df fuel g f' visited stack.
Proof.
  intros E. induction fuel as [|fuel IH]; intros visited stack; [reflexivity|]. cbn [df]. destruct stack as [|[n [|c cs]] rest]; [reflexivity|rewrite IH; reflexivity|].
  destruct (mem c visited); [apply IH|]. rewrite E, IH. reflexivity.
Qed.

Lemma prune_same g contexts vis : prune_graph u' g contexts vis = prune_graph u g contexts vis.
Proof.
  assert (P : forall n, should_be_preserved u' contexts vis n = should_be_preserved u contexts vis n) by (intros n; unfold should_be_preserved; rewrite is_tag_same; reflexivity).
  unfold prune_graph, depth_first. change (u_root u') with (u_root u). rewrite P.
  rewrite (df_same g (fun n => match should_be_preserved u' contexts vis n with Some b => b | None => false end) (fun n => match should_be_preserved u contexts vis n with Some b => b | None => false end)) by (intros n; rewrite P; reflexivity).
  match goal with |- match ?o with _ => _ end = _ => destruct o; [|reflexivity] end. apply fold_same. intros h [|n above]; [reflexivity|]. unfold prune_step. rewrite P. reflexivity.
Qed.

Lemma sort_same l : sort_by_location u' l = sort_by_location u l.
Proof.
  assert (I : forall j l, insert_sorted u' j l = insert_sorted u j l).
  { intros j k. induction k as [|n k IH]; [reflexivity|]. cbn [insert_sorted]. rewrite IH. reflexivity. }
  unfold sort_by_location. induction l as [|j l IH]; [reflexivity|]. cbn [fold_right]. rewrite IH. apply I.
Qed.

Definition same_processed (r r' : processed) : Prop :=
  match r, r' with
  | NoGraph rs, NoGraph rs' => rs = rs'
  | Cycles l, Cycles l' => l = l'
  | Pruned g contexts vis warned b, Pruned g' contexts' vis' warned' b' => g = g' /\ contexts = contexts' /\ vis = vis' /\ warned = warned' /\ bsim b b'
  | _, _ => False
  end.

Lemma process_sim found implicit name : rel_out same_processed (process u found implicit name) (process u' found implicit name).
Proof.
  unfold process. pose proof build_graph_sim as B. destruct (build_graph u) as [[ok b]| |], (build_graph u') as [[ok' b']| |]; cbn [rel_out] in B; try contradiction; try exact I.
  destruct B as [B1 B2]. cbn [fst snd] in B1, B2. subst ok'. destruct B2 as [H1 H2 H3 H4] eqn:EB. clear EB.
  destruct ok; [|cbn; symmetry; exact H4]. rewrite H3, H2, (visibility_same _ _ _ H1).
  destruct (derive_effective_visibility u (bs_annotations b) (bs_graph b)) as [vis|]; [|exact I].
  unfold expose_here_cycles at 2, unreachable_visible at 2. change (u_root u') with (u_root u). rewrite sort_same. fold (expose_here_cycles u (bs_graph b) (reachable_contexts vis) (bs_relocated b)).
  destruct (expose_here_cycles u (bs_graph b) (reachable_contexts vis) (bs_relocated b)); [|reflexivity].
  rewrite (contexts_same _ _ found implicit vis (bs_graph b) H1). destruct (contexts_with_visible_decls u (bs_annotations b) found implicit vis (bs_graph b)) as [contexts|]; [|exact I].
  rewrite (hide_same _ _ (bs_graph b) name contexts vis H1). destruct (hide_namespaces u (bs_annotations b) (bs_graph b) name contexts vis) as [[contexts' vis']|]; [|exact I].
  rewrite prune_same. destruct (prune_graph u (bs_graph b) contexts' vis') as [g'|]; [|exact I]. cbn [rel_out same_processed]. rewrite sort_same. repeat (split; [reflexivity|]). constructor; assumption.
Qed.
(** ** Emission *)

Lemma scopes_same st st' g : like st st' -> find_enclosing_scopes u' st' g = find_enclosing_scopes u st g.
Proof.
  intros H. unfold find_enclosing_scopes. change (u_root u') with (u_root u). destruct (depth_first g (u_root u) (fun _ => true)); [|reflexivity].
  apply fold_same. intros m [|n [|p q]]; try reflexivity. unfold scope_step, is_transparent. rewrite (get_namespace_same _ _ p H). reflexivity.
Qed.

Lemma predecessors_same bases g scopes n : predecessors u' bases g scopes n = predecessors u bases g scopes n.
Proof. unfold predecessors. rewrite kind_same. reflexivity. Qed.

Lemma sort_contexts_same pop bases nodes g scopes : sort_contexts pop u' bases nodes g scopes = sort_contexts pop u bases nodes g scopes.
Proof.
  unfold sort_contexts, topological_sort. replace (init_sort nodes (predecessors u' bases g scopes)) with (init_sort nodes (predecessors u bases g scopes)); [reflexivity|].
  unfold init_sort. apply fold_left_same. intros s n. unfold init_node. rewrite predecessors_same. reflexivity.
Qed.

Lemma gather_same st st' : like st st' -> forall fuel remaining candidates hidden, gather fuel u' st' remaining candidates hidden = gather fuel u st remaining candidates hidden.
Proof.
  intros H. induction fuel as [|fuel IH]; intros remaining candidates hidden; (destruct remaining as [|d remaining]; [reflexivity|]); [reflexivity|]. cbn [gather].
  unfold get_record. rewrite (get_record_same _ _ d H). destruct (get u st supports_record at_record d); [|apply IH].
  destruct (fold_left _ (r_inline_base r) (remaining, candidates)). apply IH.
Qed.

Lemma inline_bases_same st st' : like st st' -> all_inline_bases st' = all_inline_bases st.
Proof. induction 1 as [|e e' st st' (_ & S & _) _ IH]; [reflexivity|]. unfold all_inline_bases in *. cbn [flat_map]. rewrite IH, (si_record _ _ S). reflexivity. Qed.

Lemma create_same st st' h c : like st st' -> create u' st' h c = create u st h c.
Proof.
  intros H. unfold create. rewrite kind_same. destruct (kind u c); try reflexivity. unfold create_policy, gather_all.
  rewrite (inline_bases_same _ _ H), (gather_same _ _ H). reflexivity.
Qed.

Lemma make_plan_same w st st' order : like st st' -> make_plan u' w st' order = make_plan u w st order.
Proof.
  intros H. unfold make_plan. apply fold_same. intros p c. unfold plan_context, context_name. rewrite kind_same, (create_same _ _ _ _ H). reflexivity.
Qed.

Definition about (e : exposer) : option nat := match e with XContext => None | XNamespace j | XEnum j | XRecord j _ => Some j end.

Lemma class_of_same w g st st' r p : like st st' -> class_of u' w g st' r p = class_of u w g st r p.
Proof. intros H. unfold class_of. rewrite (get_record_same _ _ r H). reflexivity. Qed.

Lemma parameter_same w g st st' e : like st st' -> parameter_of u' w g st' e = parameter_of u w g st e.
Proof. intros H. destruct e; try reflexivity. cbn [parameter_of]. rewrite (class_of_same _ _ _ _ _ _ H). reflexivity. Qed.

Lemma spelling_same st st' j s : like st st' -> j <> i -> spelling u' st' j s = spelling u st j s.
Proof. intros H E. unfold spelling, lookup_or. rewrite (get_other _ _ _ _ j H E). reflexivity. Qed.

Lemma introducer_same w g st st' e p : like st st' -> about e <> Some i -> introducer_of u' w g st' e p = introducer_of u w g st e p.
Proof.
  intros H E. destruct e as [|j|j|r q]; cbn [introducer_of about] in *; try reflexivity.
  - rewrite (get_namespace_same _ _ j H), (spelling_same _ _ j _ H) by congruence. reflexivity.
  - rewrite (get_enum_same _ _ j H), (spelling_same _ _ j _ H) by congruence. reflexivity.
  - rewrite (get_record_same _ _ r H), (spelling_same _ _ r _ H), (class_of_same _ _ _ _ _ _ H) by congruence. reflexivity.
Qed.

Lemma created_about st h c e : create u st h c = Some e -> about e <> Some i.
Proof.
  intros C. assert (N : forall k, kind u c = k -> match k with KNamespace | KEnum | KRecord => True | _ => False end -> c <> i).
  { intros k K M ->. unfold single in Hi. rewrite K in Hi. destruct k as [| | | | | |[]|[]| | | | |]; contradiction. }
  unfold create in C. destruct (kind u c) eqn:K; try (injection C as <-; cbn; try discriminate; intros [= A]; exact (N _ eq_refl I A)).
  destruct (create_policy u st h c); [|discriminate C]. injection C as <-. cbn. intros [= A]. exact (N _ eq_refl I A).
Qed.

Lemma plan_created w st order p : make_plan u w st order = Some p -> forall t, In t (pl_work p) -> about (wk_exposer t) <> Some i.
Proof.
  unfold make_plan. assert (G : forall order p0 p, (forall t, In t (pl_work p0) -> about (wk_exposer t) <> Some i) -> fold_opt (plan_context u w st) order p0 = Some p ->
    forall t, In t (pl_work p) -> about (wk_exposer t) <> Some i).
  { clear order p. induction order as [|c order IH]; intros p0 p H0 E; cbn [fold_opt] in E; [injection E as <-; exact H0|].
    destruct (plan_context u w st p0 c) as [p1|] eqn:P; [|discriminate E]. refine (IH p1 p _ E). unfold plan_context in P.
    destruct (if is_namespace_kind (kind u c) then dlookup (pl_covered p0) (u_canonical u c) else None) as [d|].
    - destruct (dlookup (pl_identifiers p0) d); [|discriminate P]. destruct (dlookup (pl_identifiers p0) c); [discriminate P|]. injection P as <-. exact H0.
    - destruct (discriminated (context_name u w c) (pl_used p0)) as [id used]. destruct (dlookup (pl_identifiers p0) c); [discriminate P|].
      destruct (create u st (w_hierarchy w) c) as [e|] eqn:C; [|discriminate P]. injection P as <-. cbn. intros t Ht. apply in_app_iff in Ht as [Ht|[<-|[]]]; [exact (H0 t Ht)|].
      exact (created_about _ _ _ _ C). }
  intros E. refine (G order _ p _ E). intros t [].
Qed.

Lemma map_opt_same {A B} (f f' : A -> option B) l : (forall t, In t l -> f t = f' t) -> map_opt f l = map_opt f' l.
Proof. intros E. induction l as [|t l IH]; [reflexivity|]. cbn [map_opt]. rewrite E by (left; reflexivity). rewrite IH by (intros; apply E; right; assumption). reflexivity. Qed.

Lemma postamble_same w st st' : like st st' -> postamble u' w st' = postamble u w st.
Proof.
  intros H. unfold postamble. apply flat_map_ext. intros j. unfold lookup_or. pose proof (get_field_rel _ _ j H) as L.
  destruct (get u st supports_field at_field j), (get u' st' supports_field at_field j); cbn [rel_opt] in L; try contradiction; [|reflexivity].
  destruct L as [-> ->]. reflexivity.
Qed.

(** *** Statements *)

Lemma same_but_refl l : same_but i l l.
Proof. induction l; constructor; assumption. Qed.

Lemma same_but_app l l' m m' : same_but i l l' -> same_but i m m' -> same_but i (l ++ m) (l' ++ m').
Proof. intros H Hm. induction H; cbn; [exact Hm|constructor; assumption|apply sb_about; assumption]. Qed.

Lemma same_but_one t t' : mentions t i -> mentions t' i -> same_but i [t] [t'].
Proof. intros. apply sb_about; [assumption|assumption|constructor]. Qed.

Definition hsim (r r' : handled) : Prop := rel_opt (fun p p' => same_but i (fst p) (fst p') /\ snd p = snd p') r r'.

Lemma hsim_refl r : hsim r r.
Proof. destruct r; [split; [apply same_but_refl|reflexivity]|exact I]. Qed.

Lemma parameters_reports x f a a' : snd (parameters x f a) = snd (parameters x f a').
Proof.
  unfold parameters. assert (G : forall ps index pos last, snd (emit_parameters f a index pos last ps) = snd (emit_parameters f a' index pos last ps)).
  { induction ps as [|p ps IH]; intros index pos last; [reflexivity|]. cbn [emit_parameters]. destruct (pm_variadic p) as [[]|]; try apply IH. destruct last; [reflexivity|].
    specialize (IH (S index) (S pos) None). destruct (emit_parameters f a (S index) (S pos) None ps), (emit_parameters f a' (S index) (S pos) None ps). exact IH. }
  apply G.
Qed.

Lemma is_method_same j : is_method u' j = is_method u j.
Proof. unfold is_method. rewrite kind_same. reflexivity. Qed.

Lemma generic_other x st st' j : like st st' -> j <> i -> handle_generic u' x st' j = handle_generic u x st j.
Proof.
  intros H E. unfold handle_generic, get_typedef, lookup_or. rewrite (like_has _ _ j H), is_method_same, kind_same, (decls_other j E).
  rewrite !(get_other st st') by assumption. rewrite !(spelling_same st st') by assumption.
  reflexivity.
Qed.

Lemma generic_sim x st st' j : like st st' -> hsim (handle_generic u x st j) (handle_generic u' x st' j).
Proof.
  intros H. destruct (Nat.eq_dec j i) as [->|E]; [|rewrite (generic_other x st st' j H E); apply hsim_refl].
  unfold handle_generic. rewrite (like_has _ _ i H), (decls_field supports_constructor (fun d => eq_refl)).
  destruct (supports_constructor (u_decls u i) && has st i); [exact I|].
  rewrite (get_typedef_same _ _ i H). unfold get_typedef, get at 1 5. rewrite not_typedef.
  pose proof (get_field_rel _ _ i H) as L. destruct (get u st supports_field at_field i) as [v|], (get u' st' supports_field at_field i) as [v'|]; cbn [rel_opt] in L; try contradiction.
  - destruct L as [<- <-]. destruct (f_manual v); [apply hsim_refl|]. rewrite kind_same.
    destruct (kind u i); try exact I; (split; [apply same_but_one; reflexivity|reflexivity]).
  - rewrite (get_method_same _ _ i H). destruct (match get u st supports_method at_method i with Some m => _ | None => false end); [apply hsim_refl|].
    pose proof (get_function_rel _ _ i H) as F. destruct (get u st supports_function at_function i) as [a|], (get u' st' supports_function at_function i) as [a'|]; cbn [rel_opt] in F; try contradiction; [|apply hsim_refl].
    destruct (fi_deleted (x_fn x i)); [apply hsim_refl|]. pose proof (parameters_reports x i a a') as P.
    destruct (parameters x i a) as [args rs], (parameters x i a') as [args' rs']. cbn [snd] in P. subst rs'. split; [apply same_but_one; reflexivity|reflexivity].
Qed.

Lemma enum_sim x st st' j : like st st' -> hsim (handle_enum u x st j) (handle_enum u' x st' j).
Proof.
  intros H. unfold handle_enum. destruct (x_enumerator x j); [|apply hsim_refl]. destruct (Nat.eq_dec j i) as [->|E].
  - split; [apply same_but_one; reflexivity|reflexivity].
  - rewrite (spelling_same _ _ j _ H E). apply hsim_refl.
Qed.

Lemma constructor_sim x st st' r j implicit : like st st' -> hsim (handle_constructor u x st r j implicit) (handle_constructor u' x st' r j implicit).
Proof.
  intros H. unfold handle_constructor. destruct (fi_move (x_fn x j) || fi_deleted (x_fn x j) || x_abstract x r); [apply hsim_refl|].
  destruct (Nat.eq_dec j i) as [->|E].
  - set (a := lookup_or u st supports_function at_function i). set (a' := lookup_or u' st' supports_function at_function i). pose proof (parameters_reports x i a a') as P.
    destruct (parameters x i a) as [args rs], (parameters x i a') as [args' rs']. cbn [snd] in P. subst rs'.
    destruct implicit; [destruct (fi_params (x_fn x i)) as [|p ps]; [exact I|]|].
    + split; [|reflexivity]. cbn [fst]. apply sb_same. apply same_but_one; reflexivity.
    + split; [apply same_but_one; reflexivity|reflexivity].
  - unfold lookup_or. rewrite (get_other _ _ _ _ j H E). apply hsim_refl.
Qed.

Lemma operator_sim x st st' r j : like st st' -> supports_operator (u_decls u j) = true -> hsim (handle_operator u x st r j) (handle_operator u' x st' r j).
Proof.
  intros H S. assert (E : is_method u j = true \/ j <> i).
  { destruct (Nat.eq_dec j i) as [->|E]; [left|right; exact E]. unfold single, is_method, kind in *. unfold supports_operator in S. destruct (d_kind (u_decls u i)) as [| | | | | |[]|[]| | | | |]; try discriminate S; try contradiction; reflexivity. }
  unfold handle_operator. destruct (fi_deleted (x_fn x j)); [apply hsim_refl|]. destruct (fi_operator (x_fn x j)) as [k|]; [|exact I].
  assert (O : is_ostream_operator u' x j k = is_ostream_operator u x j k) by (unfold is_ostream_operator; rewrite is_method_same; reflexivity).
  assert (M : emit_operator u' x r j k = emit_operator u x r j k) by (unfold emit_operator, operand_types; rewrite is_method_same; reflexivity).
  rewrite O, M. destruct E as [E|E].
  - unfold is_ostream_operator. rewrite E. cbn [orb]. apply hsim_refl.
  - unfold get_named. rewrite (get_other _ _ _ _ j H E). apply hsim_refl.
Qed.

Definition psim (r r' : option (list stmt * list ereport * properties)) : Prop :=
  rel_opt (fun p p' => same_but i (fst (fst p)) (fst (fst p')) /\ snd (fst p) = snd (fst p') /\ snd p = snd p') r r'.

Lemma keep_sim (h h' : handled) (ps : properties) : hsim h h' -> psim (option_map (fun sr => (sr, ps)) h) (option_map (fun sr => (sr, ps)) h').
Proof. destruct h, h'; cbn; intros H; try contradiction; [|exact I]. destruct H as [H1 H2]. auto. Qed.

Lemma record_sim x st st' r j ps : like st st' -> psim (handle_record u x st r j ps) (handle_record u' x st' r j ps).
Proof.
  intros H. unfold handle_record. rewrite (get_constructor_same _ _ j H). destruct (get u st supports_constructor at_implicit_conversion j) as [implicit|].
  - apply keep_sim, constructor_sim, H.
  - rewrite (decls_field supports_operator (fun d => eq_refl)). destruct (supports_operator (u_decls u j)) eqn:S; [apply keep_sim, operator_sim; assumption|].
    rewrite (get_method_same _ _ j H). destruct (match get u st supports_method at_method j with Some m => _ | None => None end) as [m|].
    + destruct (define_properties j m ps) as [ps' rs]. cbn. split; [constructor|auto].
    + pose proof (get_field_rel _ _ j H) as L. destruct (get u st supports_field at_field j) as [v|] eqn:G, (get u' st' supports_field at_field j) as [v'|] eqn:G'; cbn [rel_opt] in L; try contradiction.
      * apply keep_sim. destruct L as [L1 L2]. rewrite <- L1, <- L2. destruct (f_manual v); [apply hsim_refl|]. rewrite kind_same.
        destruct (Nat.eq_dec j i) as [->|E]; [split; [apply same_but_one; reflexivity|reflexivity]|]. rewrite (get_other _ _ _ _ j H E), G in G'. injection G' as <-.
        rewrite (spelling_same _ _ j _ H E). apply hsim_refl.
      * apply keep_sim, generic_sim, H.
Qed.

Lemma impl_sim x st st' e j ps : like st st' -> psim (handle_impl u x st e j ps) (handle_impl u' x st' e j ps).
Proof.
  intros H. destruct e; cbn [handle_impl]; try (apply keep_sim, generic_sim, H); [apply keep_sim, enum_sim, H|apply record_sim, H].
Qed.

Lemma is_visible_same st st' dv j : like st st' -> is_visible u' st' dv j = is_visible u st dv j.
Proof.
  intros H. unfold is_visible. pose proof (get_visible _ _ j H) as L. destruct (get_named u st j), (get_named u' st' j); cbn [rel_opt] in L; try contradiction; [rewrite L|]; reflexivity.
Qed.

Record esim (s s' : EmitModel.state) : Prop := {
  es_storage : like (em_storage s) (em_storage s');
  es_stmts : same_but i (em_stmts s) (em_stmts s');
  es_reports : em_reports s' = em_reports s;
  es_properties : em_properties s' = em_properties s }.

Lemma handle_decl_sim x e dv s s' j : esim s s' -> rel_opt esim (handle_decl u x e dv s j) (handle_decl u' x e dv s' j).
Proof.
  intros [H1 H2 H3 H4]. unfold handle_decl. pose proof (like_insert _ _ j H1) as L.
  destruct (insert (u_decls u) j (em_storage s)) as [[st ds]|], (insert (u_decls u') j (em_storage s')) as [[st' ds']|]; cbn [rel_opt] in L; try contradiction; [|exact I].
  destruct L as [L1 L2]. cbn [fst snd] in L1, L2. subst ds'. rewrite (is_visible_same _ _ _ _ L1), H3, H4. destruct (is_visible u st dv j); [|constructor; cbn; auto].
  pose proof (impl_sim x st st' e j (em_properties s) L1) as P. destruct (handle_impl u x st e j (em_properties s)) as [[[ss rs] ps]|], (handle_impl u' x st' e j (em_properties s)) as [[[ss' rs'] ps']|]; cbn in P; try contradiction; [|exact I].
  destruct P as (P1 & P2 & P3). subst rs' ps'. constructor; cbn; auto. apply same_but_app; assumption.
Qed.

Lemma define_sim x e dv decls st st' : like st st' ->
  rel_opt (fun r r' => like (fst (fst r)) (fst (fst r')) /\ same_but i (snd (fst r)) (snd (fst r')) /\ snd r = snd r') (define u x e dv decls st) (define u' x e dv decls st').
Proof.
  intros H. unfold define. assert (E0 : esim (EmitModel.mkState st [] [] []) (EmitModel.mkState st' [] [] [])) by (constructor; cbn; auto; constructor).
  pose proof (rel_fold esim (handle_decl u x e dv) (handle_decl u' x e dv) (fun s s' t => handle_decl_sim x e dv s s' t) (flat_map (expand x) decls) _ _ E0) as F.
  destruct (fold_opt (handle_decl u x e dv) _ _) as [s|], (fold_opt (handle_decl u' x e dv) _ _) as [s'|]; cbn [rel_opt] in F; try contradiction; [|exact I].
  destruct F as [H1 H2 H3 H4]. rewrite H4.
  assert (N : EmitModel.finalize u' x (em_storage s') e (em_properties s) = EmitModel.finalize u x (em_storage s) e (em_properties s)).
  { destruct e; try reflexivity. cbn [EmitModel.finalize]. rewrite (get_enum_same _ _ i0 H1). reflexivity. }
  rewrite N. destruct (EmitModel.finalize u x (em_storage s) e (em_properties s)) as [ss rs]. cbn [rel_opt fst snd]. split; [exact H1|]. split; [apply same_but_app; [exact H2|apply same_but_refl]|]. rewrite H3. reflexivity.
Qed.

(** *** Files *)

Lemma items_refl l : Forall2 (same_item i) l l.
Proof. induction l; constructor; [constructor|assumption]. Qed.

Lemma files_refl l : Forall2 (Forall2 (same_item i)) l l.
Proof. induction l; constructor; [apply items_refl|assumption]. Qed.

Record osim (o o' : output) : Prop := {
  os_storage : like (o_storage o) (o_storage o');
  os_index : o_index o' = o_index o;
  os_streams : Forall2 (Forall2 (same_item i)) (o_streams o) (o_streams o');
  os_reports : o_reports o' = o_reports o }.

Lemma write_sim k items items' : Forall2 (same_item i) items items' -> forall streams streams', Forall2 (Forall2 (same_item i)) streams streams' ->
  rel_opt (Forall2 (Forall2 (same_item i))) (write_to k items streams) (write_to k items' streams').
Proof.
  intros Hit streams streams' H. revert k. induction H as [|s s' l l' Hs Hl IH]; intros [|k]; cbn [write_to]; try exact I.
  - constructor; [apply Forall2_app; assumption|assumption].
  - specialize (IH k). destruct (write_to k items l), (write_to k items' l'); cbn in *; try contradiction; [|exact I]. constructor; assumption.
Qed.

Lemma declarations_same x c l : declarations u' x c l = declarations u x c l.
Proof. unfold declarations. rewrite sort_same, kind_same. reflexivity. Qed.

Lemma define_step_sim w g vis total o o' t : osim o o' -> rel_opt osim (define_step u w g vis total o t) (define_step u' w g vis total o' t).
Proof.
  intros [H1 H2 H3 H4]. unfold define_step, define_context. assert (Len : length (o_streams o') = length (o_streams o)) by (clear - H3; induction H3; cbn; congruence).
  rewrite H2, Len, (parameter_same _ _ _ _ _ H1), declarations_same.
  destruct (parameter_of u w g (o_storage o) (wk_exposer t)) as [p|]; [|exact I].
  match goal with |- context [define u (w_extra w) (wk_exposer t) ?dv ?ds (o_storage o)] => pose proof (define_sim (w_extra w) (wk_exposer t) dv ds _ _ H1) as D;
    destruct (define u (w_extra w) (wk_exposer t) dv ds (o_storage o)) as [[[st body] rs]|], (define u' (w_extra w) (wk_exposer t) dv ds (o_storage o')) as [[[st' body'] rs']|]; cbn [rel_opt fst snd] in D; try contradiction; [|exact I] end.
  destruct D as (D1 & D2 & D3). subst rs'.
  match goal with |- context [write_to ?k (?pre ++ [IDefine ?id p body]) _] => assert (It : Forall2 (same_item i) (pre ++ [IDefine id p body]) (pre ++ [IDefine id p body'])) by
     (apply Forall2_app; [apply items_refl|constructor; [constructor; exact D2|constructor]]); pose proof (write_sim k _ _ It _ _ H3) as W;
     destruct (write_to k (pre ++ [IDefine id p body]) (o_streams o)), (write_to k (pre ++ [IDefine id p body']) (o_streams o')); cbn [rel_opt] in W; try contradiction; [|exact I] end.
  constructor; cbn; auto. rewrite H4. reflexivity.
Qed.

Definition same_emission (e e' : emission) : Prop :=
  match e, e' with
  | ECycle c, ECycle c' => c = c'
  | EWritten files rs _, EWritten files' rs' _ => Forall2 (Forall2 (same_item i)) files files' /\ rs = rs'
  | _, _ => False
  end.

Lemma emit_sim w g vis st st' nodes n name : like st st' -> rel_opt same_emission (emit_module u w g vis st nodes n name) (emit_module u' w g vis st' nodes n name).
Proof.
  intros H. unfold emit_module. destruct n as [|n]; [exact I|]. rewrite (scopes_same _ _ g H). destruct (find_enclosing_scopes u st g) as [scopes|]; [|exact I].
  rewrite sort_contexts_same. destruct (sort_contexts (w_pop w) u (public_bases_of (w_hierarchy w)) nodes g scopes) as [[order|c]|]; [|reflexivity|exact I].
  rewrite (make_plan_same w _ _ order H). destruct (make_plan u w st order) as [p|] eqn:P; [|exact I].
  rewrite (map_opt_same (declare u' w g st') (declare u w g st)) by (intros t _; unfold declare; rewrite (parameter_same _ _ _ _ _ H); reflexivity).
  rewrite (map_opt_same (introduce u' w g st' scopes (pl_identifiers p)) (introduce u w g st scopes (pl_identifiers p))).
  2:{ intros t Ht. unfold introduce. change (u_root u') with (u_root u). destruct (negb _); [reflexivity|].
      destruct (match match dlookup scopes (wk_context t) with Some p0 => p0 | None => None end with Some p0 => dlookup (pl_identifiers p) p0 | None => Some ($"root") end); [|reflexivity].
      rewrite (introducer_same _ _ _ _ _ _ H (plan_created _ _ _ _ P t Ht)). reflexivity. }
  destruct (map_opt (declare u w g st) (pl_work p)) as [ds|]; [|exact I]. destruct (map_opt (introduce u w g st scopes (pl_identifiers p)) (pl_work p)) as [is|]; [|exact I].
  rewrite (postamble_same w _ _ H).
  match goal with |- context [fold_opt (define_step u w g vis (length (pl_work p))) (pl_work p) (mkOutput st 0 ?f [])] =>
    assert (O : osim (mkOutput st 0 f []) (mkOutput st' 0 f [])) by (constructor; cbn [o_storage o_index o_streams o_reports]; auto; apply files_refl);
    pose proof (rel_fold osim _ _ (fun o o' t => define_step_sim w g vis (length (pl_work p)) o o' t) (pl_work p) _ _ O) as F end.
  destruct (fold_opt (define_step u w g vis _) _ _) as [o|], (fold_opt (define_step u' w g vis _) _ _) as [o'|]; cbn [rel_opt] in F; try contradiction; [|exact I].
  destruct F as [_ _ F1 F2]. split; [exact F1|symmetry; exact F2].
Qed.

Lemma generate_sim w found implicit iteration n name :
  same_output i (generate u w found implicit iteration n name) (generate u' w found implicit iteration n name).
Proof.
  unfold generate. pose proof (process_sim found implicit name) as P.
  destruct (process u found implicit name) as [[rs|l|g contexts vis warned b]| |], (process u' found implicit name) as [[rs'|l'|g' contexts' vis' warned' b']| |]; cbn [rel_out same_processed] in P; try contradiction; try exact I.
  destruct P as (<- & <- & <- & <- & [B1 _ _ B4]). pose proof (emit_sim w g vis _ _ (iteration (g_nodes g)) n name B1) as E.
  destruct (emit_module u w g vis (bs_annotations b) (iteration (g_nodes g)) n name) as [[c|files rs st]|], (emit_module u' w g vis (bs_annotations b') (iteration (g_nodes g)) n name) as [[c'|files' rs' st']|]; cbn in E |- *; try contradiction; try exact I.
  - auto.
  - destruct E as [E1 E2]. auto.
Qed.
End Like.
