(** * Proofs about what hiding a single declaration changes *)
From Coq Require Import Lia.
From Verif Require Import Base ParserModel StringModel AnnotModel AnnotSpec CollectModel CollectSpec CollectProofs GraphModel GraphSpec GraphWalk GraphProofs GraphPlace GraphFinal OrderModel InlineModel EmitModel EmitSpec ModuleModel ModuleSpec LocalSpec LocalProofs HideSpec.

Section Hide.
Variables (u : unit) (i : nat) (texts : list str).
Notation u' := (reannotated u i texts).
Hypothesis Hi : leaf u i.
Hypothesis Hroot : i <> u_root u.
Hypothesis Pl : placed u.
Variables (a0 a0' : attrs).
Hypothesis V : valid_with u i a0.
Hypothesis V' : valid_with u' i a0'.
Hypothesis S0 : hidden a0 a0'.
Hypothesis M0 : bound_by_itself a0.
Hypothesis Ha : has_annotations (u_decls u' i) true = has_annotations (u_decls u i) true.

(** ** Declarations *)

Lemma decls_other j : j <> i -> u_decls u' j = u_decls u j.
Proof. intros E. cbn. apply Nat.eqb_neq in E. rewrite E. reflexivity. Qed.

Lemma decls_cases j : u_decls u' j = u_decls u j \/ (j = i /\ u_decls u' j = with_texts (u_decls u j) texts).
Proof. cbn. destruct (Nat.eqb j i) eqn:E; [right|left; reflexivity]. apply Nat.eqb_eq in E. auto. Qed.

Lemma decls_field {A} (f : decl -> A) : (forall d, f (with_texts d texts) = f d) -> forall j, f (u_decls u' j) = f (u_decls u j).
Proof. intros H j. destruct (decls_cases j) as [-> | [_ ->]]; auto. Qed.

Lemma kind_same j : kind u' j = kind u j.
Proof. unfold kind. apply (decls_field d_kind). reflexivity. Qed.

Lemma skip_same j : d_skip (u_decls u' j) = d_skip (u_decls u j).
Proof. apply (decls_field d_skip). reflexivity. Qed.

Lemma annotated_same j : has_annotations (u_decls u' j) true = has_annotations (u_decls u j) true.
Proof. destruct (Nat.eq_dec j i) as [->|E]; [exact Ha|]. rewrite decls_other by exact E. reflexivity. Qed.

Lemma not_typedef : is_typedef (u_decls u i) = false.
Proof. unfold leaf, kind in Hi. unfold is_typedef. destruct (d_kind (u_decls u i)) as [| | | | | |[]|[]| | | | |]; try contradiction; reflexivity. Qed.

(** ** Storages *)

Definition like_entry (e e' : nat * attrs) : Prop := fst e = fst e' /\ (fst e <> i -> snd e = snd e') /\ (fst e = i -> snd e = a0 /\ snd e' = a0').
Definition like : storage -> storage -> Prop := Forall2 like_entry.
Definition like_attrs (j : nat) (a a' : attrs) : Prop := (j <> i -> a = a') /\ (j = i -> a = a0 /\ a' = a0').

Lemma like_lookup st st' j : like st st' -> rel_opt (like_attrs j) (lookup_attrs st j) (lookup_attrs st' j).
Proof.
  induction 1 as [|[k a] [k' a'] st st' (Hk & Hs & He) _ IH]; [exact I|]. cbn in *. subst k'. destruct (Nat.eqb j k) eqn:E; [|exact IH].
  apply Nat.eqb_eq in E. subst k. split; auto.
Qed.

Lemma like_has st st' j : like st st' -> has st' j = has st j.
Proof. intros H. unfold has. pose proof (like_lookup _ _ j H) as L. destruct (lookup_attrs st j), (lookup_attrs st' j); try contradiction; reflexivity. Qed.

Lemma like_length st st' : like st st' -> length st' = length st.
Proof. intros H. induction H; cbn; congruence. Qed.

Lemma like_update j f st st' : j <> i -> like st st' -> like (update_named j f st) (update_named j f st').
Proof.
  intros N. induction 1 as [|[k a] [k' a'] st st' (Hk & Hs & He) Hl IH]; cbn.
  - constructor; [|constructor]. split; [reflexivity|]. split; [reflexivity|]. intros E. destruct (N E).
  - cbn in *. subst k'. destruct (Nat.eqb j k) eqn:E.
    + apply Nat.eqb_eq in E. subst k. constructor; [|exact Hl]. split; [reflexivity|]. cbn. split; [intros _; rewrite (Hs N); reflexivity|]. intros E. destruct (N E).
    + constructor; [split; [reflexivity|split; assumption]|exact IH].
Qed.

Lemma valid_inv (v : unit) (a : attrs) : valid_with v i a -> d_skip (u_decls v i) = false /\ compute_attrs (u_decls v i) = Some (a, []).
Proof.
  unfold valid_with, insert. destruct (d_skip (u_decls v i)); [intros [=]|]. cbn. destruct (compute_attrs (u_decls v i)) as [[b ds]|]; [|intros [=]].
  intros [= -> ->]. auto.
Qed.

Lemma like_insert st st' j : like st st' ->
  rel_opt (fun r r' => like (fst r) (fst r') /\ snd r = snd r') (insert (u_decls u) j st) (insert (u_decls u') j st').
Proof.
  intros H. unfold insert. rewrite skip_same, (like_has _ _ j H). destruct (d_skip (u_decls u j)); [cbn; auto|]. destruct (has st j); [cbn; auto|].
  destruct (Nat.eq_dec j i) as [->|E].
  - destruct (valid_inv _ _ V) as [_ ->]. destruct (valid_inv _ _ V') as [_ ->]. cbn. split; [|reflexivity].
    apply Forall2_app; [exact H|]. constructor; [|constructor]. split; [reflexivity|split; [cbn; congruence|auto]].
  - rewrite decls_other by exact E. destruct (compute_attrs (u_decls u j)) as [[a ds]|]; [|exact I]. cbn. split; [|reflexivity].
    apply Forall2_app; [exact H|]. constructor; [|constructor]. split; [reflexivity|]. split; [reflexivity|cbn; congruence].
Qed.

Lemma like_equal st st' j : like st st' -> j <> i -> lookup_attrs st' j = lookup_attrs st j.
Proof.
  intros H E. pose proof (like_lookup _ _ j H) as L. destruct (lookup_attrs st j), (lookup_attrs st' j); cbn in *; try contradiction; [|reflexivity].
  destruct L as [L _]. rewrite (L E). reflexivity.
Qed.

Lemma get_other {A} st st' (sup : decl -> bool) (proj : attrs -> A) j : like st st' -> j <> i -> get u' st' sup proj j = get u st sup proj j.
Proof. intros H E. unfold get. rewrite decls_other by exact E. rewrite (like_equal _ _ j H E). reflexivity. Qed.

Lemma get_same {A} st st' (sup : decl -> bool) (proj : attrs -> A) j : (forall d, sup (with_texts d texts) = sup d) -> proj a0' = proj a0 ->
  like st st' -> get u' st' sup proj j = get u st sup proj j.
Proof.
  intros Hs Hp H. unfold get. rewrite (decls_field sup Hs). destruct (sup (u_decls u j)); [|reflexivity]. pose proof (like_lookup _ _ j H) as L.
  destruct (lookup_attrs st j) as [a|], (lookup_attrs st' j) as [a'|]; cbn in *; try contradiction; [|reflexivity]. destruct L as [L1 L2].
  destruct (Nat.eq_dec j i) as [E|E]; [destruct (L2 E) as [-> ->]; rewrite Hp; reflexivity|rewrite (L1 E); reflexivity].
Qed.

Lemma get_typedef_same st st' j : like st st' -> get_typedef u' st' j = get_typedef u st j.
Proof. apply get_same; [reflexivity|]. apply S0. Qed.
Lemma get_namespace_same st st' j : like st st' -> get_namespace u' st' j = get_namespace u st j.
Proof. apply get_same; [reflexivity|]. apply S0. Qed.
Lemma get_enum_same st st' j : like st st' -> get u' st' supports_enum at_enum j = get u st supports_enum at_enum j.
Proof. apply get_same; [reflexivity|]. apply S0. Qed.
Lemma get_record_same st st' j : like st st' -> get u' st' supports_record at_record j = get u st supports_record at_record j.
Proof. apply get_same; [reflexivity|]. apply S0. Qed.
Lemma get_method_same st st' j : like st st' -> get u' st' supports_method at_method j = get u st supports_method at_method j.
Proof. apply get_same; [reflexivity|]. apply S0. Qed.
Lemma get_constructor_same st st' j : like st st' -> get u' st' supports_constructor at_implicit_conversion j = get u st supports_constructor at_implicit_conversion j.
Proof. apply get_same; [reflexivity|]. apply S0. Qed.
Lemma get_field_same st st' j : like st st' -> get u' st' supports_field at_field j = get u st supports_field at_field j.
Proof. apply get_same; [reflexivity|]. apply S0. Qed.
Lemma get_function_same st st' j : like st st' -> get u' st' supports_function at_function j = get u st supports_function at_function j.
Proof. apply get_same; [reflexivity|]. apply S0. Qed.

(** ** Collection *)

Record csim (s s' : cstate) : Prop := {
  cm_annotations : like (cs_annotations s) (cs_annotations s');
  cm_reports : cs_reports s' = cs_reports s;
  cm_first : cs_first s' = cs_first s;
  cm_contexts : cs_contexts s' = cs_contexts s;
  cm_aliases : cs_aliases s' = cs_aliases s;
  cm_other : forall c j, In (c, j) (cs_first s) -> j <> i }.

Lemma visit_named_sim j s s' : csim s s' -> rel_opt csim (visit_named u j s) (visit_named u' j s').
Proof.
  intros [H1 H2 H3 H4 H5 H6]. unfold visit_named. rewrite skip_same, annotated_same. fold (kind u' j). rewrite kind_same. fold (kind u j).
  change (u_dependent u' j) with (u_dependent u j).
  destruct (is_tag_kind (kind u j) && d_skip (u_decls u j) || u_dependent u j || negb (has_annotations (u_decls u j) true)); [constructor; assumption|].
  pose proof (like_insert _ _ j H1) as L. destruct (insert (u_decls u) j (cs_annotations s)) as [[st ds]|], (insert (u_decls u') j (cs_annotations s')) as [[st' ds']|]; cbn [rel_opt] in *; try contradiction; [|exact I].
  destruct L as [L1 L2]. cbn [fst snd] in L1, L2. subst ds'. constructor; cbn; auto. rewrite H2. reflexivity.
Qed.

Lemma visit_sim j s s' : csim s s' -> rel_opt csim (visit u j s) (visit u' j s').
Proof.
  intros H. unfold visit. pose proof (visit_named_sim j s s' H) as L. destruct (visit_named u j s) as [s1|], (visit_named u' j s') as [s1'|]; cbn [rel_opt] in *; try contradiction; [|exact I].
  rewrite kind_same. destruct L as [H1 H2 H3 H4 H5 H6].
  assert (C : csim (visit_context u j s1) (visit_context u' j s1')).
  { unfold visit_context. rewrite skip_same. destruct (d_skip (u_decls u j)); constructor; cbn; auto. rewrite H4. reflexivity. }
  destruct (kind u j); try exact C; try (constructor; assumption).
  unfold visit_typedef. rewrite annotated_same. change (u_dependent u' j) with (u_dependent u j). change (u_qualified u' j) with (u_qualified u j).
  destruct (negb (has_annotations (u_decls u j) true) || u_dependent u j); [constructor; assumption|].
  destruct (u_qualified u j); constructor; cbn; auto; try (rewrite H5; reflexivity). rewrite H2. reflexivity.
Qed.

Lemma equal_same st st' j k : like st st' -> j <> i -> k <> i -> equal u' st' j k = equal u st j k.
Proof. intros H Hj Hk. unfold equal, get_named, get_namespace, get_typedef. rewrite !(get_other st st') by assumption. reflexivity. Qed.

Lemma check_first_sim j s s' : j <> i -> csim s s' -> csim (check_first u j s) (check_first u' j s').
Proof.
  intros Hj [H1 H2 H3 H4 H5 H6]. unfold check_first. rewrite H3. change (u_canonical u' j) with (u_canonical u j).
  destruct (assoc (cs_first s) (u_canonical u j)) as [first|] eqn:E.
  - assert (Hf : first <> i).
    { assert (G : exists c, In (c, first) (cs_first s)).
      { clear - E. induction (cs_first s) as [|[c k] l IH]; cbn in *; [discriminate E|]. destruct (Nat.eqb (u_canonical u j) c); [injection E as ->; exists c; left; reflexivity|].
        destruct (IH E) as (d & Hd). exists d. right. exact Hd. }
      destruct G as (c & G). exact (H6 c first G). }
    rewrite (equal_same _ _ j first H1 Hj Hf). destruct (equal u (cs_annotations s) j first); constructor; cbn; auto. rewrite H2. reflexivity.
  - constructor; cbn; auto. intros c k Hin. apply in_app_iff in Hin as [Hin|[Hin|[]]]; [exact (H6 c k Hin)|]. injection Hin as _ <-. exact Hj.
Qed.

Lemma namespace_other j : is_namespace_kind (kind u j) = true -> j <> i.
Proof. intros E ->. unfold leaf in Hi. destruct (kind u i) as [| | | | | |[]|[]| | | | |]; try discriminate E; contradiction. Qed.

Lemma traverse_sim t : forall s s', csim s s' -> rel_opt csim (traverse u t s) (traverse u' t s').
Proof.
  induction t as [j ts IH] using tree_ind'. intros s s' H. rewrite !traverse_eq, kind_same, skip_same.
  assert (A : forall s s', csim s s' -> rel_opt csim (traverse_all u ts s) (traverse_all u' ts s')).
  { clear - IH. induction IH as [|t ts Ht _ IH]; intros s s' H; [exact H|]. cbn [traverse_all]. specialize (Ht s s' H).
    destruct (traverse u t s), (traverse u' t s'); cbn [rel_opt] in *; try contradiction; auto. }
  pose proof (visit_sim j s s' H) as L.
  destruct (is_namespace_kind (kind u j)) eqn:E.
  - destruct (d_skip (u_decls u j)); [exact H|].
    destruct (visit u j s) as [s1|], (visit u' j s') as [s1'|]; cbn [rel_opt] in *; try contradiction; [|exact I].
    specialize (A s1 s1' L). destruct (traverse_all u ts s1) as [s2|], (traverse_all u' ts s1') as [s2'|]; cbn [rel_opt] in *; try contradiction; [|exact I].
    rewrite (like_length _ _ (cm_annotations _ _ A)), (like_length _ _ (cm_annotations _ _ H)).
    destruct (negb (Nat.eqb (length (cs_annotations s2)) (length (cs_annotations s)))); [|exact A]. apply check_first_sim; [apply namespace_other, E|exact A].
  - destruct (visit u j s) as [s1|], (visit u' j s') as [s1'|]; cbn [rel_opt] in *; try contradiction; auto.
Qed.

Lemma traverse_all_sim ts : forall s s', csim s s' -> rel_opt csim (traverse_all u ts s) (traverse_all u' ts s').
Proof.
  induction ts as [|t ts IH]; intros s s' H; [exact H|]. cbn [traverse_all]. pose proof (traverse_sim t s s' H) as Ht.
  destruct (traverse u t s), (traverse u' t s'); cbn [rel_opt] in *; try contradiction; auto.
Qed.

Lemma collect_sim : rel_opt csim (collect u) (collect u').
Proof. apply traverse_all_sim. constructor; try reflexivity; [constructor|intros c j []]. Qed.

(** ** The graph *)

Record bsim (b b' : bstate) : Prop := {
  bm_annotations : like (bs_annotations b) (bs_annotations b');
  bm_relocated : bs_relocated b' = bs_relocated b;
  bm_graph : bs_graph b' = bs_graph b;
  bm_reports : bs_reports b' = bs_reports b }.

Lemma propagate_sim alias target st st' : alias <> i -> target <> i -> like st st' -> rel_out like (propagate u alias target st) (propagate u' alias target st').
Proof.
  intros E Et H. unfold propagate. rewrite (like_has _ _ target H). destruct (negb (has st target)); [exact I|].
  rewrite (like_equal _ _ alias H E). change (u_name u' alias) with (u_name u alias). apply like_update; assumption.
Qed.

Lemma process_alias_sim alias b b' : (forall t, d_target (u_decls u alias) = Some t -> t <> i) -> bsim b b' -> rel_out bsim (process_alias u alias b) (process_alias u' alias b').
Proof.
  intros Ht [H1 H2 H3 H4]. unfold process_alias. rewrite (get_typedef_same _ _ alias H1). destruct (get_typedef u (bs_annotations b) alias) as [t|] eqn:Et; [|exact I].
  assert (E : alias <> i). { intros ->. unfold get_typedef, get in Et. rewrite not_typedef in Et. discriminate Et. }
  destruct (negb (t_encourage t) && negb (t_expose_here t)); [constructor; assumption|].
  rewrite (decls_field d_target (fun d => eq_refl)). destruct (d_target (u_decls u alias)) as [target|]; [|exact I]. specialize (Ht target eq_refl).
  pose proof (like_insert _ _ target H1) as L. destruct (insert (u_decls u) target (bs_annotations b)) as [[st ds]|], (insert (u_decls u') target (bs_annotations b')) as [[st' ds']|]; cbn [rel_opt] in L; try contradiction; [|exact I].
  destruct L as [L1 L2]. cbn [fst snd] in L1, L2. subst ds'. rewrite H4.
  assert (Lu : like (if t_encourage t then update_named target (set_visible (Some true)) st else st) (if t_encourage t then update_named target (set_visible (Some true)) st' else st')).
  { destruct (t_encourage t); [|exact L1]. apply like_update; assumption. }
  destruct (t_expose_here t); [|constructor; cbn; auto].
  unfold add_edge_for_alias. change (lookup_context u' alias) with (lookup_context u alias). destruct (lookup_context u alias) as [parent|]; [|exact I]. cbn [bs_relocated bs_annotations bs_graph bs_reports].
  rewrite H2, H3. destruct (assoc (bs_relocated b) target); [constructor; cbn; auto|]. cbn [bs_relocated bs_annotations bs_graph bs_reports].
  pose proof (propagate_sim alias target _ _ E Ht Lu) as P. destruct (propagate u alias target _), (propagate u' alias target _); cbn [rel_out] in P; try contradiction; try exact I.
  constructor; cbn; auto.
Qed.

Lemma process_aliases_sim l : (forall a t, In a l -> d_target (u_decls u a) = Some t -> t <> i) -> forall b b', bsim b b' -> rel_out bsim (process_aliases u l b) (process_aliases u' l b').
Proof.
  induction l as [|a l IH]; intros Ht b b' H; [exact H|]. cbn [process_aliases]. pose proof (process_alias_sim a b b' (fun t => Ht a t (or_introl eq_refl)) H) as L.
  specialize (IH (fun x t Hx => Ht x t (or_intror Hx))). destruct (process_alias u a b), (process_alias u' a b'); cbn [rel_out] in *; try contradiction; auto.
Qed.

Lemma process_contexts_sim l : forall b b', bsim b b' -> rel_out bsim (process_contexts u l b) (process_contexts u' l b').
Proof.
  induction l as [|c l IH]; intros b b' H; [exact H|]. cbn [process_contexts].
  assert (L : rel_out bsim (process_context u c b) (process_context u' c b')).
  { destruct H as [H1 H2 H3 H4]. unfold process_context. rewrite H2. destruct (assoc (bs_relocated b) c); [constructor; assumption|].
    change (lookup_context u' c) with (lookup_context u c). destruct (lookup_context u c); [|exact I]. constructor; cbn; auto. rewrite H3. reflexivity. }
  destruct (process_context u c b), (process_context u' c b'); cbn [rel_out] in *; try contradiction; auto.
Qed.

Lemma build_graph_sim : rel_out (fun r r' => fst r = fst r' /\ bsim (snd r) (snd r')) (build_graph u) (build_graph u').
Proof.
  unfold build_graph. pose proof collect_sim as C. destruct (collect u) as [s|] eqn:Ec, (collect u') as [s'|]; cbn [rel_opt] in C; try contradiction; [|exact I].
  destruct C as [H1 H2 H3 H4 H5 _]. cbn [bs_reports]. rewrite H2, H4, H5. change (u_root u') with (u_root u).
  destruct (errors_occurred (cs_reports s)); [split; [reflexivity|constructor; cbn; auto]|].
  assert (B : bsim (mkBuilder (cs_annotations s) [] (new_graph (u_root u)) (cs_reports s)) (mkBuilder (cs_annotations s') [] (new_graph (u_root u)) (cs_reports s))) by (constructor; cbn; auto).
  assert (Ht : forall a t, In a (cs_aliases s) -> d_target (u_decls u a) = Some t -> t <> i).
  { intros a t Hin Hd ->. destruct (collected_declarations u s (pl_sane u Pl) Ec) as (_ & _ & _ & _ & _ & Al & _). apply Al in Hin as (I1 & I2 & I3).
    destruct (pl_target u Pl a i I1 I2 I3 Hd) as [Tk _]. unfold leaf in Hi. destruct (kind u i) as [| | | | | |[]|[]| | | | |]; try discriminate Tk; contradiction. }
  pose proof (process_aliases_sim (cs_aliases s) Ht _ _ B) as A.
  destruct (process_aliases u _ _) as [b| |], (process_aliases u' _ _) as [b'| |]; cbn [rel_out] in A; try contradiction; try exact I.
  rewrite (bm_reports _ _ A). destruct (errors_occurred (bs_reports b)); [split; [reflexivity|exact A]|].
  pose proof (process_contexts_sim (cs_contexts s) _ _ A) as D.
  destruct (process_contexts u _ _) as [c| |], (process_contexts u' _ _) as [c'| |]; cbn [rel_out] in D; try contradiction; try exact I. split; [reflexivity|exact D].
Qed.

Lemma is_tag_same j : is_tag u' j = is_tag u j.
Proof. unfold is_tag. rewrite kind_same. reflexivity. Qed.

Lemma not_node b n : build_graph u = Done (true, b) -> reachable (bs_graph b) (u_root u) n -> n <> i.
Proof.
  intros B (l & Hp) ->. destruct (one_place u Pl b B) as (_ & Ed & _). inversion Hp as [E|p c q _ E]; subst; [apply Hroot; congruence|]. apply Ed in E.
  unfold leaf in Hi. destruct E as [(a & R & _)|(_ & _ & K & _)].
  - destruct R as (x & (I1 & I2 & I3 & I4 & _) & _). destruct (pl_target u Pl a i I1 I2 I3 I4) as [Tk _]. destruct (kind u i) as [| | | | | |[]|[]| | | | |]; try discriminate Tk; contradiction.
  - destruct (kind u i) as [| | | | | |[]|[]| | | | |]; try contradiction; destruct K as [K|[K|K]]; discriminate K.
Qed.

Lemma visibility_same b b' : build_graph u = Done (true, b) -> like (bs_annotations b) (bs_annotations b') ->
  derive_effective_visibility u' (bs_annotations b') (bs_graph b) = derive_effective_visibility u (bs_annotations b) (bs_graph b).
Proof.
  intros B H. destruct (one_place u Pl b B) as (T & _). unfold derive_effective_visibility. change (u_root u') with (u_root u). rewrite (depth_first_walk _ _ T).
  assert (G : forall q, In q (visited_paths (full_walk (bs_graph b) (u_root u) (fun _ => true))) -> forall m, visibility_step u' (bs_annotations b') m q = visibility_step u (bs_annotations b) m q).
  { intros q Hq m. apply (V_in _ _ T) in Hq as [Hq _]. destruct q as [|n above]; [reflexivity|]. unfold visibility_step. change (u_hidden_access u' n) with (u_hidden_access u n).
    unfold get_named. rewrite (get_other _ _ _ _ n H) by (apply (not_node b n B); exists above; exact Hq). reflexivity. }
  revert G. generalize (@nil (nat * bool)) as m. induction (visited_paths _) as [|q l IH]; intros m G; [reflexivity|]. cbn [fold_opt]. rewrite (G q (or_introl eq_refl)).
  destruct (visibility_step u (bs_annotations b) m q); [|reflexivity]. apply IH. intros r Hr. apply G. right. exact Hr.
Qed.

Lemma any_same {A} (f f' : A -> option bool) l : (forall a, f a = f' a) -> any_opt f l = any_opt f' l.
Proof. intros E. induction l as [|a l IH]; [reflexivity|]. cbn [any_opt]. rewrite E, IH. reflexivity. Qed.

Lemma existsb_same {A} (f f' : A -> bool) l : (forall a, f a = f' a) -> existsb f l = existsb f' l.
Proof. intros E. induction l as [|a l IH]; [reflexivity|]. cbn [existsb]. rewrite E, IH. reflexivity. Qed.

Lemma explicit_other st st' d v : like st st' -> d <> i -> (explicit st' d v <-> explicit st d v).
Proof. intros H E. unfold explicit. rewrite (like_equal _ _ d H E). reflexivity. Qed.

Lemma contexts_same b b' found implicit vis : build_graph u = Done (true, b) -> like (bs_annotations b) (bs_annotations b') -> accompanied u found implicit i ->
  derive_effective_visibility u (bs_annotations b) (bs_graph b) = Some vis ->
  contexts_with_visible_decls u' (bs_annotations b') found implicit vis (bs_graph b) = contexts_with_visible_decls u (bs_annotations b) found implicit vis (bs_graph b).
Proof.
  intros B H Hac Hv. destruct (one_place u Pl b B) as (T & _). destruct (visibility_spec u (bs_annotations b) (bs_graph b) T) as (vis1 & Hv1 & Hk & Hal).
  rewrite Hv in Hv1. injection Hv1 as <-.
  specialize (Hac b (lookup_vis vis) B). assert (Hvl : forall n l, path (edge (bs_graph b)) (u_root u) (n :: l) -> (lookup_vis vis n = true <-> visible_along u (bs_annotations b) (n :: l) true)).
  { intros n l Hp. rewrite <- (Hal n l true Hp). unfold lookup_vis. destruct (dlookup vis n) as [[]|]; split; congruence. }
  specialize (Hac Hvl). clear Hvl.
  unfold contexts_with_visible_decls. change (u_root u') with (u_root u). destruct (post_order_spec (bs_graph b) (u_root u) T) as (po & -> & Hpo & _).
  assert (Hr : forall n, In n po -> reachable (bs_graph b) (u_root u) n) by (intros n; apply Hpo). clear Hpo.
  assert (G : forall n, In n po -> forall result, nonempty_step u' (bs_annotations b') found implicit vis (bs_graph b) result n = nonempty_step u (bs_annotations b) found implicit vis (bs_graph b) result n).
  { intros n Hn result. specialize (Hr n Hn). unfold nonempty_step.
    assert (E1 : parent_of_nonempty u' vis (bs_graph b) result n = parent_of_nonempty u vis (bs_graph b) result n).
    { unfold parent_of_nonempty. apply any_same. intros c. unfold is_hidden_tag. rewrite is_tag_same. reflexivity. }
    assert (E2 : contains_visible u' (bs_annotations b') found implicit vis (bs_graph b) n = contains_visible u (bs_annotations b) found implicit vis (bs_graph b) n).
    { destruct (in_dec Nat.eq_dec i (found n)) as [Hin|Hin].
      - specialize (Hac n Hr Hin).
        destruct (contains_visible_spec u (bs_annotations b) found implicit vis (bs_graph b) (fun n => proj2 (Hk n)) n Hr) as (x & -> & Hx).
        destruct (contains_visible_spec u' (bs_annotations b') found implicit vis (bs_graph b) (fun n => proj2 (Hk n)) n Hr) as (x' & -> & Hx').
        assert (X : x = true).
        { apply Hx. destruct Hac as [Hc|(d & Hd & Hac)]; [left; exact Hc|right]. apply filter_In in Hd as [Hd _]. exists d. auto. }
        assert (X' : x' = true).
        { apply Hx'. destruct Hac as [(c & He & Ht & Hac)|(d & Hd & Himp & Hac)]; [left|right].
          - exists c. split; [exact He|]. split; [|exact Hac]. unfold tag. rewrite kind_same. exact Ht.
          - apply filter_In in Hd as [Hd Hne]. apply negb_true_iff, Nat.eqb_neq in Hne. exists d. split; [exact Hd|]. split; [exact Himp|].
            setoid_rewrite (explicit_other _ _ d _ H Hne). exact Hac. }
        rewrite X, X'. reflexivity.
      - unfold contains_visible. rewrite (any_same _ (fun c => match dlookup vis c with None => None | Some b => Some (is_tag u c && b) end)) by (intros c; rewrite is_tag_same; reflexivity).
        destruct (any_opt _ _) as [[|]|]; try reflexivity. destruct (dlookup vis n); [|reflexivity]. f_equal.
        induction (found n) as [|d l IH]; [reflexivity|]. cbn [existsb]. rewrite IH by (intros Hl; apply Hin; right; exact Hl).
        unfold get_named. rewrite (get_other _ _ _ _ d H) by (intros ->; apply Hin; left; reflexivity). reflexivity. }
    rewrite E1, E2. reflexivity. }
  clear Hr Hac. revert G. generalize (@nil nat) as result. induction po as [|n l IH]; intros result G; [reflexivity|]. cbn [fold_opt]. rewrite (G n (or_introl eq_refl)).
  destruct (nonempty_step u (bs_annotations b) found implicit vis (bs_graph b) result n); [|reflexivity]. apply IH. intros r Hr'. apply G. right. exact Hr'.
Qed.

Lemma fold_left_same {A B} (f f' : A -> B -> A) l : (forall s t, f s t = f' s t) -> forall s, fold_left f l s = fold_left f' l s.
Proof. intros E. induction l as [|t l IH]; intros s; [reflexivity|]. cbn [fold_left]. rewrite E. apply IH. Qed.

Lemma hide_same st st' g name contexts vis : like st st' -> hide_namespaces u' st' g name contexts vis = hide_namespaces u st g name contexts vis.
Proof.
  intros H. unfold hide_namespaces. change (u_root u') with (u_root u). destruct (depth_first g (u_root u) (fun _ => true)); [|reflexivity].
  rewrite (fold_left_same (hide_step u' st' name) (hide_step u st name)); [reflexivity|]. intros s e. unfold hide_step, for_different_module.
  destruct e as [[|n p]|n]; try reflexivity. rewrite (get_namespace_same _ _ n H). reflexivity.
Qed.

Lemma df_same g (f f' : nat -> bool) : (forall n, f n = f' n) -> forall fuel visited stack, df fuel g f visited stack = df fuel g f' visited stack.
Proof.
  intros E. induction fuel as [|fuel IH]; intros visited stack; [reflexivity|]. cbn [df]. destruct stack as [|[n [|c cs]] rest]; [reflexivity|rewrite IH; reflexivity|].
  destruct (mem c visited); [apply IH|]. rewrite E, IH. reflexivity.
Qed.

Lemma prune_same g contexts vis : prune_graph u' g contexts vis = prune_graph u g contexts vis.
Proof.
  assert (P : forall n, should_be_preserved u' contexts vis n = should_be_preserved u contexts vis n) by (intros n; unfold should_be_preserved; rewrite is_tag_same; reflexivity).
  unfold prune_graph, depth_first. change (u_root u') with (u_root u). rewrite P.
  rewrite (df_same g (fun n => match should_be_preserved u' contexts vis n with Some b => b | None => false end) (fun n => match should_be_preserved u contexts vis n with Some b => b | None => false end)) by (intros n; rewrite P; reflexivity).
  match goal with |- match ?o with _ => _ end = _ => destruct o; [|reflexivity] end. apply fold_same. intros h [|n above]; [reflexivity|]. unfold prune_step. rewrite P. reflexivity.
Qed.

Lemma sort_same l : sort_by_location u' l = sort_by_location u l.
Proof.
  assert (I : forall j l, insert_sorted u' j l = insert_sorted u j l).
  { intros j k. induction k as [|n k IH]; [reflexivity|]. cbn [insert_sorted]. rewrite IH. reflexivity. }
  unfold sort_by_location. induction l as [|j l IH]; [reflexivity|]. cbn [fold_right]. rewrite IH. apply I.
Qed.

Definition same_processed (r r' : processed) : Prop :=
  match r, r' with
  | NoGraph rs, NoGraph rs' => rs = rs'
  | Cycles l, Cycles l' => l = l'
  | Pruned g contexts vis warned b, Pruned g' contexts' vis' warned' b' => g = g' /\ contexts = contexts' /\ vis = vis' /\ warned = warned' /\ bsim b b'
  | _, _ => False
  end.

Lemma process_sim found implicit name : accompanied u found implicit i -> rel_out same_processed (process u found implicit name) (process u' found implicit name).
Proof.
  intros Hac. unfold process. pose proof build_graph_sim as B. destruct (build_graph u) as [[ok b]| |] eqn:Eb, (build_graph u') as [[ok' b']| |]; cbn [rel_out] in B; try contradiction; try exact I.
  destruct B as [B1 B2]. cbn [fst snd] in B1, B2. subst ok'. destruct B2 as [H1 H2 H3 H4] eqn:EB. clear EB.
  destruct ok; [|cbn; symmetry; exact H4]. rewrite H3, H2, (visibility_same _ _ Eb H1).
  destruct (derive_effective_visibility u (bs_annotations b) (bs_graph b)) as [vis|] eqn:Ev; [|exact I].
  unfold expose_here_cycles at 2, unreachable_visible at 2. change (u_root u') with (u_root u). rewrite sort_same. fold (expose_here_cycles u (bs_graph b) (reachable_contexts vis) (bs_relocated b)).
  destruct (expose_here_cycles u (bs_graph b) (reachable_contexts vis) (bs_relocated b)); [|reflexivity].
  rewrite (contexts_same _ _ found implicit vis Eb H1 Hac Ev). destruct (contexts_with_visible_decls u (bs_annotations b) found implicit vis (bs_graph b)) as [contexts|]; [|exact I].
  rewrite (hide_same _ _ (bs_graph b) name contexts vis H1). destruct (hide_namespaces u (bs_annotations b) (bs_graph b) name contexts vis) as [[contexts' vis']|]; [|exact I].
  rewrite prune_same. destruct (prune_graph u (bs_graph b) contexts' vis') as [g'|]; [|exact I]. cbn [rel_out same_processed]. rewrite sort_same. repeat (split; [reflexivity|]). constructor; assumption.
Qed.
(** ** Emission *)

Lemma scopes_same st st' g : like st st' -> find_enclosing_scopes u' st' g = find_enclosing_scopes u st g.
Proof.
  intros H. unfold find_enclosing_scopes. change (u_root u') with (u_root u). destruct (depth_first g (u_root u) (fun _ => true)); [|reflexivity].
  apply fold_same. intros m [|n [|p q]]; try reflexivity. unfold scope_step, is_transparent. rewrite (get_namespace_same _ _ p H). reflexivity.
Qed.

Lemma predecessors_same bases g scopes n : predecessors u' bases g scopes n = predecessors u bases g scopes n.
Proof. unfold predecessors. rewrite kind_same. reflexivity. Qed.

Lemma sort_contexts_same pop bases nodes g scopes : sort_contexts pop u' bases nodes g scopes = sort_contexts pop u bases nodes g scopes.
Proof.
  unfold sort_contexts, topological_sort. replace (init_sort nodes (predecessors u' bases g scopes)) with (init_sort nodes (predecessors u bases g scopes)); [reflexivity|].
  unfold init_sort. apply fold_left_same. intros s n. unfold init_node. rewrite predecessors_same. reflexivity.
Qed.

Lemma gather_same st st' : like st st' -> forall fuel remaining candidates hidden, gather fuel u' st' remaining candidates hidden = gather fuel u st remaining candidates hidden.
Proof.
  intros H. induction fuel as [|fuel IH]; intros remaining candidates hidden; (destruct remaining as [|d remaining]; [reflexivity|]); [reflexivity|]. cbn [gather].
  unfold get_record. rewrite (get_record_same _ _ d H). destruct (get u st supports_record at_record d); [|apply IH].
  destruct (fold_left _ (r_inline_base r) (remaining, candidates)). apply IH.
Qed.

Lemma inline_bases_same st st' : like st st' -> all_inline_bases st' = all_inline_bases st.
Proof.
  induction 1 as [|e e' st st' (_ & S1 & S2) _ IH]; [reflexivity|]. unfold all_inline_bases in *. cbn [flat_map]. rewrite IH. f_equal.
  destruct (Nat.eq_dec (fst e) i) as [E|E]; [|rewrite (S1 E); reflexivity]. destruct (S2 E) as [-> ->]. replace (at_record a0') with (at_record a0); [reflexivity|]. symmetry. apply S0.
Qed.

Lemma create_same st st' h c : like st st' -> create u' st' h c = create u st h c.
Proof.
  intros H. unfold create. rewrite kind_same. destruct (kind u c); try reflexivity. unfold create_policy, gather_all.
  rewrite (inline_bases_same _ _ H), (gather_same _ _ H). reflexivity.
Qed.

Lemma make_plan_same w st st' order : like st st' -> make_plan u' w st' order = make_plan u w st order.
Proof.
  intros H. unfold make_plan. apply fold_same. intros p c. unfold plan_context, context_name. rewrite kind_same, (create_same _ _ _ _ H). reflexivity.
Qed.

Definition about (e : exposer) : option nat := match e with XContext => None | XNamespace j | XEnum j | XRecord j _ => Some j end.

Lemma class_of_same w g st st' r p : like st st' -> class_of u' w g st' r p = class_of u w g st r p.
Proof. intros H. unfold class_of. rewrite (get_record_same _ _ r H). reflexivity. Qed.

Lemma parameter_same w g st st' e : like st st' -> parameter_of u' w g st' e = parameter_of u w g st e.
Proof. intros H. destruct e; try reflexivity. cbn [parameter_of]. rewrite (class_of_same _ _ _ _ _ _ H). reflexivity. Qed.

Lemma spelling_same st st' j s : like st st' -> j <> i -> spelling u' st' j s = spelling u st j s.
Proof. intros H E. unfold spelling, lookup_or. rewrite (get_other _ _ _ _ j H E). reflexivity. Qed.

Lemma introducer_same w g st st' e p : like st st' -> about e <> Some i -> introducer_of u' w g st' e p = introducer_of u w g st e p.
Proof.
  intros H E. destruct e as [|j|j|r q]; cbn [introducer_of about] in *; try reflexivity.
  - rewrite (get_namespace_same _ _ j H), (spelling_same _ _ j _ H) by congruence. reflexivity.
  - rewrite (get_enum_same _ _ j H), (spelling_same _ _ j _ H) by congruence. reflexivity.
  - rewrite (get_record_same _ _ r H), (spelling_same _ _ r _ H), (class_of_same _ _ _ _ _ _ H) by congruence. reflexivity.
Qed.

Lemma created_about st h c e : create u st h c = Some e -> about e <> Some i.
Proof.
  intros C. assert (N : forall k, kind u c = k -> match k with KNamespace | KEnum | KRecord => True | _ => False end -> c <> i).
  { intros k K M ->. unfold leaf in Hi. rewrite K in Hi. destruct k as [| | | | | |[]|[]| | | | |]; contradiction. }
  unfold create in C. destruct (kind u c) eqn:K; try (injection C as <-; cbn; try discriminate; intros [= A]; exact (N _ eq_refl I A)).
  destruct (create_policy u st h c); [|discriminate C]. injection C as <-. cbn. intros [= A]. exact (N _ eq_refl I A).
Qed.

Lemma plan_created w st order p : make_plan u w st order = Some p -> forall t, In t (pl_work p) -> about (wk_exposer t) <> Some i.
Proof.
  unfold make_plan. assert (G : forall order p0 p, (forall t, In t (pl_work p0) -> about (wk_exposer t) <> Some i) -> fold_opt (plan_context u w st) order p0 = Some p ->
    forall t, In t (pl_work p) -> about (wk_exposer t) <> Some i).
  { clear order p. induction order as [|c order IH]; intros p0 p H0 E; cbn [fold_opt] in E; [injection E as <-; exact H0|].
    destruct (plan_context u w st p0 c) as [p1|] eqn:P; [|discriminate E]. refine (IH p1 p _ E). unfold plan_context in P.
    destruct (if is_namespace_kind (kind u c) then dlookup (pl_covered p0) (u_canonical u c) else None) as [d|].
    - destruct (dlookup (pl_identifiers p0) d); [|discriminate P]. destruct (dlookup (pl_identifiers p0) c); [discriminate P|]. injection P as <-. exact H0.
    - destruct (discriminated (context_name u w c) (pl_used p0)) as [id used]. destruct (dlookup (pl_identifiers p0) c); [discriminate P|].
      destruct (create u st (w_hierarchy w) c) as [e|] eqn:C; [|discriminate P]. injection P as <-. cbn. intros t Ht. apply in_app_iff in Ht as [Ht|[<-|[]]]; [exact (H0 t Ht)|].
      exact (created_about _ _ _ _ C). }
  intros E. refine (G order _ p _ E). intros t [].
Qed.

Lemma postamble_same w st st' : like st st' -> postamble u' w st' = postamble u w st.
Proof. intros H. unfold postamble. apply flat_map_ext. intros j. unfold lookup_or. rewrite (get_field_same _ _ j H). reflexivity. Qed.

(** *** Statements *)

Lemma is_method_same j : is_method u' j = is_method u j.
Proof. unfold is_method. rewrite kind_same. reflexivity. Qed.

Lemma generic_other x st st' j : like st st' -> j <> i -> handle_generic u' x st' j = handle_generic u x st j.
Proof.
  intros H E. unfold handle_generic, get_typedef, lookup_or. rewrite (like_has _ _ j H), is_method_same, kind_same, (decls_other j E).
  rewrite !(get_other st st') by assumption. rewrite !(spelling_same st st') by assumption.
  reflexivity.
Qed.

Lemma impl_other x st st' e j ps : like st st' -> j <> i -> handle_impl u' x st' e j ps = handle_impl u x st e j ps.
Proof.
  intros H E. destruct e as [|c|c|r p]; cbn [handle_impl]; try (rewrite (generic_other x st st' j H E); reflexivity).
  - unfold handle_enum. rewrite (spelling_same _ _ j _ H E). reflexivity.
  - unfold handle_record, handle_constructor, handle_operator, emit_operator, operand_types, is_ostream_operator, get_named, lookup_or.
    rewrite is_method_same, kind_same, (decls_other j E), !(get_other st st'), (spelling_same st st'), (generic_other x st st' j H E) by assumption. reflexivity.
Qed.

Definition apart (p : list stmt * list ereport) : Prop := unbound i (fst p) = fst p /\ unconcerned i (snd p) = snd p.

Lemma unconcerned_all rs : (forall r, In r rs -> concerns i r = false) -> unconcerned i rs = rs.
Proof. intros H. induction rs as [|r rs IH]; [reflexivity|]. cbn. rewrite (H r (or_introl eq_refl)). cbn. f_equal. apply IH. intros r' Hr. apply H. right. exact Hr. Qed.

Lemma unbound_all ss : (forall s, In s ss -> binds i s = false) -> unbound i ss = ss.
Proof. intros H. induction ss as [|r rs IH]; [reflexivity|]. cbn. rewrite (H r (or_introl eq_refl)). cbn. f_equal. apply IH. intros r' Hr. apply H. right. exact Hr. Qed.

Lemma parameter_reports x j a r : In r (snd (parameters x j a)) -> exists p, r = ETrailingParameters j p.
Proof.
  unfold parameters. assert (G : forall ps index pos last, In r (snd (emit_parameters j a index pos last ps)) -> exists p, r = ETrailingParameters j p).
  { induction ps as [|p ps IH]; intros index pos last Hr; [destruct Hr|]. cbn [emit_parameters] in Hr. destruct (pm_variadic p) as [[]|]; try exact (IH _ _ _ Hr).
    destruct last; [destruct Hr as [<-|[]]; eauto|]. specialize (IH (S index) (S pos) None).
    destruct (emit_parameters j a (S index) (S pos) None ps). exact (IH Hr). }
  apply G.
Qed.

Definition only (j : nat) (p : list stmt * list ereport) : Prop :=
  (forall s k, In s (fst p) -> binds k s = true -> k = j) /\ (forall r k, In r (snd p) -> concerns k r = true -> k = j).

Lemma only_nil j : only j ([], []).
Proof. split; intros ? ? []. Qed.

Lemma only_one j s rs : (forall k, binds k s = true -> k = j) -> (forall r, In r rs -> exists p, r = ETrailingParameters j p) -> only j ([s], rs).
Proof.
  intros H Hr. split; cbn [fst snd].
  - intros s' k [<-|[]]. apply H.
  - intros r k Hin. destruct (Hr r Hin) as (p & ->). cbn. intros E. apply Nat.eqb_eq in E. congruence.
Qed.

Ltac one := apply only_one; [intros ? Ek; cbn in Ek; first [discriminate Ek|apply Nat.eqb_eq in Ek; congruence]|first [intros ? []|idtac]].

Lemma generic_only x st j p : handle_generic u x st j = Some p -> only j p.
Proof.
  unfold handle_generic. destruct (supports_constructor _ && has st j); [discriminate|]. destruct (get_typedef u st j) as [t|].
  - destruct (n_visible _); [|intros [= <-]; apply only_nil]. destruct (t_expose_here t); [intros [= <-]; apply only_nil|]. destruct (x_tag x j); intros [= <-]; [one|apply only_nil].
  - destruct (get u st supports_field at_field j) as [v|].
    + destruct (f_manual v); [destruct (f_postamble v); intros [= <-]; [apply only_nil|one]|]. destruct (kind u j); try discriminate; intros [= <-]; one.
    + destruct (match get u st supports_method at_method j with Some m => _ | None => false end); [intros [= <-]; apply only_nil|].
      destruct (get u st supports_function at_function j) as [a|]; [|intros [= <-]; apply only_nil]. destruct (fi_deleted _); [intros [= <-]; apply only_nil|].
      pose proof (parameter_reports x j a) as R. destruct (parameters x j a) as [args rs]. intros [= <-]. one. intros r Hr. exact (R r Hr).
Qed.

Lemma properties_only ps j m ps' rs : define_properties j m ps = (ps', rs) -> forall r, In r rs -> forall k, concerns k r = false.
Proof.
  unfold define_properties. assert (G : forall setter l acc, (forall r, In r (snd acc) -> forall k, concerns k r = false) -> forall r, In r (snd (fold_left (define_property j setter) l acc)) -> forall k, concerns k r = false).
  { intros setter l. induction l as [|n l IH]; intros acc H; [exact H|]. cbn [fold_left]. apply IH. destruct acc as [qs rs0]. unfold define_property. destruct (update n _ qs) as [ps2 old].
    cbn [snd] in *. intros r Hr. apply in_app_iff in Hr as [Hr|Hr]; [apply H, Hr|]. destruct (if setter then pr_setter old else pr_getter old); [|destruct Hr]. destruct Hr as [<-|[]]. reflexivity. }
  intros E r Hr k. refine (G true _ _ (G false (in_order (m_getter_for m)) (ps, []) (fun r (H : In r []) => match H with end)) r _ k). rewrite E. exact Hr.
Qed.

Lemma impl_only x st e j ps p ps' : handle_impl u x st e j ps = Some (p, ps') -> only j p.
Proof.
  destruct e as [|c|c|r q]; cbn [handle_impl].
  - destruct (handle_generic u x st j) eqn:E; [|discriminate]. intros [= <- _]. exact (generic_only _ _ _ _ E).
  - destruct (handle_generic u x st j) eqn:E; [|discriminate]. intros [= <- _]. exact (generic_only _ _ _ _ E).
  - unfold handle_enum. destruct (x_enumerator x j); intros [= <- _]; [one|apply only_nil].
  - unfold handle_record. destruct (get u st supports_constructor at_implicit_conversion j) as [implicit|].
    + unfold handle_constructor. destruct (_ || _); [intros [= <- _]; apply only_nil|]. set (a := lookup_or u st supports_function at_function j).
      pose proof (parameter_reports x j a) as R. destruct (parameters x j a) as [args rs]. cbn [snd] in R.
      assert (O : forall s, (forall k, binds k s = false) -> only j ([s; SInit j (map pm_type (fi_params (x_fn x j))) args a], rs)).
      { intros s Hs. split; cbn [fst snd].
        - intros s' k [<-|[<-|[]]] Ek; [rewrite Hs in Ek; discriminate Ek|]. cbn in Ek. apply Nat.eqb_eq in Ek. congruence.
        - intros r' k Hr Ek. destruct (R r' Hr) as (p' & ->). cbn in Ek. apply Nat.eqb_eq in Ek. congruence. }
      destruct implicit; [destruct (fi_params (x_fn x j)) as [|p0 l0]; [discriminate|]|]; intros [= <- _]; [apply O; reflexivity|]. one. exact R.
    + destruct (supports_operator (u_decls u j)).
      * unfold handle_operator. destruct (fi_deleted _); [intros [= <- _]; apply only_nil|]. destruct (fi_operator (x_fn x j)) as [k|]; [|discriminate].
        assert (K : match is_ostream_operator u x j k with
                    | None => None
                    | Some true => match get_named u st j with Some n => if is_empty (n_spelling n) then nothing else says (SPrint (n_spelling n) r) | None => nothing end
                    | Some false => option_map (fun ss => (ss, [])) (emit_operator u x r j k)
                    end = Some p -> only j p).
        { destruct (is_ostream_operator u x j k) as [[]|]; [|  |discriminate].
          - destruct (get_named u st j) as [n|]; [destruct (is_empty _)|]; intros [= <-]; first [apply only_nil|one].
          - unfold emit_operator. destruct (never_emitted k); [intros [= <-]; apply only_nil|]. destruct (_ && _); [intros [= <-]; apply only_nil|].
            destruct (operand_types u x r j) as [|lhs l]; [discriminate|]. destruct (operator_lambda _ _ _ _); [|discriminate]. intros [= <-]. one. }
        intros H. apply K. destruct k; try discriminate H; match type of H with option_map _ ?o = _ => destruct o; [|discriminate H] end; injection H as -> _; reflexivity.
      * destruct (match get u st supports_method at_method j with Some m => _ | None => None end) as [m|].
        -- destruct (define_properties j m ps) as [ps2 rs] eqn:D. intros [= <- _]. split; cbn [fst snd]; [intros s k []|]. intros r' k Hr Ek.
           rewrite (properties_only _ _ _ _ _ D r' Hr k) in Ek. discriminate Ek.
        -- destruct (get u st supports_field at_field j) as [v|].
           ++ destruct (f_manual v); [destruct (f_postamble v); [discriminate|]; intros [= <- _]; one|]. intros [= <- _]. one.
           ++ destruct (handle_generic u x st j) eqn:E; [|discriminate]. intros [= <- _]. exact (generic_only _ _ _ _ E).
Qed.

Lemma impl_apart x st e j ps p ps' : j <> i -> handle_impl u x st e j ps = Some (p, ps') -> apart p.
Proof.
  intros N H. destruct (impl_only _ _ _ _ _ _ _ H) as [H1 H2]. split.
  - apply unbound_all. intros s Hs. destruct (binds i s) eqn:E; [|reflexivity]. destruct (N (eq_sym (H1 s i Hs E))).
  - apply unconcerned_all. intros s Hs. destruct (concerns i s) eqn:E; [|reflexivity]. destruct (N (eq_sym (H2 s i Hs E))).
Qed.

(** The bindings of [i] itself. *)
Definition own (p : list stmt * list ereport) : Prop := unbound i (fst p) = [] /\ unconcerned i (snd p) = [].

Lemma own_reports rs : (forall r, In r rs -> exists p, r = ETrailingParameters i p) -> unconcerned i rs = [].
Proof.
  induction rs as [|r rs IH]; intros H; [reflexivity|]. destruct (H r (or_introl eq_refl)) as (p & ->). cbn. rewrite Nat.eqb_refl. cbn. apply IH. intros r' Hr. apply H. right. exact Hr.
Qed.

Lemma own_one s rs : binds i s = true -> (forall r, In r rs -> exists p, r = ETrailingParameters i p) -> own ([s], rs).
Proof. intros H Hr. split; cbn [fst snd]; [cbn; rewrite H; reflexivity|apply own_reports, Hr]. Qed.

Lemma own_nil : own ([], []).
Proof. split; reflexivity. Qed.

Ltac mine := apply own_one; [cbn; apply Nat.eqb_refl|first [intros ? []|idtac]].

Definition settled (st : storage) : Prop := forall a, lookup_attrs st i = Some a -> a = a0.

Lemma settled_get {A} st (sup : decl -> bool) (proj : attrs -> A) v : settled st -> get u st sup proj i = Some v -> v = proj a0.
Proof. intros H. unfold get. destruct (sup (u_decls u i)); [|discriminate]. destruct (lookup_attrs st i) as [a|] eqn:E; [|discriminate]. intros [= <-]. rewrite (H a E). reflexivity. Qed.

Lemma generic_own x st p : settled st -> handle_generic u x st i = Some p -> own p.
Proof.
  intros Hs. destruct M0 as (Mm & Mg & Ms). unfold handle_generic. destruct (supports_constructor _ && has st i); [discriminate|].
  unfold get_typedef, get at 1. rewrite not_typedef.
  destruct (get u st supports_field at_field i) as [v|] eqn:F.
  - rewrite (settled_get _ _ _ _ Hs F), Mm. destruct (kind u i); try discriminate; intros [= <-]; mine.
  - destruct (match get u st supports_method at_method i with Some m => _ | None => false end); [intros [= <-]; apply own_nil|].
    destruct (get u st supports_function at_function i) as [a|]; [|intros [= <-]; apply own_nil]. destruct (fi_deleted _); [intros [= <-]; apply own_nil|].
    pose proof (parameter_reports x i a) as R. destruct (parameters x i a) as [args rs]. intros [= <-]. mine. exact R.
Qed.

Lemma impl_own x st e ps p ps' : settled st -> handle_impl u x st e i ps = Some (p, ps') -> own p /\ ps' = ps.
Proof.
  intros Hs. destruct e as [|c|c|r q]; cbn [handle_impl].
  - destruct (handle_generic u x st i) eqn:E; [|discriminate]. intros [= <- <-]. split; [exact (generic_own _ _ _ Hs E)|reflexivity].
  - destruct (handle_generic u x st i) eqn:E; [|discriminate]. intros [= <- <-]. split; [exact (generic_own _ _ _ Hs E)|reflexivity].
  - unfold handle_enum. destruct (x_enumerator x i); intros [= <- <-]; (split; [|reflexivity]); [mine|apply own_nil].
  - unfold handle_record. assert (NC : get u st supports_constructor at_implicit_conversion i = None).
    { unfold get, supports_constructor. unfold leaf, kind in Hi. destruct (d_kind (u_decls u i)); try contradiction; reflexivity. }
    assert (NO : supports_operator (u_decls u i) = false).
    { unfold supports_operator. unfold leaf, kind in Hi. destruct (d_kind (u_decls u i)) as [| | | | | |[]|[]| | | | |]; try contradiction; reflexivity. }
    rewrite NC, NO. destruct M0 as (Mm & Mg & Ms).
    assert (NM : match get u st supports_method at_method i with
               | Some m => if negb (is_empty (m_getter_for m)) || negb (is_empty (m_setter_for m)) then Some m else None
               | None => None
               end = None).
    { destruct (get u st supports_method at_method i) as [m|] eqn:E; [|reflexivity]. rewrite (settled_get _ _ _ _ Hs E), Mg, Ms. reflexivity. }
    rewrite NM. destruct (get u st supports_field at_field i) as [v|] eqn:F.
    + rewrite (settled_get _ _ _ _ Hs F), Mm. intros [= <- <-]. split; [mine|reflexivity].
    + destruct (handle_generic u x st i) eqn:E; [|discriminate]. intros [= <- <-]. split; [exact (generic_own _ _ _ Hs E)|reflexivity].
Qed.

Lemma like_settled st st' : like st st' -> settled st /\ forall a, lookup_attrs st' i = Some a -> a = a0'.
Proof.
  intros H. pose proof (like_lookup _ _ i H) as L. split; intros a E; rewrite E in L.
  - destruct (lookup_attrs st' i); [|destruct L]. exact (proj1 (proj2 L eq_refl)).
  - destruct (lookup_attrs st i); [|destruct L]. exact (proj2 (proj2 L eq_refl)).
Qed.

Lemma hidden_there st st' dv : like st st' -> is_visible u' st' dv i = false.
Proof.
  intros H. unfold is_visible, get_named, get. destruct (lookup_attrs st' i) as [a|] eqn:E; [|reflexivity]. rewrite (proj2 (like_settled _ _ H) a E). cbn [option_map].
  destruct S0 as [S1 _]. rewrite S1. reflexivity.
Qed.

Record esim (s s' : EmitModel.state) : Prop := {
  es_storage : like (em_storage s) (em_storage s');
  es_stmts : em_stmts s' = unbound i (em_stmts s);
  es_reports : em_reports s' = unconcerned i (em_reports s);
  es_properties : em_properties s' = em_properties s }.

Definition follows {A B} (R : A -> B -> Prop) (o : option A) (o' : option B) : Prop := forall a, o = Some a -> exists b, o' = Some b /\ R a b.

Lemma follows_fold {A B C} (R : A -> C -> Prop) (f : A -> B -> option A) (f' : C -> B -> option C) :
  (forall s s' t, R s s' -> follows R (f s t) (f' s' t)) -> forall l s s', R s s' -> follows R (fold_opt f l s) (fold_opt f' l s').
Proof.
  intros H. induction l as [|t l IH]; intros s s' Hs; cbn [fold_opt]; [intros a [= <-]; eauto|]. intros a E. destruct (f s t) as [s1|] eqn:F; [|discriminate E].
  destruct (H s s' t Hs s1 F) as (s1' & -> & R1). exact (IH s1 s1' R1 a E).
Qed.

Lemma unconcerned_app l l' : unconcerned i (l ++ l') = unconcerned i l ++ unconcerned i l'.
Proof. apply filter_app. Qed.
Lemma unbound_app l l' : unbound i (l ++ l') = unbound i l ++ unbound i l'.
Proof. apply filter_app. Qed.

Lemma annotation_reports j ds : unconcerned i (map (EAnnotation j) ds) = map (EAnnotation j) ds.
Proof. apply unconcerned_all. intros r Hr. apply in_map_iff in Hr as (d & <- & _). reflexivity. Qed.

Lemma handle_decl_sim x e dv s s' j : esim s s' -> follows esim (handle_decl u x e dv s j) (handle_decl u' x e dv s' j).
Proof.
  intros [H1 H2 H3 H4]. unfold handle_decl, follows. pose proof (like_insert _ _ j H1) as L.
  destruct (insert (u_decls u) j (em_storage s)) as [[st ds]|], (insert (u_decls u') j (em_storage s')) as [[st' ds']|]; cbn [rel_opt] in L; try contradiction; [|discriminate].
  destruct L as [L1 L2]. cbn [fst snd] in L1, L2. subst ds'. rewrite H3, H4. destruct (Nat.eq_dec j i) as [->|N].
  - rewrite (hidden_there _ _ dv L1). destruct (is_visible u st dv i).
    + destruct (handle_impl u x st e i (em_properties s)) as [[[ss rs] ps]|] eqn:P; [|discriminate]. intros a [= <-]. destruct (impl_own _ _ _ _ _ _ (proj1 (like_settled _ _ L1)) P) as [[O1 O2] ->].
      cbn [fst snd] in O1, O2. eexists. split; [reflexivity|]. constructor; cbn [em_storage em_stmts em_reports em_properties]; auto.
      * rewrite unbound_app, O1, app_nil_r. exact H2.
      * rewrite !unconcerned_app, O2, app_nil_r, annotation_reports. reflexivity.
    + intros a [= <-]. eexists. split; [reflexivity|]. constructor; cbn [em_storage em_stmts em_reports em_properties]; auto. rewrite unconcerned_app, annotation_reports. reflexivity.
  - assert (Vs : is_visible u' st' dv j = is_visible u st dv j) by (unfold is_visible, get_named; rewrite (get_other _ _ _ _ j L1 N); reflexivity).
    rewrite Vs, (impl_other x _ _ e j (em_properties s) L1 N). destruct (is_visible u st dv j).
    + destruct (handle_impl u x st e j (em_properties s)) as [[[ss rs] ps]|] eqn:P; [|discriminate]. intros a [= <-]. destruct (impl_apart _ _ _ _ _ _ _ N P) as [O1 O2].
      cbn [fst snd] in O1, O2. eexists. split; [reflexivity|]. constructor; cbn [em_storage em_stmts em_reports em_properties]; auto.
      * rewrite unbound_app, O1, H2. reflexivity.
      * rewrite !unconcerned_app, O2, annotation_reports. reflexivity.
    + intros a [= <-]. eexists. split; [reflexivity|]. constructor; cbn [em_storage em_stmts em_reports em_properties]; auto. rewrite unconcerned_app, annotation_reports. reflexivity.
Qed.

Lemma finalize_apart x st e ps : apart (EmitModel.finalize u x st e ps).
Proof.
  destruct e as [|c|c|r q]; cbn [EmitModel.finalize]; try (split; reflexivity).
  - destruct (get u st supports_enum at_enum c) as [a|]; [destruct (match e_export_values a with Some b => b | None => _ end)|]; split; reflexivity.
  - unfold emit_properties. split; cbn [fst snd].
    + apply unbound_all. intros s Hs. apply in_flat_map in Hs as ([nm pr] & _ & Hs). unfold emit_property in Hs. destruct (pr_getter _), (pr_setter _); cbn in Hs; destruct Hs as [<-|[]] || destruct Hs; reflexivity.
    + apply unconcerned_all. intros s Hs. apply in_flat_map in Hs as ([nm pr] & _ & Hs). unfold emit_property in Hs. destruct (pr_getter _), (pr_setter _); cbn in Hs; destruct Hs as [<-|[]] || destruct Hs; reflexivity.
Qed.

Lemma define_sim x e dv decls st st' : like st st' ->
  follows (fun r r' => like (fst (fst r)) (fst (fst r')) /\ snd (fst r') = unbound i (snd (fst r)) /\ snd r' = unconcerned i (snd r)) (define u x e dv decls st) (define u' x e dv decls st').
Proof.
  intros H r. unfold define. assert (E0 : esim (EmitModel.mkState st [] [] []) (EmitModel.mkState st' [] [] [])) by (constructor; cbn; auto).
  pose proof (follows_fold esim (handle_decl u x e dv) (handle_decl u' x e dv) (fun s s' t => handle_decl_sim x e dv s s' t) (flat_map (expand x) decls) _ _ E0) as F.
  destruct (fold_opt (handle_decl u x e dv) _ _) as [s|]; [|discriminate]. destruct (F s eq_refl) as (s' & -> & [H1 H2 H3 H4]). rewrite H4.
  assert (N : EmitModel.finalize u' x (em_storage s') e (em_properties s) = EmitModel.finalize u x (em_storage s) e (em_properties s)).
  { destruct e; try reflexivity. cbn [EmitModel.finalize]. rewrite (get_enum_same _ _ i0 H1). reflexivity. }
  rewrite N. pose proof (finalize_apart x (em_storage s) e (em_properties s)) as [A1 A2]. destruct (EmitModel.finalize u x (em_storage s) e (em_properties s)) as [ss rs]. cbn [fst snd] in A1, A2.
  intros [= <-]. eexists. split; [reflexivity|]. cbn [fst snd]. split; [exact H1|]. rewrite H2, H3, unbound_app, unconcerned_app, A1, A2. auto.
Qed.

(** *** Files *)

Definition plain (m : item) : Prop := unbound_item i m = m.

Record osim (o o' : output) : Prop := {
  os_storage : like (o_storage o) (o_storage o');
  os_index : o_index o' = o_index o;
  os_streams : o_streams o' = map (map (unbound_item i)) (o_streams o);
  os_reports : o_reports o' = unconcerned i (o_reports o) }.

Lemma write_sim items : forall streams k, write_to k (map (unbound_item i) items) (map (map (unbound_item i)) streams) = option_map (map (map (unbound_item i))) (write_to k items streams).
Proof.
  induction streams as [|s l IH]; intros [|k]; cbn [write_to map option_map]; try reflexivity.
  - rewrite map_app. reflexivity.
  - rewrite IH. destruct (write_to k items l); reflexivity.
Qed.

Lemma declarations_same x c l : declarations u' x c l = declarations u x c l.
Proof. unfold declarations. rewrite sort_same, kind_same. reflexivity. Qed.

Lemma define_step_sim w g vis total o o' t : osim o o' -> follows osim (define_step u w g vis total o t) (define_step u' w g vis total o' t).
Proof.
  intros [H1 H2 H3 H4]. unfold define_step, define_context, follows. assert (Len : length (o_streams o') = length (o_streams o)) by (rewrite H3; apply map_length).
  rewrite H2, Len, (parameter_same _ _ _ _ _ H1), declarations_same.
  destruct (parameter_of u w g (o_storage o) (wk_exposer t)) as [p|]; [|discriminate].
  match goal with |- context [define u (w_extra w) (wk_exposer t) ?dv ?ds (o_storage o)] => pose proof (define_sim (w_extra w) (wk_exposer t) dv ds _ _ H1) as D;
    destruct (define u (w_extra w) (wk_exposer t) dv ds (o_storage o)) as [[[st body] rs]|]; [|discriminate] end.
  destruct (D _ eq_refl) as ([[st' body'] rs'] & -> & D1 & D2 & D3). cbn [fst snd] in D1, D2, D3. subst rs' body'.
  match goal with |- context [write_to ?k (?pre ++ [IDefine ?id p body]) _] => assert (It : pre ++ [IDefine id p (unbound i body)] = map (unbound_item i) (pre ++ [IDefine id p body])) by
     (rewrite map_app; f_equal; match goal with |- context [if ?c then _ else _] => destruct c; reflexivity | _ => reflexivity end) end.
  rewrite It, H3, write_sim. match goal with |- context [write_to ?k ?it (o_streams o)] => destruct (write_to k it (o_streams o)); [|discriminate] end. cbn [option_map].
  intros a [= <-]. eexists. split; [reflexivity|]. constructor; cbn [o_storage o_index o_streams o_reports]; auto. rewrite H4, unconcerned_app. reflexivity.
Qed.

Definition same_emission (e e' : emission) : Prop :=
  match e, e' with
  | ECycle c, ECycle c' => c' = c
  | EWritten files rs _, EWritten files' rs' _ => files' = map (map (unbound_item i)) files /\ rs' = unconcerned i rs
  | _, _ => False
  end.
Lemma emit_sim w g vis st st' nodes n name : like st st' -> follows same_emission (emit_module u w g vis st nodes n name) (emit_module u' w g vis st' nodes n name).
Proof.
  intros H. unfold emit_module, follows. destruct n as [|n]; [discriminate|]. rewrite (scopes_same _ _ g H). destruct (find_enclosing_scopes u st g) as [scopes|]; [|discriminate].
  rewrite sort_contexts_same. destruct (sort_contexts (w_pop w) u (public_bases_of (w_hierarchy w)) nodes g scopes) as [[order|c]|]; [|intros a [= <-]; eexists; split; reflexivity|discriminate].
  rewrite (make_plan_same w _ _ order H). destruct (make_plan u w st order) as [p|] eqn:P; [|discriminate].
  rewrite (map_opt_same (declare u' w g st') (declare u w g st)) by (intros t _; unfold declare; rewrite (parameter_same _ _ _ _ _ H); reflexivity).
  rewrite (map_opt_same (introduce u' w g st' scopes (pl_identifiers p)) (introduce u w g st scopes (pl_identifiers p))).
  2:{ intros t Ht. unfold introduce. change (u_root u') with (u_root u). destruct (negb _); [reflexivity|].
      destruct (match match dlookup scopes (wk_context t) with Some p0 => p0 | None => None end with Some p0 => dlookup (pl_identifiers p) p0 | None => Some ($"root") end); [|reflexivity].
      rewrite (introducer_same _ _ _ _ _ _ H (plan_created _ _ _ _ P t Ht)). reflexivity. }
  destruct (map_opt (declare u w g st) (pl_work p)) as [ds|] eqn:Eds; [|discriminate]. destruct (map_opt (introduce u w g st scopes (pl_identifiers p)) (pl_work p)) as [is|]; [|discriminate].
  rewrite (postamble_same w _ _ H).
  assert (Pd : map (unbound_item i) ds = ds).
  { clear - Eds. revert ds Eds. induction (pl_work p) as [|t l IH]; intros ds E; cbn [map_opt] in E; [injection E as <-; reflexivity|].
    unfold declare at 1 in E. destruct (parameter_of u w g st (wk_exposer t)); [|discriminate E]. cbn [option_map] in E. destruct (map_opt (declare u w g st) l) as [ds'|]; [|discriminate E]. injection E as <-. cbn. rewrite (IH ds' eq_refl). reflexivity. }
  match goal with |- context [fold_opt (define_step u w g vis (length (pl_work p))) (pl_work p) (mkOutput st 0 ?f [])] =>
    assert (O : osim (mkOutput st 0 f []) (mkOutput st' 0 f [])) by (constructor; cbn [o_storage o_index o_streams o_reports]; auto; cbn [map]; rewrite map_app, Pd; f_equal; clear; induction n as [|[|n] IH]; [reflexivity|reflexivity|cbn in *; f_equal; exact IH]);
    pose proof (follows_fold osim _ _ (fun o o' t => define_step_sim w g vis (length (pl_work p)) o o' t) (pl_work p) _ _ O) as F end.
  destruct (fold_opt (define_step u w g vis _) _ _) as [o|]; [|discriminate]. destruct (F o eq_refl) as (o' & Fo & [_ _ F1 F2]). cbn [option_map]. rewrite Fo. intros a [= <-]. eexists. split; [reflexivity|]. split; assumption.
Qed.

Lemma generate_sim w found implicit iteration n name : accompanied u found implicit i ->
  follows (same_without i) (generate u w found implicit iteration n name) (generate u' w found implicit iteration n name).
Proof.
  intros Hac. unfold generate, follows. pose proof (process_sim found implicit name Hac) as P.
  destruct (process u found implicit name) as [[rs|l|g contexts vis warned b]| |], (process u' found implicit name) as [[rs'|l'|g' contexts' vis' warned' b']| |]; cbn [rel_out same_processed] in P; try contradiction; try discriminate.
  - intros r [= <-]. eexists. split; [reflexivity|exact I].
  - intros r [= <-]. eexists. split; [reflexivity|exact I].
  - destruct P as (<- & <- & <- & <- & [B1 _ _ B4]). pose proof (emit_sim w g vis _ _ (iteration (g_nodes g)) n name B1) as E.
    destruct (emit_module u w g vis (bs_annotations b) (iteration (g_nodes g)) n name) as [e|]; [|discriminate]. destruct (E e eq_refl) as (e' & -> & E'). cbn [option_map].
    intros r [= <-]. eexists. split; [reflexivity|]. destruct e as [c|files rs st], e' as [c'|files' rs' st']; cbn in E' |- *; try contradiction.
    + auto.
    + destruct E' as [E1 E2]. auto.
Qed.
End Hide.
