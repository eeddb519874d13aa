(** * Proofs about the processing of context graphs *)
From Verif Require Import Base ParserModel AnnotModel AnnotSpec AnnotProofs CollectModel CollectSpec CollectProofs GraphModel GraphSpec GraphWalk GraphBuild GraphPlace.
From Coq Require Import Sorting.Sorted.

Lemma fold_opt_inv {A B} (f : B -> A -> option B) (l : list A) (I : list A -> B -> Prop) b0 :
  I [] b0 -> (forall l1 a l2 b, l = l1 ++ a :: l2 -> I l1 b -> exists b', f b a = Some b' /\ I (l1 ++ [a]) b') ->
  exists b', fold_opt f l b0 = Some b' /\ I l b'.
Proof.
  intros H0 Hs. cut (forall l2 l1 b, l = l1 ++ l2 -> I l1 b -> exists b', fold_opt f l2 b = Some b' /\ I l b').
  { intros X. apply (X l []); auto. }
  induction l2 as [|a l2 IH]; intros l1 b E HI; cbn [fold_opt].
  - rewrite app_nil_r in E. subst. eauto.
  - destruct (Hs l1 a l2 b E HI) as (b' & -> & HI'). apply (IH (l1 ++ [a])); [|exact HI']. rewrite <- app_assoc. exact E.
Qed.

Lemma visited_split es : forall l1 p l2, visited_paths es = l1 ++ p :: l2 -> exists e1 e2, es = e1 ++ Visit p :: e2 /\ visited_paths e1 = l1.
Proof.
  induction es as [|[q|n] es IH]; intros l1 p l2; cbn.
  - destruct l1; discriminate.
  - destruct l1 as [|x l1]; cbn; intros [= -> E].
    + exists [], es. auto.
    + destruct (IH _ _ _ E) as (e1 & e2 & -> & <-). exists (Visit x :: e1), e2. auto.
  - intros E. destruct (IH _ _ _ E) as (e1 & e2 & -> & <-). exists (Completed n :: e1), e2. auto.
Qed.

Section Traversal.
Context (g : graph) (root : nat) (T : tree_like g root) (descend : nat -> bool).
Let V := visited_paths (full_walk g root descend).

Lemma V_in q : In q V <-> path (edge g) root q /\ forall m, In m (tl q) -> descend m = true.
Proof.
  unfold V. rewrite visited_in. split.
  - intros H. assert (Hp := full_walk_paths g root descend q H). split; [exact Hp|]. apply (full_walk_visits g root T); auto.
  - intros [Hp H]. apply (full_walk_visits g root T); auto.
Qed.

Lemma V_parent l1 c p q l2 : V = l1 ++ (c :: p :: q) :: l2 -> In (p :: q) l1.
Proof.
  intros H. destruct (visited_split _ _ _ _ H) as (e1 & e2 & E & <-). apply visited_in.
  destruct (walk_parents g root descend _ _ _ _ _ _ _ _ (path_root _ _) E) as [[_ ?]|X]; [discriminate|exact X].
Qed.

Lemma V_nodup : NoDup (map (fun p => hd 0 p) V).
Proof. apply (full_walk_nodup g root T). Qed.

Lemma V_fresh l1 n q l2 : V = l1 ++ (n :: q) :: l2 -> forall q', ~ In (n :: q') l1.
Proof.
  intros E q' H. assert (Hn := V_nodup). rewrite E, map_app in Hn. cbn in Hn. apply NoDup_remove_2 in Hn. apply Hn, in_app_iff. left.
  apply in_map_iff. exists (n :: q'). auto.
Qed.

Lemma V_prefix l1 a l2 q : V = l1 ++ a :: l2 -> In q l1 -> path (edge g) root q.
Proof. intros E H. apply V_in. rewrite E. apply in_app_iff. auto. Qed.
End Traversal.

Lemma dlookup_set {A} i (x : A) m j : dlookup (dset i x m) j = if Nat.eqb j i then Some x else dlookup m j.
Proof. reflexivity. Qed.

Lemma dlookup_keys {A} (m : dmap A) i : In i (map fst m) <-> exists x, dlookup m i = Some x.
Proof.
  induction m as [|[j x] m IH]; cbn [map dlookup In fst].
  - split; [contradiction|]. intros (x & ?). discriminate.
  - destruct (Nat.eqb i j) eqn:E.
    + apply Nat.eqb_eq in E. subst. split; eauto.
    + apply Nat.eqb_neq in E. rewrite <- IH. intuition congruence.
Qed.

(** ** Effective visibility *)
Section Visibility.
Context (u : unit) (st : storage).

Definition decision (n : nat) : option bool :=
  match get_named u st n with
  | Some a => match n_visible a with Some b => Some b | None => if u_hidden_access u n then Some false else None end
  | None => if u_hidden_access u n then Some false else None
  end.

Lemma explicit_iff n v : explicit st n v <-> exists a, get_named u st n = Some a /\ n_visible a = Some v.
Proof.
  unfold explicit, get_named, get. split.
  - intros (a & H & E). exists (at_named a). rewrite H. auto.
  - intros (a & H & E). destruct (lookup_attrs st n) as [x|]; [|discriminate]. injection H as <-. eauto.
Qed.

Lemma decision_iff n v : decision n = Some v <-> decided u st n v.
Proof.
  unfold decided, decision. setoid_rewrite explicit_iff. destruct (get_named u st n) as [a|].
  - destruct (n_visible a) as [w|] eqn:E.
    + split; [intros [= ->]; left; eauto|]. intros [(b & [= <-] & H)|(H & _)]; [congruence|]. exfalso. eapply H. eauto.
    + destruct (u_hidden_access u n).
      * split; [intros [= <-]; right|intros [(b & [= <-] & H)|(_ & _ & ->)]; [congruence|reflexivity]]. repeat split. intros w (b & [= <-] & H). congruence.
      * split; [discriminate|]. intros [(b & [= <-] & H)|(_ & ? & _)]; congruence.
  - destruct (u_hidden_access u n).
    + split; [intros [= <-]; right|intros [(b & ? & H)|(_ & _ & ->)]; [congruence|reflexivity]]. repeat split. intros w (b & ? & H). congruence.
    + split; [discriminate|]. intros [(b & ? & H)|(_ & ? & _)]; congruence.
Qed.

Lemma decision_none n : decision n = None <-> forall w, ~ decided u st n w.
Proof. setoid_rewrite <- decision_iff. destruct (decision n) as [b|]; split; congruence. Qed.

Fixpoint vis_along (l : list nat) : bool :=
  match l with [] => false | n :: l' => match decision n with Some b => b | None => vis_along l' end end.

Lemma vis_along_iff l v : vis_along l = v <-> visible_along u st l v.
Proof.
  unfold visible_along. revert v. induction l as [|n l IH]; intros v; cbn [vis_along].
  - split; [intros <-; right; split; [reflexivity|]; intros m w []|]. intros [(l1 & n & l2 & E & _)|[-> _]]; [destruct l1; discriminate|reflexivity].
  - destruct (decision n) as [b|] eqn:E.
    + split.
      * intros <-. left. exists [], n, l. split; [reflexivity|]. split; [apply decision_iff, E|]. intros m w [].
      * intros [([|x l1] & m & l2 & El & Hd & Hn)|[_ H]].
        -- injection El as <- <-. apply decision_iff in Hd. congruence.
        -- injection El as <- ->. exfalso. apply (Hn n b (or_introl eq_refl)). apply decision_iff, E.
        -- exfalso. apply (H n b (or_introl eq_refl)). apply decision_iff, E.
    + rewrite IH. assert (Hno := proj1 (decision_none n) E). split.
      * intros [(l1 & m & l2 & -> & Hd & Hn)|[-> H]].
        -- left. exists (n :: l1), m, l2. split; [reflexivity|]. split; [exact Hd|]. intros x w [<-|Hx]; [apply Hno|apply Hn, Hx].
        -- right. split; [reflexivity|]. intros x w [<-|Hx]; [apply Hno|apply H, Hx].
      * intros [([|x l1] & m & l2 & El & Hd & Hn)|[-> H]].
        -- injection El as <- <-. exfalso. apply (Hno v Hd).
        -- injection El as <- ->. left. exists l1, m, l2. split; [reflexivity|]. split; [exact Hd|]. intros y w Hy. apply Hn. right; exact Hy.
        -- right. split; [reflexivity|]. intros y w Hy. apply H. right; exact Hy.
Qed.

Lemma visibility_step_spec m n above : (match above with [] => Some false | p :: _ => dlookup m p end) = Some (vis_along above) ->
  visibility_step u st m (n :: above) = Some (dset n (vis_along (n :: above)) m).
Proof.
  intros H. unfold visibility_step. rewrite H. cbn [vis_along]. unfold decision.
  destruct (get_named u st n) as [a|]; [destruct (n_visible a)|]; destruct (u_hidden_access u n); reflexivity.
Qed.

Context (g : graph) (T : tree_like g (u_root u)).

Lemma derive_spec : exists m, derive_effective_visibility u st g = Some m /\
  (forall n, (exists v, dlookup m n = Some v) <-> reachable g (u_root u) n) /\
  (forall n l, path (edge g) (u_root u) (n :: l) -> dlookup m n = Some (vis_along (n :: l))).
Proof.
  unfold derive_effective_visibility. rewrite (depth_first_walk g (u_root u) T).
  set (V := visited_paths (full_walk g (u_root u) (fun _ => true))).
  destruct (fold_opt_inv (visibility_step u st) V
    (fun done m => forall n, (forall l, In (n :: l) done -> dlookup m n = Some (vis_along (n :: l))) /\ ((forall l, ~ In (n :: l) done) -> dlookup m n = None)) [])
    as (m & -> & Hm).
  - intros n. split; [intros l []|reflexivity].
  - intros l1 q l2 m E HI. assert (Hq : path (edge g) (u_root u) q). { apply (V_in g (u_root u) T (fun _ => true)). fold V. rewrite E. apply in_app_iff. cbn. auto. }
    destruct q as [|n above]; [inversion Hq|]. rewrite (visibility_step_spec m n above).
    + eexists. split; [reflexivity|]. intros j. rewrite dlookup_set. split.
      * intros l Hl. apply in_app_iff in Hl as [Hl|[Hl|[]]].
        -- destruct (Nat.eqb j n) eqn:Ej; [|apply HI, Hl]. apply Nat.eqb_eq in Ej. subst j.
           exfalso. apply (V_fresh g (u_root u) T (fun _ => true) _ _ _ _ E l Hl).
        -- injection Hl as <- <-. rewrite Nat.eqb_refl. reflexivity.
      * intros Hl. destruct (Nat.eqb j n) eqn:Ej.
        -- apply Nat.eqb_eq in Ej. subst j. exfalso. apply (Hl above). apply in_app_iff. cbn. auto.
        -- apply HI. intros l Hin. apply (Hl l). apply in_app_iff. auto.
    + destruct above as [|p above]; [reflexivity|]. apply HI. apply (V_parent g (u_root u) (fun _ => true) _ _ _ _ _ E).
  - exists m. split; [reflexivity|].
    assert (X : forall n l, path (edge g) (u_root u) (n :: l) -> dlookup m n = Some (vis_along (n :: l))).
    { intros n l Hp. apply Hm. apply (V_in g (u_root u) T (fun _ => true)). auto. }
    split; [|exact X]. intros n. split.
    + intros (v & Hv). destruct (Hm n) as [_ H]. unfold reachable.
      destruct (in_dec Nat.eq_dec n (map (fun p => hd 0 p) V)) as [Hin|Hin].
      * apply in_map_iff in Hin as (q & Hq1 & Hq2). apply (V_in g (u_root u) T (fun _ => true)) in Hq2 as [Hq2 _]. destruct q as [|x q]; [inversion Hq2|]. cbn in Hq1. subst. eauto.
      * exfalso. rewrite H in Hv; [discriminate|]. intros l Hl. apply Hin, in_map_iff. exists (n :: l). auto.
    + intros (l & Hp). rewrite (X n l Hp). eauto.
Qed.

(** ** Scopes *)
Lemma transparent_iff n : is_transparent u st n = true <-> transparent u st n.
Proof.
  unfold is_transparent, transparent, get_namespace, get, is_namespace, kind. destruct (d_kind (u_decls u n)); try (split; [discriminate|intros [? _]; discriminate]).
  destruct (lookup_attrs st n) as [a|]; cbn; [|split; [discriminate|intros (_ & a & ? & _); discriminate]]. rewrite negb_true_iff. split; [intros H; split; eauto|].
  intros (_ & b & [= <-] & H). exact H.
Qed.

Fixpoint scope_along (l : list nat) : option nat :=
  match l with [] => None | p :: l' => if is_transparent u st p then scope_along l' else Some p end.

Lemma scope_along_iff l p : scope_along l = Some p <->
  exists l1 l2, l = l1 ++ p :: l2 /\ ~ transparent u st p /\ forall q, In q l1 -> transparent u st q.
Proof.
  induction l as [|a l IH]; cbn [scope_along].
  - split; [discriminate|]. intros (l1 & l2 & E & _). destruct l1; discriminate.
  - destruct (is_transparent u st a) eqn:E.
    + rewrite IH. apply transparent_iff in E. split.
      * intros (l1 & l2 & -> & H1 & H2). exists (a :: l1), l2. split; [reflexivity|]. split; [exact H1|]. intros q [<-|H]; auto.
      * intros ([|x l1] & l2 & El & H1 & H2); injection El as <- ->; [contradiction|]. exists l1, l2. split; [reflexivity|]. split; [exact H1|]. intros q H; apply H2; right; exact H.
    + assert (~ transparent u st a) by (intros H; apply transparent_iff in H; congruence). split.
      * intros [= <-]. exists [], l. split; [reflexivity|]. split; [exact H|]. intros q [].
      * intros ([|x l1] & l2 & El & H1 & H2); injection El as <- ->; [reflexivity|]. exfalso. apply H, H2. left; reflexivity.
Qed.

Lemma scope_along_total l : kind u (u_root u) <> KNamespace -> path (edge g) (u_root u) l -> exists p, scope_along l = Some p.
Proof.
  intros Hr Hp. induction Hp as [|p c l Hp IH E]; cbn [scope_along].
  - destruct (is_transparent u st (u_root u)) eqn:E; [|eauto]. apply transparent_iff in E as [E _]. contradiction.
  - destruct (is_transparent u st c); [exact IH|eauto].
Qed.

Lemma scopes_spec : kind u (u_root u) <> KNamespace -> exists m, find_enclosing_scopes u st g = Some m /\
  (forall n, (exists v, dlookup m n = Some v) <-> reachable g (u_root u) n) /\
  dlookup m (u_root u) = Some None /\
  (forall n p l, path (edge g) (u_root u) (n :: p :: l) -> dlookup m n = Some (scope_along (p :: l)) /\ scope_along (p :: l) <> None).
Proof.
  intros Hr. unfold find_enclosing_scopes. rewrite (depth_first_walk g (u_root u) T).
  set (V := visited_paths (full_walk g (u_root u) (fun _ => true))).
  destruct (fold_opt_inv (scope_step u st) V
    (fun done m => forall n, (forall l, In (n :: l) done -> dlookup m n = Some (scope_along l)) /\ ((forall l, ~ In (n :: l) done) -> dlookup m n = None)) [])
    as (m & -> & Hm).
  - intros n. split; [intros l []|reflexivity].
  - intros l1 q l2 m E HI. assert (Hq : path (edge g) (u_root u) q). { apply (V_in g (u_root u) T (fun _ => true)). fold V. rewrite E. apply in_app_iff. cbn. auto. }
    destruct q as [|n above]; [inversion Hq|].
    assert (X : scope_step u st m (n :: above) = Some (dset n (scope_along above) m)).
    { unfold scope_step. destruct above as [|p above]; [reflexivity|]. cbn [scope_along]. destruct (is_transparent u st p) eqn:Et; [|reflexivity].
      assert (Hpar := V_parent g (u_root u) (fun _ => true) _ _ _ _ _ E). destruct (HI p) as [H1 _]. rewrite (H1 above Hpar).
      assert (Hpp : path (edge g) (u_root u) (p :: above)) by (inversion Hq; assumption).
      destruct above as [|p' above'].
      - exfalso. inversion Hpp; subst. apply transparent_iff in Et as [Et _]. contradiction.
      - assert (Hp2 : path (edge g) (u_root u) (p' :: above')) by (inversion Hpp; assumption).
        destruct (scope_along_total _ Hr Hp2) as (r & ->). reflexivity. }
    rewrite X. eexists. split; [reflexivity|]. intros j. rewrite dlookup_set. split.
    + intros l Hl. apply in_app_iff in Hl as [Hl|[Hl|[]]].
      * destruct (Nat.eqb j n) eqn:Ej; [|apply HI, Hl]. apply Nat.eqb_eq in Ej. subst j.
        exfalso. apply (V_fresh g (u_root u) T (fun _ => true) _ _ _ _ E l Hl).
      * injection Hl as <- <-. rewrite Nat.eqb_refl. reflexivity.
    + intros Hl. destruct (Nat.eqb j n) eqn:Ej.
      * apply Nat.eqb_eq in Ej. subst j. exfalso. apply (Hl above). apply in_app_iff. cbn. auto.
      * apply HI. intros l Hin. apply (Hl l). apply in_app_iff. auto.
  - exists m. split; [reflexivity|].
    assert (X : forall n l, path (edge g) (u_root u) (n :: l) -> dlookup m n = Some (scope_along l)).
    { intros n l Hp. apply Hm. apply (V_in g (u_root u) T (fun _ => true)). auto. }
    split; [|split].
    + intros n. split.
      * intros (v & Hv). destruct (Hm n) as [_ H]. unfold reachable.
        destruct (in_dec Nat.eq_dec n (map (fun p => hd 0 p) V)) as [Hin|Hin].
        -- apply in_map_iff in Hin as (q & Hq1 & Hq2). apply (V_in g (u_root u) T (fun _ => true)) in Hq2 as [Hq2 _]. destruct q as [|x q]; [inversion Hq2|]. cbn in Hq1. subst. eauto.
        -- exfalso. rewrite H in Hv; [discriminate|]. intros l Hl. apply Hin, in_map_iff. exists (n :: l). auto.
      * intros (l & Hp). rewrite (X n l Hp). eauto.
    + apply (X _ []). constructor.
    + intros n p l Hp. split; [apply X, Hp|]. inversion Hp; subst. destruct (scope_along_total (p :: l) Hr ltac:(assumption)) as (r & ->). discriminate.
Qed.
End Visibility.

(** ** Content *)
Lemma any_opt_spec {A} (f : A -> option bool) l : (forall a, In a l -> exists b, f a = Some b) ->
  exists b, any_opt f l = Some b /\ (b = true <-> exists a, In a l /\ f a = Some true).
Proof.
  induction l as [|a l IH]; intros H; cbn [any_opt].
  - exists false. split; [reflexivity|]. split; [discriminate|]. intros (a & [] & _).
  - destruct (H a (or_introl eq_refl)) as (b & Eb). rewrite Eb. destruct b.
    + exists true. split; [reflexivity|]. split; [|reflexivity]. intros _. exists a. cbn. auto.
    + destruct IH as (b & -> & Hb); [intros; apply H; right; assumption|]. exists b. split; [reflexivity|]. rewrite Hb. split.
      * intros (x & Hx & E). exists x. cbn. auto.
      * intros (x & [<-|Hx] & E); [congruence|]. eauto.
Qed.

Lemma is_tag_iff u n : is_tag u n = true <-> tag u n.
Proof. unfold is_tag, tag, is_tag_kind. destruct (kind u n); intuition congruence. Qed.

Section ContentProofs.
Context (u : unit) (st : storage) (found : nat -> list nat) (implicit : nat -> bool) (vis : dmap bool) (g : graph) (T : tree_like g (u_root u)).
Context (Hvis : forall n, reachable g (u_root u) n -> exists b, dlookup vis n = Some b).
Let visible := lookup_vis vis.

Lemma reachable_child n c : reachable g (u_root u) n -> edge g n c -> reachable g (u_root u) c.
Proof. intros (l & H) E. exists (n :: l). constructor; auto. Qed.

Lemma hidden_tag_spec n : reachable g (u_root u) n -> exists b, is_hidden_tag u vis n = Some b /\ (b = true <-> tag u n /\ visible n = false).
Proof.
  intros Hr. unfold is_hidden_tag, visible, lookup_vis. destruct (Hvis n Hr) as (b & Hb). rewrite Hb. destruct (is_tag u n) eqn:E; cbn [negb].
  - apply is_tag_iff in E. exists (negb b). split; [reflexivity|]. rewrite negb_true_iff. tauto.
  - exists false. split; [reflexivity|]. split; [discriminate|]. intros [H _]. apply is_tag_iff in H. congruence.
Qed.

Lemma contains_visible_spec n : reachable g (u_root u) n ->
  exists b, contains_visible u st found implicit vis g n = Some b /\ (b = true <-> shows u st found implicit visible g n).
Proof.
  intros Hr. unfold contains_visible.
  destruct (any_opt_spec (fun c => match dlookup vis c with None => None | Some b => Some (is_tag u c && b) end) (children g n)) as (b & -> & Hb).
  { intros c Hc. apply children_iff in Hc. destruct (Hvis c (reachable_child n c Hr Hc)) as (b & ->). eauto. }
  assert (H1 : b = true <-> exists c, edge g n c /\ tag u c /\ visible c = true).
  { rewrite Hb. split.
    - intros (c & Hc & E). apply children_iff in Hc. exists c. split; [exact Hc|]. unfold visible, lookup_vis. destruct (dlookup vis c) as [v|]; [|discriminate].
      injection E as E. apply andb_true_iff in E as [E1 E2]. apply is_tag_iff in E1. auto.
    - intros (c & Hc & Ht & Hv). exists c. rewrite children_iff. split; [exact Hc|]. apply is_tag_iff in Ht. rewrite Ht.
      unfold visible, lookup_vis in Hv. destruct (dlookup vis c) as [v|]; [|discriminate]. subst v. reflexivity. }
  unfold shows. destruct b.
  - exists true. split; [reflexivity|]. split; [|reflexivity]. intros _. left. apply H1. reflexivity.
  - destruct (Hvis n Hr) as (v & Hv). rewrite Hv. eexists. split; [reflexivity|]. rewrite existsb_exists.
    assert (Hvn : visible n = v) by (unfold visible, lookup_vis; rewrite Hv; reflexivity). rewrite Hvn.
    assert (X : forall d, match get_named u st d with Some a => match n_visible a with Some b => b | None => v end | None => v end = true <->
       explicit st d true \/ (forall w, ~ explicit st d w) /\ v = true).
    { intros d. setoid_rewrite (explicit_iff u). destruct (get_named u st d) as [a|].
      - destruct (n_visible a) as [w|] eqn:E.
        + split; [intros ->; left; eauto|]. intros [(x & [= <-] & H)|[H _]]; [congruence|]. exfalso. eapply H. eauto.
        + split; [intros ->; right; split; [|reflexivity]; intros w (x & [= <-] & H); congruence|]. intros [(x & [= <-] & H)|[_ H]]; [congruence|exact H].
      - split; [intros ->; right; split; [|reflexivity]; intros w (x & ? & H); congruence|]. intros [(x & ? & H)|[_ H]]; [congruence|exact H]. }
    split.
    + intros (d & Hd & E). apply andb_true_iff in E as [E1 E2]. apply negb_true_iff in E1. right. exists d. split; [exact Hd|]. split; [exact E1|]. apply X, E2.
    + intros [H|(d & Hd & Hi & H)]; [apply H1 in H; discriminate|]. exists d. split; [exact Hd|]. rewrite Hi. cbn [negb andb]. apply X, H.
Qed.

Lemma has_content_iff n : has_content u st found implicit visible g n <->
  shows u st found implicit visible g n \/ exists c, edge g n c /\ ~ (tag u c /\ visible c = false) /\ has_content u st found implicit visible g c.
Proof.
  unfold has_content. split.
  - intros (m & Hw & Hs). destruct Hw as [n|n c m E Hh Hw]; [auto|]. right. exists c. repeat split; auto. eauto.
  - intros [H|(c & E & Hh & m & Hw & Hs)]; [exists n; split; [constructor|exact H]|]. exists m. split; [|exact Hs]. econstructor; eauto.
Qed.

Lemma content_spec : exists ns, contexts_with_visible_decls u st found implicit vis g = Some ns /\
  forall n, In n ns <-> reachable g (u_root u) n /\ has_content u st found implicit visible g n.
Proof.
  unfold contexts_with_visible_decls. destruct (post_order_spec g (u_root u) T) as (po & -> & Hpo & Hch).
  destruct (fold_opt_inv (nonempty_step u st found implicit vis g) po
    (fun done r => forall n, In n r <-> In n done /\ has_content u st found implicit visible g n) []) as (r & -> & Hr).
  - intros n. cbn. intuition.
  - intros l1 n l2 r E HI. assert (Hn : reachable g (u_root u) n) by (apply Hpo; rewrite E; apply in_app_iff; cbn; auto).
    unfold nonempty_step, parent_of_nonempty.
    destruct (any_opt_spec (fun c => if mem c r then option_map negb (is_hidden_tag u vis c) else Some false) (children g n)) as (b & -> & Hb).
    { intros c Hc. apply children_iff in Hc. destruct (mem c r); [|eauto]. destruct (hidden_tag_spec c (reachable_child n c Hn Hc)) as (x & -> & _). cbn. eauto. }
    assert (Hb' : b = true <-> exists c, edge g n c /\ ~ (tag u c /\ visible c = false) /\ has_content u st found implicit visible g c).
    { rewrite Hb. split.
      - intros (c & Hc & Ex). apply children_iff in Hc. destruct (mem c r) eqn:Em; [|discriminate]. apply mem_iff, HI in Em as [_ Em].
        destruct (hidden_tag_spec c (reachable_child n c Hn Hc)) as (x & Ex' & Hx). rewrite Ex' in Ex. cbn in Ex. injection Ex as Ex. apply negb_true_iff in Ex.
        exists c. split; [exact Hc|]. split; [|exact Em]. intros H. apply Hx in H. congruence.
      - intros (c & Hc & Hh & Hcont). exists c. rewrite children_iff. split; [exact Hc|].
        assert (Em : mem c r = true). { apply mem_iff, HI. split; [|exact Hcont]. apply (Hch _ _ _ E c Hc). }
        rewrite Em. destruct (hidden_tag_spec c (reachable_child n c Hn Hc)) as (x & -> & Hx). cbn. f_equal. apply negb_true_iff.
        destruct x; [|reflexivity]. exfalso. apply Hh, Hx. reflexivity. }
    assert (Hadd : forall r', (forall m, In m r' <-> In m r \/ (m = n /\ has_content u st found implicit visible g n)) ->
      forall m, In m r' <-> In m (l1 ++ [n]) /\ has_content u st found implicit visible g m).
    { intros r' H m. rewrite H, HI, in_app_iff. cbn. split; [intros [[? ?]|[-> ?]]; auto|]. intros [[?|[<-|[]]] ?]; auto. }
    destruct b.
    + eexists. split; [reflexivity|]. apply Hadd. assert (Hcn : has_content u st found implicit visible g n) by (apply has_content_iff; right; apply Hb'; reflexivity).
      intros m. cbn. split; [intros [<-|?]; auto|]. intros [?|[-> _]]; auto.
    + destruct (contains_visible_spec n Hn) as (b & -> & Hb2). destruct b.
      * eexists. split; [reflexivity|]. apply Hadd. assert (Hcn : has_content u st found implicit visible g n) by (apply has_content_iff; left; apply Hb2; reflexivity).
        intros m. cbn. split; [intros [<-|?]; auto|]. intros [?|[-> _]]; auto.
      * eexists. split; [reflexivity|]. apply Hadd. intros m. split; [auto|]. intros [?|[-> Hcn]]; [assumption|]. exfalso.
        apply has_content_iff in Hcn as [Hcn|Hcn]; [apply Hb2 in Hcn|apply Hb' in Hcn]; discriminate.
  - exists r. split; [reflexivity|]. intros n. rewrite Hr, Hpo. reflexivity.
Qed.
End ContentProofs.

(** ** Namespaces for other modules *)
Section Hide.
Context (u : unit) (st : storage) (mname : str) (g : graph) (T : tree_like g (u_root u)).
Let fm := for_different_module u st mname.
Let w := walk g (fun _ => true).
Let step := hide_step u st mname.

Lemma foreign_iff n : fm n = true <-> foreign u st mname n.
Proof.
  unfold fm, for_different_module, foreign, get_namespace, get, is_namespace, kind. destruct (d_kind (u_decls u n)); try (split; [discriminate|intros [? _]; discriminate]).
  destruct (lookup_attrs st n) as [a|]; cbn [option_map]; [|split; [discriminate|intros (_ & a & ? & _); discriminate]].
  destruct (ns_only_expose_in (at_namespace a)) as [|x l] eqn:E.
  - split; [discriminate|]. intros (_ & b & [= <-] & H & _). congruence.
  - rewrite negb_true_iff. split.
    + intros H. split; [reflexivity|]. exists a. rewrite E. split; [reflexivity|]. split; [discriminate|]. intros Hin.
      assert (existsb (str_eqb mname) (x :: l) = true); [|congruence]. apply existsb_exists. exists mname. split; [exact Hin|apply str_eqb_refl].
    + intros (_ & b & [= <-] & _ & H). destruct (existsb (str_eqb mname) (x :: l)) eqn:Ex; [|reflexivity]. exfalso. apply H.
      apply existsb_exists in Ex as (y & Hy & Ey). apply str_eqb_iff in Ey. subst y. rewrite E. exact Hy.
Qed.

(** Everything visited is hidden. *)
Definition all_hidden (vs : list nat) (s s' : hstate) : Prop :=
  h_dominator s' = h_dominator s /\ (forall m, In m (h_contexts s') <-> In m (h_contexts s) /\ ~ In m vs) /\
  (forall m, dlookup (h_visible s') m = if mem m vs then Some false else dlookup (h_visible s) m).

Lemma all_hidden_app a b s0 s1 s2 : all_hidden a s0 s1 -> all_hidden b s1 s2 -> all_hidden (a ++ b) s0 s2.
Proof.
  intros (A1 & A2 & A3) (B1 & B2 & B3). split; [congruence|]. split.
  - intros m. rewrite B2, A2, in_app_iff. tauto.
  - intros m. rewrite B3, A3. unfold mem. rewrite existsb_app. destruct (existsb (Nat.eqb m) a), (existsb (Nat.eqb m) b); reflexivity.
Qed.

Lemma hide_dominated es d : (forall e, In e es -> e <> Visit []) -> forall s, h_dominator s = Some d -> ~ In (Completed d) es -> all_hidden (visited_nodes es) s (fold_left step es s).
Proof.
  induction es as [|e es IH]; intros Hne s Hd Hc; cbn [fold_left].
  - split; [reflexivity|]. cbn. split; [intros; tauto|reflexivity].
  - change (e :: es) with ([e] ++ es). rewrite visited_nodes_app.
    assert (Hne' : forall e, In e es -> e <> Visit []) by (intros; apply Hne; right; assumption).
    assert (Hc' : ~ In (Completed d) es) by (intros H; apply Hc; right; exact H).
    destruct e as [[|n l]|n].
    + exfalso. apply (Hne (Visit [])); [left; reflexivity|reflexivity].
    + apply (all_hidden_app _ _ _ (step s (Visit (n :: l)))); [|apply IH; auto].
      * unfold step, hide_step. rewrite Hd. split; [cbn; auto|]. split.
        -- intros m. cbn. rewrite filter_In, negb_true_iff, Nat.eqb_neq. intuition.
        -- intros m. cbn. destruct (Nat.eqb m n); reflexivity.
      * unfold step, hide_step. rewrite Hd. reflexivity.
    + assert (Es : step s (Completed n) = s).
      { unfold step, hide_step. rewrite Hd. destruct (Nat.eqb d n) eqn:E; [|reflexivity]. apply Nat.eqb_eq in E. subst. exfalso. apply Hc. left; reflexivity. }
      rewrite Es. apply IH; auto.
Qed.

(** Nodes visited below a foreign namespace, the context of the walk not counting. *)
Definition hidden_in (es : list event) (l : list nat) (m : nat) : Prop :=
  exists q, In (Visit (m :: q)) es /\ exists q', m :: q = q' ++ l /\ exists x, In x q' /\ foreign u st mname x.

Definition some_hidden (H : nat -> Prop) (s s' : hstate) : Prop :=
  h_dominator s' = h_dominator s /\ (forall m, In m (h_contexts s') <-> In m (h_contexts s) /\ ~ H m) /\
  (forall m, (H m -> dlookup (h_visible s') m = Some false) /\ (~ H m -> dlookup (h_visible s') m = dlookup (h_visible s) m)).

Lemma some_hidden_ext H H' s s' : (forall m, H m <-> H' m) -> some_hidden H s s' -> some_hidden H' s s'.
Proof.
  intros E (A & B & C). split; [exact A|]. split; [intros m; rewrite B, E; reflexivity|]. intros m. rewrite <- (E m). apply C.
Qed.

Lemma some_hidden_app H1 H2 s0 s1 s2 : (forall m, H1 m \/ ~ H1 m) -> (forall m, H2 m \/ ~ H2 m) -> some_hidden H1 s0 s1 -> some_hidden H2 s1 s2 -> some_hidden (fun m => H1 m \/ H2 m) s0 s2.
Proof.
  intros D1 D2 (A1 & B1 & C1) (A2 & B2 & C2). split; [congruence|]. split.
  - intros m. rewrite B2, B1. tauto.
  - intros m. destruct (C1 m) as [X1 Y1], (C2 m) as [X2 Y2]. split.
    + intros Hm. destruct (D2 m) as [K|K]; [auto|]. rewrite Y2 by exact K. destruct Hm; [auto|contradiction].
    + intros Hm. rewrite Y2, Y1 by tauto. reflexivity.
Qed.

Lemma foreign_dec n : foreign u st mname n \/ ~ foreign u st mname n.
Proof. rewrite <- foreign_iff. destruct (fm n); [left; reflexivity|right; discriminate]. Qed.

Lemma exists_foreign_dec l : (exists x, In x l /\ foreign u st mname x) \/ ~ (exists x, In x l /\ foreign u st mname x).
Proof.
  induction l as [|a l [(x & Hx & F)|H]]; [right; intros (x & [] & _)|left; exists x; cbn; auto|].
  destruct (foreign_dec a) as [F|F]; [left; exists a; cbn; auto|]. right. intros (x & [<-|Hx] & Fx); [contradiction|]. apply H. eauto.
Qed.

Lemma list_exists_dec {A} (Q : A -> Prop) l : (forall a, Q a \/ ~ Q a) -> (exists a, In a l /\ Q a) \/ ~ (exists a, In a l /\ Q a).
Proof.
  intros D. induction l as [|a l [(x & Hx & F)|H]]; [right; intros (x & [] & _)|left; exists x; cbn; auto|].
  destruct (D a) as [F|F]; [left; exists a; cbn; auto|]. right. intros (x & [<-|Hx] & Fx); [contradiction|]. apply H. eauto.
Qed.

Lemma hidden_in_dec es l m : hidden_in es l m \/ ~ hidden_in es l m.
Proof.
  assert (D := list_exists_dec (fun e => exists q, e = Visit (m :: q) /\ exists q', m :: q = q' ++ l /\ exists x, In x q' /\ foreign u st mname x) es).
  destruct D as [(e & He & q & -> & H)|H].
  - intros [[|a q]|n].
    + right. intros (q & ? & _). discriminate.
    + destruct (Nat.eq_dec a m) as [->|Hn]; [|right; intros (q' & E & _); injection E as E; congruence].
      destruct (list_eq_dec Nat.eq_dec (skipn (length (m :: q) - length l) (m :: q)) l) as [E|E].
      * destruct (exists_foreign_dec (firstn (length (m :: q) - length l) (m :: q))) as [(x & Hx & F)|F].
        -- left. exists q. split; [reflexivity|]. exists (firstn (length (m :: q) - length l) (m :: q)). split; [transitivity (firstn (length (m :: q) - length l) (m :: q) ++ skipn (length (m :: q) - length l) (m :: q)); [symmetry; apply firstn_skipn|rewrite E; reflexivity]|eauto].
        -- right. intros (q0 & [= <-] & q' & E' & x & Hx & Fx). apply F. exists x. split; [|exact Fx].
           rewrite E', app_length. replace (length q' + length l - length l) with (length q') by lia. rewrite firstn_app, firstn_all, Nat.sub_diag. cbn. rewrite app_nil_r. exact Hx.
      * right. intros (q0 & [= <-] & q' & E' & _). apply E. rewrite E', app_length. replace (length q' + length l - length l) with (length q') by lia.
        rewrite skipn_app, skipn_all, Nat.sub_diag. reflexivity.
    + right. intros (q & ? & _). discriminate.
  - left. exists q. auto.
  - right. intros (q & Hq & X). apply H. exists (Visit (m :: q)). split; [exact Hq|]. eauto.
Qed.

Lemma walk_not_empty k : forall l n e, In e (w k l n) -> e <> Visit [].
Proof.
  induction k as [|k IH]; intros l n e; unfold w; cbn [walk]; intros [<-|H]; try discriminate; try contradiction.
  apply in_app_iff in H as [H|[<-|[]]]; [|discriminate]. apply in_flat_map in H as (c & _ & H). eapply IH; exact H.
Qed.

Lemma hide_walk k : forall l n s, path (edge g) (u_root u) (n :: l) -> length (g_nodes g) <= k + length l -> h_dominator s = None ->
  some_hidden (hidden_in (w k l n) l) s (fold_left step (w k l n) s).
Proof.
  induction k as [|k IH]; intros l n s Hp Hk Hd.
  - destruct (sufficient g (u_root u) T 0 l n Hp Hk); discriminate.
  - assert (Hnd := walk_nodup g (u_root u) T (fun _ => true) (S k) l n Hp). fold w in Hnd.
    assert (Hpaths := walk_paths g (u_root u) (fun _ => true) (S k) l n). fold w in Hpaths.
    destruct (fm n) eqn:Fn.
    + (* a foreign namespace *)
      assert (Ew : w (S k) l n = Visit (n :: l) :: flat_map (w k (n :: l)) (children g n) ++ [Completed n]) by reflexivity.
      assert (Hall : forall m, hidden_in (w (S k) l n) l m <-> In m (visited_nodes (w (S k) l n))).
      { intros m. split.
        - intros (q & Hq & _). unfold visited_nodes. apply in_map_iff. exists (m :: q). rewrite visited_in. auto.
        - intros Hm. apply in_visited_nodes in Hm as (q & Hq & E). destruct (Hpaths q Hp Hq) as [P1 (q' & ->)].
          destruct q' as [|a q']; cbn in E; subst.
          + exists l. split; [exact Hq|]. exists [m]. split; [reflexivity|]. exists m. split; [left; reflexivity|apply foreign_iff, Fn].
          + exists (q' ++ n :: l). split; [exact Hq|]. exists (m :: q' ++ [n]). cbn. rewrite <- app_assoc. split; [reflexivity|].
            exists n. split; [right; apply in_app_iff; cbn; auto|apply foreign_iff, Fn]. }
      apply (some_hidden_ext (fun m => In m (visited_nodes (w (S k) l n)))). { intros m. symmetry. apply Hall. }
      rewrite Ew in *. cbn [fold_left]. rewrite fold_left_app. cbn [fold_left].
      set (s1 := step s (Visit (n :: l))).
      assert (E1 : s1 = mkHide (Some n) (filter (fun i => negb (Nat.eqb i n)) (h_contexts s)) (dset n false (h_visible s))).
      { unfold s1, step, hide_step. rewrite Hd. fold fm. rewrite Fn. reflexivity. }
      assert (Hsub : all_hidden (visited_nodes (flat_map (w k (n :: l)) (children g n))) s1 (fold_left step (flat_map (w k (n :: l)) (children g n)) s1)).
      { apply hide_dominated with (d := n).
        - intros e He. apply in_flat_map in He as (c & _ & He). apply (walk_not_empty _ _ _ _ He).
        - rewrite E1. reflexivity.
        - intros Hcm. apply in_flat_map in Hcm as (c & Hc & Hcm). apply completed_in, walk_completed in Hcm.
          change (visited_nodes (Visit (n :: l) :: ?x)) with (n :: visited_nodes x) in Hnd. inversion Hnd as [|? ? Hn0 _]; subst. apply Hn0.
          rewrite visited_nodes_app. apply in_app_iff. left. apply in_visited_nodes in Hcm as (q & Q & E). unfold visited_nodes. apply in_map_iff.
          exists q. rewrite visited_in. split; [exact E|]. apply in_flat_map. eauto. }
      set (s2 := fold_left step (flat_map (w k (n :: l)) (children g n)) s1) in *.
      destruct Hsub as (A1 & A2 & A3). rewrite E1 in A1, A2, A3. cbn [h_dominator h_contexts h_visible] in A1, A2, A3.
      assert (E3 : step s2 (Completed n) = mkHide None (h_contexts s2) (h_visible s2)).
      { unfold step, hide_step. rewrite A1, Nat.eqb_refl. reflexivity. }
      rewrite E3. unfold some_hidden. cbn [h_dominator h_contexts h_visible].
      change (visited_nodes (Visit (n :: l) :: ?x)) with (n :: visited_nodes x). rewrite visited_nodes_app. change (visited_nodes [Completed n]) with (@nil nat). rewrite app_nil_r.
      split; [auto|]. split.
      * intros m. rewrite A2, filter_In, negb_true_iff, Nat.eqb_neq. cbn. intuition.
      * intros m. rewrite A3. rewrite dlookup_set. cbn [In]. split.
        -- intros [<-|Hm]; [rewrite Nat.eqb_refl; destruct (mem n _); reflexivity|]. apply mem_iff in Hm. rewrite Hm. reflexivity.
        -- intros Hm. destruct (mem m _) eqn:Em; [apply mem_iff in Em; tauto|]. destruct (Nat.eqb m n) eqn:En; [apply Nat.eqb_eq in En; subst; tauto|reflexivity].
    + (* not foreign: the children *)
      assert (Ew : w (S k) l n = Visit (n :: l) :: flat_map (w k (n :: l)) (children g n) ++ [Completed n]) by reflexivity.
      assert (Es : step s (Visit (n :: l)) = s). { unfold step, hide_step. rewrite Hd. fold fm. rewrite Fn. reflexivity. }
      assert (Hcs : forall cs s, (forall c, In c cs -> edge g n c) -> h_dominator s = None ->
        some_hidden (fun m => exists c, In c cs /\ hidden_in (w k (n :: l) c) (n :: l) m) s (fold_left step (flat_map (w k (n :: l)) cs) s)).
      { induction cs as [|c cs IHcs]; intros s0 Hcs Hd0; cbn [flat_map].
        - cbn. split; [reflexivity|]. split; [intros m; split; [intros; split; [assumption|intros (c & [] & _)]|tauto]|]. intros m. split; [intros (c & [] & _)|reflexivity].
        - rewrite fold_left_app. assert (S1 := IH (n :: l) c s0). specialize (S1 ltac:(constructor; [exact Hp|apply Hcs; left; reflexivity]) ltac:(cbn; lia) Hd0).
          assert (S2 := IHcs (fold_left step (w k (n :: l) c) s0) (fun x Hx => Hcs x (or_intror Hx))).
          specialize (S2 ltac:(destruct S1 as (S1 & _); rewrite S1; exact Hd0)).
          assert (S3 := some_hidden_app _ _ _ _ _ (hidden_in_dec _ _) (fun m => list_exists_dec (fun c => hidden_in (w k (n :: l) c) (n :: l) m) cs (fun c => hidden_in_dec _ _ m)) S1 S2).
          revert S3. apply some_hidden_ext. intros m. cbn. split.
          + intros [H|(d & Hd1 & H)]; [exists c|exists d]; auto.
          + intros (d & [<-|Hd1] & H); [left; exact H|right; eauto]. }
      assert (Hf : forall m, hidden_in (w (S k) l n) l m <-> exists c, In c (children g n) /\ hidden_in (w k (n :: l) c) (n :: l) m).
      { intros m. split.
        - intros (q & Hq & q' & Eq & x & Hx & Fx). rewrite Ew in Hq. destruct Hq as [Hq|Hq].
          + injection Hq as <- <-. change (n :: l) with ([n] ++ l) in Eq. apply app_inv_tail in Eq. subst q'. destruct Hx as [<-|[]]. apply foreign_iff in Fx. congruence.
          + apply in_app_iff in Hq as [Hq|[Hq|[]]]; [|discriminate]. apply in_flat_map in Hq as (c & Hc & Hq). exists c. split; [exact Hc|].
            exists q. split; [exact Hq|].
            assert (Hpc : path (edge g) (u_root u) (c :: n :: l)) by (constructor; [exact Hp|apply children_iff, Hc]).
            destruct (walk_paths g (u_root u) (fun _ => true) k (n :: l) c (m :: q) Hpc Hq) as [_ (r & Er)].
            exists (r ++ [c]). rewrite <- app_assoc. split; [exact Er|]. exists x. split; [|exact Fx].
            rewrite Er in Eq. change (r ++ c :: n :: l) with (r ++ [c] ++ [n] ++ l) in Eq. rewrite !app_assoc in Eq. apply app_inv_tail in Eq. subst q'.
            apply in_app_iff in Hx as [Hx|[<-|[]]]; [exact Hx|]. apply foreign_iff in Fx. congruence.
        - intros (c & Hc & q & Hq & q' & Eq & x & Hx & Fx). exists q. rewrite Ew. split.
          + right. apply in_app_iff. left. apply in_flat_map. eauto.
          + exists (q' ++ [n]). rewrite <- app_assoc. split; [exact Eq|]. exists x. split; [apply in_app_iff; auto|exact Fx]. }
      apply (some_hidden_ext _ _ _ _ (fun m => iff_sym (Hf m))). rewrite Ew. cbn [fold_left]. rewrite Es, fold_left_app. cbn [fold_left].
      assert (S1 := Hcs (children g n) s (fun c Hc => proj1 (children_iff g n c) Hc) Hd).
      set (s2 := fold_left step (flat_map (w k (n :: l)) (children g n)) s) in *.
      assert (E2 : step s2 (Completed n) = s2). { unfold step, hide_step. destruct S1 as (S1 & _). rewrite S1, Hd. reflexivity. }
      rewrite E2. exact S1.
Qed.

Lemma hide_spec contexts vis : exists contexts' vis', hide_namespaces u st g mname contexts vis = Some (contexts', vis') /\
  (forall n l, path (edge g) (u_root u) (n :: l) ->
     (In n contexts' <-> In n contexts /\ ~ exists m, In m (n :: l) /\ foreign u st mname m) /\
     ((exists m, In m (n :: l) /\ foreign u st mname m) -> dlookup vis' n = Some false) /\
     (~ (exists m, In m (n :: l) /\ foreign u st mname m) -> dlookup vis' n = dlookup vis n)) /\
  (forall n, ~ reachable g (u_root u) n -> (In n contexts' <-> In n contexts) /\ dlookup vis' n = dlookup vis n).
Proof.
  unfold hide_namespaces. rewrite (depth_first_walk g (u_root u) T). eexists _, _. split; [reflexivity|].
  assert (S := hide_walk (length (g_nodes g)) [] (u_root u) (mkHide None contexts vis) (path_root _ _) ltac:(cbn; lia) eq_refl).
  unfold full_walk. fold w. fold step. set (s' := fold_left step (w (length (g_nodes g)) [] (u_root u)) (mkHide None contexts vis)) in *.
  destruct S as (_ & A & B). cbn [h_contexts h_visible] in A, B.
  assert (Hh : forall n l, path (edge g) (u_root u) (n :: l) -> (hidden_in (w (length (g_nodes g)) [] (u_root u)) [] n <-> exists m, In m (n :: l) /\ foreign u st mname m)).
  { intros n l Hp. split.
    - intros (q & Hq & q' & E & x & Hx & Fx). rewrite app_nil_r in E. subst q'. apply full_walk_paths in Hq. rewrite (path_unique g (u_root u) T _ _ _ Hq Hp) in Hx. eauto.
    - intros (m & Hm & F). exists l. split; [apply (full_walk_visits g (u_root u) T (fun _ => true)); auto|]. exists (n :: l). rewrite app_nil_r. eauto. }
  split.
  - intros n l Hp. rewrite <- (Hh n l Hp). split; [apply A|apply B].
  - intros n Hn. assert (H : ~ hidden_in (w (length (g_nodes g)) [] (u_root u)) [] n).
    { intros (q & Hq & _). apply Hn. apply full_walk_paths in Hq. exists q. exact Hq. }
    split; [rewrite A; tauto|apply B, H].
Qed.
End Hide.
