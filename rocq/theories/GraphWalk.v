(** * Proofs about depth-first traversal *)
From Verif Require Import Base ParserModel AnnotModel AnnotSpec AnnotProofs CollectModel CollectSpec CollectProofs GraphModel GraphSpec.

Lemma mem_iff i l : mem i l = true <-> In i l.
Proof.
  unfold mem. rewrite existsb_exists. split; [intros (x & Hx & E); apply Nat.eqb_eq in E; subst; exact Hx|].
  intros H. exists i. split; [exact H|apply Nat.eqb_refl].
Qed.
Lemma mem_false i l : mem i l = false <-> ~ In i l.
Proof. rewrite <- mem_iff. destruct (mem i l); split; congruence || (intros H; exfalso; apply H; reflexivity) || auto. Qed.

Lemma children_iff g p c : In c (children g p) <-> edge g p c.
Proof.
  unfold children, edge. rewrite in_map_iff. split.
  - intros ([q d] & <- & H). apply filter_In in H as [H E]. apply Nat.eqb_eq in E. cbn in *. subst. exact H.
  - intros H. exists (p, c). split; [reflexivity|]. apply filter_In. split; [exact H|apply Nat.eqb_refl].
Qed.

Lemma nodup_filter_snd (f : nat * nat -> bool) l : NoDup (map snd l) -> NoDup (map snd (filter f l)).
Proof.
  induction l as [|[p c] l IH]; cbn; [constructor|]. intros H. inversion H as [|? ? Hn Hd]; subst.
  destruct (f (p, c)); cbn; [|auto]. constructor; [|auto]. intros Hin. apply Hn. apply in_map_iff in Hin as ([q d] & E & Hin).
  apply filter_In in Hin as [Hin _]. apply in_map_iff. exists (q, d). auto.
Qed.
Lemma children_nodup g root n : tree_like g root -> NoDup (children g n).
Proof. intros H. apply nodup_filter_snd, (tl_parents _ _ H). Qed.

Lemma edge_parent_unique g root p q c : tree_like g root -> edge g p c -> edge g q c -> p = q.
Proof.
  intros H. assert (Hn := tl_parents _ _ H). unfold edge. clear H. induction (g_edges g) as [|[a b] l IH]; [contradiction|].
  cbn in *. inversion Hn as [|? ? Hnot Hd]; subst. intros [E|E] [F|F].
  - congruence.
  - injection E as <- <-. exfalso. apply Hnot. apply in_map_iff. exists (q, b). auto.
  - injection F as <- <-. exfalso. apply Hnot. apply in_map_iff. exists (p, b). auto.
  - auto.
Qed.

Section Paths.
Context (g : graph) (root : nat) (T : tree_like g root).

Lemma path_unique n l l' : path (edge g) root (n :: l) -> path (edge g) root (n :: l') -> l = l'.
Proof.
  revert n l'. induction l as [|p l IH]; intros n l' H H'.
  - inversion H; subst. inversion H' as [|? ? ? ? E]; subst; [reflexivity|].
    exfalso. apply (tl_root _ _ T). apply in_map_iff. eexists. split; [|exact E]. reflexivity.
  - inversion H as [|? ? ? Hp E]; subst. inversion H' as [|q ? l'' Hq F]; subst.
    + exfalso. apply (tl_root _ _ T). apply in_map_iff. eexists. split; [|exact E]. reflexivity.
    + assert (p = q) as <- by (eapply edge_parent_unique; eauto). f_equal. eapply IH; eauto.
Qed.

Lemma path_suffix l1 n l2 : path (edge g) root (l1 ++ n :: l2) -> path (edge g) root (n :: l2).
Proof.
  induction l1 as [|a l1 IH]; cbn; [auto|]. intros H. apply IH. inversion H as [|? ? ? Hp E He]; subst.
  - destruct l1; discriminate.
  - destruct l1; cbn in *; congruence.
Qed.

Lemma path_nodup l : path (edge g) root l -> NoDup l.
Proof.
  intros H. induction H as [|p c l Hp IH E]; [repeat constructor; auto|].
  constructor; [|exact IH]. intros Hin. apply in_split in Hin as (l1 & l2 & El).
  assert (H1 : path (edge g) root (c :: p :: l)) by (constructor; auto).
  assert (H2 : path (edge g) root (c :: l2)).
  { rewrite El in Hp. apply (path_suffix _ _ _ Hp). }
  assert (E2 := path_unique _ _ _ H1 H2). rewrite El in E2. apply (f_equal (@length nat)) in E2. rewrite app_length in E2. cbn in E2. lia.
Qed.

Lemma path_nodes l : path (edge g) root l -> incl l (g_nodes g).
Proof.
  intros H. induction H as [|p c l Hp IH E]; intros x [<-|Hx]; try contradiction.
  - apply (tl_root_node _ _ T).
  - apply (tl_ends _ _ T p c E).
  - apply IH, Hx.
Qed.

Lemma path_length l : path (edge g) root l -> length l <= length (g_nodes g).
Proof. intros H. apply NoDup_incl_length; [apply path_nodup, H|apply path_nodes, H]. Qed.

Lemma path_nonempty l : path (edge g) root l -> exists n l', l = n :: l'.
Proof. intros H; inversion H; eauto. Qed.

Lemma path_last l : path (edge g) root l -> last l root = root.
Proof. intros H. induction H as [|p c l Hp IH E]; [reflexivity|]. cbn [last]. exact IH. Qed.

(** ** The traversal as recursion over the tree *)
Context (descend : nat -> bool).

Fixpoint walk (k : nat) (l : list nat) (n : nat) {struct k} : list event :=
  Visit (n :: l) ::
  match k with
  | O => []
  | S k' => if descend n then flat_map (walk k' (n :: l)) (children g n) ++ [Completed n] else []
  end.

Definition visited_nodes (es : list event) : list nat := map (fun p => hd 0 p) (visited_paths es).

Lemma visited_paths_app a b : visited_paths (a ++ b) = visited_paths a ++ visited_paths b.
Proof. apply flat_map_app. Qed.
Lemma visited_nodes_app a b : visited_nodes (a ++ b) = visited_nodes a ++ visited_nodes b.
Proof. unfold visited_nodes. rewrite visited_paths_app, map_app. reflexivity. Qed.
Lemma completed_nodes_app a b : completed_nodes (a ++ b) = completed_nodes a ++ completed_nodes b.
Proof. apply flat_map_app. Qed.
Lemma visited_in es p : In p (visited_paths es) <-> In (Visit p) es.
Proof.
  unfold visited_paths. rewrite in_flat_map. split.
  - intros (e & He & Hp). destruct e; cbn in Hp; [destruct Hp as [<-|[]]; exact He|contradiction].
  - intros H. exists (Visit p). cbn. auto.
Qed.
Lemma completed_in es n : In n (completed_nodes es) <-> In (Completed n) es.
Proof.
  unfold completed_nodes. rewrite in_flat_map. split.
  - intros (e & He & Hp). destruct e; cbn in Hp; [contradiction|destruct Hp as [<-|[]]; exact He].
  - intros H. exists (Completed n). cbn. auto.
Qed.

(** Visited paths extend the current one. *)
Lemma walk_paths k : forall l n q, path (edge g) root (n :: l) -> In (Visit q) (walk k l n) ->
  path (edge g) root q /\ exists q', q = q' ++ n :: l.
Proof.
  induction k as [|k IH]; intros l n q Hp; cbn [walk]; intros [E|Hq].
  - injection E as <-. split; [exact Hp|exists []; reflexivity].
  - contradiction.
  - injection E as <-. split; [exact Hp|exists []; reflexivity].
  - destruct (descend n); [|contradiction]. apply in_app_iff in Hq as [Hq|[Hq|[]]]; [|discriminate].
    apply in_flat_map in Hq as (c & Hc & Hq). apply children_iff in Hc.
    destruct (IH (n :: l) c q) as [H1 (q' & ->)]; [constructor; auto|exact Hq|]. split; [exact H1|].
    exists (q' ++ [c]). rewrite <- app_assoc. reflexivity.
Qed.

(** Visited paths: all of the way down only [descend]ed nodes. *)
Lemma walk_visits k : forall l n q', path (edge g) root (n :: l) -> path (edge g) root (q' ++ n :: l) ->
  length (q' ++ n :: l) <= k + S (length l) ->
  (In (Visit (q' ++ n :: l)) (walk k l n) <-> forall m, In m (tl (q' ++ [n])) -> descend m = true).
Proof.
  induction k as [|k IH]; intros l n q' Hp Hq Hk.
  - rewrite app_length in Hk. cbn in Hk. assert (q' = []) by (destruct q'; cbn in Hk; [reflexivity|lia]). subst q'. cbn. intuition.
  - destruct q' as [|a q'] using rev_ind.
    { cbn. intuition. }
    clear IHq'. rewrite <- app_assoc in *. cbn [app] in *.
    assert (Hac : path (edge g) root (a :: n :: l)) by (apply path_suffix in Hq; exact Hq).
    assert (He : edge g n a) by (inversion Hac; subst; assumption).
    cbn [walk]. split.
    + intros [E|Hin]. { injection E as E. apply (f_equal (@length nat)) in E. rewrite app_length in E. cbn in E. lia. }
      destruct (descend n) eqn:Dn; [|contradiction]. apply in_app_iff in Hin as [Hin|[Hin|[]]]; [|discriminate].
      apply in_flat_map in Hin as (c & Hc & Hin).
      assert (Hpc : path (edge g) root (c :: n :: l)) by (constructor; [exact Hp|apply children_iff, Hc]).
      destruct (walk_paths k (n :: l) c _ Hpc Hin) as [_ (q'' & E)].
      assert (c = a).
      { change (q' ++ a :: n :: l) with (q' ++ [a] ++ n :: l) in E. change (q'' ++ c :: n :: l) with (q'' ++ [c] ++ n :: l) in E.
        rewrite !app_assoc in E. apply app_inv_tail in E. apply app_inj_tail in E as [_ ->]. reflexivity. }
      subst c. assert (Hin' := proj1 (IH (n :: l) a q' Hac Hq ltac:(cbn in *; lia)) Hin). clear Hin. rename Hin' into Hin.
      intros m Hm. destruct q' as [|b q']; cbn in Hm.
      * destruct Hm as [<-|[]]. exact Dn.
      * rewrite <- app_assoc in Hm. apply in_app_iff in Hm as [Hm|Hm]; [apply Hin; cbn; apply in_app_iff; auto|].
        cbn in Hm. destruct Hm as [<-|[<-|[]]]; [apply Hin; cbn; apply in_app_iff; cbn; auto|exact Dn].
    + intros Hd. right. assert (Dn : descend n = true).
      { apply Hd. destruct q'; cbn; [auto|]. rewrite <- app_assoc. apply in_app_iff. cbn. auto. }
      rewrite Dn. apply in_app_iff. left. apply in_flat_map. exists a. split; [apply children_iff, He|].
      apply (IH (n :: l) a q'); [exact Hac|exact Hq|cbn in *; lia|].
      intros m Hm. apply Hd. destruct q' as [|b q']; cbn in *; [contradiction|].
      rewrite <- app_assoc. apply in_app_iff in Hm as [Hm|Hm]; apply in_app_iff; cbn in *; tauto.
Qed.

Lemma in_visited_nodes es m : In m (visited_nodes es) -> exists q, In (Visit q) es /\ hd 0 q = m.
Proof. unfold visited_nodes. rewrite in_map_iff. intros (q & E & H). apply visited_in in H. eauto. Qed.

(** Nodes are visited once. *)
Lemma walk_nodup k : forall l n, path (edge g) root (n :: l) -> NoDup (visited_nodes (walk k l n)).
Proof.
  induction k as [|k IH]; intros l n Hp; cbn [walk].
  - cbn. repeat constructor. auto.
  - change (Visit (n :: l) :: ?x) with ([Visit (n :: l)] ++ x). rewrite visited_nodes_app. cbn [visited_nodes visited_paths flat_map map hd app].
    destruct (descend n); [|cbn; repeat constructor; auto].
    rewrite visited_nodes_app. replace (visited_nodes [Completed n]) with (@nil nat) by reflexivity. rewrite app_nil_r.
    assert (Hd : forall c m, edge g n c -> In m (visited_nodes (walk k (n :: l) c)) -> exists q', path (edge g) root (m :: q') /\ exists q'', m :: q' = q'' ++ c :: n :: l).
    { intros c m Hc Hm. apply in_visited_nodes in Hm as (q & Hq & <-).
      destruct (walk_paths k (n :: l) c q) as [H1 (q'' & E)]; [constructor; auto|exact Hq|].
      destruct q as [|a q]; [inversion H1|]. cbn. eauto. }
    constructor.
    + intros Hn. unfold visited_nodes in Hn. apply in_map_iff in Hn as (q & E & Hq). apply visited_in in Hq.
      apply in_flat_map in Hq as (c & Hc & Hq). apply children_iff in Hc.
      destruct (Hd c n Hc) as (q' & H1 & q'' & H2).
      { unfold visited_nodes. apply in_map_iff. exists q. rewrite visited_in. auto. }
      assert (E' := path_unique _ _ _ H1 Hp). subst q'. apply (f_equal (@length nat)) in H2. rewrite app_length in H2. cbn in H2. lia.
    + assert (Hcs := children_nodup g root n T). assert (Hin : forall c, In c (children g n) -> edge g n c) by (intros c; apply children_iff).
      induction (children g n) as [|c cs IHcs]; [constructor|]. cbn [flat_map]. rewrite visited_nodes_app.
      inversion Hcs as [|? ? Hc Hcs']; subst.
      assert (A : NoDup (visited_nodes (walk k (n :: l) c))). { apply IH. constructor; [exact Hp|apply Hin; left; reflexivity]. }
      assert (B : NoDup (visited_nodes (flat_map (walk k (n :: l)) cs))). { apply IHcs; [exact Hcs'|]. intros; apply Hin; right; assumption. }
      assert (D : forall m, In m (visited_nodes (walk k (n :: l) c)) -> ~ In m (visited_nodes (flat_map (walk k (n :: l)) cs))).
      { intros m H1 H2. unfold visited_nodes in H2. apply in_map_iff in H2 as (q & E & Hq). apply visited_in in Hq.
        apply in_flat_map in Hq as (c' & Hc' & Hq).
        destruct (Hd c m) as (q1 & P1 & r1 & E1); [apply Hin; left; reflexivity|exact H1|].
        destruct (Hd c' m) as (q2 & P2 & r2 & E2); [apply Hin; right; exact Hc'| |].
        { unfold visited_nodes. apply in_map_iff. exists q. rewrite visited_in. auto. }
        assert (q1 = q2) by (eapply path_unique; eauto). subst q2. rewrite E1 in E2.
        change (r1 ++ c :: n :: l) with (r1 ++ [c] ++ n :: l) in E2. change (r2 ++ c' :: n :: l) with (r2 ++ [c'] ++ n :: l) in E2.
        rewrite !app_assoc in E2. apply app_inv_tail in E2. apply app_inj_tail in E2 as [_ <-]. contradiction. }
      revert A B D. generalize (visited_nodes (walk k (n :: l) c)) (visited_nodes (flat_map (walk k (n :: l)) cs)).
      intros x y. induction x as [|a x IHx]; cbn; [auto|]. intros A B D. inversion A; subst. constructor.
      * rewrite in_app_iff. intros [?|?]; [contradiction|]. apply (D a); auto.
      * apply IHx; auto.
Qed.

(** The machine performs the walk: every step emits one event. *)
Lemma df_children k : forall n cs stack visited f,
  path (edge g) root (n :: map fst stack) -> NoDup cs -> (forall c, In c cs -> edge g n c) ->
  length (g_nodes g) <= k + S (length stack) ->
  (forall c m, In c cs -> In m (visited_nodes (walk k (n :: map fst stack) c)) -> ~ In m visited) ->
  let es := flat_map (walk k (n :: map fst stack)) cs ++ [Completed n] in
  df (length es + f) g descend visited ((n, cs) :: stack) = option_map (app es) (df f g descend (rev (visited_nodes es) ++ visited) stack).
Proof.
  assert (Hmid : forall m q es, In (Visit q) es -> hd 0 q = m -> In m (visited_nodes es)).
  { intros m q es Hq E. unfold visited_nodes. apply in_map_iff. exists q. rewrite visited_in. auto. }
  induction k as [|k IH]; intros n cs; induction cs as [|c cs IHcs]; intros stack visited f Hp Hnd Hcs Hk Hv.
  - cbn. destruct (df f g descend visited stack); reflexivity.
  - exfalso. assert (Hc : path (edge g) root (c :: n :: map fst stack)) by (constructor; [exact Hp|apply Hcs; left; reflexivity]).
    apply path_length in Hc. cbn in Hc. rewrite map_length in Hc. lia.
  - cbn. destruct (df f g descend visited stack); reflexivity.
  - inversion Hnd as [|? ? Hc0 Hnd']; subst.
    assert (Hpc : path (edge g) root (c :: n :: map fst stack)) by (constructor; [exact Hp|apply Hcs; left; reflexivity]).
    set (l := map fst stack) in *.
    assert (Hcv : mem c visited = false).
    { apply mem_false. apply (Hv c c); [left; reflexivity|]. cbn. auto. }
    assert (Hdisj : forall m c2, In c2 cs -> In m (visited_nodes (walk (S k) (n :: l) c)) -> ~ In m (visited_nodes (walk (S k) (n :: l) c2))).
    { intros m c2 C2 H1 H2.
      apply in_visited_nodes in H1 as (q1 & Q1 & E1). apply in_visited_nodes in H2 as (q2 & Q2 & E2).
      destruct (walk_paths (S k) (n :: l) c q1 Hpc Q1) as [P1 (r1 & F1)].
      assert (Hpc2 : path (edge g) root (c2 :: n :: l)) by (constructor; [exact Hp|apply Hcs; right; exact C2]).
      destruct (walk_paths (S k) (n :: l) c2 q2 Hpc2 Q2) as [P2 (r2 & F2)].
      destruct q1 as [|a1 q1]; [inversion P1|]. destruct q2 as [|a2 q2]; [inversion P2|]. cbn in E1, E2. subst a1 a2.
      assert (q1 = q2) by (eapply path_unique; eauto). subst q2. rewrite F1 in F2.
      change (r1 ++ c :: n :: l) with (r1 ++ [c] ++ n :: l) in F2. change (r2 ++ c2 :: n :: l) with (r2 ++ [c2] ++ n :: l) in F2.
      rewrite !app_assoc in F2. apply app_inv_tail in F2. apply app_inj_tail in F2 as [_ <-]. contradiction. }
    cbn zeta. cbn [flat_map]. rewrite <- app_assoc.
    set (rest := flat_map (walk (S k) (n :: l)) cs ++ [Completed n]).
    assert (Hsub : forall f', df (length (walk (S k) (n :: l) c) + f') g descend visited ((n, c :: cs) :: stack) =
       option_map (app (walk (S k) (n :: l) c)) (df f' g descend (rev (visited_nodes (walk (S k) (n :: l) c)) ++ visited) ((n, cs) :: stack))).
    { intros f'. cbn [walk]. destruct (descend c) eqn:Dc.
      - change (length (Visit (c :: n :: l) :: ?x)) with (S (length x)). cbn [Nat.add df]. rewrite Hcv, Dc.
        assert (X := IH c (children g c) ((n, cs) :: stack) (c :: visited) f'). cbn [map fst] in X. fold l in X. cbn zeta in X.
        rewrite X; clear X.
        + cbn [map fst]. fold l. change (visited_nodes (Visit (c :: n :: l) :: ?x)) with (c :: visited_nodes x). cbn [rev].
          rewrite <- app_assoc. cbn [app]. destruct (df f' g descend _ ((n, cs) :: stack)); reflexivity.
        + exact Hpc.
        + apply (children_nodup g root c T).
        + intros; apply children_iff; assumption.
        + cbn in *; lia.
        + intros d m Hd Hm [<-|Hvm].
          * assert (W := walk_nodup (S k) (n :: l) c Hpc). cbn [walk] in W. rewrite Dc in W.
            change (visited_nodes (Visit (c :: n :: l) :: ?x)) with (c :: visited_nodes x) in W.
            inversion W as [|? ? W1 _]; subst. apply W1. apply in_visited_nodes in Hm as (q & Q & E).
            apply (Hmid _ q); [|exact E]. apply in_app_iff. left. apply in_flat_map. exists d. auto.
          * apply (Hv c m); [left; reflexivity| |exact Hvm]. cbn [walk]. rewrite Dc. apply in_visited_nodes in Hm as (q & Q & E).
            apply (Hmid _ q); [|exact E]. right. apply in_app_iff. left. apply in_flat_map. exists d. auto.
      - cbn [length Nat.add df]. rewrite Hcv, Dc. cbn [map fst]. fold l.
        change (rev (visited_nodes [Visit (c :: n :: l)]) ++ visited) with (c :: visited).
        destruct (df f' g descend _ ((n, cs) :: stack)); reflexivity. }
    rewrite app_length, <- Nat.add_assoc, Hsub.
    assert (Y := IHcs stack (rev (visited_nodes (walk (S k) (n :: l) c)) ++ visited) f). fold l in Y. cbn zeta in Y. fold rest in Y.
    rewrite Y; clear Y.
    + rewrite visited_nodes_app, rev_app_distr, <- app_assoc.
      destruct (df f g descend _ stack); cbn; [|reflexivity]. rewrite app_assoc. reflexivity.
    + exact Hp.
    + exact Hnd'.
    + intros; apply Hcs; right; assumption.
    + exact Hk.
    + intros d m Hd Hm. rewrite in_app_iff, <- in_rev. intros [Hx|Hx]; [apply (Hdisj m d Hd Hx Hm)|].
      apply (Hv d m); [right; exact Hd|exact Hm|exact Hx].
Qed.

Definition full_walk : list event := walk (length (g_nodes g)) [] root.

Lemma full_walk_nodup : NoDup (visited_nodes full_walk).
Proof. apply walk_nodup. constructor. Qed.

Lemma full_walk_visits q : path (edge g) root q -> (In (Visit q) full_walk <-> forall m, In m (tl q) -> descend m = true).
Proof.
  intros Hq. assert (exists q', q = q' ++ [root]) as (q' & ->).
  { clear -Hq. induction Hq as [|p c l Hp (q' & E) He]; [exists []; reflexivity|]. exists (c :: q'). rewrite E. reflexivity. }
  apply walk_visits; [constructor|exact Hq|]. apply path_length in Hq. rewrite app_length in *. cbn in *. lia.
Qed.

Lemma full_walk_paths q : In (Visit q) full_walk -> path (edge g) root q.
Proof. intros H. apply (walk_paths _ _ _ _ (path_root _ _) H). Qed.

(** Numbers of events. *)
Lemma walk_completed k : forall l n m, In m (completed_nodes (walk k l n)) -> In m (visited_nodes (walk k l n)).
Proof.
  intros l n m H. apply completed_in in H. revert l n H. induction k as [|k IH]; intros l n; cbn [walk].
  - intros [?|[]]; discriminate.
  - intros [?|H]; [discriminate|]. change (visited_nodes (Visit (n :: l) :: ?x)) with (n :: visited_nodes x).
    destruct (descend n); [|contradiction]. apply in_app_iff in H as [H|[H|[]]].
    + right. apply in_flat_map in H as (c & Hc & H). apply IH in H. apply in_visited_nodes in H as (q & Q & E).
      unfold visited_nodes. apply in_map_iff. exists q. rewrite visited_in. split; [exact E|]. apply in_app_iff. left.
      apply in_flat_map. eauto.
    + injection H as ->. left; reflexivity.
Qed.

Lemma events_count es : length es = length (visited_nodes es) + length (completed_nodes es).
Proof.
  unfold visited_nodes. rewrite map_length. unfold visited_paths, completed_nodes.
  induction es as [|[p|n] es IH]; cbn [flat_map app length]; lia.
Qed.

Lemma walk_counts k : forall l n, length (completed_nodes (walk k l n)) <= length (visited_nodes (walk k l n)).
Proof.
  induction k as [|k IH]; intros l n; cbn [walk]; [cbn; lia|].
  change (visited_nodes (Visit (n :: l) :: ?x)) with (n :: visited_nodes x).
  change (completed_nodes (Visit (n :: l) :: ?x)) with (completed_nodes x).
  destruct (descend n); [|cbn; lia]. rewrite visited_nodes_app, completed_nodes_app, !app_length.
  assert (length (completed_nodes (flat_map (walk k (n :: l)) (children g n))) <= length (visited_nodes (flat_map (walk k (n :: l)) (children g n)))).
  { induction (children g n) as [|c cs IHcs]; cbn [flat_map]; [cbn; lia|]. rewrite visited_nodes_app, completed_nodes_app, !app_length.
    specialize (IH (n :: l) c). lia. }
  change (visited_nodes [Completed n]) with (@nil nat). change (completed_nodes [Completed n]) with [n].
  cbn [length app]. rewrite app_length. cbn [length]. lia.
Qed.

Lemma full_walk_length : length full_walk <= 2 * length (g_nodes g).
Proof.
  rewrite events_count. assert (H := walk_counts (length (g_nodes g)) [] root). fold full_walk in H.
  assert (length (visited_nodes full_walk) <= length (g_nodes g)); [|lia].
  apply NoDup_incl_length; [apply full_walk_nodup|]. intros m Hm. apply in_visited_nodes in Hm as (q & Hq & E).
  apply full_walk_paths in Hq. assert (Hi := path_nodes q Hq). destruct q; [inversion Hq|]. cbn in E. subst. apply Hi. left; reflexivity.
Qed.

Lemma df_more f : forall visited stack es d, df f g descend visited stack = Some es -> df (f + d) g descend visited stack = Some es.
Proof.
  induction f as [|f IH]; intros visited stack es d; cbn [df Nat.add]; [discriminate|].
  destruct stack as [|[n [|c cs]] rest]; [auto| |].
  - destruct (df f g descend visited rest) eqn:E; [|discriminate]. rewrite (IH _ _ _ d E). auto.
  - destruct (mem c visited); [apply IH|]. destruct (df f g descend (c :: visited) _) eqn:E; [|discriminate]. rewrite (IH _ _ _ d E). auto.
Qed.

Lemma depth_first_walk : depth_first g root descend = Some full_walk.
Proof.
  unfold depth_first. assert (Hl := full_walk_length). unfold full_walk in *.
  assert (Hn : exists k, length (g_nodes g) = S k).
  { assert (H := tl_root_node _ _ T). destruct (g_nodes g); [contradiction|]. cbn. eauto. }
  destruct Hn as (k & Hk). rewrite Hk in *. cbn [walk] in *. destruct (descend root) eqn:D.
  2: { destruct (_ + _) eqn:E; [lia|]. reflexivity. }
  assert (X := df_children k root (children g root) [] [root] 1). cbn [map fst] in X. cbn zeta in X.
  set (es := flat_map (walk k [root]) (children g root) ++ [Completed root]) in *.
  assert (df (length es + 1) g descend [root] [(root, children g root)] = Some es).
  { rewrite X.
    - cbn. rewrite app_nil_r. reflexivity.
    - constructor.
    - apply (children_nodup g root root T).
    - intros; apply children_iff; assumption.
    - cbn. lia.
    - intros c m Hc Hm [<-|[]]. assert (W := walk_nodup (S k) [] root (path_root _ _)). cbn [walk] in W. rewrite D in W.
      change (visited_nodes (Visit [root] :: ?x)) with (root :: visited_nodes x) in W. inversion W as [|? ? W1 _]; subst. apply W1.
      apply in_visited_nodes in Hm as (q & Q & E). unfold visited_nodes. apply in_map_iff. exists q. rewrite visited_in. split; [exact E|].
      apply in_app_iff. left. apply in_flat_map. eauto. }
  cbn [length] in Hl.
  assert (exists d, 1 + 2 * S k + length (g_edges g) = length es + 1 + d) as (d & ->).
  { exists (2 * S k + length (g_edges g) - length es). lia. }
  rewrite (df_more _ _ _ _ d H). reflexivity.
Qed.

(** Parents are visited before. *)
Lemma walk_parents k : forall l n e1 c p q e2, path (edge g) root (n :: l) ->
  walk k l n = e1 ++ Visit (c :: p :: q) :: e2 -> (e1 = [] /\ c :: p :: q = n :: l) \/ In (Visit (p :: q)) e1.
Proof.
  induction k as [|k IH]; intros l n e1 c p q e2 Hp; cbn [walk].
  - destruct e1 as [|e e1]; cbn; [intros [= -> ->]; auto|]. destruct e1; discriminate.
  - destruct e1 as [|e e1]; cbn [app]; [intros [= -> -> _]; auto|]. intros [= <- E]. right.
    destruct (descend n); [|destruct e1; discriminate].
    assert (Hsplit : exists e1' e2', flat_map (walk k (n :: l)) (children g n) = e1' ++ Visit (c :: p :: q) :: e2' /\ e1 = e1').
    { destruct (exists_last (l := Visit (c :: p :: q) :: e2) ltac:(discriminate)) as (z & y & Z).
      rewrite Z, app_assoc in E. apply app_inj_tail in E as [E1 E2]. subst y.
      destruct z as [|z0 z]; [cbn in Z; injection Z as ? ?; discriminate|]. cbn in Z. injection Z as Z1 Z2. subst z0.
      exists e1, z. split; [exact E1|reflexivity]. }
    destruct Hsplit as (e1' & e2' & E' & <-). clear E.
    assert (Hin : forall d, In d (children g n) -> edge g n d) by (intros d; apply children_iff).
    cut (c :: p :: q = c :: n :: l \/ In (Visit (p :: q)) e1). { intros [[= -> ->]|H]; [left; reflexivity|right; exact H]. }
    revert e1 E'. induction (children g n) as [|d ds IHds]; intros e1 E'; [destruct e1; discriminate|]. cbn [flat_map] in E'.
    assert (Hpd : path (edge g) root (d :: n :: l)) by (constructor; [exact Hp|apply Hin; left; reflexivity]).
    destruct (app_eq_app _ _ _ _ E') as (m & [[Ea Eb]|[Ea Eb]]).
    + destruct m as [|m0 m].
      * cbn in Eb. rewrite app_nil_r in Ea. destruct (IHds (fun x Hx => Hin x (or_intror Hx)) [] (eq_sym Eb)) as [H|[]]. left; exact H.
      * injection Eb as <- _. destruct (IH _ _ _ _ _ _ _ Hpd Ea) as [[-> H]|H]; [left; congruence|right; exact H].
    + destruct (IHds (fun x Hx => Hin x (or_intror Hx)) m Eb) as [H|H]; [left; exact H|]. right. rewrite Ea. apply in_app_iff. auto.
Qed.
End Paths.

(** ** Post-order *)
Section PostOrder.
Context (g : graph) (root : nat) (T : tree_like g root).
Let w := walk g (fun _ => true).

Lemma completed_step k l n : completed_nodes (w (S k) l n) = flat_map (fun c => completed_nodes (w k (n :: l) c)) (children g n) ++ [n].
Proof.
  unfold w. cbn [walk]. change (completed_nodes (Visit (n :: l) :: ?x)) with (completed_nodes x). rewrite completed_nodes_app. f_equal.
  induction (children g n) as [|c cs IH]; cbn [flat_map]; [reflexivity|]. rewrite completed_nodes_app, IH. reflexivity.
Qed.

Lemma sufficient k l n : path (edge g) root (n :: l) -> length (g_nodes g) <= k + length l -> exists k', k = S k'.
Proof.
  intros Hp Hk. apply (path_length g root T) in Hp. cbn in Hp. destruct k; [lia|]. eauto.
Qed.

Lemma walk_completed_all k : forall l n m, path (edge g) root (n :: l) -> length (g_nodes g) <= k + length l ->
  In m (visited_nodes (w k l n)) -> In m (completed_nodes (w k l n)).
Proof.
  induction k as [|k IH]; intros l n m Hp Hk Hm.
  - destruct (sufficient 0 l n Hp Hk); discriminate.
  - rewrite completed_step. unfold w in Hm. cbn [walk] in Hm. change (visited_nodes (Visit (n :: l) :: ?x)) with (n :: visited_nodes x) in Hm.
    apply in_app_iff. destruct Hm as [<-|Hm]; [right; left; reflexivity|]. rewrite visited_nodes_app in Hm. apply in_app_iff in Hm as [Hm|[]]. left.
    apply in_visited_nodes in Hm as (q & Hq & E). apply in_flat_map in Hq as (c & Hc & Hq). apply in_flat_map. exists c. split; [exact Hc|].
    apply IH; [constructor; [exact Hp|apply children_iff, Hc]|cbn; lia|]. unfold visited_nodes. apply in_map_iff. exists q. rewrite visited_in. auto.
Qed.

Lemma walk_post k : forall l n l1 m l2, path (edge g) root (n :: l) -> length (g_nodes g) <= k + length l ->
  completed_nodes (w k l n) = l1 ++ m :: l2 -> forall c, edge g m c -> In c l1.
Proof.
  induction k as [|k IH]; intros l n l1 m l2 Hp Hk E c Hc.
  - destruct (sufficient 0 l n Hp Hk); discriminate.
  - rewrite completed_step in E.
    assert (Hin : forall d, In d (children g n) -> path (edge g) root (d :: n :: l)) by (intros d Hd; constructor; [exact Hp|apply children_iff, Hd]).
    destruct l2 as [|x l2].
    + apply app_inj_tail in E as [<- <-]. apply in_flat_map. exists c. apply children_iff in Hc. split; [exact Hc|].
      apply walk_completed_all; [apply Hin, Hc|cbn; lia|]. unfold w. destruct k; left; reflexivity.
    + destruct (exists_last (l := x :: l2) ltac:(discriminate)) as (y & z & Z).
      assert (E' : flat_map (fun c => completed_nodes (w k (n :: l) c)) (children g n) = l1 ++ m :: y).
      { rewrite Z in E. change (l1 ++ m :: y ++ [z]) with (l1 ++ (m :: y) ++ [z]) in E. rewrite app_assoc in E. apply app_inj_tail in E as [E _]. exact E. }
      clear E Z z x l2. revert l1 E' Hin. induction (children g n) as [|d ds IHds]; intros l1 E Hin; cbn [flat_map] in E; [destruct l1; discriminate|].
      destruct (app_eq_app _ _ _ _ E) as (r & [[Ea Eb]|[Ea Eb]]).
      * destruct r as [|r0 r].
        -- cbn in Eb. destruct (IHds [] (eq_sym Eb)) as []. intros; apply Hin; right; assumption.
        -- injection Eb as <- _. apply (IH _ _ _ _ _ (Hin d (or_introl eq_refl)) ltac:(cbn; lia) Ea c Hc).
      * rewrite Ea. apply in_app_iff. right. apply (IHds r Eb). intros; apply Hin; right; assumption.
Qed.

Lemma post_order_spec : exists ns, post_order g root = Some ns /\ (forall n, In n ns <-> reachable g root n) /\
  (forall l1 n l2, ns = l1 ++ n :: l2 -> forall c, edge g n c -> In c l1).
Proof.
  unfold post_order. rewrite (depth_first_walk g root T). eexists. split; [reflexivity|]. split.
  - intros n. split.
    + intros H. apply walk_completed in H. apply in_visited_nodes in H as (q & Hq & E). apply full_walk_paths in Hq.
      destruct q; [inversion Hq|]. cbn in E. subst. exists q. exact Hq.
    + intros (l & Hp). apply (walk_completed_all (length (g_nodes g)) [] root); [constructor|cbn; lia|]. unfold visited_nodes. apply in_map_iff. exists (n :: l). split; [reflexivity|].
      apply visited_in. apply (full_walk_visits g root T (fun _ => true)); auto.
  - intros l1 n l2 E. apply (walk_post (length (g_nodes g)) [] root l1 n l2 (path_root _ _) ltac:(cbn; lia) E).
Qed.
End PostOrder.
