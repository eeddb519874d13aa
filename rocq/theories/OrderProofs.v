(** * Proofs about the order of exposition *)
From Verif Require Import Base ParserModel AnnotModel CollectModel GraphModel GraphSpec GraphWalk GraphProofs GraphFinal OrderModel OrderSpec.
From Coq Require Import Sorting.Permutation Lists.List.

Notation occ := (count_occ Nat.eq_dec).

(** ** Repetitions *)
Lemma repetition (l : list nat) : ~ NoDup l -> exists a l1 l2 l3, l = l1 ++ a :: l2 ++ a :: l3.
Proof.
  induction l as [|x l IH]; intros H; [destruct H; constructor|]. destruct (in_dec Nat.eq_dec x l) as [Hx|Hx].
  - apply in_split in Hx as (l2 & l3 & ->). exists x, [], l2, l3. reflexivity.
  - destruct IH as (a & l1 & l2 & l3 & ->). { intros Hn. apply H. constructor; auto. } exists a, (x :: l1), l2, l3. reflexivity.
Qed.

(** ** Successors *)
Definition succ_get (m : list (nat * list nat)) (k : nat) : list nat := match find_successors m k with Some l => l | None => [] end.
Definition keys_ok (m : list (nat * list nat)) : Prop := forall k l, In (k, l) m -> l <> [] /\ find_successors m k = Some l.

Lemma find_in m k l : find_successors m k = Some l -> In (k, l) m.
Proof.
  induction m as [|[j x] m IH]; cbn; [discriminate|]. destruct (Nat.eqb k j) eqn:E; [|auto]. apply Nat.eqb_eq in E. subst. intros [= ->]. auto.
Qed.

Lemma push_find o n m k : find_successors (push_successor o n m) k = if Nat.eqb k o then Some (succ_get m k ++ [n]) else find_successors m k.
Proof.
  unfold succ_get. induction m as [|[j x] m IH]; cbn [push_successor find_successors].
  - destruct (Nat.eqb k o); reflexivity.
  - destruct (Nat.eqb o j) eqn:E1; cbn [find_successors].
    + apply Nat.eqb_eq in E1. subst j. destruct (Nat.eqb k o); reflexivity.
    + rewrite IH. destruct (Nat.eqb k j) eqn:E2; [|reflexivity]. destruct (Nat.eqb k o) eqn:E3; [|reflexivity].
      apply Nat.eqb_eq in E2, E3. apply Nat.eqb_neq in E1. congruence.
Qed.

Lemma push_in o n m k l : In (k, l) (push_successor o n m) -> In (k, l) m \/ k = o.
Proof.
  induction m as [|[j x] m IH]; cbn.
  - intros [[= <- <-]|[]]; auto.
  - destruct (Nat.eqb o j) eqn:E; intros [H|H]; auto.
    + injection H as <- <-. apply Nat.eqb_eq in E. auto.
    + destruct (IH H); auto.
Qed.

Lemma push_in_other o n m k l : k <> o -> In (k, l) (push_successor o n m) -> In (k, l) m.
Proof. intros Hn H. apply push_in in H as [H|H]; [exact H|contradiction]. Qed.

Definition key_nodup (m : list (nat * list nat)) : Prop := NoDup (map fst m) /\ forall k l, In (k, l) m -> l <> [].

Lemma find_nodup m k l : NoDup (map fst m) -> In (k, l) m -> find_successors m k = Some l.
Proof.
  induction m as [|[j x] m IH]; cbn; [contradiction|]. intros Hn. inversion Hn as [|? ? Hj Hn']; subst. intros [H|H].
  - injection H as -> ->. rewrite Nat.eqb_refl. reflexivity.
  - destruct (Nat.eqb k j) eqn:E; [|auto]. apply Nat.eqb_eq in E. subst. exfalso. apply Hj. apply in_map_iff. exists (j, l). auto.
Qed.

Lemma push_keys o n m : map fst (push_successor o n m) = map fst m \/ (~ In o (map fst m) /\ map fst (push_successor o n m) = map fst m ++ [o]).
Proof.
  induction m as [|[j x] m IH]; cbn; [auto|]. destruct (Nat.eqb o j) eqn:E; cbn; [auto|]. apply Nat.eqb_neq in E.
  destruct IH as [->|[H1 ->]]; [auto|]. right. split; [|reflexivity]. intros [H|H]; [congruence|auto].
Qed.

Lemma push_ok o n m : key_nodup m -> key_nodup (push_successor o n m).
Proof.
  intros [H1 H2]. split.
  - destruct (push_keys o n m) as [->|[H ->]]; [exact H1|]. apply nodup_snoc; auto.
  - clear H1. induction m as [|[j x] m IH]; cbn; intros k l.
    + intros [[= <- <-]|[]]. discriminate.
    + destruct (Nat.eqb o j); intros [H|H].
      * injection H as <- <-. intros E. apply app_eq_nil in E as [_ E]. discriminate.
      * apply (H2 k l). right; exact H.
      * injection H as <- <-. apply (H2 j x). left; reflexivity.
      * apply IH in H; [exact H|]. intros k' l' H'. apply (H2 k' l'). right; exact H'.
Qed.

Lemma push_get o n m k : succ_get (push_successor o n m) k = succ_get m k ++ (if Nat.eqb k o then [n] else []).
Proof. unfold succ_get at 1. rewrite push_find. destruct (Nat.eqb k o); [reflexivity|]. rewrite app_nil_r. reflexivity. Qed.

Lemma erase_ok i m : key_nodup m -> key_nodup (erase_successors i m).
Proof.
  intros [H1 H2]. split; [|intros k l H; apply filter_In in H as [H _]; eauto]. clear H2. unfold erase_successors.
  induction m as [|[j x] m IH]; cbn; [constructor|]. inversion H1 as [|? ? Hj Hn]; subst. destruct (negb (Nat.eqb i j)); cbn; [|auto]. constructor; [|auto].
  intros H. apply Hj. apply in_map_iff in H as (e & E & H). apply filter_In in H as [H _]. apply in_map_iff. eauto.
Qed.

Lemma erase_get i m k : succ_get (erase_successors i m) k = if Nat.eqb k i then [] else succ_get m k.
Proof.
  unfold succ_get, erase_successors. induction m as [|[j x] m IH]; cbn; [destruct (Nat.eqb k i); reflexivity|].
  destruct (Nat.eqb i j) eqn:E; cbn.
  - apply Nat.eqb_eq in E. subst j. rewrite IH. destruct (Nat.eqb k i); reflexivity.
  - destruct (Nat.eqb k j) eqn:E2; [|exact IH]. destruct (Nat.eqb k i) eqn:E3; [|reflexivity]. apply Nat.eqb_eq in E2, E3. apply Nat.eqb_neq in E. congruence.
Qed.

Lemma key_iff m k : key_nodup m -> (In k (map fst m) <-> succ_get m k <> []).
Proof.
  intros [H1 H2]. unfold succ_get. split.
  - intros H. apply in_map_iff in H as ([k' l] & <- & H). cbn. rewrite (find_nodup _ _ _ H1 H). eauto.
  - intros H. destruct (find_successors m k) as [l|] eqn:E; [|congruence]. apply find_in in E. apply in_map_iff. exists (k, l). auto.
Qed.

(** ** Releasing successors *)
Lemma release_all L : forall s, (forall n, (Z.of_nat (occ L n) <= t_counts s n)%Z \/ occ L n = 0) ->
  let s' := fold_left release L s in
  (forall n, t_counts s' n = (t_counts s n - Z.of_nat (occ L n))%Z) /\ t_successors s' = t_successors s /\ t_result s' = t_result s /\
  exists P, t_ready s' = t_ready s ++ P /\ NoDup P /\ forall n, In n P <-> 0 < occ L n /\ t_counts s n = Z.of_nat (occ L n).
Proof.
  induction L as [|a L IH]; intros s Hle; cbn zeta; cbn [fold_left].
  - split; [intros n; cbn; lia|]. split; [reflexivity|]. split; [reflexivity|]. exists []. rewrite app_nil_r. split; [reflexivity|]. split; [constructor|].
    intros n. cbn. split; [contradiction|lia].
  - assert (Hocc : forall n, occ (a :: L) n = if Nat.eqb n a then S (occ L n) else occ L n).
    { intros n. cbn. destruct (Nat.eq_dec a n) as [->|Hn]; [rewrite Nat.eqb_refl; reflexivity|]. destruct (Nat.eqb n a) eqn:E; [apply Nat.eqb_eq in E; congruence|reflexivity]. }
    assert (Hc : forall n, t_counts (release s a) n = if Nat.eqb n a then (t_counts s n - 1)%Z else t_counts s n).
    { intros n. unfold release, upd. cbn. destruct (Nat.eqb n a) eqn:E; [|reflexivity]. apply Nat.eqb_eq in E. subst. reflexivity. }
    destruct (IH (release s a)) as (A & B & C & P & D & F & G).
    { intros n. rewrite Hc. specialize (Hle n). rewrite Hocc in Hle. destruct (Nat.eqb n a); lia. }
    split; [intros n; rewrite A, Hc, Hocc; destruct (Nat.eqb n a); lia|]. split; [exact B|]. split; [exact C|].
    exists ((if (t_counts s a - 1 =? 0)%Z then [a] else []) ++ P). split.
    + rewrite D. unfold release. cbn [t_ready]. destruct (_ =? 0)%Z; [rewrite <- app_assoc|]; reflexivity.
    + assert (Ha := Hle a). rewrite Hocc, Nat.eqb_refl in Ha. split.
      * destruct (_ =? 0)%Z eqn:E; [|exact F]. apply Z.eqb_eq in E. cbn. constructor; [|exact F]. intros H. apply G in H. lia.
      * intros n. rewrite in_app_iff, G, Hc, Hocc. destruct (Nat.eqb n a) eqn:En.
        -- apply Nat.eqb_eq in En. subst n. destruct (_ =? 0)%Z eqn:E; [apply Z.eqb_eq in E|apply Z.eqb_neq in E].
           ++ cbn. split; [intros _; lia|auto].
           ++ cbn. split; [intros [[]|?]; lia|]. intros H. right. lia.
        -- apply Nat.eqb_neq in En. destruct (_ =? 0)%Z; cbn; [|tauto]. split; [intros [[H|[]]|H]; [congruence|exact H]|auto].
Qed.

Section Sort.
Context (location : nat -> N) (pop : queue -> option (nat * queue)) (Hq : good_queue location pop).
Context (nodes : list nat) (Hnd : NoDup nodes) (preds : nat -> list nat).
Context (Hin : forall n, In n nodes -> incl (preds n) nodes) (Hirr : forall n, In n nodes -> ~ In n (preds n)).

Definition succ_list (ns : list nat) (k : nat) : list nat := flat_map (fun n => repeat n (occ (preds n) k)) ns.

Lemma occ_repeat n m c : occ (repeat n c) m = if Nat.eqb m n then c else 0.
Proof.
  induction c as [|c IH]; cbn; [destruct (Nat.eqb m n); reflexivity|]. destruct (Nat.eq_dec n m) as [->|Hn]; rewrite IH.
  - rewrite Nat.eqb_refl. reflexivity.
  - destruct (Nat.eqb m n) eqn:E; [apply Nat.eqb_eq in E; congruence|reflexivity].
Qed.

Lemma occ_succ ns k n : NoDup ns -> occ (succ_list ns k) n = if mem n ns then occ (preds n) k else 0.
Proof.
  induction 1 as [|a ns Ha Hn IH]; [reflexivity|]. change (succ_list (a :: ns) k) with (repeat a (occ (preds a) k) ++ succ_list ns k). rewrite count_occ_app, occ_repeat, IH.
  cbn [mem existsb]. destruct (Nat.eqb n a) eqn:E.
  - apply Nat.eqb_eq in E. subst a. apply mem_false in Ha. rewrite Ha. cbn. lia.
  - reflexivity.
Qed.

Lemma in_succ ns k n : In n (succ_list ns k) <-> In n ns /\ In k (preds n).
Proof.
  unfold succ_list. rewrite in_flat_map. split.
  - intros (m & Hm & H). assert (n = m) by (apply repeat_spec in H; exact H). subst m. split; [exact Hm|].
    destruct (occ (preds n) k) eqn:E; [contradiction|]. apply (count_occ_In Nat.eq_dec). lia.
  - intros [Hn Hk]. exists n. split; [exact Hn|]. apply (count_occ_In Nat.eq_dec) in Hk. destruct (occ (preds n) k); [lia|]. left; reflexivity.
Qed.

(** ** Initialisation *)
Lemma add_all node ps : forall s, key_nodup (t_successors s) ->
  let s' := fold_left (add_predecessor node) ps s in
  (forall n, t_counts s' n = (t_counts s n + (if Nat.eqb n node then Z.of_nat (length ps) else 0))%Z) /\
  t_ready s' = t_ready s /\ t_result s' = t_result s /\ key_nodup (t_successors s') /\
  forall k, succ_get (t_successors s') k = succ_get (t_successors s) k ++ repeat node (occ ps k).
Proof.
  induction ps as [|p ps IH]; intros s Hk; cbn zeta; cbn [fold_left].
  - split; [intros n; cbn; destruct (Nat.eqb n node); lia|]. do 3 (split; [auto|]). intros k. cbn. rewrite app_nil_r. reflexivity.
  - destruct (IH (add_predecessor node s p)) as (A & B & C & D & E). { cbn. apply push_ok, Hk. }
    split; [|split; [exact B|split; [exact C|split; [exact D|]]]].
    + intros n. rewrite A. unfold add_predecessor, upd. cbn [t_counts length]. destruct (Nat.eqb n node) eqn:En; [apply Nat.eqb_eq in En; subst|]; lia.
    + intros k. rewrite E. cbn [add_predecessor t_successors]. rewrite push_get, <- app_assoc. f_equal. cbn. destruct (Nat.eq_dec p k) as [->|Hn].
      * rewrite Nat.eqb_refl. reflexivity.
      * destruct (Nat.eqb k p) eqn:Ek; [apply Nat.eqb_eq in Ek; congruence|reflexivity].
Qed.

Lemma init_all ns : forall ns0 s, NoDup (ns0 ++ ns) -> key_nodup (t_successors s) -> t_result s = [] ->
  (forall n, t_counts s n = if mem n ns0 then Z.of_nat (length (preds n)) else 0%Z) ->
  (forall n, In n (t_ready s) <-> In n ns0 /\ preds n = []) -> NoDup (t_ready s) -> (forall k, succ_get (t_successors s) k = succ_list ns0 k) ->
  let s' := fold_left (init_node preds) ns s in
  t_result s' = [] /\ key_nodup (t_successors s') /\ (forall n, t_counts s' n = if mem n (ns0 ++ ns) then Z.of_nat (length (preds n)) else 0%Z) /\
  (forall n, In n (t_ready s') <-> In n (ns0 ++ ns) /\ preds n = []) /\ NoDup (t_ready s') /\ (forall k, succ_get (t_successors s') k = succ_list (ns0 ++ ns) k).
Proof.
  induction ns as [|n ns IH]; intros ns0 s Hn Hk Hr Hc Hrd Hrn Hs; cbn zeta; cbn [fold_left].
  - rewrite app_nil_r. auto 10.
  - replace (ns0 ++ n :: ns) with ((ns0 ++ [n]) ++ ns) in * by (rewrite <- app_assoc; reflexivity).
    assert (Hfresh : ~ In n ns0).
    { rewrite <- app_assoc in Hn. cbn in Hn. apply NoDup_remove_2 in Hn. intros H. apply Hn, in_app_iff. auto. }
    destruct (add_all n (preds n) s Hk) as (A & B & C & D & E). cbn zeta in *.
    set (s1 := fold_left (add_predecessor n) (preds n) s) in *.
    assert (Hc1 : t_counts s1 n = Z.of_nat (length (preds n))).
    { rewrite A, Nat.eqb_refl, Hc. apply mem_false in Hfresh. rewrite Hfresh. lia. }
    assert (Hcall : forall m, t_counts s1 m = if mem m (ns0 ++ [n]) then Z.of_nat (length (preds m)) else 0%Z).
    { intros m. rewrite A, Hc. unfold mem. rewrite existsb_app. cbn. destruct (Nat.eqb m n) eqn:Em.
      - apply Nat.eqb_eq in Em. subst m. apply mem_false in Hfresh. unfold mem in Hfresh. rewrite Hfresh. cbn. lia.
      - rewrite !orb_false_r. destruct (existsb (Nat.eqb m) ns0); lia. }
    assert (Hsall : forall k, succ_get (t_successors s1) k = succ_list (ns0 ++ [n]) k).
    { intros k. rewrite E, Hs. unfold succ_list. rewrite flat_map_app. cbn. rewrite app_nil_r. reflexivity. }
    apply IH.
    + exact Hn.
    + unfold init_node. fold s1. destruct (_ =? 0)%Z; exact D.
    + unfold init_node. fold s1. destruct (_ =? 0)%Z; cbn; congruence.
    + intros m. unfold init_node. fold s1. destruct (_ =? 0)%Z; apply Hcall.
    + intros m. unfold init_node. fold s1. rewrite Hc1. destruct (_ =? 0)%Z eqn:Ez; cbn [t_ready]; rewrite ?in_app_iff, B, Hrd; cbn.
      * apply Z.eqb_eq in Ez. assert (Ep : preds n = []) by (destruct (preds n); [reflexivity|cbn in Ez; lia]).
        split; [intros [[H1 H2]|[<-|[]]]; auto|]. intros [[H1|[<-|[]]] H2]; auto.
      * apply Z.eqb_neq in Ez. split; [intros [H1 H2]; auto|]. intros [[H1|[<-|[]]] H2]; [auto|]. rewrite H2 in Ez. cbn in Ez. lia.
    + unfold init_node. fold s1. destruct (_ =? 0)%Z; cbn [t_ready]; rewrite B; [|exact Hrn]. apply nodup_snoc; [exact Hrn|]. intros H. apply Hrd in H as [H _]. contradiction.
    + intros k. unfold init_node. fold s1. destruct (_ =? 0)%Z; apply Hsall.
Qed.

(** ** Invariant *)
Definition missing (D : list nat) (n : nat) : nat := length (filter (fun p => negb (mem p D)) (preds n)).

Record inv (s : tstate) : Prop := {
  iv_nodup : NoDup (t_result s ++ t_ready s);
  iv_in : forall n, In n (t_result s ++ t_ready s) <-> In n nodes /\ incl (preds n) (t_result s);
  iv_counts : forall n, In n nodes -> t_counts s n = Z.of_nat (missing (t_result s) n);
  iv_keys : key_nodup (t_successors s);
  iv_succ : forall k, succ_get (t_successors s) k = if mem k (t_result s) then [] else succ_list nodes k;
  iv_respects : forall l1 n l2, t_result s = l1 ++ n :: l2 -> incl (preds n) l1;
  iv_greedy : forall l1 x l2, t_result s = l1 ++ x :: l2 -> forall n, In n nodes -> ~ In n l1 -> incl (preds n) l1 -> (location x <= location n)%N
}.

Lemma missing_zero D n : missing D n = 0 <-> incl (preds n) D.
Proof.
  unfold missing. split.
  - intros H p Hp. destruct (mem p D) eqn:E; [apply mem_iff, E|]. exfalso. apply length_zero_iff_nil in H.
    assert (X : In p (filter (fun p => negb (mem p D)) (preds n))) by (apply filter_In; rewrite E; auto). rewrite H in X. destruct X.
  - intros H. apply length_zero_iff_nil. destruct (filter _ (preds n)) as [|p l] eqn:E; [reflexivity|]. exfalso.
    assert (X : In p (filter (fun p => negb (mem p D)) (preds n))) by (rewrite E; left; reflexivity). apply filter_In in X as [X1 X2].
    apply H, mem_iff in X1. rewrite X1 in X2. discriminate.
Qed.

Lemma missing_snoc D x n : ~ In x D -> missing D n = missing (D ++ [x]) n + occ (preds n) x.
Proof.
  intros Hx. unfold missing. induction (preds n) as [|p ps IH]; cbn; [reflexivity|].
  unfold mem in *. rewrite existsb_app. cbn. destruct (Nat.eq_dec p x) as [->|Hn].
  - assert (E : existsb (Nat.eqb x) D = false) by (apply mem_false; exact Hx). rewrite E, Nat.eqb_refl. cbn. lia.
  - assert (E : Nat.eqb p x = false) by (apply Nat.eqb_neq; exact Hn). rewrite E. cbn. rewrite !orb_false_r. destruct (existsb (Nat.eqb p) D); cbn; lia.
Qed.

Lemma inv_init : inv (init_sort nodes preds) /\ t_result (init_sort nodes preds) = [].
Proof.
  unfold init_sort.
  destruct (init_all nodes [] (mkSort (fun _ => 0%Z) [] [] [])) as (A & B & C & D & E & F); cbn; auto.
  { split; [constructor|contradiction]. }
  { intros n. intuition. }
  { constructor. }
  cbn [app] in *. set (s := fold_left (init_node preds) nodes (mkSort (fun _ => 0%Z) [] [] [])) in *. split; [|exact A]. constructor; rewrite ?A; cbn [app]; auto.
  - intros n. rewrite D. split; intros [H1 H2]; (split; [exact H1|]); [rewrite H2; intros p []|]. destruct (preds n) as [|p ps]; [reflexivity|]. destruct (H2 p (or_introl eq_refl)).
  - intros n Hn. rewrite C. apply mem_iff in Hn. rewrite Hn. unfold missing. cbn. f_equal.
    induction (preds n) as [|p ps IH]; cbn; [reflexivity|]. f_equal. exact IH.
  - intros [|? ?]; discriminate.
  - intros [|? ?]; discriminate.
Qed.

Lemma snoc_split {A} (l l1 l2 : list A) x y : l ++ [x] = l1 ++ y :: l2 -> (l1 = l /\ y = x /\ l2 = []) \/ exists l2', l = l1 ++ y :: l2'.
Proof.
  intros E. destruct (app_eq_app _ _ _ _ E) as (r & [[Ea Eb]|[Ea Eb]]).
  - destruct r as [|r0 r].
    + cbn in Eb. injection Eb as -> ->. rewrite app_nil_r in Ea. auto.
    + injection Eb as -> Eb. right. exists r. exact Ea.
  - destruct r as [|r0 r].
    + cbn in Eb. injection Eb as -> ->. rewrite app_nil_r in Ea. auto.
    + cbn in Eb. injection Eb as -> Eb. destruct r; discriminate.
Qed.

Lemma inv_step s x rest : inv s -> pop (t_ready s) = Some (x, rest) -> inv (sort_step x rest s) /\ t_result (sort_step x rest s) = t_result s ++ [x].
Proof.
  intros I Hp. destruct Hq as [Hq0 Hq1].
  assert (Hne : t_ready s <> []) by (intros E; rewrite E, Hq0 in Hp; discriminate).
  destruct (Hq1 _ Hne) as (x' & rest' & Hp' & Hperm & Hmin). rewrite Hp in Hp'. injection Hp' as <- <-.
  set (D := t_result s) in *. set (Q := t_ready s) in *.
  assert (HxQ : In x Q) by (apply (Permutation_in x (Permutation_sym Hperm)); left; reflexivity).
  assert (Hx : In x nodes /\ incl (preds x) D) by (apply (iv_in s I), in_app_iff; auto).
  assert (HxD : ~ In x D).
  { intros H. assert (Hn := iv_nodup s I). fold D Q in Hn. apply in_split in HxQ as (q1 & q2 & E). rewrite E, app_assoc in Hn. apply NoDup_remove_2 in Hn. apply Hn, in_app_iff. left. apply in_app_iff. auto. }
  set (L := succ_get (t_successors s) x).
  assert (HL : L = succ_list nodes x). { unfold L. rewrite (iv_succ s I). fold D. apply mem_false in HxD. rewrite HxD. reflexivity. }
  assert (Hocc : forall n, occ L n = if mem n nodes then occ (preds n) x else 0) by (intros n; rewrite HL; apply occ_succ, Hnd).
  set (s0 := mkSort (t_counts s) (t_successors s) rest D).
  destruct (release_all L s0) as (A & B & C & P & R1 & R2 & R3).
  { intros n. rewrite Hocc. destruct (mem n nodes) eqn:E; [|auto]. left. apply mem_iff in E. cbn. rewrite (iv_counts s I n E). fold D.
    rewrite (missing_snoc D x n HxD). lia. }
  cbn zeta in *. set (s1 := fold_left release L s0) in *.
  assert (Estep : exists m, key_nodup m /\ (forall k, succ_get m k = if Nat.eqb k x then [] else succ_get (t_successors s) k) /\
     sort_step x rest s = mkSort (t_counts s1) m (t_ready s1) (D ++ [x])).
  { unfold sort_step. cbn zeta. cbn [t_counts t_successors t_ready t_result]. fold D. fold s0.
    destruct (find_successors (t_successors s) x) as [l|] eqn:Ef.
    - assert (l = L) by (unfold L, succ_get; rewrite Ef; reflexivity). subst l. fold s1. exists (erase_successors x (t_successors s1)).
      cbn [t_counts t_successors t_ready t_result]. rewrite B, C. cbn [t_successors t_result s0]. split; [apply erase_ok, (iv_keys s I)|]. split; [|reflexivity].
      intros k. apply erase_get.
    - assert (EL : L = []) by (unfold L, succ_get; rewrite Ef; reflexivity). exists (t_successors s). unfold s1. rewrite EL. cbn [fold_left s0 t_counts t_successors t_ready t_result].
      split; [apply (iv_keys s I)|]. split; [|reflexivity]. intros k. destruct (Nat.eqb k x) eqn:E; [|reflexivity]. apply Nat.eqb_eq in E. subst k. exact EL. }
  destruct Estep as (m & Hm1 & Hm2 & ->). cbn [t_result]. split; [|reflexivity].
  assert (HP : forall n, In n P <-> In n nodes /\ In x (preds n) /\ incl (preds n) (D ++ [x])).
  { intros n. rewrite R3, Hocc. cbn [t_counts s0]. destruct (mem n nodes) eqn:E.
    - apply mem_iff in E. rewrite (iv_counts s I n E). fold D. rewrite (missing_snoc D x n HxD), <- missing_zero.
      rewrite (count_occ_In Nat.eq_dec (preds n) x). split; [intros [H1 H2]; split; [exact E|split; [exact H1|lia]]|]. intros (_ & H1 & H2). split; [exact H1|lia].
    - apply mem_false in E. split; [lia|]. intros [H _]. contradiction. }
  assert (Hrest : forall n, In n (t_ready s1) <-> (In n Q /\ n <> x) \/ In n P).
  { intros n. rewrite R1. cbn [t_ready s0]. rewrite in_app_iff.
    assert (Hnx : NoDup (x :: rest)). { apply (Permutation_NoDup Hperm). assert (Hn := iv_nodup s I). fold D Q in Hn. clear -Hn. induction D; [exact Hn|]. inversion Hn; auto. }
    inversion Hnx as [|? ? Hx1 _]; subst. split.
    - intros [H|H]; [left|auto]. split; [apply (Permutation_in n (Permutation_sym Hperm)); right; exact H|]. intros ->. contradiction.
    - intros [[H1 H2]|H]; [left|auto]. apply (Permutation_in n Hperm) in H1 as [H1|H1]; [congruence|exact H1]. }
  constructor; cbn [t_counts t_successors t_ready t_result].
  - (* no duplicates *)
    assert (Hperm' : Permutation (P ++ D ++ Q) ((D ++ [x]) ++ t_ready s1)).
    { rewrite R1. cbn [t_ready s0]. rewrite Hperm. rewrite (Permutation_app_comm P). rewrite <- !app_assoc. apply Permutation_app_head. cbn. reflexivity. }
    apply (Permutation_NoDup Hperm'). clear Hperm'.
    assert (Hdis : forall n, In n P -> ~ In n (D ++ Q)).
    { intros n H1 H2. apply HP in H1 as (_ & H1 & _). apply (iv_in s I) in H2 as [_ H2]. apply HxD, H2, H1. }
    revert R2 Hdis. clear -I. induction P as [|p P IH]; cbn; intros Hn Hdis; [apply (iv_nodup s I)|]. inversion Hn; subst. constructor.
    + rewrite in_app_iff. intros [H|H]; [contradiction|]. apply (Hdis p); auto.
    + apply IH; auto.
  - (* membership *)
    intros n. rewrite in_app_iff, Hrest, in_app_iff. cbn [In]. split.
    + intros [[H|[<-|[]]]|[[H _]|H]].
      * assert (X : In n (D ++ Q)) by (apply in_app_iff; auto). apply (iv_in s I) in X as [X1 X2]. split; [exact X1|]. apply incl_appl, X2.
      * destruct Hx as [X1 X2]. split; [exact X1|]. apply incl_appl, X2.
      * assert (X : In n (D ++ Q)) by (apply in_app_iff; auto). apply (iv_in s I) in X as [X1 X2]. split; [exact X1|]. apply incl_appl, X2.
      * apply HP in H as (X1 & _ & X2). auto.
    + intros [H1 H2]. destruct (in_dec Nat.eq_dec x (preds n)) as [Hxn|Hxn].
      * right. right. apply HP. auto.
      * assert (X : In n (D ++ Q)).
        { apply (iv_in s I). split; [exact H1|]. intros p Hp1. assert (Y := H2 p Hp1). apply in_app_iff in Y as [Y|[<-|[]]]; [exact Y|contradiction]. }
        apply in_app_iff in X as [X|X]; [auto|]. destruct (Nat.eq_dec n x) as [->|Hne']; [auto|]. auto.
  - intros n Hn. rewrite A. cbn [t_counts s0]. rewrite (iv_counts s I n Hn), Hocc. fold D. rewrite (missing_snoc D x n HxD). apply mem_iff in Hn. rewrite Hn. lia.
  - exact Hm1.
  - intros k. rewrite Hm2, (iv_succ s I). fold D. unfold mem. rewrite existsb_app. cbn. destruct (Nat.eqb k x); [rewrite orb_true_r|rewrite !orb_false_r]; reflexivity.
  - intros l1 n l2 E. apply snoc_split in E as [(-> & -> & _)|(l2' & E)]; [apply Hx|]. apply (iv_respects s I _ _ _ E).
  - intros l1 y l2 E n H1 H2 H3. apply snoc_split in E as [(-> & -> & _)|(l2' & E)]; [|apply (iv_greedy s I _ _ _ E n H1 H2 H3)].
    apply Hmin. assert (X : In n (D ++ Q)) by (apply (iv_in s I); auto). apply in_app_iff in X as [X|X]; [contradiction|exact X].
Qed.

Lemma run_spec fuel : forall s, inv s -> length nodes <= fuel + length (t_result s) -> exists s', run pop fuel s = Some s' /\ inv s' /\ t_ready s' = [].
Proof.
  induction fuel as [|fuel IH]; intros s I Hf; cbn [run].
  - assert (Hr : t_ready s = []).
    { destruct (t_ready s) as [|x l] eqn:E; [reflexivity|]. exfalso. assert (Hl := NoDup_incl_length (iv_nodup s I) (fun n Hn => proj1 (proj1 (iv_in s I n) Hn))).
      rewrite E, app_length in Hl. cbn in Hl. lia. }
    rewrite Hr, (proj1 Hq). eauto.
  - destruct (pop (t_ready s)) as [[x rest]|] eqn:Hp.
    + destruct (inv_step s x rest I Hp) as [I' Er]. apply IH; [exact I'|]. rewrite Er, app_length. cbn. lia.
    + exists s. split; [reflexivity|]. split; [exact I|]. destruct (t_ready s) as [|y l] eqn:E; [reflexivity|]. exfalso.
      destruct (proj2 Hq (y :: l) ltac:(discriminate)) as (z & r & Hz & _). congruence.
Qed.

Definition E (m n : nat) : Prop := In n nodes /\ In m (preds n).
Definition needed (m : nat) : Prop := exists n, E m n.

Record solution (D : list nat) : Prop := {
  so_nodup : NoDup D;
  so_in : forall n, In n D <-> In n nodes /\ incl (preds n) D;
  so_respects : respects E D;
  so_greedy : forall l1 x l2, D = l1 ++ x :: l2 -> forall n, In n nodes -> ~ In n l1 -> (forall m, E m n -> In m l1) -> (location x <= location n)%N
}.

Lemma sort_spec : exists D, solution D /\
  ((topological_sort pop nodes preds = Some D /\ Permutation nodes D) \/
   (exists x, topological_sort pop nodes preds = Some (D ++ [x]) /\ length (D ++ [x]) < length nodes /\ In x nodes /\ ~ In x D /\ needed x /\
      forall y, In y nodes -> ~ In y D -> needed y -> (location x <= location y)%N)).
Proof.
  destruct inv_init as [I0 Er0]. destruct (run_spec (length nodes) _ I0 ltac:(lia)) as (s & Hr & I & Hrd).
  unfold topological_sort. rewrite Hr. set (D := t_result s) in *.
  assert (HD : NoDup D) by (assert (X := iv_nodup s I); rewrite Hrd, app_nil_r in X; exact X).
  assert (Hin' : forall n, In n D <-> In n nodes /\ incl (preds n) D) by (intros n; assert (X := iv_in s I n); rewrite Hrd, app_nil_r in X; exact X).
  exists D. split.
  { constructor; auto.
    - intros l1 n l2 El m [_ Hm]. apply (iv_respects s I _ _ _ El m Hm).
    - intros l1 x l2 El n H1 H2 H3. apply (iv_greedy s I _ _ _ El n H1 H2). intros m Hm. apply H3. split; auto. }
  assert (Hkey : forall k, In k (map fst (t_successors s)) <-> ~ In k D /\ needed k).
  { intros k. rewrite (key_iff _ _ (iv_keys s I)), (iv_succ s I). fold D. destruct (mem k D) eqn:Ek.
    - apply mem_iff in Ek. intuition.
    - apply mem_false in Ek. split.
      + intros H. split; [exact Ek|]. destruct (succ_list nodes k) as [|n l] eqn:El; [congruence|]. exists n. apply in_succ. rewrite El. left; reflexivity.
      + intros [_ (n & Hn)] H. apply in_succ in Hn. rewrite H in Hn. destruct Hn. }
  destruct (t_successors s) as [|e st] eqn:Es.
  - left. split; [reflexivity|]. apply NoDup_Permutation; auto. intros n. split; [|intros H; apply Hin' in H; apply H].
    intros Hn. destruct (in_dec Nat.eq_dec n D) as [H|H]; [exact H|]. exfalso.
    assert (X : ~ incl (preds n) D) by (intros Hi; apply H, Hin'; auto). rewrite <- missing_zero in X. unfold missing in X.
    destruct (filter (fun p => negb (mem p D)) (preds n)) as [|p l] eqn:Ef; [apply X; reflexivity|].
    assert (Hp : In p (filter (fun p => negb (mem p D)) (preds n))) by (rewrite Ef; left; reflexivity). apply filter_In in Hp as [Hp1 Hp2].
    apply negb_true_iff, mem_false in Hp2. destruct (proj2 (Hkey p)). split; [exact Hp2|]. exists n. split; auto.
  - right. destruct (proj2 Hq (map fst (e :: st)) ltac:(discriminate)) as (x & rest & Hp & Hperm & Hmin). rewrite Hp.
    assert (Hx : In x (map fst (e :: st))) by (apply (Permutation_in x (Permutation_sym Hperm)); left; reflexivity).
    apply Hkey in Hx as [HxD Hxn]. assert (Hxn' := Hxn). destruct Hxn' as (n & Hn & Hxn').
    assert (Hxnodes : In x nodes) by (apply (Hin n Hn), Hxn').
    assert (HnD : ~ In n D) by (intros H; apply Hin' in H as [_ H]; apply HxD, H, Hxn').
    assert (Hnx : n <> x) by (intros ->; apply (Hirr x Hn Hxn')).
    assert (Hlen : length (D ++ [x]) < length nodes).
    { assert (Hl : length (n :: D ++ [x]) <= length nodes).
      { apply NoDup_incl_length.
        - constructor; [|apply nodup_snoc; auto]. rewrite in_app_iff. intros [H|[H|[]]]; [contradiction|congruence].
        - intros y [<-|Hy]; [exact Hn|]. apply in_app_iff in Hy as [Hy|[<-|[]]]; [apply Hin' in Hy; apply Hy|exact Hxnodes]. }
      cbn in Hl. lia. }
    exists x. split; [destruct (Nat.eqb _ _) eqn:El; [apply Nat.eqb_eq in El; lia|reflexivity]|]. repeat (split; [assumption|]).
    intros y H1 H2 H3. apply Hmin, Hkey. auto.
Qed.

(** ** Cycles *)
Lemma leads_before D : NoDup D -> respects E D -> forall a b l, leads E a b l -> forall l1 l2, D = l1 ++ b :: l2 -> In a l1.
Proof.
  intros Hn Hr a b l L. induction L as [a b H|a c b l H L IH]; intros l1 l2 ED.
  - apply (Hr _ _ _ ED a H).
  - assert (Hc := IH l1 l2 ED). apply in_split in Hc as (p & q & ->). rewrite <- app_assoc in ED. cbn in ED.
    assert (X := Hr _ _ _ ED a H). apply in_app_iff. auto.
Qed.

Lemma not_stuck D n : solution D -> In n D -> ~ stuck E n.
Proof.
  intros S Hn (c & (l & L) & Hc).
  assert (HcD : In c D).
  { destruct Hc as [->|(l' & L')]; [exact Hn|]. apply in_split in Hn as (l1 & l2 & ED).
    assert (X := leads_before D (so_nodup D S) (so_respects D S) c n l' L' l1 l2 ED). rewrite ED. apply in_app_iff. auto. }
  apply in_split in HcD as (l1 & l2 & ED). assert (X := leads_before D (so_nodup D S) (so_respects D S) c c l L l1 l2 ED).
  assert (Hd := so_nodup D S). rewrite ED in Hd. apply NoDup_remove_2 in Hd. apply Hd, in_app_iff. auto.
Qed.

(** Lists in which each element depends on the one before. *)
Fixpoint chain (l : list nat) : Prop := match l with m :: ((n :: _) as l') => E m n /\ chain l' | _ => True end.

Lemma chain_leads l2 : forall l1 x y l3, chain (l1 ++ x :: l2 ++ y :: l3) -> exists l, leads E x y l.
Proof.
  intros l1. revert l2. induction l1 as [|a l1 IH]; intros l2 x y l3 H.
  - cbn [app] in H. revert x H. induction l2 as [|b l2 IHl]; intros x H; cbn [app] in H.
    + destruct H as [H _]. eexists. constructor. exact H.
    + destruct H as [H1 H2]. destruct (IHl b H2) as (l & L). eexists. eapply leads_more; eauto.
  - apply (IH l2 x y l3). cbn in H. destruct l1; cbn in *; apply H.
Qed.

Lemma stuck_iff D n : solution D -> In n nodes -> (~ In n D <-> stuck E n).
Proof.
  intros S Hn. split; [|intros Hst H; apply (not_stuck D n S H Hst)]. intros HnD.
  assert (Hpred : forall x, In x nodes -> ~ In x D -> exists p, E p x /\ In p nodes /\ ~ In p D).
  { intros x Hx HxD. assert (X : ~ incl (preds x) D) by (intros Hi; apply HxD, (so_in D S); auto). rewrite <- missing_zero in X. unfold missing in X.
    destruct (filter (fun p => negb (mem p D)) (preds x)) as [|p l] eqn:Ef; [destruct (X eq_refl)|].
    assert (Hp : In p (filter (fun p => negb (mem p D)) (preds x))) by (rewrite Ef; left; reflexivity). apply filter_In in Hp as [Hp1 Hp2].
    apply negb_true_iff, mem_false in Hp2. exists p. split; [split; auto|]. split; [apply (Hin x Hx p Hp1)|exact Hp2]. }
  assert (Hchain : forall k, exists x l, length l = k /\ chain (x :: l) /\ last (x :: l) n = n /\ (forall y, In y (x :: l) -> In y nodes /\ ~ In y D)).
  { induction k as [|k (x & l & H1 & H2 & H3 & H4)].
    - exists n, []. cbn. repeat split; intros; intuition congruence.
    - destruct (H4 x (or_introl eq_refl)) as [Hx HxD]. destruct (Hpred x Hx HxD) as (p & Ep & Hp & HpD).
      exists p, (x :: l). split; [cbn; lia|]. split; [split; auto|]. split; [exact H3|]. intros y [<-|Hy]; auto. }
  destruct (Hchain (length nodes)) as (x & l & H1 & H2 & H3 & H4).
  assert (Hnot : ~ NoDup (x :: l)).
  { intros Hd. assert (X := NoDup_incl_length Hd (fun y Hy => proj1 (H4 y Hy))). cbn in X. lia. }
  destruct (repetition _ Hnot) as (c & l1 & l2 & l3 & El).
  exists c. rewrite El in H2, H3. split.
  - destruct (chain_leads l2 l1 c c l3 H2) as (l' & L). exists l'. exact L.
  - destruct l3 as [|z l3] using rev_ind.
    + left. change (l1 ++ c :: l2 ++ [c]) with (l1 ++ (c :: l2) ++ [c]) in H3. rewrite app_assoc, last_last in H3. exact H3.
    + right. clear IHl3. change (l1 ++ c :: l2 ++ c :: l3 ++ [z]) with (l1 ++ (c :: l2) ++ (c :: l3) ++ [z]) in H3. rewrite !app_assoc, last_last in H3. subst z.
      apply (chain_leads (l2 ++ c :: l3) l1 c n []). rewrite <- app_assoc. exact H2.
Qed.

(** ** Lexicographic minimality *)
Lemma lex_least root D : solution D -> (forall n, In n nodes -> n <> root -> preds n <> []) ->
  (forall a b, In a nodes -> In b nodes -> a <> root -> b <> root -> location a = location b -> a = b) ->
  forall l, valid_order nodes E l -> lex_le location D l.
Proof.
  clear Hin Hirr. intros S Hroot Hinj l [Hperm Hr].
  assert (Hfirst : forall x, In x nodes -> incl (preds x) [] -> x = root).
  { intros x Hx Hi. destruct (Nat.eq_dec x root) as [->|Hn]; [reflexivity|]. exfalso. apply (Hroot x Hx Hn). destruct (preds x) as [|p ps]; [reflexivity|]. destruct (Hi p (or_introl eq_refl)). }
  cut (forall D2 L2 p, D = p ++ D2 -> l = p ++ L2 -> (p <> [] -> In root p) -> lex_le location D2 L2). { intros X. apply (X D l []); auto. congruence. }
  induction D2 as [|x D2 IH]; intros L2 p ED EL Hrp; [constructor|].
  assert (Hx : In x D) by (rewrite ED; apply in_app_iff; cbn; auto).
  assert (Hxn : In x nodes) by (apply (so_in D S), Hx).
  assert (Hxp : ~ In x p). { assert (Hd := so_nodup D S). rewrite ED in Hd. apply NoDup_remove_2 in Hd. intros H. apply Hd, in_app_iff. auto. }
  destruct L2 as [|y L2].
  - exfalso. rewrite app_nil_r in EL. subst p. apply (Permutation_in x Hperm) in Hxn. contradiction.
  - assert (Hy : In y nodes) by (apply (Permutation_in y (Permutation_sym Hperm)); rewrite EL; apply in_app_iff; cbn; auto).
    assert (Hyp : ~ In y p). { assert (Hd := Permutation_NoDup Hperm Hnd). rewrite EL in Hd. apply NoDup_remove_2 in Hd. intros H. apply Hd, in_app_iff. auto. }
    assert (Hle := so_greedy D S p x D2 ED y Hy Hyp (Hr _ _ _ EL)).
    assert (Hxpre : incl (preds x) p) by (intros m Hm; apply (so_respects D S _ _ _ ED m); split; auto).
    assert (Hypre : incl (preds y) p) by (intros m Hm; apply (Hr _ _ _ EL m); split; auto).
    assert (Hsame : x = y -> lex_le location (x :: D2) (y :: L2)).
    { intros <-. apply lex_same. apply (IH L2 (p ++ [x])); try (rewrite <- app_assoc; assumption). intros _. destruct p as [|q p]; [left; apply Hfirst; auto|].
      apply in_app_iff. left. apply Hrp. discriminate. }
    destruct p as [|q p].
    + apply Hsame. rewrite (Hfirst x), (Hfirst y); auto.
    + assert (Hin_root : In root (q :: p)) by (apply Hrp; discriminate).
      destruct (N.eq_dec (location x) (location y)) as [He|He]; [|apply lex_less; lia].
      apply Hsame, Hinj; auto; intros ->; contradiction.
Qed.

End Sort.

Lemma lex_antisym location a b : lex_le location a b -> lex_le location b a -> length a = length b -> a = b.
Proof.
  intros H. revert b H. induction a as [|x a IH]; intros b H H' Hl; [destruct b; [reflexivity|discriminate]|].
  destruct b as [|y b]; [discriminate|]. inversion H; subst; inversion H'; subst; try lia. f_equal. apply IH; auto.
Qed.


(** ** The order of contexts *)
Lemma pop_min_spec u l : forall best seen x rest, pop_min u best seen l = (x, rest) ->
  Permutation (best :: rev seen ++ l) (x :: rest) /\ (u_location u x <= u_location u best)%N /\ forall y, In y l -> (u_location u x <= u_location u y)%N.
Proof.
  induction l as [|i l IH]; intros best seen x rest H; cbn in H.
  - injection H as <- <-. rewrite app_nil_r. split; [reflexivity|]. split; [lia|contradiction].
  - destruct (_ <? _)%N eqn:E; [apply N.ltb_lt in E|apply N.ltb_ge in E]; apply IH in H as (H1 & H2 & H3); cbn in H1; (split; [|split; [lia|intros y [<-|Hy]; auto; lia]]).
    + rewrite <- H1, <- app_assoc. cbn. rewrite <- !Permutation_middle. apply perm_swap.
    + rewrite <- H1, <- app_assoc. reflexivity.
Qed.

Lemma pop_first_good u : good_queue (u_location u) (pop_first u).
Proof.
  split; [reflexivity|]. intros [|i q] H; [congruence|]. cbn [pop_first]. destruct (pop_min u i [] q) as [x rest] eqn:E. exists x, rest. split; [reflexivity|].
  apply pop_min_spec in E as (H1 & H2 & H3). split; [exact H1|]. intros y [<-|Hy]; auto.
Qed.

Section Contexts.
Context (u : unit) (st : storage) (g : graph) (T : tree_like g (u_root u)) (Hk : kind u (u_root u) = KOther).
Context (public_bases : nat -> list nat) (Hb : forall n, ~ In n (public_bases n)).
Context (scopes : dmap (option nat)) (Hs : find_enclosing_scopes u st g = Some scopes).

Lemma scopes_good n p : dlookup scopes n = Some (Some p) -> In p (g_nodes g) /\ p <> n.
Proof.
  destruct (scope_spec u st g T Hk) as (m & Em & H1 & H2 & H3). rewrite Hs in Em. injection Em as <-. intros Hp.
  destruct (proj1 (H1 n) (ex_intro _ _ Hp)) as (l & Hl). destruct (Nat.eq_dec n (u_root u)) as [->|Hn]; [congruence|].
  destruct (H3 n l Hl Hn) as (l1 & q & l2 & -> & _ & _ & Hq). rewrite Hp in Hq. injection Hq as <-.
  assert (Hi : In p (n :: l1 ++ p :: l2)) by (right; apply in_app_iff; cbn; auto). split; [apply (path_nodes g _ T _ Hl), Hi|].
  intros ->. assert (X := path_nodup g _ T _ Hl). inversion X as [|? ? Hx _]; subst. apply Hx, in_app_iff. cbn. auto.
Qed.

Lemma scopes_root n : In n (g_nodes g) -> reachable g (u_root u) n -> n <> u_root u -> exists p, dlookup scopes n = Some (Some p).
Proof.
  destruct (scope_spec u st g T Hk) as (m & Em & H1 & H2 & H3). rewrite Hs in Em. injection Em as <-. intros _ (l & Hl) Hn.
  destruct (H3 n l Hl Hn) as (_ & q & _ & _ & _ & _ & Hq). eauto.
Qed.

Let preds := predecessors u public_bases g scopes.

Lemma preds_iff n m : In n (g_nodes g) -> (In m (preds n) <-> depends u public_bases g scopes m n).
Proof.
  intros Hn. unfold preds, predecessors, depends. rewrite in_app_iff. split.
  - intros [H|H].
    + destruct (dlookup scopes n) as [[p|]|] eqn:Ep; try contradiction. destruct H as [<-|[]]. split; [exact Hn|]. split; [apply (scopes_good n p Ep)|auto].
    + destruct (kind u n); try contradiction. apply filter_In in H as [H1 H2]. apply mem_iff in H2. auto.
  - intros (_ & Hm & [H|[H1 H2]]); [left; rewrite H; left; reflexivity|right]. rewrite H1. apply filter_In. split; [exact H2|]. apply mem_iff, Hm.
Qed.

Lemma preds_nodes n : In n (g_nodes g) -> incl (preds n) (g_nodes g).
Proof. intros Hn m Hm. apply (preds_iff n m Hn) in Hm. apply Hm. Qed.

Lemma preds_irr n : In n (g_nodes g) -> ~ In n (preds n).
Proof.
  intros Hn Hm. apply (preds_iff n n Hn) in Hm as (_ & _ & [H|[_ H]]); [|apply (Hb n H)]. apply scopes_good in H as [_ H]. congruence.
Qed.

Context (nodes : list nat) (Hp : Permutation (g_nodes g) nodes).

Lemma E_depends m n : E nodes preds m n <-> depends u public_bases g scopes m n.
Proof.
  unfold E. split.
  - intros [H1 H2]. apply (Permutation_in n (Permutation_sym Hp)) in H1. apply preds_iff; auto.
  - intros H. assert (Hn : In n (g_nodes g)) by apply H. split; [apply (Permutation_in n Hp), Hn|]. apply preds_iff; auto.
Qed.

Lemma leads_ext (E1 E2 : nat -> nat -> Prop) : (forall m n, E1 m n -> E2 m n) -> forall a b l, leads E1 a b l -> leads E2 a b l.
Proof. intros H a b l L. induction L; [constructor|eapply leads_more]; eauto. Qed.

Lemma stuck_ext (E1 E2 : nat -> nat -> Prop) : (forall m n, E1 m n <-> E2 m n) -> forall n, stuck E1 n -> stuck E2 n.
Proof.
  intros H n (c & (l & L) & Hc). exists c. split; [exists l; eapply leads_ext; [|exact L]; intros; apply H; auto|].
  destruct Hc as [Hc|(l' & L')]; [auto|]. right. exists l'. eapply leads_ext; [|exact L']. intros; apply H; auto.
Qed.

Let dep := depends u public_bases g scopes.

Section Queue.
Context (location : nat -> N) (pop : queue -> option (nat * queue)) (Hq : good_queue location pop).

Lemma sorted_cases : exists D, solution location nodes preds D /\
  ((sort_contexts pop u public_bases nodes g scopes = Some (Sorted D) /\ Permutation nodes D /\ ~ cyclic dep) \/
   (exists x, sort_contexts pop u public_bases nodes g scopes = Some (CycleAt x) /\ In x (g_nodes g) /\ stuck dep x /\ (exists n, dep x n) /\
      (forall y n, stuck dep y -> dep y n -> (location x <= location y)%N))).
Proof.
  assert (Hnd : NoDup nodes) by (apply (Permutation_NoDup Hp), (tl_nodes g _ T)).
  assert (Hin : forall n, In n nodes -> incl (preds n) nodes).
  { intros n Hn m Hm. apply (Permutation_in m Hp), (preds_nodes n); [|exact Hm]. apply (Permutation_in n (Permutation_sym Hp)), Hn. }
  assert (Hirr : forall n, In n nodes -> ~ In n (preds n)).
  { intros n Hn. apply preds_irr. apply (Permutation_in n (Permutation_sym Hp)), Hn. }
  destruct (sort_spec location pop Hq nodes Hnd preds Hin Hirr) as (D & S & H). exists D. split; [exact S|].
  assert (Hassert : forallb (fun n => match dlookup scopes n with Some (Some p) => has_node g p | _ => true end) nodes = true).
  { apply forallb_forall. intros n Hn. destruct (dlookup scopes n) as [[p|]|] eqn:Ep; try reflexivity. apply mem_iff. apply (scopes_good n p Ep). }
  unfold sort_contexts. rewrite Hassert. cbn [negb]. fold preds. destruct H as [[E1 E2]|(x & E1 & E2 & E3 & E4 & E5 & E6)]; rewrite E1.
  - left. rewrite <- (Permutation_length E2), Nat.eqb_refl. split; [reflexivity|]. split; [exact E2|]. intros (c & l & L).
    assert (Hc : In c nodes). { apply (Permutation_in c Hp). inversion L as [? ? H|? ? ? ? H]; subst; apply H. }
    assert (HcD : In c D) by (apply (Permutation_in c E2), Hc).
    apply (not_stuck location nodes preds D c S HcD). exists c. split; [|auto]. exists l. eapply leads_ext; [|exact L]. intros; apply E_depends; auto.
  - right. exists x. destruct (Nat.eqb _ _) eqn:El; [apply Nat.eqb_eq in El; lia|]. rewrite rev_unit. split; [reflexivity|].
    split; [apply (Permutation_in x (Permutation_sym Hp)), E3|]. split; [|split].
    + apply (stuck_ext (E nodes preds)); [intros; apply E_depends|]. apply (stuck_iff location nodes preds Hin Hirr D x S E3), E4.
    + destruct E5 as (n & Hn). exists n. apply E_depends, Hn.
    + intros y n Hy Hyn. assert (Hyn' := proj2 (E_depends y n) Hyn). assert (Hyd : In y nodes) by (apply (Permutation_in y Hp); apply Hyn).
      apply E6; [exact Hyd| |exists n; exact Hyn']. apply (stuck_iff location nodes preds Hin Hirr D y S Hyd). apply (stuck_ext dep); [intros; symmetry; apply E_depends|exact Hy].
Qed.

Lemma respects_ext (E1 E2 : nat -> nat -> Prop) l : (forall m n, E1 m n <-> E2 m n) -> respects E1 l -> respects E2 l.
Proof. intros H R l1 n l2 El m Hm. apply (R l1 n l2 El m), H, Hm. Qed.

Lemma order_spec : exists r, sort_contexts pop u public_bases nodes g scopes = Some r /\
  match r with
  | Sorted order => valid_order (g_nodes g) dep order /\ ~ cyclic dep
  | CycleAt n => cyclic dep /\ In n (g_nodes g) /\ stuck dep n /\ (exists m, dep n m) /\
      forall y m, stuck dep y -> dep y m -> (location n <= location y)%N
  end.
Proof.
  destruct sorted_cases as (D & S & [(H1 & H2 & H3)|(x & H1 & H2 & H3 & H4 & H5)]).
  - exists (Sorted D). split; [exact H1|]. split; [|exact H3]. split; [transitivity nodes; assumption|].
    apply (respects_ext (E nodes preds)); [intros; apply E_depends|apply (so_respects _ _ _ _ S)].
  - exists (CycleAt x). split; [exact H1|]. split; [|auto]. destruct H3 as (c & Hc & _). exists c. exact Hc.
Qed.

Context (Hreach : forall n, In n (g_nodes g) -> reachable g (u_root u) n).
Context (Hinj : forall a b, In a (g_nodes g) -> In b (g_nodes g) -> a <> u_root u -> b <> u_root u -> location a = location b -> a = b).

Lemma order_least order : sort_contexts pop u public_bases nodes g scopes = Some (Sorted order) ->
  forall l, valid_order (g_nodes g) dep l -> lex_le location order l.
Proof.
  intros H l [Hl1 Hl2]. destruct sorted_cases as (D & S & [(H1 & H2 & H3)|(x & H1 & _)]); [|congruence].
  rewrite H in H1. injection H1 as <-.
  assert (Hback : forall n, In n nodes -> In n (g_nodes g)) by (intros n Hn; apply (Permutation_in n (Permutation_sym Hp)), Hn).
  apply (lex_least location nodes (Permutation_NoDup Hp (tl_nodes g _ T)) preds (u_root u) order S); auto.
  - intros n Hn Hr Epreds. apply Hback in Hn. destruct (scopes_root n Hn (Hreach n Hn) Hr) as (p & Ep). unfold preds, predecessors in Epreds. rewrite Ep in Epreds. discriminate.
  - split; [transitivity (g_nodes g); [symmetry; exact Hp|exact Hl1]|]. apply (respects_ext dep); [intros; symmetry; apply E_depends|exact Hl2].
Qed.

Lemma root_not_dependent m : ~ dep m (u_root u).
Proof.
  destruct (scope_spec u st g T Hk) as (m' & Em & H1 & H2 & H3). rewrite Hs in Em. injection Em as <-.
  intros (_ & _ & [H|[H _]]); congruence.
Qed.
End Queue.
End Contexts.

Lemma lex_le_ext loc loc' root : (forall n, n <> root -> loc n = loc' n) -> forall a b, ~ In root a -> ~ In root b -> lex_le loc a b -> lex_le loc' a b.
Proof.
  intros H a b Ha Hb L. induction L as [l|x y l l' Hl|x l l' L IH]; [constructor| |].
  - apply lex_less. rewrite <- !H; [exact Hl| |]; intros ->; [apply Hb|apply Ha]; left; reflexivity.
  - apply lex_same. apply IH; intros X; [apply Ha|apply Hb]; right; exact X.
Qed.

Lemma leads_end E a b l : leads E a b l -> exists m, E m b.
Proof. intros L. induction L; eauto. Qed.

Lemma order_deterministic u st g : tree_like g (u_root u) -> kind u (u_root u) = KOther -> (forall n, In n (g_nodes g) -> reachable g (u_root u) n) ->
  forall public_bases, (forall n, ~ In n (public_bases n)) -> forall scopes, find_enclosing_scopes u st g = Some scopes ->
  forall location location', (forall n, n <> u_root u -> location n = location' n) ->
  (forall a b, In a (g_nodes g) -> In b (g_nodes g) -> a <> u_root u -> b <> u_root u -> location a = location b -> a = b) ->
  forall pop pop', good_queue location pop -> good_queue location' pop' ->
  forall nodes nodes', Permutation (g_nodes g) nodes -> Permutation (g_nodes g) nodes' ->
  sort_contexts pop u public_bases nodes g scopes = sort_contexts pop' u public_bases nodes' g scopes.
Proof.
  intros T Hk Hreach pb Hb scopes Hs loc loc' Hloc Hinj pop pop' Hq Hq' nodes nodes' Hp Hp'.
  assert (Hinj' : forall a b, In a (g_nodes g) -> In b (g_nodes g) -> a <> u_root u -> b <> u_root u -> loc' a = loc' b -> a = b).
  { intros a b Ha Hb' Hra Hrb He. apply Hinj; auto. rewrite !Hloc; auto. }
  destruct (order_spec u st g T Hk pb Hb scopes Hs nodes Hp loc pop Hq) as (r & E & Hr).
  destruct (order_spec u st g T Hk pb Hb scopes Hs nodes' Hp' loc' pop' Hq') as (r' & E' & Hr').
  rewrite E, E'. f_equal.
  destruct r as [o|n], r' as [o'|n']; try (exfalso; tauto).
  - destruct Hr as [V _], Hr' as [V' _].
    assert (L := order_least u st g T Hk pb Hb scopes Hs nodes Hp loc pop Hq Hreach Hinj o E o' V').
    assert (L' := order_least u st g T Hk pb Hb scopes Hs nodes' Hp' loc' pop' Hq' Hreach Hinj' o' E' o V).
    assert (Hlen : length o = length o') by (rewrite <- (Permutation_length (proj1 V)), <- (Permutation_length (proj1 V')); reflexivity).
    f_equal. (* both start with the root *)
    assert (Hhead : forall w, valid_order (g_nodes g) (depends u pb g scopes) w -> exists w', w = u_root u :: w' /\ ~ In (u_root u) w').
    { intros w [W1 W2]. destruct w as [|x w]; [apply Permutation_sym, Permutation_nil in W1; assert (X := tl_root_node g _ T); rewrite W1 in X; destruct X|].
      assert (Hx : In x (g_nodes g)) by (apply (Permutation_in x (Permutation_sym W1)); left; reflexivity).
      assert (x = u_root u) as ->.
      { destruct (Nat.eq_dec x (u_root u)) as [He|He]; [exact He|]. exfalso. destruct (scopes_root u st g T Hk scopes Hs x Hx (Hreach x Hx) He) as (p & Ep).
        apply (W2 [] x w eq_refl p). split; [exact Hx|]. split; [apply (scopes_good u st g T Hk scopes Hs x p Ep)|auto]. }
      exists w. split; [reflexivity|]. assert (X := Permutation_NoDup W1 (tl_nodes g _ T)). inversion X; auto. }
    destruct (Hhead o V) as (w & -> & Hw), (Hhead o' V') as (w' & -> & Hw').
    assert (A : lex_le loc w w') by (inversion L; subst; [lia|assumption]).
    assert (B : lex_le loc' w' w) by (inversion L'; subst; [lia|assumption]).
    f_equal. apply (lex_antisym loc w w' A); [|cbn in Hlen; lia]. apply (lex_le_ext loc' loc (u_root u)); auto. intros k Hk'. symmetry. auto.
  - destruct Hr as (_ & H1 & H2 & (m & H3) & H4), Hr' as (_ & H1' & H2' & (m' & H3') & H4').
    assert (Hnr : forall k, stuck (depends u pb g scopes) k -> k <> u_root u).
    { intros k (c & (l & L) & Hc) ->. assert (exists m, depends u pb g scopes m (u_root u)) as (m0 & Hm0).
      { destruct Hc as [->|(l' & L')]; eapply leads_end; eauto. }
      apply (root_not_dependent u st g T Hk pb scopes Hs m0 Hm0). }
    f_equal. apply Hinj; auto. assert (A := H4 n' m' H2' H3'). assert (B := H4' n m H2 H3). rewrite <- !Hloc in B; auto. lia.
Qed.
