(** * Proofs about the map of properties *)
From Coq Require Import Sorting.Sorted.
From Verif Require Import Base ParserModel AnnotModel CollectModel GraphModel InlineModel EmitModel EmitSpec.

(** ** Order of strings *)

Lemma compare_refl a : str_compare a a = Eq.
Proof. induction a as [|c a IH]; cbn; [reflexivity|]. rewrite N.compare_refl. exact IH. Qed.

Lemma compare_eq a : forall b, str_compare a b = Eq -> a = b.
Proof.
  induction a as [|c a IH]; intros [|d b]; cbn; try discriminate; [reflexivity|]. destruct (N.compare (code c) (code d)) eqn:E; try discriminate.
  intros H. apply N.compare_eq in E. apply code_inj in E. subst. f_equal. apply IH, H.
Qed.

Lemma compare_flip a : forall b, str_compare b a = CompOpp (str_compare a b).
Proof.
  induction a as [|c a IH]; intros [|d b]; cbn; try reflexivity. rewrite (N.compare_antisym (code c) (code d)). destruct (N.compare (code c) (code d)); cbn; auto.
Qed.

Lemma str_lt_iff a b : str_lt a b <-> str_compare a b = Lt.
Proof.
  split.
  - intros [p c r|p c d r t H]; induction p as [|x p IH]; cbn; try reflexivity; rewrite ?N.compare_refl; try exact IH.
    unfold N.lt in H. rewrite H. reflexivity.
  - revert b. induction a as [|c a IH]; intros [|d b]; cbn; try discriminate.
    + intros _. exact (Lt_prefix [] d b).
    + destruct (N.compare (code c) (code d)) eqn:E; try discriminate.
      * intros H. apply N.compare_eq in E. apply code_inj in E. subst d. destruct (IH b H) as [p e r|p e f r t K].
        -- exact (Lt_prefix (c :: p) e r).
        -- exact (Lt_first (c :: p) e f r t K).
      * intros _. exact (Lt_first [] c d a b E).
Qed.

Lemma lt_trans a : forall b c, str_lt a b -> str_lt b c -> str_lt a c.
Proof.
  setoid_rewrite str_lt_iff. induction a as [|x a IH]; intros [|y b] [|z c]; cbn; try discriminate; auto.
  destruct (N.compare (code x) (code y)) eqn:E1; try discriminate.
  - apply N.compare_eq in E1. rewrite E1. destruct (N.compare (code y) (code z)); try discriminate; auto. intros; eapply IH; eauto.
  - intros _. destruct (N.compare (code y) (code z)) eqn:E2; try discriminate.
    + apply N.compare_eq in E2. rewrite <- E2, E1. reflexivity.
    + intros _. change (code x < code y)%N in E1. change (code y < code z)%N in E2. assert (H : (code x < code z)%N) by lia.
      unfold N.lt in H. rewrite H. reflexivity.
Qed.

Lemma lt_irrefl a : ~ str_lt a a.
Proof. rewrite str_lt_iff, compare_refl. discriminate. Qed.

Lemma str_eqb_refl a : str_eqb a a = true.
Proof. apply str_eqb_eq. reflexivity. Qed.

(** ** Sorted names *)

Lemma insert_in s l n : In n (insert_str s l) <-> n = s \/ In n l.
Proof.
  induction l as [|t l IH]; cbn [insert_str]; [cbn; intuition|]. destruct (str_compare s t) eqn:E.
  - apply compare_eq in E. subst. cbn. intuition.
  - cbn. intuition.
  - cbn [In]. rewrite IH. intuition.
Qed.

Lemma insert_sorted s l : StronglySorted str_lt l -> StronglySorted str_lt (insert_str s l).
Proof.
  induction 1 as [|t l Hl IH Hf]; cbn [insert_str]; [repeat constructor|]. destruct (str_compare s t) eqn:E.
  - constructor; assumption.
  - constructor; [constructor; assumption|]. apply str_lt_iff in E. constructor; [exact E|]. rewrite Forall_forall in *. intros x Hx. eapply lt_trans; [exact E|]. apply Hf, Hx.
  - constructor; [exact IH|]. rewrite Forall_forall in *. intros x Hx. apply insert_in in Hx. destruct Hx as [->|Hx]; [|apply Hf, Hx].
    rewrite str_lt_iff, compare_flip, E. reflexivity.
Qed.

Lemma in_order_sorted l : StronglySorted str_lt (in_order l).
Proof. induction l; cbn; [constructor|]. apply insert_sorted. assumption. Qed.

Lemma in_order_in l n : In n (in_order l) <-> In n l.
Proof. induction l; cbn; [reflexivity|]. rewrite insert_in, IHl. intuition. Qed.

Lemma sorted_unique (l : list str) : forall l', StronglySorted str_lt l -> StronglySorted str_lt l' -> (forall n, In n l <-> In n l') -> l = l'.
Proof.
  induction l as [|x l IH]; intros [|y l'] Hl Hl' H.
  - reflexivity.
  - destruct (proj2 (H y) (or_introl eq_refl)).
  - destruct (proj1 (H x) (or_introl eq_refl)).
  - inversion Hl as [|? ? Sl Fl]; inversion Hl' as [|? ? Sl' Fl']; subst. rewrite Forall_forall in Fl, Fl'.
    assert (x = y).
    { destruct (proj1 (H x) (or_introl eq_refl)) as [E|E]; [congruence|]. destruct (proj2 (H y) (or_introl eq_refl)) as [E'|E']; [congruence|].
      destruct (lt_irrefl x). eapply lt_trans; [apply Fl, E'|apply Fl', E]. }
    subst y. f_equal. apply IH; auto. intros n. split; intros Hn.
    + destruct (proj1 (H n) (or_intror Hn)) as [<-|E]; [destruct (lt_irrefl x); apply Fl, Hn|exact E].
    + destruct (proj2 (H n) (or_intror Hn)) as [<-|E]; [destruct (lt_irrefl x); apply Fl', Hn|exact E].
Qed.

(** ** Properties defined by a sequence of uses *)

Definition apply_uses (us : uses) (acc : properties * list ereport) : properties * list ereport :=
  fold_left (fun acc t => define_property (fst (fst t)) (snd (fst t)) acc (snd t)) us acc.

Lemma define_property_reports m b ps rs n : define_property m b (ps, rs) n = (fst (define_property m b (ps, []) n), rs ++ snd (define_property m b (ps, []) n)).
Proof. unfold define_property. destruct (update _ _ _) as [ps' old]. reflexivity. Qed.

Lemma apply_uses_reports us : forall ps rs, apply_uses us (ps, rs) = (fst (apply_uses us (ps, [])), rs ++ snd (apply_uses us (ps, []))).
Proof.
  induction us as [|[[m b] n] us IH]; intros ps rs; cbn [apply_uses fold_left fst snd]; [rewrite app_nil_r; reflexivity|].
  fold (apply_uses us (define_property m b (ps, rs) n)). fold (apply_uses us (define_property m b (ps, []) n)).
  rewrite (define_property_reports m b ps rs). destruct (define_property m b (ps, []) n) as [ps' rs'] eqn:E. cbn [fst snd].
  rewrite (IH ps' (rs ++ rs')), (IH ps' rs'). cbn [fst snd]. rewrite app_assoc. reflexivity.
Qed.

Lemma apply_uses_app us1 us2 ps : apply_uses (us1 ++ us2) (ps, []) =
  (fst (apply_uses us2 (fst (apply_uses us1 (ps, [])), [])), snd (apply_uses us1 (ps, [])) ++ snd (apply_uses us2 (fst (apply_uses us1 (ps, [])), []))).
Proof.
  unfold apply_uses at 1. rewrite fold_left_app. fold (apply_uses us1 (ps, [])). destruct (apply_uses us1 (ps, [])) as [ps1 rs1]. cbn [fst snd].
  exact (apply_uses_reports us2 ps1 rs1).
Qed.

Lemma define_properties_uses m a ps : define_properties m a ps =
  apply_uses (map (fun n => (m, false, n)) (in_order (m_getter_for a)) ++ map (fun n => (m, true, n)) (in_order (m_setter_for a))) (ps, []).
Proof.
  unfold define_properties, apply_uses. rewrite fold_left_app.
  assert (H : forall b l acc, fold_left (define_property m b) l acc = fold_left (fun acc t => define_property (fst (fst t)) (snd (fst t)) acc (snd t)) (map (fun n => (m, b, n)) l) acc).
  { intros b l. induction l; intros acc; cbn; [reflexivity|]. apply IHl. }
  rewrite !H. reflexivity.
Qed.

Lemma uses_by_in_order m a : uses_by m a (map (fun n => (m, false, n)) (in_order (m_getter_for a)) ++ map (fun n => (m, true, n)) (in_order (m_setter_for a))).
Proof.
  exists (in_order (m_getter_for a)), (in_order (m_setter_for a)). repeat split; try apply in_order_sorted; apply in_order_in.
Qed.

Lemma uses_by_unique m a us us' : uses_by m a us -> uses_by m a us' -> us = us'.
Proof.
  intros (gs & ss & G & Hg & S & Hs & ->) (gs' & ss' & G' & Hg' & S' & Hs' & ->).
  assert (gs = gs') as -> by (apply sorted_unique; auto; intros n; rewrite Hg, Hg'; reflexivity).
  assert (ss = ss') as -> by (apply sorted_unique; auto; intros n; rewrite Hs, Hs'; reflexivity). reflexivity.
Qed.

Fixpoint find_property (n : str) (ps : properties) : property :=
  match ps with
  | [] => mkProperty None None
  | (k, p) :: ps' => if str_eqb n k then p else find_property n ps'
  end.

Definition keys_sorted (ps : properties) : Prop := StronglySorted str_lt (map fst ps).

Lemma not_key n ps : Forall (str_lt n) (map fst ps) -> find_property n ps = mkProperty None None.
Proof.
  induction ps as [|[k p] ps IH]; cbn; [reflexivity|]. intros H. inversion H as [|? ? H1 H2]; subst. destruct (str_eqb n k) eqn:E.
  - apply str_eqb_eq in E. subst. destruct (lt_irrefl _ H1).
  - apply IH, H2.
Qed.

Lemma update_in n f ps k : In k (map fst (fst (update n f ps))) <-> k = n \/ In k (map fst ps).
Proof.
  induction ps as [|[j p] ps IH]; cbn [update]; [cbn; intuition|]. destruct (str_compare n j) eqn:E.
  - apply compare_eq in E. subst. cbn. intuition.
  - cbn. intuition.
  - destruct (update n f ps) as [ps' old]. cbn [fst map In] in *. rewrite IH. intuition.
Qed.

Lemma update_spec n f ps : keys_sorted ps -> keys_sorted (fst (update n f ps)) /\ snd (update n f ps) = find_property n ps /\
  find_property n (fst (update n f ps)) = f (find_property n ps) /\ forall k, k <> n -> find_property k (fst (update n f ps)) = find_property k ps.
Proof.
  unfold keys_sorted. induction ps as [|[j p] ps IH]; cbn [update find_property map fst]; intros H.
  - cbn. rewrite str_eqb_refl. split; [repeat constructor|]. split; [reflexivity|]. split; [reflexivity|]. intros k Hk.
    destruct (str_eqb k n) eqn:E; [apply str_eqb_eq in E; congruence|reflexivity].
  - inversion H as [|? ? Hs Hf]; subst. destruct (str_compare n j) eqn:E.
    + apply compare_eq in E. subst. cbn [fst snd find_property map]. rewrite !str_eqb_refl. split; [exact H|]. split; [reflexivity|]. split; [reflexivity|].
      intros k Hk. destruct (str_eqb k j) eqn:E; [apply str_eqb_eq in E; congruence|reflexivity].
    + cbn [fst snd find_property map]. assert (Hlt : Forall (str_lt n) (map fst ((j, p) :: ps))).
      { apply str_lt_iff in E. constructor; [exact E|]. rewrite Forall_forall in *. intros x Hx. eapply lt_trans; [exact E|]. apply Hf, Hx. }
      split; [constructor; [exact H|exact Hlt]|]. pose proof (not_key n ((j, p) :: ps) Hlt) as Hn. cbn [find_property] in Hn. rewrite Hn.
      split; [reflexivity|]. rewrite str_eqb_refl. split; [reflexivity|].
      intros k Hk. destruct (str_eqb k n) eqn:E2; [apply str_eqb_eq in E2; congruence|reflexivity].
    + specialize (IH Hs). pose proof (update_in n f ps) as Hin. destruct (update n f ps) as [ps' old]. cbn [fst snd find_property map] in *.
      destruct IH as (I1 & I2 & I3 & I4). assert (Hnj : str_eqb n j = false).
      { destruct (str_eqb n j) eqn:E2; [|reflexivity]. apply str_eqb_eq in E2. subst. rewrite compare_refl in E. discriminate. }
      rewrite Hnj. split.
      * constructor; [exact I1|]. rewrite Forall_forall in *. intros x Hx. apply Hin in Hx. destruct Hx as [->|Hx]; [|apply Hf, Hx].
        rewrite str_lt_iff, compare_flip, E. reflexivity.
      * split; [exact I2|]. split; [exact I3|]. intros k Hk. destruct (str_eqb k j); [reflexivity|]. apply I4, Hk.
Qed.

Lemma users_app us us' n b : users (us ++ us') n b = users us n b ++ users us' n b.
Proof. unfold users. rewrite filter_app, map_app. reflexivity. Qed.

Lemma last_of_app l m : last_of (l ++ [m]) = Some m.
Proof. unfold last_of. rewrite rev_app_distr. reflexivity. Qed.

Lemma last_of_split l q : last_of l = Some q <-> exists l1, l = l1 ++ [q].
Proof.
  split.
  - unfold last_of. destruct (rev l) as [|x r] eqn:E; [discriminate|]. intros [= ->]. exists (rev r). rewrite <- (rev_involutive l), E. reflexivity.
  - intros [l1 ->]. apply last_of_app.
Qed.

Lemma last_of_none l : last_of l = None <-> l = [].
Proof.
  split; [|intros ->; reflexivity]. unfold last_of. destruct (rev l) eqn:E; [|discriminate]. intros _. rewrite <- (rev_involutive l), E. reflexivity.
Qed.

Lemma users_one m b n k c : users [(m, b, n)] k c = if Bool.eqb b c && str_eqb n k then [m] else [].
Proof. unfold users. cbn. destruct (_ && _); reflexivity. Qed.

Lemma adjacent_snoc (l : list nat) (x : nat) l1 q m l2 : l ++ [x] = l1 ++ q :: m :: l2 <->
  (exists l2', l2 = l2' ++ [x] /\ l = l1 ++ q :: m :: l2') \/ (l2 = [] /\ m = x /\ l = l1 ++ [q]).
Proof.
  split.
  - destruct (@exists_last _ (m :: l2) ltac:(discriminate)) as (l2' & z & E). rewrite E. intros H.
    change (q :: l2' ++ [z]) with ((q :: l2') ++ [z]) in H. rewrite app_assoc in H. apply app_inj_tail in H. destruct H as [-> ->].
    destruct l2' as [|y l2'].
    + injection E as -> ->. right. auto.
    + injection E as -> ->. left. exists l2'. auto.
  - intros [(l2' & -> & ->)|(-> & -> & ->)]; rewrite <- app_assoc; reflexivity.
Qed.

Lemma apply_uses_spec us : let '(ps, rs) := apply_uses us (@pair properties (list ereport) [] []) in
  keys_sorted ps /\ (forall n, find_property n ps = mkProperty (last_of (users us n false)) (last_of (users us n true))) /\
  (forall r, In r rs <-> exists m n b q l1 l2, r = EAlreadyDefined m n b q /\ users us n b = l1 ++ q :: m :: l2).
Proof.
  induction us as [|t us IH] using rev_ind.
  - cbn. split; [constructor|]. split; [reflexivity|]. intros r. split; [intros []|]. intros (m & n & b & q & l1 & l2 & _ & E). destruct l1; discriminate.
  - rewrite apply_uses_app. destruct (apply_uses us (@pair properties (list ereport) [] [])) as [ps rs]. destruct IH as (I1 & I2 & I3). destruct t as [[m b] n].
    cbn [fst snd apply_uses fold_left]. unfold define_property.
    pose proof (update_spec n (fun p => if b then mkProperty (pr_getter p) (Some m) else mkProperty (Some m) (pr_setter p)) ps I1) as U.
    destruct (update n _ ps) as [ps' old]. cbn [fst snd app] in *. destruct U as (U1 & -> & U3 & U4). split; [exact U1|]. split.
    + intros k. rewrite !users_app, !users_one. destruct (str_eqb n k) eqn:E.
      * apply str_eqb_eq in E. subst k. rewrite U3, I2. destruct b; cbn [Bool.eqb andb pr_getter pr_setter]; rewrite last_of_app, app_nil_r; reflexivity.
      * rewrite !andb_false_r, !app_nil_r. rewrite U4; [apply I2|]. intros ->. rewrite str_eqb_refl in E. discriminate.
    + intros r. rewrite in_app_iff, I3, I2. cbn [pr_getter pr_setter]. split.
      * intros [(m' & n' & b' & q & l1 & l2 & -> & E)|H].
        -- exists m', n', b', q, l1, (l2 ++ users [(m, b, n)] n' b'). split; [reflexivity|]. rewrite users_app, E, <- app_assoc. reflexivity.
        -- assert (H' : exists q, last_of (users us n b) = Some q /\ r = EAlreadyDefined m n b q).
           { destruct b; destruct (last_of _) as [q|]; [|destruct H| |destruct H]; destruct H as [<-|[]]; eauto. }
           destruct H' as (q & E & ->). apply last_of_split in E. destruct E as [l1 E]. exists m, n, b, q, l1, []. split; [reflexivity|].
           rewrite users_app, E, users_one, str_eqb_refl, Bool.eqb_reflx, <- app_assoc. reflexivity.
      * intros (m' & n' & b' & q & l1 & l2 & -> & E). rewrite users_app, users_one in E. destruct (Bool.eqb b b' && str_eqb n n') eqn:Eb.
        -- apply andb_true_iff in Eb. destruct Eb as [Eb En]. apply Bool.eqb_prop in Eb. apply str_eqb_eq in En. subst b' n'.
           apply adjacent_snoc in E. destruct E as [(l2' & -> & E)|(-> & -> & E)]; [left; eauto 10|]. right.
           assert (Hl : last_of (users us n b) = Some q) by (apply last_of_split; eauto). destruct b; rewrite Hl; left; reflexivity.
        -- rewrite app_nil_r in E. left. eauto 10.
Qed.

Lemma find_in n p ps : keys_sorted ps -> In (n, p) ps -> find_property n ps = p.
Proof.
  unfold keys_sorted. induction ps as [|[k q] ps IH]; cbn [map fst find_property]; [intros _ []|]. intros H [E|Hin].
  - injection E as -> ->. rewrite str_eqb_refl. reflexivity.
  - inversion H as [|? ? Hs Hf]; subst. destruct (str_eqb n k) eqn:E; [|apply IH; assumption]. apply str_eqb_eq in E. subst.
    rewrite Forall_forall in Hf. destruct (lt_irrefl k). apply Hf. apply in_map_iff. exists (k, p). auto.
Qed.

Lemma find_some n ps : find_property n ps <> mkProperty None None -> In (n, find_property n ps) ps.
Proof.
  induction ps as [|[k q] ps IH]; cbn [find_property]; [congruence|]. destruct (str_eqb n k) eqn:E.
  - apply str_eqb_eq in E. subst. intros _. left. reflexivity.
  - intros H. right. apply IH, H.
Qed.

Lemma emit_properties_spec ps : keys_sorted ps ->
  (forall s, In s (fst (emit_properties ps)) <-> exists n g, pr_getter (find_property n ps) = Some g /\ s = SProperty n g (pr_setter (find_property n ps))) /\
  (forall r, In r (snd (emit_properties ps)) <-> exists n m, pr_getter (find_property n ps) = None /\ pr_setter (find_property n ps) = Some m /\ r = ENoGetter m n) /\
  StronglySorted str_lt (flat_map (fun s => match s with SProperty n _ _ => [n] | _ => [] end) (fst (emit_properties ps))).
Proof.
  intros H. unfold emit_properties. cbn [fst snd]. split; [|split].
  - intros s. rewrite in_flat_map. split.
    + intros ([n p] & Hin & Hs). unfold emit_property in Hs. cbn [fst snd] in Hs. exists n. rewrite (find_in n p ps H Hin). destruct (pr_getter p) as [g|], (pr_setter p); cbn in Hs; try contradiction;
        destruct Hs as [<-|[]]; eauto.
    + intros (n & g & Hg & ->). exists (n, find_property n ps). split; [apply find_some; intros E; rewrite E in Hg; discriminate|].
      unfold emit_property. cbn [fst snd]. rewrite Hg. cbn. auto.
  - intros r. rewrite in_flat_map. split.
    + intros ([n p] & Hin & Hs). unfold emit_property in Hs. cbn [fst snd] in Hs. exists n. rewrite (find_in n p ps H Hin). destruct (pr_getter p) as [g|], (pr_setter p); cbn in Hs; try contradiction;
        destruct Hs as [<-|[]]; eauto.
    + intros (n & g & Hg & Hs & ->). exists (n, find_property n ps). split; [apply find_some; intros E; rewrite E in Hs; discriminate|].
      unfold emit_property. cbn [fst snd]. rewrite Hg, Hs. cbn. auto.
  - unfold keys_sorted in H. induction ps as [|[n p] ps IH]; cbn [flat_map map fst snd] in *; [constructor|]. inversion H as [|? ? Hs Hf]; subst.
    rewrite flat_map_app. specialize (IH Hs).
    assert (Hsub : Forall (str_lt n) (flat_map (fun s => match s with SProperty n _ _ => [n] | _ => [] end) (flat_map (fun e => fst (emit_property e)) ps))).
    { rewrite Forall_forall in *. intros k Hk. apply Hf. apply in_flat_map in Hk. destruct Hk as (s & Hs' & Hk). apply in_flat_map in Hs'. destruct Hs' as ([j q] & Hj & Hs').
      apply in_map_iff. exists (j, q). split; [|exact Hj]. unfold emit_property in Hs'. cbn in Hs'. destruct (pr_getter q), (pr_setter q); cbn in Hs'; try contradiction;
        destruct Hs' as [<-|[]]; cbn in Hk; destruct Hk as [->|[]]; reflexivity. }
    unfold emit_property at 1. cbn [fst snd]. destruct (pr_getter p), (pr_setter p); cbn; try exact IH; constructor; assumption.
Qed.
