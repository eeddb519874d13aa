(** * Proofs about which members are found in Python *)
From Coq Require Import Sorting.Permutation.
From Verif Require Import Base ParserModel AnnotModel AnnotSpec CollectModel CollectSpec GraphModel GraphSpec OrderModel OrderSpec InlineModel InlineSpec InlineProofs EmitModel EmitSpec ModuleModel ModuleSpec ModuleProofs ModuleFinal ImportSpec ImportProofs ExecSpec ExecProofs MroSpec MroProofs AccessSpec AccessProofs HidingSpec.

(** ** Orders are kept *)

Definition before (l : list nat) (x y : nat) : Prop := exists l1 l2 l3, l = l1 ++ x :: l2 ++ y :: l3.

Lemma before_cons z l x y : before l x y -> before (z :: l) x y.
Proof. intros (l1 & l2 & l3 & ->). exists (z :: l1), l2, l3. reflexivity. Qed.

Lemma before_head x y l : In y l -> before (x :: l) x y.
Proof. intro H. apply in_split in H as (l2 & l3 & ->). exists [], l2, l3. reflexivity. Qed.

Lemma before_in l x y : before l x y -> In x l /\ In y (tl l).
Proof.
  intros (l1 & l2 & l3 & ->). split; [apply in_elt|]. destruct l1 as [|z l1]; cbn [app tl]; [apply in_elt|].
  apply in_app_iff. right. right. apply in_elt.
Qed.

Lemma merges_before ls r : merges ls r -> forall l x y, In l ls -> before l x y -> before r x y.
Proof.
  induction 1 as [ls H|ls z r N M IH]; intros l x y Hl B.
  - rewrite (H l Hl) in B. destruct (before_in _ _ _ B) as [[] _].
  - assert (F : free ls z) by (destruct N as (? & ? & ? & _ & F & _); exact F).
    assert (Ny : z <> y) by (intros ->; exact (F l Hl (proj2 (before_in _ _ _ B)))).
    assert (Ha : In (advance z l) (map (advance z) ls)) by (apply in_map, Hl).
    destruct (Nat.eq_dec z x) as [->|Nx].
    + apply before_head. rewrite (merges_in _ _ M). exists (advance x l). split; [exact Ha|].
      destruct (in_unless x y l) as [E|H]; [destruct (before_in _ _ _ B) as [_ H]; exact (in_tl _ _ H)|congruence|exact H].
    + apply before_cons, (IH (advance z l)); [exact Ha|]. destruct B as (l1 & l2 & l3 & ->). destruct l1 as [|a l1]; cbn [app advance].
      * destruct (Nat.eqb z x) eqn:E; [apply Nat.eqb_eq in E; congruence|]. exists [], l2, l3. reflexivity.
      * destruct (Nat.eqb z a); [exists l1, l2, l3|exists (a :: l1), l2, l3]; reflexivity.
Qed.

(** Classes come before those they are derived from. *)
Definition derived_first (ms : list (nat * list nat)) : Prop :=
  forall c m x mx y, In (c, m) ms -> In x m -> In (x, mx) ms -> In y (tl mx) -> before m x y.

Lemma forall2_in ms (bs : list nat) (ls : list (list nat)) : Forall2 (fun b m => In (b, m) ms) bs ls -> forall l, In l ls -> exists b, In b bs /\ In (b, l) ms.
Proof.
  induction 1 as [|b m bs ls Hb F IH]; intros l; [intros []|]. intros [<-|Hl]; [exists b; split; [left; reflexivity|exact Hb]|].
  destruct (IH l Hl) as (b' & H1 & H2). exists b'. split; [right; exact H1|exact H2].
Qed.

Lemma forall2_of ms (bs : list nat) (ls : list (list nat)) : Forall2 (fun b m => In (b, m) ms) bs ls -> forall b, In b bs -> exists l, In l ls /\ In (b, l) ms.
Proof.
  induction 1 as [|b m bs ls Hb F IH]; intros x; [intros []|]. intros [<-|Hx]; [exists m; split; [left; reflexivity|exact Hb]|].
  destruct (IH x Hx) as (l & H1 & H2). exists l. split; [right; exact H1|exact H2].
Qed.

Section Order.
Context (u : unit) (st : storage) (h : hierarchy) (exposed : nat -> Prop) (intros : list (str * introducer)).
Hypothesis A : acyclic h.
Hypothesis B : forall id t p n d, In (id, NClass t p n d) intros -> bases_of u st h exposed t.

Lemma derived_first_class ms t ls r : sound h ms -> NoDup (ct_record t :: map fst ms) -> derived_first ms -> bases_of u st h exposed t ->
  Forall2 (fun b m => In (b, m) ms) (ct_bases t) ls -> merges (ls ++ [ct_bases t]) r -> derived_first ((ct_record t, ct_record t :: r) :: ms).
Proof.
  intros S Nk D Bt F M c m x mx y Hc Hx Hmx Hy. inversion Nk as [|? ? N1 N2]; subst.
  assert (S' := sound_class u st h exposed intros A B ms t ls r S Bt F M).
  destruct Hc as [E|Hc].
  - injection E as <- <-. destruct Hx as [<-|Hx].
    + destruct Hmx as [E|Hmx]; [|destruct (N1 (in_map fst _ _ Hmx))]. injection E as <-. cbn [tl] in Hy. now apply before_head.
    + destruct Hmx as [E|Hmx].
      { injection E as <- <-. destruct (S' _ _ (or_introl eq_refl)) as (Nd & _). inversion Nd as [|? ? X _]. destruct (X Hx). }
      apply before_cons. rewrite (merges_in _ _ M) in Hx. destruct Hx as (l & Hl & Hx).
      assert (Y : exists b, In (b, l) ms /\ In l (ls ++ [ct_bases t]) \/ exists l', In l' ls /\ In (x, l') ms).
      { apply in_app_iff in Hl as [Hl|[<-|[]]].
        - destruct (forall2_in _ _ _ F l Hl) as (b & _ & Hb). exists b. left. split; [exact Hb|apply in_app_iff; left; exact Hl].
        - destruct (forall2_of _ _ _ F x Hx) as (l' & H1 & H2). exists 0. right. exists l'. auto. }
      destruct Y as (b & [[Hb Hl']|(l' & Hl' & Hb)]).
      * apply (merges_before _ _ M l); [exact Hl'|]. exact (D b l x mx y Hb Hx Hmx Hy).
      * apply (merges_before _ _ M l'); [apply in_app_iff; left; exact Hl'|]. rewrite (functional ms N2 x mx l' Hmx Hb) in Hy.
        destruct (S _ _ Hb) as (_ & r0 & -> & _). now apply before_head.
  - destruct Hmx as [E|Hmx].
    + injection E as <- <-. exfalso. destruct (S _ _ Hc) as (_ & r0 & -> & Hr). destruct Hx as [->|Hx]; [exact (N1 (in_map fst _ _ Hc))|]. exact (N1 (proj2 (Hr _ Hx))).
    + exact (D c m x mx y Hc Hx Hmx Hy).
Qed.

Lemma creates_derived_first ms l ms' : creates ms l ms' -> (forall x, In x l -> In x intros) -> sound h ms -> NoDup (rev (class_records l) ++ map fst ms) -> derived_first ms -> derived_first ms'.
Proof.
  induction 1 as [ms|ms id i l ms' Ni C IH|ms id t p n d l ls r ms' H1 H2 H3 C IH]; intros I S N D; [exact D| |].
  - apply IH; [intros x Hx; apply I; right; exact Hx|exact S| |exact D]. cbn [class_records] in N. destruct i as [q|q m|e q m d|t q m d]; try exact N. destruct (Ni _ _ _ _ eq_refl).
  - assert (Bt := B id t p n d (I _ (or_introl eq_refl))). cbn [class_records rev] in N. rewrite <- app_assoc in N. cbn [app] in N.
    apply IH; [intros x Hx; apply I; right; exact Hx|exact (sound_class u st h exposed intros A B ms t ls r S Bt H2 H3)|exact N|].
    apply (derived_first_class ms t ls r S); [|exact D|exact Bt|exact H2|exact H3].
    clear -N. induction (rev (class_records l)) as [|x l0 IHl]; [exact N|]. inversion N. auto.
Qed.
End Order.

(** ** Lookup *)

Lemma first_some_before {X} (f : nat -> option X) l x : In x l -> f x <> None -> (forall y, In y l -> f y <> None -> y = x \/ before l x y) -> NoDup l -> first_some f l = f x.
Proof.
  intros Hx Fx H N. assert (G : forall l1 l2, l = l1 ++ l2 -> In x l2 -> first_some f l2 = f x).
  { intros l1 l2. revert l1. induction l2 as [|y l2 IH]; intros l1 E Hx2; [destruct Hx2|]. cbn [first_some]. destruct (f y) as [v|] eqn:Fy.
    - assert (Hy : In y l) by (rewrite E; apply in_elt). destruct (H y Hy) as [<-|(a & b & c & Eb)]; [congruence|symmetry; exact Fy|].
      exfalso. destruct Hx2 as [->|Hx2]; [rewrite Eb in N; apply NoDup_remove_2 in N; apply N, in_app_iff; right; apply in_elt|].
      (* x is after y in l, and before it *)
      assert (E2 : l = l1 ++ y :: l2) by exact E. apply in_split in Hx2 as (m1 & m2 & ->).
      assert (N1 : NoDup (a ++ x :: b ++ y :: c)) by (rewrite <- Eb; exact N).
      assert (Ex : length a = length (l1 ++ y :: m1)).
      { apply (proj1 (NoDup_nth_error l) N).
        - rewrite Eb, app_length. cbn [length]. lia.
        - rewrite Eb at 1. rewrite nth_error_app2 by lia. rewrite Nat.sub_diag. cbn [nth_error].
          rewrite E2. replace (l1 ++ y :: m1 ++ x :: m2) with ((l1 ++ y :: m1) ++ x :: m2) by (rewrite <- app_assoc; reflexivity).
          rewrite nth_error_app2 by lia. now rewrite Nat.sub_diag. }
      assert (Ey : length (a ++ x :: b) = length l1).
      { apply (proj1 (NoDup_nth_error l) N).
        - rewrite Eb. replace (a ++ x :: b ++ y :: c) with ((a ++ x :: b) ++ y :: c) by (rewrite <- app_assoc; reflexivity). rewrite (app_length (a ++ x :: b)). cbn [length]. lia.
        - rewrite Eb at 1. replace (a ++ x :: b ++ y :: c) with ((a ++ x :: b) ++ y :: c) by (rewrite <- app_assoc; reflexivity). rewrite nth_error_app2 by lia. rewrite Nat.sub_diag. cbn [nth_error].
          rewrite E2. rewrite nth_error_app2 by lia. now rewrite Nat.sub_diag. }
      rewrite app_length in Ex, Ey. cbn [length] in Ex, Ey. lia.
    - destruct Hx2 as [->|Hx2]; [congruence|]. apply (IH (l1 ++ [y])); [rewrite <- app_assoc; exact E|exact Hx2]. }
  apply (G [] l eq_refl Hx).
Qed.

Lemma first_some_none {X} (f : nat -> option X) l : (forall y, In y l -> f y = None) -> first_some f l = None.
Proof. induction l as [|y l IH]; intro H; cbn [first_some]; [reflexivity|]. rewrite (H y (or_introl eq_refl)). apply IH. intros z Hz. apply H. right. exact Hz. Qed.

Lemma getattr_order mro p c n : getattr mro p (Class c) n = first_some (fun y => own p (Class y) n) (c :: mro c).
Proof. unfold getattr, inherited. cbn [first_some]. destruct (own p (Class c) n); reflexivity. Qed.

Section Hierarchy.
Context (h : hierarchy) (declares : nat -> Prop) (dec : forall c, declares c \/ ~ declares c).

(** Classes with a declaration are reached or hidden by one that is. *)
Lemma declared_reached c path y : derives h c path y -> declares y -> exists z, sees h declares c z /\ (y = z \/ exists q, derives h z q y).
Proof.
  induction 1 as [c s Hs|c s path y Hs D IH]; intro Hy; (destruct (dec c) as [Hc|Hc]; [exists c; split; [now constructor|right]|]).
  - exists [s]. now constructor.
  - exists (sp_base s). split; [eapply sees_base; [exact Hc|exact Hs|now constructor]|left; reflexivity].
  - exists (s :: path). now constructor.
  - destruct (IH Hy) as (z & Hz & X). exists z. split; [eapply sees_base; eauto|exact X].
Qed.

Lemma reached_from c x : sees h declares c x -> declares x /\ (x = c \/ exists path, derives h c path x).
Proof.
  induction 1 as [c Hc|c s x Hc Hs _ (Hx & IH)]; [auto|]. split; [exact Hx|]. right. destruct IH as [->|(p & Hp)]; [exists [s]; now constructor|exists (s :: p); now constructor].
Qed.

Lemma finds_all c x : finds h declares c x -> forall y, y = c \/ (exists path, derives h c path y) -> declares y -> y = x \/ exists q, derives h x q y.
Proof.
  intros [Hx U] y Hy Dy.
  assert (Z : exists z, sees h declares c z /\ (y = z \/ exists q, derives h z q y)).
  { destruct Hy as [->|(p & Hp)]; [exists c; split; [now constructor|left; reflexivity]|]. eapply declared_reached; eauto. }
  destruct Z as (z & Hz & Q). destruct (U z Hz) as [->|(q & Hq)]; [exact Q|]. right. destruct Q as [->|(q' & Hq')]; [exists q; exact Hq|exists (q ++ q'); eapply derives_trans; eauto].
Qed.
End Hierarchy.

Section Generated.
Context (u : unit) (w : facts) (found : nat -> list nat) (implicit : nat -> bool) (iteration : list nat -> list nat) (Se : setting u w iteration)
  (n : nat) (name : str) (b : bstate) (files : list (list item)) (rs : list ereport) (st' : storage) (Hn : 0 < n)
  (HG : generate u w found implicit iteration n name = Some (RGraph b (EWritten files rs st')))
  (intros : list (str * introducer)) (calls : list (str * str)) (post : list nat) (Hin : In (IModule name intros calls post) (concat files)).

Lemma plain_derived e c : plain_hierarchy u (bs_annotations b) (w_hierarchy w) e c -> forall d path y, (d = c \/ exists q, derives (w_hierarchy w) c q d) -> derives (w_hierarchy w) d path y ->
  plainly_derived u (bs_annotations b) (w_hierarchy w) e d y.
Proof.
  intros P d path y Hd D. revert Hd. induction D as [d s Hs|d s path y Hs D IH]; intro Hd; destruct (P d s Hd Hs) as (H1 & H2 & H3 & H4); eapply plainly_base; eauto.
  - constructor.
  - apply IH. right. destruct Hd as [->|(q & Hq)]; [exists [s]; now constructor|exists (q ++ [s]); eapply derives_trans; [exact Hq|now constructor]].
Qed.

Theorem members_found ms mro : creates [] intros ms -> searched_in mro ms ->
  forall c, introduced_class intros c -> plain_hierarchy u (bs_annotations b) (w_hierarchy w) (introduced_class intros) c ->
  forall p k, (forall x, finds (w_hierarchy w) (fun y => own p (Class y) k <> None) c x -> getattr mro p (Class c) k = own p (Class x) k) /\
    ((forall x, ~ sees (w_hierarchy w) (fun y => own p (Class y) k <> None) c x) -> getattr mro p (Class c) k = None).
Proof.
  intros C Sm c Hc P p k. destruct (subclasses u w found implicit iteration Se n name b files rs st' Hn HG intros calls post Hin ms C) as (S1 & S2 & S3).
  destruct (S3 c Hc) as (r & Hr & Nr & _). assert (Er := Sm _ _ Hr). injection Er as Er.
  assert (dec : forall y, own p (Class y) k <> None \/ ~ own p (Class y) k <> None) by (intro y; destruct (own p (Class y) k); [left; discriminate|right; congruence]).
  assert (In_anc : forall y, In y (c :: mro c) -> y = c \/ exists path, derives (w_hierarchy w) c path y).
  { intros y Hy. destruct (S1 c y) as (_ & _ & [->|(q & Hq & _)]); [exists (c :: r); split; [exact Hr|rewrite Er; exact Hy]|left; reflexivity|right; exists q; exact Hq]. }
  assert (D : derived_first ms).
  { destruct (written_classes u w found implicit iteration Se n name b files rs st' Hn HG intros calls post Hin) as (g & H1 & H2 & H3 & H4 & _).
    eapply (creates_derived_first u (bs_annotations b) (w_hierarchy w) (fun i => In i (g_nodes g)) intros (la_acyclic _ _ (se_language _ _ _ Se))); [| exact C|auto|intros ? ? []| |intros ? ? ? ? ? []].
    - intros id t q m d H. exact (proj1 (H4 _ _ _ _ _ H)).
    - cbn [map]. rewrite app_nil_r. apply NoDup_rev, H3. }
  rewrite getattr_order. split.
  - intros x F. assert (Fx := F). destruct Fx as [Rx _]. destruct (reached_from _ _ _ _ Rx) as (Dx & Ax).
    assert (Hx : In x (c :: mro c)).
    { destruct Ax as [->|(q & Hq)]; [left; reflexivity|]. destruct (S2 c x Hc) as (m & Hm & Hx); [eapply plain_derived; eauto|]. rewrite (Sm _ _ Hm) in Hx. exact Hx. }
    assert (Ix : introduced_class intros x) by (apply (S1 c x); exists (c :: r); split; [exact Hr|rewrite Er; exact Hx]).
    destruct (S3 x Ix) as (rx & Hrx & _).
    apply (first_some_before (fun y => own p (Class y) k)); [exact Hx|exact Dx| |rewrite <- Er; exact Nr].
    intros y Hy Dy. destruct (finds_all _ _ dec c x F y (In_anc y Hy) Dy) as [->|(q & Hq)]; [left; reflexivity|]. right.
    apply (D c (c :: mro c) x (x :: rx) y); [rewrite <- Er; exact Hr|exact Hx|exact Hrx|]. cbn [tl].
    destruct (S2 x y Ix) as (m & Hm & Hym); [eapply plain_derived; eauto|]. assert (m = x :: rx) as -> by (rewrite (Sm _ _ Hm), (Sm _ _ Hrx); reflexivity).
    destruct Hym as [<-|Hym]; [|exact Hym]. exfalso. apply (derives_lower _ (la_acyclic _ _ (se_language _ _ _ Se))) in Hq. lia.
  - intros Nx. apply first_some_none. intros y Hy. destruct (own p (Class y) k) eqn:E; [|reflexivity]. exfalso.
    assert (Dy : own p (Class y) k <> None) by (rewrite E; discriminate).
    destruct (In_anc y Hy) as [->|(q & Hq)]; [apply (Nx c); now constructor|]. destruct (declared_reached _ _ dec _ _ _ Hq Dy) as (z & Hz & _). exact (Nx z Hz).
Qed.
End Generated.

(** ** Members of bases can be used *)

Theorem inherited_usable :
  forall default_holder mro manual fails u w found implicit iteration n name b files rs st', setting u w iteration -> nested_blocks u -> 0 < n ->
  generate u w found implicit iteration n name = Some (RGraph b (EWritten files rs st')) ->
  exists g vis order all chunks post, exposed u found implicit name g vis b /\
    generated u w g vis (bs_annotations b) name rs st' order all post /\ layout name post all chunks files /\
    let intros := map (fun e => (ex_id e, ex_intro e)) all in
    let m := IModule name intros (map (fun e => (ex_id e, ex_id e)) all) post in
    filter is_module (concat files) = [m] /\
    (NoDup (map fst intros) -> agreeing_blocks u (bs_annotations b) g -> distinct_names u (bs_annotations b) g -> usable_bases default_holder w intros ->
     exists cs, contributions u (bs_annotations b) g all cs /\
       (no_clashes mro u (bs_annotations b) g cs -> executable manual fails all post ->
        exists s p, run_module mro manual fails default_holder files m = Some (s, p) /\
          forall ms, creates [] intros ms -> searched_in mro ms ->
          forall c r x i a k, introduced_class intros c -> plain_hierarchy u (bs_annotations b) (w_hierarchy w) (introduced_class intros) c ->
            finds (w_hierarchy w) (fun y => own p (Class y) k <> None) c r -> create u (bs_annotations b) (w_hierarchy w) r = Some x ->
            In i (flat_map (expand (w_extra w)) (looked_up u w r x)) -> is_tag_kind (kind u i) = false -> own_attributes u i a -> visible_in u b name r i ->
            ordinary u (w_extra w) x i a k -> exists v t, getattr mro p (Class c) k = Some v /\ reaches v t /\ mentions t i)).
Proof.
  intros default_holder mro manual fails u w found implicit iteration n name b files rs st' Se Nb Hn HG.
  destruct (visible_usable default_holder mro manual fails u w found implicit iteration n name b files rs st' Se Nb Hn HG) as (g & vis & order & all & chunks & post & X & G & Ly & Hm & H).
  exists g, vis, order, all, chunks, post. split; [exact X|]. split; [exact G|]. split; [exact Ly|]. cbn zeta in H |- *. split; [exact Hm|].
  intros H1 H2 H3 H4. destruct (H H1 H2 H3 H4) as (cs & Hcs & K). exists cs. split; [exact Hcs|]. intros H5 H6. destruct (K H5 H6) as (s & p & R & V). exists s, p. split; [exact R|].
  intros ms C Sm c r x i a k Hc P F Hx Hi Ki Ha Hv Ho.
  assert (Hin : In (IModule name (map (fun e => (ex_id e, ex_intro e)) all) (map (fun e => (ex_id e, ex_id e)) all) post) (concat files)).
  { apply (proj1 (filter_In is_module _ _)). rewrite Hm. left. reflexivity. }
  destruct (members_found u w found implicit iteration Se n name b files rs st' Hn HG _ _ _ Hin ms mro C Sm c Hc P p k) as [M _].
  rewrite (M r F).
  assert (Ir : introduced_class (map (fun e => (ex_id e, ex_intro e)) all) r).
  { destruct F as [Fr _]. destruct (reached_from _ _ _ _ Fr) as (_ & [->|(q & D)]); [exact Hc|].
    destruct (subclasses u w found implicit iteration Se n name b files rs st' Hn HG _ _ _ Hin ms C) as (S1 & S2 & _).
    apply (S1 c r), S2; [exact Hc|]. eapply plain_derived; eauto. }
  assert (Er : In r (map ex_context all) /\ kind u r = KRecord).
  { destruct Ir as (id & t & q & m & d & He & <-). apply in_map_iff in He as (e & Ee & He). injection Ee as _ Ee.
    destruct (ge_introduces _ _ _ _ _ _ _ _ _ _ _ G e He) as (Hint & _). unfold introduces in Hint. rewrite Ee in Hint.
    destruct (kind u (ex_context e)) eqn:Ke; try (destruct Hint as (z & Hz); discriminate); try (destruct Hint as (z1 & z2 & z & Hz & _); discriminate); try contradiction.
    destruct Hint as (t0 & p0 & n0 & d0 & Et & _ & Hrec & _). injection Et as <- _ _ _. rewrite Hrec. split; [apply in_map; exact He|exact Ke]. }
  destruct Er as [Er Kr]. destruct (V r (Class r) x i a k Er (located_class _ _ _ _ Kr) Hx Hi Ki Ha Hv) as [U _]. exact (U Ho).
Qed.
