(** * Proofs about the number and order of files *)
From Coq Require Import Sorting.Permutation ListDec.
From Verif Require Import Base ParserModel AnnotModel CollectModel GraphModel OrderModel InlineModel EmitModel EmitSpec ModuleModel ModuleSpec ModuleChunks ModuleFinal ImportSpec ExecSpec ExecProofs SplitSpec.

Definition names_of (is : list item) : list str := flat_map (fun i => match i with IDefine n _ _ => [n] | _ => [] end) is.
Definition body_in (id : str) (is : list item) : option (list stmt) :=
  first_some (fun i => match i with IDefine n _ body => if str_eqb n id then Some body else None | _ => None end) is.

Lemma names_definitions is : names_of is = names_of (filter is_definition is).
Proof. induction is as [|i is IH]; [reflexivity|]. destruct i; cbn; fold (names_of is) (names_of (filter is_definition is)); rewrite IH; reflexivity. Qed.

Lemma body_definitions id is : body_in id is = body_in id (filter is_definition is).
Proof.
  unfold body_in. induction is as [|i is IH]; [reflexivity|]. destruct i as [n p|n intros calls post|n p body]; cbn [first_some filter is_definition]; [exact IH|exact IH|].
  destruct (str_eqb n id); [reflexivity|exact IH].
Qed.

Lemma body_in_spec id is body : NoDup (names_of is) -> body_in id is = Some body <-> exists p, In (IDefine id p body) is.
Proof.
  unfold body_in. induction is as [|i is IH]; cbn [first_some names_of flat_map]; [intros _; split; [discriminate|intros (p & [])]|].
  destruct i as [n p|n intros calls post|n p b]; cbn [app]; intros Nd.
  - rewrite (IH Nd). split; intros (q & H); exists q; [now right|]. destruct H as [[=]|H]; exact H.
  - rewrite (IH Nd). split; intros (q & H); exists q; [now right|]. destruct H as [[=]|H]; exact H.
  - inversion Nd as [|x l Hn Nd']; subst. destruct (str_eqb n id) eqn:E.
    + apply str_eqb_eq in E. subst n. split; [intros [= ->]; exists p; now left|]. intros (q & [[= _ ->]|H]); [reflexivity|].
      destruct Hn. apply in_flat_map. exists (IDefine id q body). split; [exact H|now left].
    + rewrite (IH Nd'). split; intros (q & H); exists q; [now right|]. destruct H as [[= -> _ _]|H]; [|exact H].
      rewrite str_eqb_refl in E. discriminate E.
Qed.

Lemma body_same id is js : Permutation is js -> NoDup (names_of is) -> body_in id is = body_in id js.
Proof.
  intros P Nd. assert (Nd' : NoDup (names_of js)) by (eapply Permutation_NoDup; [|exact Nd]; apply Permutation_flat_map, P).
  assert (H : forall b, body_in id is = Some b <-> body_in id js = Some b).
  { intros b. rewrite (body_in_spec _ _ _ Nd), (body_in_spec _ _ _ Nd'). split; intros (p & Hp); exists p; eapply Permutation_in; try exact Hp; [exact P|now apply Permutation_sym]. }
  destruct (body_in id is) as [b|]; [symmetry; now apply H|]. destruct (body_in id js) as [b|]; [now apply H|reflexivity].
Qed.

Lemma filter_perm {A} (f : A -> bool) l1 l2 : Permutation l1 l2 -> Permutation (filter f l1) (filter f l2).
Proof.
  induction 1 as [|x l1 l2 _ IH|x y l|l1 l2 l3 _ IH1 _ IH2]; cbn; [constructor| | |eapply perm_trans; eassumption].
  - destruct (f x); [now constructor|exact IH].
  - destruct (f x), (f y); try constructor; apply Permutation_refl.
Qed.

Lemma concat_perm {A} (l1 l2 : list (list A)) : Permutation l1 l2 -> Permutation (concat l1) (concat l2).
Proof. intros P. rewrite <- (map_id l1), <- (map_id l2), <- !flat_map_concat_map. apply Permutation_flat_map, P. Qed.

Section Run.
Context (mro : nat -> list nat) (manual : nat -> object -> pystate -> option pystate) (fails : stmt -> bool) (default_holder : str -> bool).

Lemma run_bodies_same files1 files2 m : (forall id, body_named files1 id = body_named files2 id) ->
  run_module mro manual fails default_holder files1 m = run_module mro manual fails default_holder files2 m.
Proof.
  intros H. unfold run_module. destruct m as [| name intros calls post|]; try reflexivity. destruct (import default_holder intros) as [s|]; [|reflexivity].
  assert (E : forall p, fold_opt (call mro manual fails files1 intros s) calls p = fold_opt (call mro manual fails files2 intros s) calls p).
  { induction calls as [|c calls IH]; intros p; cbn [fold_opt]; [reflexivity|]. assert (Ec : call mro manual fails files1 intros s p c = call mro manual fails files2 intros s p c) by (unfold call; rewrite H; reflexivity).
    rewrite Ec. destruct (call mro manual fails files2 intros s p c); [apply IH|reflexivity]. }
  rewrite E. reflexivity.
Qed.

Lemma linked_same files1 files2 : filter is_definition (concat files1) = filter is_definition (concat files2) -> filter is_module (concat files1) = filter is_module (concat files2) ->
  forall r1 r2, linked (run_module mro manual fails default_holder) files1 r1 -> linked (run_module mro manual fails default_holder) files2 r2 -> r1 = r2.
Proof.
  intros D M.
  assert (Hm : forall o1 o2, Permutation files1 o1 -> Permutation files2 o2 -> Permutation (filter is_module (concat o1)) (filter is_module (concat o2))).
  { intros o1 o2 P1 P2. transitivity (filter is_module (concat files1)); [apply filter_perm, concat_perm, Permutation_sym, P1|]. rewrite M. apply filter_perm, concat_perm, P2. }
  assert (Hd : forall o1 o2, Permutation files1 o1 -> Permutation files2 o2 -> Permutation (filter is_definition (concat o1)) (filter is_definition (concat o2))).
  { intros o1 o2 P1 P2. transitivity (filter is_definition (concat files1)); [apply filter_perm, concat_perm, Permutation_sym, P1|]. rewrite D. apply filter_perm, concat_perm, P2. }
  assert (Hn : forall o1 o2, Permutation files1 o1 -> Permutation files2 o2 -> NoDup (defined_in o1) <-> NoDup (defined_in o2)).
  { intros o1 o2 P1 P2. unfold defined_in. fold (names_of (concat o1)). fold (names_of (concat o2)). rewrite (names_definitions (concat o1)), (names_definitions (concat o2)).
    assert (P := Permutation_flat_map (fun i => match i with IDefine n _ _ => [n] | _ => [] end) (Hd _ _ P1 P2)). split; intros N; eapply Permutation_NoDup; [exact P|exact N|apply Permutation_sym, P|exact N]. }
  intros r1 r2 L1 L2. destruct L1 as [o1 m1 P1 M1 N1|o1 P1 M1|o1 P1 N1], L2 as [o2 m2 P2 M2 N2|o2 P2 M2|o2 P2 N2]; try reflexivity.
  - assert (H := Hm _ _ P1 P2). rewrite M1, M2 in H. apply Permutation_length_1 in H. subst m2. apply run_bodies_same. intros id. unfold body_named. fold (body_in id (concat o1)). fold (body_in id (concat o2)).
    rewrite (body_definitions id (concat o1)), (body_definitions id (concat o2)). apply body_same; [exact (Hd _ _ P1 P2)|]. rewrite <- names_definitions. exact N1.
  - destruct M2. rewrite <- (Permutation_length (Hm _ _ P1 P2)), M1. reflexivity.
  - destruct N2. apply (Hn _ _ P1 P2). exact N1.
  - destruct M1. rewrite (Permutation_length (Hm _ _ P1 P2)), M2. reflexivity.
  - destruct N1. apply (Hn _ _ P1 P2). exact N2.
Qed.

Lemma module_split u w found implicit iteration n m name b files rs st' : setting u w iteration -> 0 < n -> 0 < m ->
  generate u w found implicit iteration n name = Some (RGraph b (EWritten files rs st')) ->
  exists files', generate u w found implicit iteration m name = Some (RGraph b (EWritten files' rs st')) /\ length files' = m /\
    (exists r, linked (run_module mro manual fails default_holder) files' r) /\
    forall r r', linked (run_module mro manual fails default_holder) files r -> linked (run_module mro manual fails default_holder) files' r' -> r' = r.
Proof.
  intros S Hn Hm E. destruct (run_files _ _ _ _ _ S n m name b files rs st' Hn Hm E) as (files' & E' & D & M). exists files'. split; [exact E'|].
  destruct (run_written _ _ _ _ _ S m name b files' rs st' Hm E') as (g & vis & order & all & chunks & post & _ & _ & Ly & Hlen & _). split; [exact Hlen|]. split.
  - destruct (layout_definitions _ _ _ _ _ Ly ltac:(lia)) as [_ Hmod]. destruct (ListDec.NoDup_dec (list_eq_dec Ascii.ascii_dec) (defined_in files')) as [Nd|Nd].
    + eexists. eapply linked_ok; [apply Permutation_refl|exact Hmod|exact Nd].
    + exists None. eapply linked_twice; [apply Permutation_refl|exact Nd].
  - intros r r' L L'. symmetry. apply (linked_same files files'); auto.
Qed.
End Run.
