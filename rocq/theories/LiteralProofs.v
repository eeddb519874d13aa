(** * Proofs about [LiteralValue]: simulation by value semantics. *)
From Verif Require Import Base ParserModel LiteralModel LiteralSpec.

Lemma upd_length {A} (l : list A) i x : length (upd l i x) = length l.
Proof.
  unfold upd. rewrite app_length, firstn_length.
  destruct (skipn i l) as [|y r] eqn:E; pose proof (f_equal (@length A) E) as H; rewrite skipn_length in H; cbn in *; lia.
Qed.

Lemma nth_error_upd {A} (l : list A) i x j :
  nth_error (upd l i x) j = if Nat.eqb i j then (if Nat.ltb i (length l) then Some x else None) else nth_error l j.
Proof.
  revert i j. induction l as [|y l IH]; intros i j.
  - unfold upd. rewrite firstn_nil, skipn_nil. cbn. destruct j; destruct (Nat.eqb _ _); reflexivity.
  - destruct i as [|i].
    + destruct j; reflexivity.
    + change (upd (y :: l) (S i) x) with (y :: upd l i x). destruct j as [|j]; [reflexivity|].
      cbn [nth_error Nat.eqb length]. rewrite IH. change (S i <? S (length l)) with (i <? length l). reflexivity.
Qed.

Lemma nth_error_upd_ne {A} (l : list A) i x j : i <> j -> nth_error (upd l i x) j = nth_error l j.
Proof. intros H. rewrite nth_error_upd. destruct (Nat.eqb_spec i j); congruence. Qed.

Lemma nth_error_upd_eq {A} (l : list A) i x y : nth_error l i = Some y -> nth_error (upd l i x) i = Some x.
Proof.
  intros H. rewrite nth_error_upd, Nat.eqb_refl.
  assert (i < length l) by (apply nth_error_Some; congruence). destruct (Nat.ltb_spec i (length l)); [reflexivity|lia].
Qed.

Lemma upd_out {A} (l : list A) i x : nth_error l i = None -> upd l i x = l.
Proof.
  intros H. apply nth_error_None in H. unfold upd. rewrite skipn_all2, firstn_all2, app_nil_r by lia. reflexivity.
Qed.

Lemma upd_same {A} (l : list A) i x : nth_error l i = Some x -> upd l i x = l.
Proof.
  revert i. induction l as [|y l IH]; intros [|i] H; try discriminate.
  - cbn in *. congruence.
  - change (upd (y :: l) (S i) x) with (y :: upd l i x). f_equal. apply IH, H.
Qed.

Lemma upd_upd {A} (l : list A) i x y : upd (upd l i x) i y = upd l i y.
Proof.
  revert i. induction l as [|z l IH]; intros [|i]; try reflexivity.
  change (upd (upd (z :: l) (S i) x) (S i) y) with (z :: upd (upd l i x) i y). rewrite IH. reflexivity.
Qed.

Lemma upd_app {A} (l r : list A) i x y : nth_error l i = Some y -> upd (l ++ r) i x = upd l i x ++ r.
Proof.
  revert i. induction l as [|z l IH]; intros [|i] H; try discriminate; [reflexivity|].
  change (upd ((z :: l) ++ r) (S i) x) with (z :: upd (l ++ r) i x).
  change (upd (z :: l) (S i) x) with (z :: upd l i x). cbn. f_equal. apply IH, H.
Qed.

Lemma upd_last {A} (l : list A) x y : upd (l ++ [x]) (length l) y = l ++ [y].
Proof. induction l as [|z l IH]; [reflexivity|]. change (upd ((z :: l) ++ [x]) (length (z :: l)) y) with (z :: upd (l ++ [x]) (length l) y). rewrite IH. reflexivity. Qed.

(** ** Representation *)

Definition rep (h : list (option str)) (o : obj) (a : aval) : Prop :=
  match a with
  | Val LNothing => o = mkObj KNothing (PPtr None)
  | Val (LString t) => exists l, o = mkObj KString (PPtr (Some l)) /\ nth_error h l = Some (Some t)
  | Hollow => o = mkObj KString (PPtr None)
  | Val (LUnsigned n) => o = mkObj KUnsigned (PInt n)
  | Val (LBool b) => o = mkObj KBoolean (PBool b)
  | Val LDefault => o = mkObj KDefault (PPtr None)
  end.

Record sim (m : mem) (s : astate) : Prop := mkSim {
  sim_len : length (m_vars m) = length s;
  sim_var : forall i, match nth_error (m_vars m) i, nth_error s i with
     | Some (Some o), Some (Some a) => rep (m_heap m) o a
     | Some None, Some None => True
     | None, None => True
     | _, _ => False
     end;
  sim_inj : forall i j l, points_to m i l -> points_to m j l -> i = j;
  sim_own : forall l, allocated m l -> exists i, points_to m i l }.

Lemma rep_kind h o a : rep h o a -> o_kind o = akind_of a.
Proof. destruct a as [[]|]; cbn; intros H; try (subst o; reflexivity). destruct H as (l & -> & _). reflexivity. Qed.

Lemma sim_get m s i : sim m s ->
  match aget s i with
  | Done a => exists o, get_var m i = Done o /\ nth_error (m_vars m) i = Some (Some o) /\ nth_error s i = Some (Some a) /\ rep (m_heap m) o a
  | DeadObject => get_var m i = DeadObject
  | _ => False
  end.
Proof.
  intros S. pose proof (sim_var _ _ S i) as H. unfold aget, get_var.
  destruct (nth_error (m_vars m) i) as [[o|]|], (nth_error s i) as [[a|]|]; try contradiction; try reflexivity.
  exists o. auto.
Qed.

Definition nonstring (a : aval) : Prop := match a with Val (LString _) => False | _ => True end.

Lemma rep_nonstring h o a l : nonstring a -> rep h o a -> ~ (o_kind o = KString /\ o_payload o = PPtr (Some l)).
Proof. destruct a as [[]|]; cbn; intros N R [H1 H2]; subst; try contradiction; cbn in *; congruence. Qed.

Lemma rep_heap h h' o a : (forall l, o_payload o = PPtr (Some l) -> nth_error h' l = nth_error h l) -> rep h o a -> rep h' o a.
Proof.
  intros H R. destruct a as [[]|]; cbn in *; try exact R.
  destruct R as (l & -> & E). exists l. split; [reflexivity|]. rewrite H by reflexivity. exact E.
Qed.

(** A value without heap content is overwritten by another such value. *)
Lemma write_plain m s i a o' b : sim m s -> nth_error s i = Some (Some a) -> nonstring a -> nonstring b ->
  rep (m_heap m) o' b -> sim (set_var m i o') (aset s i b).
Proof.
  intros S Hi Na Nb Rb. pose proof (sim_var _ _ S i) as Hv. rewrite Hi in Hv.
  destruct (nth_error (m_vars m) i) as [[o|]|] eqn:Ho; try contradiction.
  assert (Hpt : forall j l, points_to (set_var m i o') j l <-> points_to m j l).
  { intros j l. unfold points_to. cbn. destruct (Nat.eq_dec i j) as [<-|Hne].
    - rewrite (nth_error_upd_eq _ _ _ _ Ho), Ho. split.
      + intros (o2 & [= <-] & H). exfalso. exact (rep_nonstring _ _ _ _ Nb Rb H).
      + intros (o2 & [= <-] & H). exfalso. exact (rep_nonstring _ _ _ _ Na Hv H).
    - rewrite nth_error_upd_ne by congruence. reflexivity. }
  constructor.
  - cbn. unfold aset. rewrite !upd_length. apply S.
  - intros j. cbn. unfold aset. destruct (Nat.eq_dec i j) as [<-|Hne].
    + rewrite (nth_error_upd_eq _ _ _ _ Ho), (nth_error_upd_eq _ _ _ _ Hi). exact Rb.
    + rewrite !nth_error_upd_ne by congruence. apply S.
  - intros j k l. rewrite !Hpt. apply S.
  - intros l Hl. destruct (sim_own _ _ S l Hl) as [j Hj]. exists j. apply Hpt, Hj.
Qed.

(** Releasing the content of a string value makes it hollow. *)
Lemma release_sim m s i t : sim m s -> nth_error s i = Some (Some (Val (LString t))) ->
  exists l m', nth_error (m_vars m) i = Some (Some (mkObj KString (PPtr (Some l)))) /\ delete m (Some l) = Done m' /\
    m_vars m' = m_vars m /\ sim (set_var m' i (mkObj KString (PPtr None))) (aset s i Hollow).
Proof.
  intros S Hi. pose proof (sim_var _ _ S i) as Hv. rewrite Hi in Hv.
  destruct (nth_error (m_vars m) i) as [[o|]|] eqn:Ho; try contradiction. cbn in Hv. destruct Hv as (l & -> & El).
  exists l. cbn. rewrite El. eexists. split; [reflexivity|]. split; [reflexivity|]. split; [reflexivity|].
  assert (Hpi : points_to m i l) by (eexists; split; [exact Ho|split; reflexivity]).
  set (m1 := set_var (mkMem (upd (m_heap m) l None) (m_vars m)) i (mkObj KString (PPtr None))).
  assert (Hpt : forall j k, points_to m1 j k <-> points_to m j k /\ j <> i).
  { intros j k. unfold points_to, m1. cbn. destruct (Nat.eq_dec i j) as [<-|Hne].
    - rewrite (nth_error_upd_eq _ _ _ _ Ho). split.
      + intros (o2 & [= <-] & H). cbn in H. destruct H; discriminate.
      + intros [_ H]. congruence.
    - rewrite nth_error_upd_ne by congruence. split; [intros H; split; [exact H|congruence]|intros [H _]; exact H]. }
  constructor.
  - cbn. unfold aset. rewrite !upd_length. apply S.
  - intros j. cbn. unfold aset. destruct (Nat.eq_dec i j) as [<-|Hne].
    + rewrite (nth_error_upd_eq _ _ _ _ Ho), (nth_error_upd_eq _ _ _ _ Hi). reflexivity.
    + rewrite !nth_error_upd_ne by congruence. pose proof (sim_var _ _ S j) as Hj.
      destruct (nth_error (m_vars m) j) as [[oj|]|] eqn:Ej, (nth_error s j) as [[aj|]|] eqn:Eaj; try contradiction; try exact I.
      destruct aj as [[|tj| | |]|]; cbn in Hj |- *; try exact Hj.
      destruct Hj as (lj & -> & Elj). exists lj. split; [reflexivity|].
      rewrite nth_error_upd_ne; [exact Elj|]. intros <-.
      apply Hne. eapply (sim_inj _ _ S); [exact Hpi|]. eexists; split; [exact Ej|split; reflexivity].
  - intros j k k'. rewrite !Hpt. intros [H1 _] [H2 _]. eapply (sim_inj _ _ S); eassumption.
  - intros k (t' & Hk). cbn in Hk. destruct (Nat.eq_dec l k) as [<-|Hne].
    + rewrite (nth_error_upd_eq _ _ _ _ El) in Hk. discriminate.
    + rewrite nth_error_upd_ne in Hk by congruence. destruct (sim_own _ _ S k (ex_intro _ t' Hk)) as [j Hj].
      exists j. apply Hpt. split; [exact Hj|]. intros ->. destruct Hj as (o2 & E2 & _ & P2). rewrite Ho in E2.
      injection E2 as <-. cbn in P2. congruence.
Qed.

Lemma set_var_set_var m i o o' : set_var (set_var m i o) i o' = set_var m i o'.
Proof. unfold set_var. cbn. rewrite upd_upd. reflexivity. Qed.

Lemma aset_aset s i a b : aset (aset s i a) i b = aset s i b.
Proof. unfold aset. apply upd_upd. Qed.

Lemma aset_get s i a b : nth_error s i = Some (Some a) -> nth_error (aset s i b) i = Some (Some b).
Proof. intros H. unfold aset. eapply nth_error_upd_eq, H. Qed.

Lemma aset_get_ne s i j b : i <> j -> nth_error (aset s i b) j = nth_error s j.
Proof. intros H. unfold aset. apply nth_error_upd_ne, H. Qed.

(** Outcome of [set_nothing]: succeeds, and only the value itself changes. *)
Lemma set_nothing_sim m s i a : sim m s -> aget s i = Done a ->
  exists m', set_nothing m i = Done m' /\ sim m' (aset s i (Val LNothing)) /\
    (forall j, j <> i -> nth_error (m_vars m') j = nth_error (m_vars m) j) /\
    nth_error (m_vars m') i = Some (Some (mkObj KNothing (PPtr None))).
Proof.
  intros S Ha. pose proof (sim_get m s i S) as H. rewrite Ha in H. destruct H as (o & Eg & Ev & Es & R).
  unfold set_nothing. rewrite Eg. cbn [bind]. unfold is_string. rewrite (rep_kind _ _ _ R).
  destruct a as [v|].
  - destruct v as [|t|n|b|]; cbn [akind_of lkind_eqb bind].
    2: { destruct (release_sim m s i t S Es) as (l & m' & Ev' & Ed & Em & S').
         assert (o = mkObj KString (PPtr (Some l))) as -> by congruence. cbn [read_ptr o_payload bind]. rewrite Ed. cbn [bind].
         eexists. split; [reflexivity|].
         assert (S2 := write_plain _ _ i Hollow (mkObj KNothing (PPtr None)) (Val LNothing) S' (aset_get _ _ _ Hollow Es) I I eq_refl).
         rewrite set_var_set_var, aset_aset in S2. split; [exact S2|].
         cbn. rewrite Em. split; [intros j Hj; apply nth_error_upd_ne; congruence|eapply nth_error_upd_eq, Ev]. }
    all: eexists; (split; [reflexivity|]);
      (split; [eapply write_plain; [exact S|exact Es|exact I|exact I|reflexivity]|]);
      cbn; (split; [intros j Hj; apply nth_error_upd_ne; congruence|eapply nth_error_upd_eq, Ev]).
  - cbn [akind_of lkind_eqb]. cbn in R. subst o. cbn [read_ptr o_payload bind delete].
    eexists. split; [reflexivity|]. split; [eapply write_plain; [exact S|exact Es|exact I|exact I|reflexivity]|].
    cbn. split; [intros j Hj; apply nth_error_upd_ne; congruence|eapply nth_error_upd_eq, Ev].
Qed.

(** Allocation for a value without heap content. *)
Lemma alloc_sim m s i a t : sim m s -> nth_error s i = Some (Some a) -> nonstring a ->
  sim (set_var (mkMem (m_heap m ++ [Some t]) (m_vars m)) i (mkObj KString (PPtr (Some (length (m_heap m))))))
      (aset s i (Val (LString t))).
Proof.
  intros S Hi Na. pose proof (sim_var _ _ S i) as Hv. rewrite Hi in Hv.
  destruct (nth_error (m_vars m) i) as [[o|]|] eqn:Ho; try contradiction.
  assert (Hin : forall j l, points_to m j l -> l < length (m_heap m)).
  { intros j l (o2 & E2 & K2 & P2). pose proof (sim_var _ _ S j) as Hj. rewrite E2 in Hj.
    destruct (nth_error s j) as [[[[]|]|]|]; try contradiction; cbn in Hj; subst; cbn in *; try discriminate.
    destruct Hj as (l' & -> & E). cbn in P2. injection P2 as ->. apply nth_error_Some. congruence. }
  set (l0 := length (m_heap m)).
  assert (Hnew : nth_error (m_heap m ++ [Some t]) l0 = Some (Some t)).
  { unfold l0. rewrite nth_error_app2 by lia. rewrite Nat.sub_diag. reflexivity. }
  constructor.
  - cbn. unfold aset. rewrite !upd_length. apply S.
  - intros j. cbn. unfold aset. destruct (Nat.eq_dec i j) as [<-|Hne].
    + rewrite (nth_error_upd_eq _ _ _ _ Ho), (nth_error_upd_eq _ _ _ _ Hi). exists l0. auto.
    + rewrite !nth_error_upd_ne by congruence. pose proof (sim_var _ _ S j) as Hj.
      destruct (nth_error (m_vars m) j) as [[oj|]|] eqn:Ej, (nth_error s j) as [[aj|]|] eqn:Eaj; try contradiction; try exact I.
      destruct aj as [[|tj| | |]|]; cbn in Hj |- *; try exact Hj.
      destruct Hj as (lj & -> & Elj). exists lj. split; [reflexivity|].
      rewrite nth_error_app1; [exact Elj|]. apply nth_error_Some. congruence.
  - assert (Hpt : forall j l, points_to (set_var (mkMem (m_heap m ++ [Some t]) (m_vars m)) i (mkObj KString (PPtr (Some l0)))) j l ->
      (j = i /\ l = l0) \/ (j <> i /\ points_to m j l)).
    { intros j l (o2 & E2 & K2 & P2). cbn in E2. destruct (Nat.eq_dec i j) as [<-|Hne].
      - rewrite (nth_error_upd_eq _ _ _ _ Ho) in E2. injection E2 as <-. cbn in P2. left. split; congruence.
      - rewrite nth_error_upd_ne in E2 by congruence. right. split; [congruence|]. eexists. eauto. }
    intros j k l Hj Hk. apply Hpt in Hj. apply Hpt in Hk.
    destruct Hj as [[-> ->]|[Hj Pj]], Hk as [[-> Hl]|[Hk Pk]]; try congruence.
    + exfalso. apply Hin in Pk. unfold l0 in *. lia.
    + exfalso. apply Hin in Pj. unfold l0 in *. lia.
    + eapply (sim_inj _ _ S); eassumption.
  - intros l (t' & Hl). cbn in Hl. destruct (Nat.eq_dec l l0) as [->|Hne].
    + exists i. exists (mkObj KString (PPtr (Some l0))). cbn. rewrite (nth_error_upd_eq _ _ _ _ Ho). auto.
    + assert (Hl' : nth_error (m_heap m) l = Some (Some t')).
      { rewrite nth_error_app1 in Hl; [exact Hl|].
        assert (l < length (m_heap m ++ [Some t])) by (apply nth_error_Some; congruence).
        rewrite app_length in H. cbn in H. unfold l0 in Hne. lia. }
      destruct (sim_own _ _ S l (ex_intro _ t' Hl')) as (j & oj & Ej & Kj & Pj). exists j, oj. cbn.
      rewrite nth_error_upd_ne; [auto|]. intros <-. rewrite Ho in Ej. injection Ej as <-.
      exact (rep_nonstring _ _ _ _ Na Hv (conj Kj Pj)).
Qed.

Lemma set_string_ext m s i a t : sim m s -> aget s i = Done a ->
  exists m', set_string m i (External t) = Done m' /\ sim m' (aset s i (Val (LString t))).
Proof.
  intros S Ha. destruct (set_nothing_sim m s i a S Ha) as (m1 & E & S1 & Hne & Hi).
  unfold set_string. rewrite E. cbn [bind read_ref].
  eexists. split; [reflexivity|].
  assert (Hs : nth_error (aset s i (Val LNothing)) i = Some (Some (Val LNothing))).
  { eapply aset_get. pose proof (sim_get m s i S) as H. rewrite Ha in H. destruct H as (o & _ & _ & H & _). exact H. }
  pose proof (alloc_sim _ _ i _ t S1 Hs I) as S2. rewrite aset_aset in S2. exact S2.
Qed.

Lemma set_unsigned_sim m s i a n : sim m s -> aget s i = Done a ->
  exists m', set_unsigned m i n = Done m' /\ sim m' (aset s i (Val (LUnsigned n))).
Proof.
  intros S Ha. destruct (set_nothing_sim m s i a S Ha) as (m1 & E & S1 & Hne & Hi).
  unfold set_unsigned. rewrite E. cbn [bind]. eexists. split; [reflexivity|].
  pose proof (sim_get m s i S) as H. rewrite Ha in H. destruct H as (o & _ & _ & H & _).
  assert (S2 := write_plain _ _ i _ (mkObj KUnsigned (PInt n)) (Val (LUnsigned n)) S1 (aset_get _ _ _ _ H) I I eq_refl).
  rewrite aset_aset in S2. exact S2.
Qed.

Lemma set_boolean_sim m s i a n : sim m s -> aget s i = Done a ->
  exists m', set_boolean m i n = Done m' /\ sim m' (aset s i (Val (LBool n))).
Proof.
  intros S Ha. destruct (set_nothing_sim m s i a S Ha) as (m1 & E & S1 & Hne & Hi).
  unfold set_boolean. rewrite E. cbn [bind]. eexists. split; [reflexivity|].
  pose proof (sim_get m s i S) as H. rewrite Ha in H. destruct H as (o & _ & _ & H & _).
  assert (S2 := write_plain _ _ i _ (mkObj KBoolean (PBool n)) (Val (LBool n)) S1 (aset_get _ _ _ _ H) I I eq_refl).
  rewrite aset_aset in S2. exact S2.
Qed.

Lemma set_default_sim m s i a : sim m s -> aget s i = Done a ->
  exists m', set_default m i = Done m' /\ sim m' (aset s i (Val LDefault)).
Proof.
  intros S Ha. destruct (set_nothing_sim m s i a S Ha) as (m1 & E & S1 & Hne & Hi).
  unfold set_default. rewrite E. cbn [bind]. unfold get_var. rewrite Hi. cbn [bind o_payload].
  eexists. split; [reflexivity|].
  pose proof (sim_get m s i S) as H. rewrite Ha in H. destruct H as (o & _ & _ & H & _).
  assert (S2 := write_plain _ _ i _ (mkObj KDefault (PPtr None)) (Val LDefault) S1 (aset_get _ _ _ _ H) I I eq_refl).
  rewrite aset_aset in S2. exact S2.
Qed.

(** Setting from the content of another value. *)
Lemma set_string_from m s i j a t l : sim m s -> aget s i = Done a -> i <> j ->
  nth_error s j = Some (Some (Val (LString t))) ->
  nth_error (m_vars m) j = Some (Some (mkObj KString (PPtr (Some l)))) ->
  exists m', set_string m i (InHeap (Some l)) = Done m' /\ sim m' (aset s i (Val (LString t))).
Proof.
  intros S Ha Hij Hj Hvj. destruct (set_nothing_sim m s i a S Ha) as (m1 & E & S1 & Hne & Hi).
  unfold set_string. rewrite E. cbn [bind read_ref deref].
  assert (Hl : nth_error (m_heap m1) l = Some (Some t)).
  { pose proof (sim_var _ _ S1 j) as Hv. rewrite Hne in Hv by congruence. rewrite Hvj, aset_get_ne, Hj in Hv by congruence.
    cbn in Hv. destruct Hv as (l' & [= <-] & E'). exact E'. }
  rewrite Hl. cbn [bind]. eexists. split; [reflexivity|].
  assert (Hs : nth_error (aset s i (Val LNothing)) i = Some (Some (Val LNothing))).
  { eapply aset_get. pose proof (sim_get m s i S) as H. rewrite Ha in H. destruct H as (o & _ & _ & H & _). exact H. }
  pose proof (alloc_sim _ _ i _ t S1 Hs I) as S2. rewrite aset_aset in S2. exact S2.
Qed.

(** Relation between outcomes. *)
Definition osim (x : outcome mem) (y : outcome astate) : Prop :=
  match x, y with
  | Done m, Done s => sim m s
  | AssertFails, AssertFails | UB, UB | DeadObject, DeadObject => True
  | _, _ => False
  end.

Lemma copy_assign_sim m s i j : sim m s -> osim (copy_assign m i j) (aassign s i j).
Proof.
  intros S. unfold copy_assign, aassign.
  pose proof (sim_get m s i S) as Hi. pose proof (sim_get m s j S) as Hj.
  destruct (aget s i) as [a| | |] eqn:Ea; try contradiction; [|rewrite Hi; exact I].
  destruct Hi as (oi & Egi & Evi & Esi & Ri). rewrite Egi. cbn [bind].
  destruct (aget s j) as [b| | |] eqn:Eb; try contradiction; [|rewrite Hj; exact I].
  destruct Hj as (oj & Egj & Evj & Esj & Rj). rewrite Egj. cbn [bind].
  destruct (Nat.eqb_spec i j) as [->|Hij]; [exact S|].
  destruct (set_nothing_sim m s i a S Ea) as (m1 & E & S1 & Hne & Hi1). rewrite E. cbn [bind].
  assert (Evj1 : nth_error (m_vars m1) j = Some (Some oj)) by (rewrite Hne by congruence; exact Evj).
  assert (Egj1 : get_var m1 j = Done oj) by (unfold get_var; rewrite Evj1; reflexivity).
  rewrite Egj1. cbn [bind].
  assert (Ea1 : aget (aset s i (Val LNothing)) i = Done (Val LNothing)).
  { unfold aget. rewrite (aset_get _ _ _ _ Esi). reflexivity. }
  assert (Esj1 : nth_error (aset s i (Val LNothing)) j = Some (Some b)) by (rewrite aset_get_ne by congruence; exact Esj).
  pose proof (sim_var _ _ S1 j) as Rj1. rewrite Evj1, Esj1 in Rj1.
  rewrite (rep_kind _ _ _ Rj1).
  destruct b as [[|t|n|v|]|]; cbn [akind_of aread bind].
  - exact S1.
  - unfold get_string_ref, is_string. rewrite Egj1. cbn [bind]. rewrite (rep_kind _ _ _ Rj1). cbn [akind_of lkind_eqb].
    cbn in Rj1. destruct Rj1 as (l & -> & El). cbn [read_ptr o_payload bind].
    destruct (set_string_from m1 _ i j _ t l S1 Ea1 Hij Esj1 Evj1) as (m2 & E2 & S2).
    rewrite E2. rewrite aset_aset in S2. exact S2.
  - unfold get_unsigned. rewrite Egj1. cbn [bind]. cbn in Rj1. subst oj. cbn [o_kind lkind_eqb o_payload bind].
    destruct (set_unsigned_sim m1 _ i _ n S1 Ea1) as (m2 & E2 & S2). rewrite E2, aset_aset in *. exact S2.
  - unfold get_boolean. rewrite Egj1. cbn [bind]. cbn in Rj1. subst oj. cbn [o_kind lkind_eqb o_payload bind].
    destruct (set_boolean_sim m1 _ i _ v S1 Ea1) as (m2 & E2 & S2). rewrite E2, aset_aset in *. exact S2.
  - destruct (set_default_sim m1 _ i _ S1 Ea1) as (m2 & E2 & S2). rewrite E2, aset_aset in *. exact S2.
  - unfold get_string_ref, is_string. rewrite Egj1. cbn [bind]. rewrite (rep_kind _ _ _ Rj1). cbn [akind_of lkind_eqb].
    cbn in Rj1. subst oj. exact I.
Qed.

Lemma construct_sim m s : sim m s -> sim (snd (construct m)) (s ++ [Some (Val LNothing)]).
Proof.
  intros S. pose proof (sim_len _ _ S) as Hlen.
  assert (Hpt : forall j l, points_to (snd (construct m)) j l <-> points_to m j l).
  { intros j l. unfold points_to. cbn. destruct (Nat.lt_ge_cases j (length (m_vars m))) as [H|H].
    - rewrite nth_error_app1 by lia. reflexivity.
    - rewrite nth_error_app2 by lia. assert (nth_error (m_vars m) j = None) as -> by (apply nth_error_None; lia).
      split; [|intros (o & [=] & _)]. intros (o & E & K & P). destruct (j - length (m_vars m)) as [|k]; cbn in E; [|destruct k; discriminate].
      injection E as <-. discriminate K. }
  constructor.
  - cbn. rewrite !app_length. cbn. lia.
  - intros i. cbn. destruct (Nat.lt_ge_cases i (length (m_vars m))) as [H|H].
    + rewrite !nth_error_app1 by lia. apply S.
    + rewrite !nth_error_app2 by lia. rewrite Hlen. destruct (i - length s) as [|k]; cbn; [reflexivity|]. destruct k; exact I.
  - intros i j l. rewrite !Hpt. apply S.
  - intros l Hl. destruct (sim_own _ _ S l Hl) as [j Hj]. exists j. apply Hpt, Hj.
Qed.

Definition stringy (a : aval) : Prop := match a with Val (LString _) | Hollow => True | _ => False end.

Lemma swap_sim m s i j a b : sim m s -> i <> j -> nth_error s i = Some (Some a) -> nth_error s j = Some (Some b) ->
  stringy a -> stringy b ->
  exists oi oj m', nth_error (m_vars m) i = Some (Some oi) /\ nth_error (m_vars m) j = Some (Some oj) /\
    o_kind oi = KString /\ o_kind oj = KString /\
    swap_ptr m i j = Done m' /\ m' = set_var (set_var m i oj) j oi /\ sim m' (aset (aset s i b) j a).
Proof.
  intros S Hij Hi Hj Sa Sb.
  pose proof (sim_var _ _ S i) as Ri. pose proof (sim_var _ _ S j) as Rj. rewrite Hi in Ri. rewrite Hj in Rj.
  destruct (nth_error (m_vars m) i) as [[oi|]|] eqn:Ei; try contradiction.
  destruct (nth_error (m_vars m) j) as [[oj|]|] eqn:Ej; try contradiction.
  assert (Hoi : exists p, oi = mkObj KString (PPtr p)).
  { destruct a as [[]|]; cbn in Sa, Ri; try contradiction; [destruct Ri as (l & -> & _)|subst]; eauto. }
  assert (Hoj : exists p, oj = mkObj KString (PPtr p)).
  { destruct b as [[]|]; cbn in Sb, Rj; try contradiction; [destruct Rj as (l & -> & _)|subst]; eauto. }
  destruct Hoi as [pi ->], Hoj as [pj ->].
  exists (mkObj KString (PPtr pi)), (mkObj KString (PPtr pj)), (set_var (set_var m i (mkObj KString (PPtr pj))) j (mkObj KString (PPtr pi))).
  do 4 (split; [reflexivity|]). split.
  { unfold swap_ptr, get_var. rewrite Ei. cbn [bind]. rewrite Ej. cbn [bind read_ptr o_payload o_kind].
    unfold set_var at 1. cbn [m_vars]. rewrite nth_error_upd_ne by congruence. rewrite Ej. reflexivity. }
  split; [reflexivity|].
  set (m' := set_var _ j _).
  assert (Hvi : nth_error (m_vars m') i = Some (Some (mkObj KString (PPtr pj)))).
  { unfold m'. cbn. rewrite nth_error_upd_ne by congruence. eapply nth_error_upd_eq, Ei. }
  assert (Hvj : nth_error (m_vars m') j = Some (Some (mkObj KString (PPtr pi)))).
  { unfold m'. cbn. eapply nth_error_upd_eq. rewrite nth_error_upd_ne by congruence. exact Ej. }
  assert (Hvk : forall k, k <> i -> k <> j -> nth_error (m_vars m') k = nth_error (m_vars m) k).
  { intros k H1 H2. unfold m'. cbn. rewrite !nth_error_upd_ne by congruence. reflexivity. }
  pose (sw := fun k => if Nat.eqb k i then j else if Nat.eqb k j then i else k).
  assert (Hsw : forall x y, sw x = sw y -> x = y).
  { intros x y. unfold sw. destruct (Nat.eqb_spec x i), (Nat.eqb_spec y i), (Nat.eqb_spec x j), (Nat.eqb_spec y j); congruence. }
  assert (Hpt : forall k l, points_to m' k l <-> points_to m (sw k) l).
  { intros k l. unfold points_to, sw. destruct (Nat.eqb_spec k i) as [->|Hki]; [rewrite Hvi, Ej; reflexivity|].
    destruct (Nat.eqb_spec k j) as [->|Hkj]; [rewrite Hvj, Ei; reflexivity|]. rewrite Hvk by assumption. reflexivity. }
  constructor.
  - unfold m'. cbn. unfold aset. rewrite !upd_length. apply S.
  - intros k. destruct (Nat.eq_dec k j) as [->|Hkj]; [|destruct (Nat.eq_dec k i) as [->|Hki]].
    + rewrite Hvj. erewrite aset_get by (rewrite aset_get_ne by congruence; exact Hj). exact Ri.
    + rewrite Hvi. rewrite aset_get_ne by congruence. erewrite aset_get by exact Hi. exact Rj.
    + rewrite Hvk by assumption. rewrite !aset_get_ne by congruence. apply S.
  - intros x y l. rewrite !Hpt. intros H1 H2. apply Hsw. eapply (sim_inj _ _ S); eassumption.
  - intros l Hl. destruct (sim_own _ _ S l Hl) as [k Hk]. exists (sw k). apply Hpt.
    assert (sw (sw k) = k) as ->; [|exact Hk]. unfold sw.
    destruct (Nat.eqb_spec k i) as [->|]; [rewrite Nat.eqb_refl; destruct (Nat.eqb_spec j i); congruence|].
    destruct (Nat.eqb_spec k j) as [->|]; [rewrite Nat.eqb_refl; reflexivity|].
    destruct (Nat.eqb_spec k i), (Nat.eqb_spec k j); congruence.
Qed.

Lemma move_construct_sim m s j : sim m s ->
  osim (move_construct m j)
    (let! b := aget s j in
     match b with
     | Val (LString _) | Hollow => Done (aset s j (Val LNothing) ++ [Some b])
     | _ => Done (s ++ [Some b])
     end).
Proof.
  intros S. unfold move_construct. pose proof (sim_get m s j S) as Hj.
  destruct (aget s j) as [b| | |] eqn:Eb; try contradiction; [|rewrite Hj; exact I].
  destruct Hj as (oj & Egj & Evj & Esj & Rj). rewrite Egj. cbn [bind].
  pose proof (construct_sim m s S) as S1. pose proof (sim_len _ _ S) as Hlen.
  unfold construct. cbn [snd construct] in S1. set (m1 := mkMem _ _) in *. set (s1 := s ++ [Some (Val LNothing)]) in *.
  unfold is_string. rewrite (rep_kind _ _ _ Rj).
  assert (Hjlt : j < length s) by (apply nth_error_Some; congruence).
  assert (Esj1 : nth_error s1 j = Some (Some b)) by (unfold s1; rewrite nth_error_app1 by lia; exact Esj).
  assert (Esn : nth_error s1 (length (m_vars m)) = Some (Some (Val LNothing))).
  { unfold s1. rewrite Hlen, nth_error_app2, Nat.sub_diag by lia. reflexivity. }
  assert (Hne : length (m_vars m) <> j) by lia.
  assert (Evn : nth_error (m_vars m1) (length (m_vars m)) = Some (Some (mkObj KNothing (PPtr None)))).
  { unfold m1. cbn. rewrite nth_error_app2, Nat.sub_diag by lia. reflexivity. }
  assert (Hassign : forall v, b = Val v -> osim (copy_assign m1 (length (m_vars m)) j) (Done (s ++ [Some (Val v)]))).
  { intros v ->. pose proof (copy_assign_sim m1 s1 (length (m_vars m)) j S1) as H. unfold aassign in H.
    unfold aget at 1 2 in H. rewrite Esn, Esj1 in H. cbn [bind] in H.
    destruct (Nat.eqb_spec (length (m_vars m)) j); [contradiction|]. cbn [aread bind] in H.
    assert (aset s1 (length (m_vars m)) (Val v) = s ++ [Some (Val v)]) as E.
    { unfold aset, s1. rewrite Hlen. apply upd_last. }
    rewrite E in H. exact H. }
  assert (Hmove : stringy b -> osim (let! m2 := set_kind m1 (length (m_vars m)) KString in
       let! m3 := swap_ptr m2 (length (m_vars m)) j in set_kind m3 j KNothing) (Done (aset s j (Val LNothing) ++ [Some b]))).
  { intros Sb. unfold set_kind at 1. unfold get_var. rewrite Evn. cbn [bind o_payload].
    assert (S2 := write_plain _ _ (length (m_vars m)) _ (mkObj KString (PPtr None)) Hollow S1 Esn I I eq_refl).
    destruct (swap_sim _ _ (length (m_vars m)) j Hollow b S2 Hne (aset_get _ _ _ _ Esn)) as (oi & oj' & m3 & E1 & E2 & K1 & K2 & E3 & Em3 & S3).
    { rewrite aset_get_ne by lia. exact Esj1. } { exact I. } { exact Sb. }
    rewrite E3. cbn [bind].
    assert (Hj3 : nth_error (m_vars m3) j = Some (Some oi)).
    { rewrite Em3. cbn. eapply nth_error_upd_eq. rewrite nth_error_upd_ne by lia. exact E2. }
    assert (oi = mkObj KString (PPtr None)) as ->.
    { cbn in E1. rewrite (nth_error_upd_eq _ _ _ _ Evn) in E1. congruence. }
    unfold set_kind, get_var. rewrite Hj3. cbn [bind o_payload osim].
    assert (S4 := write_plain _ _ j Hollow (mkObj KNothing (PPtr None)) (Val LNothing) S3).
    rewrite aset_aset in S4.
    assert (E4 : nth_error (aset (aset (aset s1 (length (m_vars m)) Hollow) (length (m_vars m)) b) j Hollow) j = Some (Some Hollow)).
    { eapply aset_get. rewrite !aset_get_ne by lia. exact Esj1. }
    rewrite aset_aset in E4. specialize (S4 E4 I I eq_refl). rewrite aset_aset in S4.
    assert (aset (aset s1 (length (m_vars m)) b) j (Val LNothing) = aset s j (Val LNothing) ++ [Some b]) as E.
    { unfold aset, s1. rewrite Hlen, upd_last. eapply upd_app, Esj. }
    rewrite <- E. exact S4. }
  destruct b as [[|t|n|v|]|]; cbn [akind_of lkind_eqb].
  - apply Hassign; reflexivity.
  - apply Hmove; exact I.
  - apply Hassign; reflexivity.
  - apply Hassign; reflexivity.
  - apply Hassign; reflexivity.
  - apply Hmove; exact I.
Qed.

Lemma set_var_id m i o : nth_error (m_vars m) i = Some (Some o) -> set_var m i o = m.
Proof. intros H. unfold set_var. rewrite (upd_same _ _ _ H). destruct m; reflexivity. Qed.

Lemma move_assign_sim m s i j : sim m s ->
  osim (move_assign m i j)
   (let! a := aget s i in
    let! b := aget s j in
    match b with
    | Val (LString _) | Hollow =>
        match a with
        | Val (LString _) | Hollow => Done (aset (aset s i b) j a)
        | _ => Done (aset (aset s i b) j Hollow)
        end
    | _ => aassign s i j
    end).
Proof.
  intros S. unfold move_assign.
  pose proof (sim_get m s i S) as Hi. pose proof (sim_get m s j S) as Hj.
  destruct (aget s i) as [a| | |] eqn:Ea; try contradiction; [|rewrite Hi; exact I].
  destruct Hi as (oi & Egi & Evi & Esi & Ri). rewrite Egi. cbn [bind].
  destruct (aget s j) as [b| | |] eqn:Eb; try contradiction; [|rewrite Hj; exact I].
  destruct Hj as (oj & Egj & Evj & Esj & Rj). rewrite Egj. cbn [bind].
  unfold is_string. rewrite (rep_kind _ _ _ Rj), (rep_kind _ _ _ Ri).
  assert (Hswap : stringy a -> stringy b -> osim (swap_ptr m i j) (Done (aset (aset s i b) j a))).
  { intros Sa Sb. destruct (Nat.eq_dec i j) as [<-|Hij].
    - assert (a = b) as -> by congruence. assert (oi = oj) as -> by congruence.
      assert (Hp : exists p, oj = mkObj KString (PPtr p)).
      { destruct b as [[]|]; cbn in Sb, Rj; try contradiction; [destruct Rj as (l & -> & _)|subst]; eauto. }
      destruct Hp as [p ->].
      unfold swap_ptr. rewrite Egi. cbn [bind read_ptr o_payload o_kind].
      rewrite (set_var_id _ _ _ Evi), Egi. cbn [bind o_kind]. rewrite (set_var_id _ _ _ Evi).
      unfold aset. rewrite !(upd_same _ _ _ Esi). exact S.
    - destruct (swap_sim m s i j a b S Hij Esi Esj Sa Sb) as (oi' & oj' & m' & _ & _ & _ & _ & E & _ & S').
      rewrite E. exact S'. }
  assert (Hswap2 : nonstring a -> ~ stringy a -> stringy b ->
     osim (swap_ptr (set_var m i (mkObj KString (PPtr None))) i j) (Done (aset (aset s i b) j Hollow))).
  { intros Na Nsa Sb.
    assert (Hij : i <> j) by (intros <-; assert (a = b) by congruence; subst; contradiction).
    assert (S1 := write_plain _ _ i a (mkObj KString (PPtr None)) Hollow S Esi Na I eq_refl).
    destruct (swap_sim _ _ i j Hollow b S1 Hij (aset_get _ _ _ _ Esi)) as (oi' & oj' & m' & _ & _ & _ & _ & E & _ & S').
    { rewrite aset_get_ne by congruence. exact Esj. } { exact I. } { exact Sb. }
    rewrite E. rewrite aset_aset in S'. exact S'. }
  pose proof (copy_assign_sim m s i j S) as Hcopy.
  destruct b as [[|t|n|v|]|]; cbn [akind_of lkind_eqb]; try exact Hcopy.
  - destruct a as [[|ta|na|va|]|]; cbn [akind_of lkind_eqb]; try (apply Hswap2; cbn; tauto); apply Hswap; exact I.
  - destruct a as [[|ta|na|va|]|]; cbn [akind_of lkind_eqb]; try (apply Hswap2; cbn; tauto); apply Hswap; exact I.
Qed.

Lemma destroy_plain m s i a o : sim m s -> nth_error s i = Some (Some a) -> nonstring a ->
  nth_error (m_vars m) i = Some (Some o) -> sim (mkMem (m_heap m) (upd (m_vars m) i None)) (upd s i None).
Proof.
  intros S Es Na Ev.
  pose proof (sim_var _ _ S i) as R. rewrite Ev, Es in R.
  assert (Hpt : forall j l, points_to (mkMem (m_heap m) (upd (m_vars m) i None)) j l <-> points_to m j l).
  { intros j l. unfold points_to. cbn. destruct (Nat.eq_dec i j) as [<-|Hne].
    - rewrite (nth_error_upd_eq _ _ _ _ Ev), Ev. split; [intros (o2 & [=] & _)|].
      intros (o2 & [= <-] & H). exfalso. exact (rep_nonstring _ _ _ _ Na R H).
    - rewrite nth_error_upd_ne by congruence. reflexivity. }
  constructor.
  - cbn. rewrite !upd_length. apply S.
  - intros j. cbn. destruct (Nat.eq_dec i j) as [<-|Hne].
    + rewrite (nth_error_upd_eq _ _ _ _ Ev), (nth_error_upd_eq _ _ _ _ Es). exact I.
    + rewrite !nth_error_upd_ne by congruence. apply S.
  - intros j k l. rewrite !Hpt. apply S.
  - intros l Hl. destruct (sim_own _ _ S l Hl) as [j Hj]. exists j. apply Hpt, Hj.
Qed.

Lemma destroy_sim m s i : sim m s -> osim (destroy m i) (let! _ := aget s i in Done (upd s i None)).
Proof.
  intros S. unfold destroy. pose proof (sim_get m s i S) as Hi.
  destruct (aget s i) as [a| | |] eqn:Ea; try contradiction; [|rewrite Hi; exact I].
  destruct Hi as (oi & Egi & Evi & Esi & Ri). rewrite Egi. cbn [bind].
  unfold is_string. rewrite (rep_kind _ _ _ Ri).
  destruct a as [[|t|n|v|]|]; cbn [akind_of lkind_eqb bind].
  2: { destruct (release_sim m s i t S Esi) as (l & m' & Ev' & Ed & Em & S').
       assert (oi = mkObj KString (PPtr (Some l))) as -> by congruence. cbn [read_ptr o_payload bind]. rewrite Ed. cbn [bind osim].
       pose proof (destroy_plain _ _ i Hollow (mkObj KString (PPtr None)) S' (aset_get _ _ _ _ Esi) I) as H. cbn in H.
       rewrite Em in H. unfold aset in H. rewrite !upd_upd in H. rewrite Em. apply H. eapply nth_error_upd_eq, Evi. }
  5: { cbn in Ri. subst oi. cbn [read_ptr o_payload bind delete]. cbn [osim]. eapply destroy_plain; [exact S|exact Esi|exact I|exact Evi]. }
  all: cbn [osim]; eapply destroy_plain; [exact S|exact Esi|exact I|exact Evi].
Qed.

(** Relation between outcomes with observations. *)
Definition osim2 (x : outcome (mem * obs)) (y : outcome (astate * obs)) : Prop :=
  match x, y with
  | Done (m, o), Done (s, o') => sim m s /\ o = o'
  | AssertFails, AssertFails | UB, UB | DeadObject, DeadObject => True
  | _, _ => False
  end.

Lemma osim_quiet x y : osim x y -> osim2 (noobs x) (quiet y).
Proof. destruct x, y; cbn; try tauto. Qed.

Lemma str_eqb_sym a b : str_eqb a b = str_eqb b a.
Proof. destruct (str_eqb a b) eqn:E; [apply str_eqb_eq in E as ->; symmetry; apply str_eqb_refl|]. symmetry. apply str_eqb_neq. apply str_eqb_neq in E. congruence. Qed.

Lemma step_sim m s o : sim m s -> osim2 (step m o) (astep s o).
Proof.
  intros S.
  assert (Hget : forall i a, aget s i = Done a -> exists o, get_var m i = Done o /\ rep (m_heap m) o a).
  { intros i a E. pose proof (sim_get m s i S) as H. rewrite E in H. destruct H as (oo & H1 & _ & _ & H2). eauto. }
  assert (Hdead : forall i, aget s i = DeadObject -> get_var m i = DeadObject).
  { intros i E. pose proof (sim_get m s i S) as H. rewrite E in H. exact H. }
  assert (Honly : forall i, (exists a, aget s i = Done a) \/ aget s i = DeadObject).
  { intros i. unfold aget. destruct (nth_error s i) as [[a|]|]; eauto. }
  assert (Hset : forall (f : mem -> nat -> outcome mem) i v, (forall a, aget s i = Done a -> exists m', f m i = Done m' /\ sim m' (aset s i v)) ->
     (get_var m i = DeadObject -> f m i = DeadObject) ->
     osim2 (noobs (f m i)) (quiet (let! _ := aget s i in Done (aset s i v)))).
  { intros f i v H1 H2. apply osim_quiet. destruct (Honly i) as [[a Ea]|Ea]; rewrite Ea.
    - destruct (H1 a Ea) as (m' & -> & H). exact H.
    - rewrite (H2 (Hdead i Ea)). exact I. }
  destruct o as [|j|j|i j|i j|i|i t|i j|i n|i b|i|i|i k|i|i|i|i|i j]; cbn [step astep].
  - cbn. split; [apply construct_sim, S|reflexivity].
  - apply osim_quiet. unfold copy_construct.
    destruct (Honly j) as [[b Eb]|Eb]; rewrite Eb; [|rewrite (Hdead j Eb); exact I].
    destruct (Hget j b Eb) as (oj & Egj & Rj). rewrite Egj. cbn [bind].
    pose proof (construct_sim m s S) as S1. unfold construct. cbn [construct snd] in S1.
    set (m1 := mkMem _ _) in *. pose proof (sim_len _ _ S) as Hlen.
    pose proof (copy_assign_sim m1 _ (length (m_vars m)) j S1) as H. unfold aassign in H.
    assert (Esj : nth_error s j = Some (Some b)) by (unfold aget in Eb; destruct (nth_error s j) as [[]|]; congruence).
    assert (Hlt : j < length s) by (apply nth_error_Some; congruence).
    unfold aget at 1 2 in H. rewrite Hlen in H. rewrite nth_error_app2, Nat.sub_diag in H by lia.
    rewrite nth_error_app1, Esj in H by lia. cbn [nth_error bind] in H.
    destruct (Nat.eqb_spec (length s) j); [lia|].
    unfold aset in H. rewrite <- Hlen in H. 
    destruct b as [v|]; cbn [aread bind] in H |- *; [|exact H]. rewrite Hlen in H at 2. rewrite upd_last in H. exact H.
  - apply osim_quiet, move_construct_sim, S.
  - apply osim_quiet, copy_assign_sim, S.
  - apply osim_quiet, move_assign_sim, S.
  - apply (Hset set_nothing).
    + intros a Ea. destruct (set_nothing_sim m s i a S Ea) as (m' & E & S' & _). eauto.
    + intros E. unfold set_nothing. rewrite E. reflexivity.
  - apply (Hset (fun m i => set_string m i (External t))).
    + intros a Ea. eapply set_string_ext; eassumption.
    + intros E. unfold set_string, set_nothing. rewrite E. reflexivity.
  - apply osim_quiet. destruct (Honly i) as [[a Ea]|Ea]; rewrite Ea; [|rewrite (Hdead i Ea); exact I].
    destruct (Hget i a Ea) as (oi & Egi & Ri). rewrite Egi. cbn [bind]. unfold get_string_ref.
    destruct (Honly j) as [[b Eb]|Eb]; rewrite Eb; [|rewrite (Hdead j Eb); exact I].
    pose proof (sim_get m s j S) as Hj. rewrite Eb in Hj. destruct Hj as (oj & Egj & Evj & Esj & Rj).
    rewrite Egj. cbn [bind]. unfold is_string. rewrite (rep_kind _ _ _ Rj).
    destruct b as [[|t|n|v|]|]; cbn [akind_of lkind_eqb]; try exact I.
    + cbn in Rj. destruct Rj as (l & -> & El). cbn [read_ptr o_payload bind].
      destruct (Nat.eqb_spec i j) as [<-|Hij].
      * (* the argument is released before it is read *)
        unfold set_string, set_nothing. rewrite Egj. cbn [bind is_string o_kind lkind_eqb read_ptr o_payload delete].
        unfold is_string. cbn [o_kind lkind_eqb read_ptr o_payload bind delete]. rewrite El. cbn [bind].
        unfold read_ref, deref, set_var. cbn [m_heap]. rewrite (nth_error_upd_eq _ _ _ _ El). exact I.
      * destruct (set_string_from m s i j a t l S Ea Hij Esj Evj) as (m' & -> & S'). exact S'.
    + cbn in Rj. subst oj. exact I.
  - apply (Hset (fun m i => set_unsigned m i n)).
    + intros a Ea. eapply set_unsigned_sim; eassumption.
    + intros E. unfold set_unsigned, set_nothing. rewrite E. reflexivity.
  - apply (Hset (fun m i => set_boolean m i b)).
    + intros a Ea. eapply set_boolean_sim; eassumption.
    + intros E. unfold set_boolean, set_nothing. rewrite E. reflexivity.
  - apply (Hset set_default).
    + intros a Ea. eapply set_default_sim; eassumption.
    + intros E. unfold set_default, set_nothing. rewrite E. reflexivity.
  - apply osim_quiet, destroy_sim, S.
  - destruct (Honly i) as [[a Ea]|Ea]; rewrite Ea; [|rewrite (Hdead i Ea); exact I].
    destruct (Hget i a Ea) as (oi & -> & Ri). cbn. split; [exact S|]. rewrite (rep_kind _ _ _ Ri). reflexivity.
  - unfold get_string, get_string_ref. destruct (Honly i) as [[a Ea]|Ea]; rewrite Ea; [|rewrite (Hdead i Ea); exact I].
    destruct (Hget i a Ea) as (oi & -> & Ri). cbn [bind]. unfold is_string. rewrite (rep_kind _ _ _ Ri).
    destruct a as [[|t|n|v|]|]; cbn [akind_of lkind_eqb]; try exact I.
    + cbn in Ri. destruct Ri as (l & -> & El). cbn. rewrite El. cbn. auto.
    + cbn in Ri. subst oi. exact I.
  - unfold get_unsigned. destruct (Honly i) as [[a Ea]|Ea]; rewrite Ea; [|rewrite (Hdead i Ea); exact I].
    destruct (Hget i a Ea) as (oi & -> & Ri). cbn [bind]. rewrite (rep_kind _ _ _ Ri).
    destruct a as [[|t|n|v|]|]; cbn [akind_of lkind_eqb]; try exact I. cbn in Ri. subst oi. cbn. auto.
  - unfold get_boolean. destruct (Honly i) as [[a Ea]|Ea]; rewrite Ea; [|rewrite (Hdead i Ea); exact I].
    destruct (Hget i a Ea) as (oi & -> & Ri). cbn [bind]. rewrite (rep_kind _ _ _ Ri).
    destruct a as [[|t|n|v|]|]; cbn [akind_of lkind_eqb]; try exact I. cbn in Ri. subst oi. cbn. auto.
  - unfold print_value, get_string, get_string_ref, get_unsigned, get_boolean.
    destruct (Honly i) as [[a Ea]|Ea]; rewrite Ea; [|rewrite (Hdead i Ea); exact I].
    destruct (Hget i a Ea) as (oi & Eg & Ri). rewrite Eg. cbn [bind]. rewrite (rep_kind _ _ _ Ri).
    destruct a as [[|t|n|v|]|]; cbn [akind_of aread bind].
    + cbn [osim2]. auto.
    + rewrite ?Eg. cbn [bind]. cbn in Ri. destruct Ri as (l & -> & El). unfold is_string, read_ptr, deref. cbn [o_kind lkind_eqb o_payload bind].
      rewrite El. cbn [bind osim2]. auto.
    + rewrite ?Eg. cbn [bind]. cbn in Ri. subst oi. cbn [o_kind lkind_eqb o_payload bind osim2]. auto.
    + rewrite ?Eg. cbn [bind]. cbn in Ri. subst oi. cbn [o_kind lkind_eqb o_payload bind osim2]. auto.
    + cbn [osim2]. auto.
    + rewrite ?Eg. cbn [bind]. cbn in Ri. subst oi. exact I.
  - unfold values_equal. destruct (Honly i) as [[a Ea]|Ea]; rewrite Ea; [|rewrite (Hdead i Ea); exact I].
    destruct (Hget i a Ea) as (oi & Eg & Ri). rewrite Eg. cbn [bind].
    destruct (Honly j) as [[b Eb]|Eb]; rewrite Eb; [|rewrite (Hdead j Eb); exact I].
    destruct (Hget j b Eb) as (oj & Egj & Rj). rewrite Egj. cbn [bind].
    rewrite (rep_kind _ _ _ Ri), (rep_kind _ _ _ Rj).
    unfold get_string, get_string_ref, get_unsigned, get_boolean. rewrite Eg, Egj.
    destruct a as [[|ta|na|va|]|], b as [[|tb|nb|vb|]|]; cbn [akind_of lkind_eqb bind lit_eqb]; cbn in Ri, Rj;
      repeat match goal with H : exists _, _ /\ _ |- _ => destruct H as (? & -> & ?) end; subst;
      cbn [is_string o_kind lkind_eqb read_ptr o_payload bind osim2]; auto;
      unfold is_string; cbn [o_kind lkind_eqb read_ptr o_payload bind osim2]; auto;
      unfold deref;
      repeat match goal with H : nth_error _ _ = Some (Some _) |- _ => rewrite H; clear H end; cbn [bind osim2]; auto.
Qed.

Definition osim3 (x : outcome (mem * list obs)) (y : outcome (astate * list obs)) : Prop :=
  match x, y with
  | Done (m, o), Done (s, o') => sim m s /\ o = o'
  | AssertFails, AssertFails | UB, UB | DeadObject, DeadObject => True
  | _, _ => False
  end.

Lemma run_from_sim ops : forall m s, sim m s -> osim3 (run_from m ops) (arun_from s ops).
Proof.
  induction ops as [|o ops IH]; intros m s S; cbn; [auto|].
  pose proof (step_sim m s o S) as H.
  destruct (step m o) as [[m1 x]| | |], (astep s o) as [[s1 y]| | |]; cbn in H; try contradiction; try exact I.
  destruct H as [S1 ->]. cbn. specialize (IH m1 s1 S1).
  destruct (run_from m1 ops) as [[m2 xs]| | |], (arun_from s1 ops) as [[s2 ys]| | |]; cbn in IH |- *; try contradiction; auto.
  destruct IH as [S2 ->]. auto.
Qed.

Lemma init_sim : sim init [].
Proof.
  constructor; cbn.
  - reflexivity.
  - intros [|i]; exact I.
  - intros i j l (o & E & _). destruct i; discriminate.
  - intros l (s & E). destruct l; discriminate.
Qed.

Lemma run_sim ops : osim3 (run ops) (arun ops).
Proof. apply run_from_sim, init_sim. Qed.

(** ** Consequences *)

Lemma value_semantics ops : observed (run ops) = observed (arun ops).
Proof.
  pose proof (run_sim ops) as H. unfold observed.
  destruct (run ops) as [[m xs]| | |], (arun ops) as [[s ys]| | |]; cbn in H |- *; try contradiction; try reflexivity.
  destruct H as [_ ->]. reflexivity.
Qed.

Lemma heap_ownership ops m xs : run ops = Done (m, xs) ->
  (forall l, allocated m l <-> exists i, points_to m i l) /\
  (forall i j l, points_to m i l -> points_to m j l -> i = j) /\
  (all_destroyed m -> forall l, ~ allocated m l).
Proof.
  intros E. pose proof (run_sim ops) as H. rewrite E in H. destruct (arun ops) as [[s ys]| | |]; try contradiction.
  destruct H as [S _].
  assert (H1 : forall l, allocated m l <-> exists i, points_to m i l).
  { intros l. split; [apply S|]. intros (i & o & Ev & K & P). pose proof (sim_var _ _ S i) as R. rewrite Ev in R.
    destruct (nth_error s i) as [[a|]|]; try contradiction.
    destruct a as [[]|]; cbn in R; try (subst o; cbn in *; discriminate).
    destruct R as (l' & -> & El). cbn in P. injection P as ->. exists s0. exact El. }
  split; [exact H1|]. split; [apply S|].
  intros Hd l Hl. apply H1 in Hl as (i & o & Ev & _). apply nth_error_In in Ev. apply Hd in Ev. discriminate.
Qed.

Lemma live_upd s i a : aget s i = Done a <-> nth_error s i = Some (Some a).
Proof. unfold aget. destruct (nth_error s i) as [[b|]|]; split; congruence. Qed.

Lemma astep_ub s o : astep s o = UB <-> misuse s o.
Proof.
  assert (Hcases : forall i, (exists a, aget s i = Done a /\ nth_error s i = Some (Some a)) \/ (aget s i = DeadObject /\ forall a, nth_error s i <> Some (Some a))).
  { intros i. unfold aget. destruct (nth_error s i) as [[a|]|]; [left; eauto|right; split; [reflexivity|congruence]..]. }
  Ltac case_get Hc i := let H := fresh in let a := fresh "a" in let E := fresh in let F := fresh "F" in
    destruct (Hc i) as [(a & E & F)|[E F]]; rewrite E; cbn [bind].
  destruct o as [|j|j|i j|i j|i|i t|i j|i n|i b|i|i|i k|i|i|i|i|i j]; cbn [astep misuse]; unfold aassign, quiet.
  - split; [discriminate|contradiction].
  - unfold hollow. case_get Hcases j; [rewrite F; destruct a as [[]|]; cbn; split; congruence|].
    split; [discriminate|]. intros H2. exfalso. eapply F; exact H2.
  - case_get Hcases j; [destruct a as [[]|]; cbn|]; split; try discriminate; try contradiction.
  - unfold hollow, live. case_get Hcases i.
    + case_get Hcases j.
      * rewrite F, F0. destruct (Nat.eqb_spec i j); cbn; [split; [discriminate|tauto]|].
        destruct a0; cbn; split; try discriminate; try (intros (_ & _ & [=])); eauto.
      * split; [discriminate|]. intros (_ & _ & H2). exfalso. eapply F0; exact H2.
    + split; [discriminate|]. intros (_ & (a & H2) & _). exfalso. eapply F; exact H2.
  - case_get Hcases i; [|split; [discriminate|contradiction]].
    case_get Hcases j; [|split; [discriminate|contradiction]].
    split; [|contradiction].
    destruct a0 as [[]|]; cbn [aread bind]; try destruct (Nat.eqb i j); try destruct a as [[]|]; discriminate.
  - case_get Hcases i; split; try discriminate; contradiction.
  - case_get Hcases i; split; try discriminate; contradiction.
  - unfold hollow, live, holds_string. case_get Hcases i.
    + case_get Hcases j.
      * rewrite F, F0. destruct a0 as [[]|]; cbn; split; try discriminate;
          try (intros (_ & [[=]|(-> & t & [=])])); try eauto.
        -- destruct (Nat.eqb_spec i j) as [->|]; [|discriminate]. intros _. split; [eauto|]. right. split; [reflexivity|]. eauto.
        -- rewrite Nat.eqb_refl. reflexivity.
      * split; [discriminate|]. intros (_ & [H2|(_ & t & H2)]); exfalso; eapply F0; exact H2.
    + split; [discriminate|]. intros ((a & H2) & _). exfalso. eapply F; exact H2.
  - case_get Hcases i; split; try discriminate; contradiction.
  - case_get Hcases i; split; try discriminate; contradiction.
  - case_get Hcases i; split; try discriminate; contradiction.
  - case_get Hcases i; split; try discriminate; contradiction.
  - case_get Hcases i; split; try discriminate; contradiction.
  - unfold hollow. case_get Hcases i; [rewrite F; destruct a as [[]|]; cbn; split; congruence|].
    split; [discriminate|]. intros H2. exfalso. eapply F; exact H2.
  - case_get Hcases i; [destruct a as [[]|]|]; split; try discriminate; contradiction.
  - case_get Hcases i; [destruct a as [[]|]|]; split; try discriminate; contradiction.
  - unfold hollow. case_get Hcases i; [rewrite F; destruct a as [[]|]; cbn; split; congruence|].
    split; [discriminate|]. intros H2. exfalso. eapply F; exact H2.
  - unfold hollow, holds_string. case_get Hcases i.
    + case_get Hcases j.
      * rewrite F, F0. destruct a as [[]|], a0 as [[]|]; cbn; split; try discriminate; intros HH; try reflexivity;
          try (exfalso; destruct HH as [(HH & [HH'|(? & HH')])|((? & HH) & HH')]; discriminate).
        -- right. eauto.
        -- left. eauto.
        -- left. eauto.
      * split; [discriminate|]. intros [(_ & [H2|(t & H2)])|(_ & H2)]; exfalso; eapply F0; exact H2.
    + split; [discriminate|]. intros [(H2 & _)|((t & H2) & _)]; exfalso; eapply F; exact H2.
Qed.

Lemma arun_from_app ops1 ops2 : forall s, arun_from s (ops1 ++ ops2) =
  let! (s1, xs) := arun_from s ops1 in let! (s2, ys) := arun_from s1 ops2 in Done (s2, xs ++ ys).
Proof.
  induction ops1 as [|o ops1 IH]; intros s; cbn.
  - destruct (arun_from s ops2) as [[]| | |]; reflexivity.
  - destruct (astep s o) as [[s1 x]| | |]; cbn; try reflexivity. rewrite IH.
    destruct (arun_from s1 ops1) as [[s2 xs]| | |]; cbn; try reflexivity.
    destruct (arun_from s2 ops2) as [[s3 ys]| | |]; reflexivity.
Qed.

Lemma run_from_app ops1 ops2 : forall s, run_from s (ops1 ++ ops2) =
  let! (s1, xs) := run_from s ops1 in let! (s2, ys) := run_from s1 ops2 in Done (s2, xs ++ ys).
Proof.
  induction ops1 as [|o ops1 IH]; intros s; cbn.
  - destruct (run_from s ops2) as [[]| | |]; reflexivity.
  - destruct (step s o) as [[s1 x]| | |]; cbn; try reflexivity. rewrite IH.
    destruct (run_from s1 ops1) as [[s2 xs]| | |]; cbn; try reflexivity.
    destruct (run_from s2 ops2) as [[s3 ys]| | |]; reflexivity.
Qed.

Lemma arun_ub ops : forall s, arun_from s ops = UB <->
  exists pre o post s1 xs, ops = pre ++ o :: post /\ arun_from s pre = Done (s1, xs) /\ misuse s1 o.
Proof.
  induction ops as [|o ops IH]; intros s; cbn.
  - split; [discriminate|]. intros (pre & o & post & s1 & xs & E & _). destruct pre; discriminate.
  - split.
    + destruct (astep s o) as [[s1 x]| | |] eqn:E; cbn; try discriminate.
      * intros H. destruct (arun_from s1 ops) as [[s2 xs]| | |] eqn:E2; cbn in H; try discriminate.
        apply IH in E2 as (pre & o' & post & s' & xs & -> & Hr & Hm).
        exists (o :: pre), o', post, s', (x :: xs). split; [reflexivity|]. split; [|exact Hm]. cbn. rewrite E. cbn. rewrite Hr. reflexivity.
      * intros _. apply astep_ub in E. exists [], o, ops, s, []. cbn. auto.
    + intros (pre & o' & post & s' & xs & E & Hr & Hm). destruct pre as [|o2 pre]; cbn in E; injection E as E1 E2; subst.
      * cbn in Hr. injection Hr as <- <-. apply astep_ub in Hm. rewrite Hm. reflexivity.
      * cbn in Hr. destruct (astep s o2) as [[s1 x]| | |]; cbn in Hr |- *; try discriminate.
        destruct (arun_from s1 pre) as [[s2 ys]| | |] eqn:E3; cbn in Hr; try discriminate. injection Hr as <- <-.
        assert (H : arun_from s1 (pre ++ o' :: post) = UB).
        { apply IH. eexists pre, o', post, _, ys. eauto. }
        rewrite H. reflexivity.
Qed.

Lemma ub_exactly_misuse ops : run ops = UB <->
  exists pre o post s xs, ops = pre ++ o :: post /\ arun pre = Done (s, xs) /\ misuse s o.
Proof.
  unfold arun. rewrite <- arun_ub. pose proof (run_sim ops) as H. unfold arun in H.
  destruct (run ops) as [[m xs]| | |], (arun_from [] ops) as [[s ys]| | |]; cbn in H; try contradiction; split; congruence.
Qed.

(** Without the hazards there are no hollow values. *)
Definition no_hollow (s : astate) : Prop := forall i, ~ hollow s i.

Lemma no_hollow_upd s i x : no_hollow s -> x <> Some Hollow -> no_hollow (upd s i x).
Proof.
  intros H Hx j. unfold hollow. rewrite nth_error_upd. destruct (Nat.eqb i j); [|apply H].
  destruct (Nat.ltb i (length s)); congruence.
Qed.

Lemma no_hollow_app s x : no_hollow s -> x <> Some Hollow -> no_hollow (s ++ [x]).
Proof.
  intros H Hx j E. unfold hollow in E. destruct (Nat.lt_ge_cases j (length s)).
  - rewrite nth_error_app1 in E by lia. exact (H j E).
  - rewrite nth_error_app2 in E by lia. destruct (j - length s) as [|k]; cbn in E; [congruence|destruct k; discriminate].
Qed.

Lemma hazard_free_step s o s1 x : no_hollow s -> hazard_free o -> astep s o = Done (s1, x) -> no_hollow s1.
Proof.
  intros Hn Hh.
  assert (Hget : forall i a, aget s i = Done a -> a <> Hollow).
  { intros i a E ->. apply live_upd in E. exact (Hn i E). }
  destruct o as [|j|j|i j|i j|i|i t|i j|i n|i b|i|i|i k|i|i|i|i|i j]; cbn in Hh; try contradiction; cbn [astep]; unfold quiet, aassign;
    repeat match goal with
    | |- context [aget s ?i] => let E := fresh "E" in destruct (aget s i) as [?a| | |] eqn:E; cbn [bind]; try discriminate; apply Hget in E
    end;
    try (intros [= <- _]; first [exact Hn|apply no_hollow_app; [exact Hn|discriminate]|apply no_hollow_upd; [exact Hn|discriminate]]).
  - destruct a; cbn; [intros [= <- _]; apply no_hollow_app; [exact Hn|discriminate]|discriminate].
  - destruct a as [[]|]; cbn; try congruence; intros [= <- _]; apply no_hollow_app; try discriminate; try exact Hn.
    apply no_hollow_upd; [exact Hn|discriminate].
  - destruct (Nat.eqb i j); cbn; [intros [= <- _]; exact Hn|]. destruct a0; cbn; [|discriminate].
    intros [= <- _]. apply no_hollow_upd; [exact Hn|discriminate].
  - destruct a0 as [[]|]; try discriminate. destruct (Nat.eqb i j); try discriminate. intros [= <- _]. apply no_hollow_upd; [exact Hn|discriminate].
  - destruct a as [[]|]; try discriminate. intros [= <- _]; exact Hn.
  - destruct a as [[]|]; try discriminate. intros [= <- _]; exact Hn.
  - destruct a as [[]|]; try discriminate. intros [= <- _]; exact Hn.
  - destruct a as [v|]; try discriminate. intros [= <- _]; exact Hn.
  - destruct a as [v|], a0 as [w|]; try congruence; intros [= <- _]; exact Hn.
Qed.

Lemma hazard_free_arun ops : forall s, no_hollow s -> Forall hazard_free ops -> arun_from s ops <> UB.
Proof.
  induction ops as [|o ops IH]; intros s Hn Hf; cbn; [discriminate|].
  inversion Hf as [|? ? Ho Hops]; subst.
  destruct (astep s o) as [[s1 x]| | |] eqn:E; cbn; try discriminate.
  - pose proof (IH s1 (hazard_free_step _ _ _ _ Hn Ho E) Hops) as H.
    destruct (arun_from s1 ops) as [[]| | |]; cbn; congruence.
  - apply astep_ub in E. intros _. destruct o; cbn in E, Ho; try exact E; try exact (Hn _ E).
    + destruct E as (_ & _ & E). exact (Hn _ E).
    + destruct E as (_ & [E|(E & _)]); [exact (Hn _ E)|contradiction].
    + destruct E as [(E & _)|(_ & E)]; exact (Hn _ E).
Qed.

Lemma no_ub_without_hazards ops : Forall hazard_free ops -> run ops <> UB.
Proof.
  intros Hf E. pose proof (run_sim ops) as H. rewrite E in H.
  assert (Hn : no_hollow []) by (intros [|i] e; discriminate e).
  pose proof (hazard_free_arun ops [] Hn Hf) as H2.
  unfold arun in H. destruct (arun_from [] ops) as [[]| | |]; cbn in H; try contradiction; congruence.
Qed.

(** Observations after a sequence, by value semantics. *)
Definition aobserve (s : astate) (o : op) : outcome obs := let! (_, x) := astep s o in Done x.

Lemma observe_spec ops o : observe ops o = let! (s, _) := arun ops in aobserve s o.
Proof.
  unfold observe. pose proof (run_sim ops) as H.
  destruct (run ops) as [[m xs]| | |], (arun ops) as [[s ys]| | |]; cbn in H |- *; try contradiction; try reflexivity.
  destruct H as [S _]. pose proof (step_sim m s o S) as H. unfold aobserve.
  destruct (step m o) as [[m1 x]| | |], (astep s o) as [[s1 y]| | |]; cbn in H |- *; try contradiction; try reflexivity.
  destruct H as [_ ->]. reflexivity.
Qed.

Lemma observe_done ops o x : observe ops o = Done x -> exists s xs, arun ops = Done (s, xs) /\ aobserve s o = Done x.
Proof. rewrite observe_spec. destruct (arun ops) as [[s xs]| | |]; cbn; try discriminate. eauto. Qed.

Lemma arun_snoc ops o s xs : arun ops = Done (s, xs) ->
  arun (ops ++ [o]) = let! (s1, x) := astep s o in Done (s1, xs ++ [x]).
Proof.
  intros E. unfold arun in *. rewrite arun_from_app, E. cbn. destruct (astep s o) as [[s1 x]| | |]; reflexivity.
Qed.

Lemma aprint_done s i t : aobserve s (OpPrint i) = Done t -> exists v, nth_error s i = Some (Some (Val v)) /\ t = ObsStr (print_lit v).
Proof.
  unfold aobserve. cbn [astep]. unfold aget. destruct (nth_error s i) as [[[v|]|]|]; cbn; try discriminate. intros [= <-]. eauto.
Qed.

Lemma aprint_get s i v : nth_error s i = Some (Some (Val v)) -> aobserve s (OpPrint i) = Done (ObsStr (print_lit v)).
Proof. unfold aobserve. cbn [astep]. unfold aget. intros ->. reflexivity. Qed.

(** C08 *)
Lemma move_construct_readable ops m xs j : run (ops ++ [OpMoveConstruct j]) = Done (m, xs) ->
  exists x, observe (ops ++ [OpMoveConstruct j]) (OpPrint j) = Done x.
Proof.
  intros E. pose proof (run_sim (ops ++ [OpMoveConstruct j])) as H. rewrite E in H.
  destruct (arun (ops ++ [OpMoveConstruct j])) as [[s ys]| | |] eqn:E2; try contradiction.
  rewrite observe_spec, E2. cbn [bind]. unfold arun in E2. rewrite arun_from_app in E2.
  destruct (arun_from [] ops) as [[s0 zs]| | |]; cbn [bind] in E2; try discriminate.
  cbn [arun_from astep] in E2. unfold aget in E2. destruct (nth_error s0 j) as [[b|]|] eqn:Ej; cbn [bind quiet] in E2; try discriminate.
  assert (Hlt : j < length s0) by (apply nth_error_Some; congruence).
  destruct b as [[|t|n|v|]|]; cbn [bind quiet] in E2; injection E2 as <- _; eexists; apply aprint_get;
    rewrite nth_error_app1 by (unfold aset; rewrite ?upd_length; exact Hlt); try exact Ej; eapply aset_get, Ej.
Qed.

(** The target of a move construction or move assignment takes the value. *)
Lemma move_assign_takes ops i j x m xs : observe ops (OpPrint j) = Done x -> i <> j ->
  run (ops ++ [OpMoveAssign i j]) = Done (m, xs) ->
  observe (ops ++ [OpMoveAssign i j]) (OpPrint i) = Done x.
Proof.
  intros Hx Hij E. apply observe_done in Hx as (s & ys & Es & Hx). apply aprint_done in Hx as (v & Ev & ->).
  pose proof (run_sim (ops ++ [OpMoveAssign i j])) as H. rewrite E in H.
  rewrite observe_spec. rewrite (arun_snoc _ _ _ _ Es) in H |- *. cbn [astep] in H |- *.
  unfold aassign in *. unfold aget in *. rewrite Ev in *.
  destruct (nth_error s i) as [[a|]|] eqn:Ei; cbn [bind quiet] in H |- *; try contradiction.
  destruct (Nat.eqb_spec i j); [contradiction|].
  destruct v; cbn [bind aread quiet];
    try (apply aprint_get; eapply aset_get, Ei);
    destruct a as [[]|]; cbn [bind aread quiet]; apply aprint_get; rewrite aset_get_ne by congruence; eapply aset_get, Ei.
Qed.

Lemma move_assign_onto_string_readable ops i j x y : observe ops (OpPrint j) = Done x -> observe ops (OpGetString i) = Done y ->
  exists z, observe (ops ++ [OpMoveAssign i j]) (OpPrint j) = Done z.
Proof.
  intros Hx Hy. apply observe_done in Hx as (s & ys & Es & Hx). apply aprint_done in Hx as (v & Ev & ->).
  apply observe_done in Hy as (s' & ys' & Es' & Hy). rewrite Es in Es'. injection Es' as <- <-.
  unfold aobserve in Hy. cbn [astep] in Hy. unfold aget in Hy. destruct (nth_error s i) as [[[[|t| | |]|]|]|] eqn:Ei; try discriminate Hy.
  rewrite observe_spec, (arun_snoc _ _ _ _ Es). cbn [astep]. unfold aassign. unfold aget. rewrite Ei, Ev. cbn [bind quiet].
  destruct (Nat.eqb_spec i j) as [<-|Hij].
  - assert (v = LString t) as -> by congruence. cbn [bind quiet]. eexists. apply aprint_get. eapply aset_get. eapply aset_get, Ei.
  - destruct v; cbn [bind aread quiet]; eexists; apply aprint_get;
      try (rewrite aset_get_ne by congruence; exact Ev).
    eapply aset_get. rewrite aset_get_ne by congruence. exact Ev.
Qed.

Lemma moved_from_refuted : exists ops m xs x j, run ops = Done (m, xs) /\ observe ops (OpIsa j KString) = Done x /\ x = ObsBool true /\
  (exists i, last ops OpConstruct = OpMoveAssign i j) /\ observe ops (OpPrint j) = UB.
Proof.
  exists [OpConstruct; OpConstruct; OpSetString 1 $"x"; OpMoveAssign 0 1].
  eexists _, _, _, 1. split; [vm_compute; reflexivity|]. split; [vm_compute; reflexivity|]. split; [reflexivity|].
  split; [exists 0; reflexivity|]. vm_compute. reflexivity.
Qed.

Lemma self_set_string_refuted : exists ops m xs i t, run ops = Done (m, xs) /\ observe ops (OpGetString i) = Done (ObsStr t) /\
  run (ops ++ [OpSetStringFrom i i]) = UB.
Proof.
  exists [OpConstruct; OpSetString 0 $"x"]. eexists _, _, 0, $"x". repeat split; vm_compute; reflexivity.
Qed.

(** C09 *)
Lemma astep_frame s o s1 x i : may_change o i = false -> i < length s -> astep s o = Done (s1, x) ->
  nth_error s1 i = nth_error s i /\ i < length s1.
Proof.
  intros Hm Hi.
  assert (Hup : forall k y, Nat.eqb i k = false -> nth_error (upd s k y) i = nth_error s i /\ i < length (upd s k y)).
  { intros k y H. apply Nat.eqb_neq in H. rewrite nth_error_upd_ne, upd_length by congruence. auto. }
  assert (Happ : forall (l : astate) y, i < length l -> nth_error (l ++ [y]) i = nth_error l i /\ i < length (l ++ [y])).
  { intros l y H. rewrite nth_error_app1, app_length by exact H. split; [reflexivity|lia]. }
  destruct o as [|j|j|k j|k j|k|k t|k j|k n|k b|k|k|k kk|k|k|k|k|k j]; cbn [may_change] in Hm; cbn [astep]; unfold quiet, aassign, aset;
    repeat match goal with
    | |- context [aget s ?i] => destruct (aget s i) as [?a| | |]; cbn [bind]; try discriminate
    end;
    try (intros [= <- _]; auto; fail).
  - destruct a; cbn; try discriminate. intros [= <- _]; auto.
  - destruct a as [[]|]; cbn; intros [= <- _]; auto.
    all: destruct (Hup j (Some (Val LNothing)) Hm) as [H1 H2]; rewrite <- H1; apply Happ, H2.
  - destruct (Nat.eqb k j); cbn; [intros [= <- _]; auto|]. destruct a0; cbn; try discriminate. intros [= <- _]; auto.
  - apply orb_false_iff in Hm as [H1 H2]. assert (Hn1 := H1). assert (Hn2 := H2). apply Nat.eqb_neq in Hn1, Hn2.
    destruct a0 as [[]|]; cbn [bind aread]; try (destruct (Nat.eqb k j); cbn; intros [= <- _]; auto; fail);
      destruct a as [[]|]; cbn; intros [= <- _]; rewrite !nth_error_upd_ne, !upd_length by congruence; auto.
  - destruct a0 as [[]|]; try discriminate. destruct (Nat.eqb k j); try discriminate. intros [= <- _]; auto.
  - destruct a as [[]|]; try discriminate. intros [= <- _]; auto.
  - destruct a as [[]|]; try discriminate. intros [= <- _]; auto.
  - destruct a as [[]|]; try discriminate. intros [= <- _]; auto.
  - destruct a; try discriminate. intros [= <- _]; auto.
  - destruct a, a0; try destruct (lkind_eqb _ _); try discriminate; intros HH; injection HH as HH1 HH2; subst; auto.
Qed.

Lemma arun_frame ops i : Forall (fun o => may_change o i = false) ops -> forall s s1 xs, i < length s ->
  arun_from s ops = Done (s1, xs) -> nth_error s1 i = nth_error s i.
Proof.
  induction 1 as [|o ops Ho Hops IH]; intros s s1 xs Hi; cbn; [congruence|].
  destruct (astep s o) as [[s2 x]| | |] eqn:E; cbn; try discriminate.
  destruct (astep_frame _ _ _ _ i Ho Hi E) as [E2 Hi2].
  destruct (arun_from s2 ops) as [[s3 ys]| | |] eqn:E3; cbn; try discriminate. intros [= <- _].
  rewrite <- E2. eapply IH; eassumption.
Qed.

Lemma independent ops later i q m xs x : Forall (fun o => may_change o i = false) later ->
  run (ops ++ later) = Done (m, xs) -> observe ops (ask q i) = Done x -> observe (ops ++ later) (ask q i) = Done x.
Proof.
  intros Hl E Hx. apply observe_done in Hx as (s & ys & Es & Hx).
  pose proof (run_sim (ops ++ later)) as H. rewrite E in H.
  destruct (arun (ops ++ later)) as [[s1 zs]| | |] eqn:E2; try contradiction.
  rewrite observe_spec, E2. cbn [bind]. unfold arun in Es, E2. rewrite arun_from_app, Es in E2. cbn [bind] in E2.
  destruct (arun_from s later) as [[s2 ws]| | |] eqn:E3; try discriminate. cbn [bind] in E2. injection E2 as <- _.
  assert (Hi : i < length s).
  { destruct q; unfold aobserve in Hx; cbn [ask astep] in Hx; unfold aget in Hx;
      destruct (nth_error s i) as [|] eqn:Ei; try discriminate Hx; apply nth_error_Some; congruence. }
  pose proof (arun_frame later i Hl s s2 ws Hi E3) as Hn.
  destruct q; unfold aobserve in *; cbn [ask astep] in *; unfold aget in *; rewrite Hn;
    destruct (nth_error s i) as [[[[]|]|]|]; cbn in Hx |- *; try discriminate; exact Hx.
Qed.

Lemma lit_eqb_eq a b : lit_eqb a b = true <-> a = b.
Proof.
  destruct a, b; cbn; try (split; [discriminate|discriminate]); try (split; reflexivity).
  - rewrite str_eqb_eq. split; congruence.
  - rewrite N.eqb_eq. split; congruence.
  - rewrite Bool.eqb_true_iff. split; congruence.
Qed.

Lemma copy_is_equal ops i j x m xs : observe ops (OpPrint j) = Done x -> run (ops ++ [OpCopyAssign i j]) = Done (m, xs) ->
  observe (ops ++ [OpCopyAssign i j]) (OpEqual i j) = Done (ObsBool true) /\
  forall q, observe (ops ++ [OpCopyAssign i j]) (ask q i) = observe ops (ask q j) /\
    observe (ops ++ [OpCopyAssign i j]) (ask q j) = observe ops (ask q j).
Proof.
  intros Hx E. apply observe_done in Hx as (s & ys & Es & Hx). apply aprint_done in Hx as (v & Ev & ->).
  pose proof (run_sim (ops ++ [OpCopyAssign i j])) as H. rewrite E in H.
  assert (Hs : exists s1, arun (ops ++ [OpCopyAssign i j]) = Done (s1, ys ++ [ObsNone]) /\
     nth_error s1 i = Some (Some (Val v)) /\ nth_error s1 j = Some (Some (Val v))).
  { rewrite (arun_snoc _ _ _ _ Es) in H |- *. cbn [astep] in H |- *. unfold aassign, aget in *. rewrite Ev in *.
    destruct (nth_error s i) as [[a|]|] eqn:Ei; cbn [bind quiet] in H |- *; try contradiction.
    destruct (Nat.eqb_spec i j) as [->|Hij]; cbn [bind quiet aread].
    - exists s. repeat split; exact Ev.
    - eexists. split; [reflexivity|]. split; [eapply aset_get, Ei|]. rewrite aset_get_ne by congruence. exact Ev. }
  destruct Hs as (s1 & E1 & Hi & Hj). split.
  - rewrite observe_spec, E1. cbn [bind]. unfold aobserve. cbn [astep]. unfold aget. rewrite Hi, Hj. cbn [bind].
    do 2 f_equal. apply lit_eqb_eq. reflexivity.
  - intros q. rewrite !observe_spec, E1, Es. cbn [bind].
    split; destruct q; unfold aobserve; cbn [ask astep]; unfold aget; rewrite ?Hi, ?Hj, Ev; cbn [bind]; destruct v; reflexivity.
Qed.

Lemma copy_construct_equal ops j x m xs : observe ops (OpPrint j) = Done x ->
  run ops = Done (m, xs) ->
  let i := length (m_vars m) in
  observe (ops ++ [OpCopyConstruct j]) (OpEqual i j) = Done (ObsBool true) /\
  observe (ops ++ [OpCopyConstruct j]) (OpPrint i) = Done x /\
  observe (ops ++ [OpCopyConstruct j]) (OpPrint j) = Done x.
Proof.
  intros Hx E. apply observe_done in Hx as (s & ys & Es & Hx). apply aprint_done in Hx as (v & Ev & ->).
  pose proof (run_sim ops) as H. rewrite E, Es in H. destruct H as [S _]. pose proof (sim_len _ _ S) as Hlen.
  cbv zeta. rewrite !observe_spec, (arun_snoc _ _ _ _ Es). cbn [astep]. unfold aget. rewrite Ev. cbn [bind quiet aread].
  assert (Hlt : j < length s) by (apply nth_error_Some; congruence).
  assert (Hj : nth_error (s ++ [Some (Val v)]) j = Some (Some (Val v))) by (rewrite nth_error_app1 by exact Hlt; exact Ev).
  assert (Hi : nth_error (s ++ [Some (Val v)]) (length (m_vars m)) = Some (Some (Val v))).
  { rewrite Hlen, nth_error_app2, Nat.sub_diag by lia. reflexivity. }
  split; [|split; apply aprint_get; assumption].
  unfold aobserve. cbn [astep]. unfold aget. rewrite Hi, Hj. cbn [bind]. do 2 f_equal. apply lit_eqb_eq. reflexivity.
Qed.

Lemma equality_equivalence ops i j k :
  (forall x, observe ops (OpPrint i) = Done x -> observe ops (OpEqual i i) = Done (ObsBool true)) /\
  (observe ops (OpEqual i j) = Done (ObsBool true) -> observe ops (OpEqual j i) = Done (ObsBool true)) /\
  (observe ops (OpEqual i j) = Done (ObsBool true) -> observe ops (OpEqual j k) = Done (ObsBool true) ->
   observe ops (OpEqual i k) = Done (ObsBool true)).
Proof.
  assert (Heq : forall i j, observe ops (OpEqual i j) = Done (ObsBool true) <->
    exists s xs v, arun ops = Done (s, xs) /\ nth_error s i = Some (Some (Val v)) /\ nth_error s j = Some (Some (Val v))).
  { clear. intros i j. rewrite observe_spec. split.
    - destruct (arun ops) as [[s xs]| | |]; cbn [bind]; try discriminate. unfold aobserve. cbn [astep]. unfold aget.
      destruct (nth_error s i) as [[a|]|] eqn:Ei; cbn [bind]; try discriminate.
      destruct (nth_error s j) as [[b|]|] eqn:Ej; cbn [bind]; try discriminate.
      destruct a as [v|], b as [w|]; cbn [bind]; try (destruct (lkind_eqb _ _); discriminate).
      intros [= H]. apply lit_eqb_eq in H as ->. exists s, xs, w. auto.
    - intros (s & xs & v & -> & Hi & Hj). cbn [bind]. unfold aobserve. cbn [astep]. unfold aget. rewrite Hi, Hj. cbn [bind].
      do 2 f_equal. apply lit_eqb_eq. reflexivity. }
  split; [|split; rewrite !Heq].
  - intros x Hx. apply observe_done in Hx as (s & xs & Es & Hx). apply aprint_done in Hx as (v & Ev & _). apply Heq. exists s, xs, v. auto.
  - intros (s & xs & v & H1 & H2 & H3). exists s, xs, v. auto.
  - intros (s & xs & v & H1 & H2 & H3) (s' & xs' & v' & H1' & H2' & H3'). rewrite H1 in H1'. injection H1' as <- <-.
    exists s, xs, v. rewrite H3 in H2'. injection H2' as <-. auto.
Qed.
