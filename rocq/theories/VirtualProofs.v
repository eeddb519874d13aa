(** * Proofs about inlining in the presence of virtual bases *)
From Coq Require Import Lia.
From Verif Require Import Base ParserModel AnnotModel AnnotStore CollectModel GraphModel GraphWalk GraphProofs InlineModel InlineSpec InlineProofs VirtualSpec.

Section Virtual.
Context (h : hierarchy) (A : acyclic h) (D : distinct_bases h) (t : nat).

(** Paths that end with a virtual step and do not pass through [t]. *)
Inductive way : nat -> list bspec -> nat -> Prop :=
| way_last r s : In s (h_direct h r) -> sp_virtual s = true -> way r [s] (sp_base s)
| way_step r s q w : In s (h_direct h r) -> sp_base s <> t -> way (sp_base s) q w -> way r (s :: q) w.

Lemma way_derives r q w : way r q w -> derives h r q w.
Proof. induction 1; [now constructor|now constructor]. Qed.

Lemma way_height r q w : way r q w -> h_height h w < h_height h r.
Proof. intros W. exact (derives_height h A _ _ _ (way_derives _ _ _ W)). Qed.

(** [v] is reached from [r] ... *)
Definition above (r v : nat) : Prop := exists p, derives h r p v.

(** ... and with a class everything above it has been visited. *)
Definition closed (r : nat) (visited : list nat) : Prop :=
  forall v, In v visited -> above r v -> v <> t -> forall q w, way v q w -> In w visited.

Definition cond (visited : list nat) (r : nat) (p : list bspec) : Prop :=
  forall p1 s p2, p = p1 ++ s :: p2 -> p2 <> [] -> sp_virtual s = true ->
    ~ In (sp_base s) visited /\ forall q, way r q (sp_base s) -> ~ earlier h r q (p1 ++ [s]).

Lemma way_app r q v q' w : way r q v -> v <> t -> way v q' w -> way r (q ++ q') w.
Proof.
  intros W N W'. induction W as [r s Hs Hv|r s q v Hs Ht W IH]; cbn; (apply way_step; [exact Hs|assumption|auto]).
Qed.

Lemma way_inv r s q w : way r (s :: q) w -> In s (h_direct h r) /\ ((q = [] /\ sp_virtual s = true /\ w = sp_base s) \/ (sp_base s <> t /\ way (sp_base s) q w)).
Proof. intros W. inversion W; subst; auto. Qed.

Lemma way_nonempty r w : ~ way r [] w.
Proof. intros W. inversion W. Qed.

Lemma derives_inv r s q w : derives h r (s :: q) w -> In s (h_direct h r) /\ ((q = [] /\ w = sp_base s) \/ derives h (sp_base s) q w).
Proof. intros W. inversion W; subst; auto. Qed.

Lemma earlier_inv r s q s' q' : earlier h r (s :: q) (s' :: q') -> (exists a b c, h_direct h r = a ++ s :: b ++ s' :: c) \/ (s = s' /\ earlier h (sp_base s) q q').
Proof. intros E. inversion E; subst; [left; eauto|right; auto]. Qed.

Lemma nodup_split {T} (a1 b1 a2 b2 : list T) x : NoDup (a1 ++ x :: b1) -> a1 ++ x :: b1 = a2 ++ x :: b2 -> a1 = a2 /\ b1 = b2.
Proof.
  revert a2. induction a1 as [|y a1 IH]; intros a2 N E; cbn in *.
  - destruct a2 as [|z a2]; cbn in E; [injection E as ->; auto|]. injection E as -> ->. inversion N as [|? ? Hn _]; subst. destruct Hn. apply in_elt.
  - inversion N as [|? ? Hn N']; subst. destruct a2 as [|z a2]; cbn in E.
    + injection E as E1 E2. subst. destruct Hn. apply in_elt.
    + injection E as -> E. destruct (IH a2 N' E) as [-> ->]. auto.
Qed.

(** Of the direct bases of [r], those in [l1] come before [s]. *)
Lemma before_iff r l1 s l2 s' : h_direct h r = l1 ++ s :: l2 -> (In s' l1 <-> exists a b c, h_direct h r = a ++ s' :: b ++ s :: c).
Proof.
  intros E. split.
  - intros Hs. apply in_split in Hs as (a & b & ->). exists a, b, l2. rewrite E, <- app_assoc. reflexivity.
  - intros (a & b & c & E'). pose proof (D r) as N. rewrite E in N, E'. change (a ++ s' :: b ++ s :: c) with (a ++ (s' :: b) ++ s :: c) in E'. rewrite app_assoc in E'.
    destruct (nodup_split _ _ _ _ _ N E') as [-> _]. apply in_elt.
Qed.

(** *** The first step *)

Lemma cond_cons visited vis r l1 s l2 p : h_direct h r = l1 ++ s :: l2 -> sp_base s <> t -> derives h (sp_base s) p t ->
  (forall w, In w vis <-> In w visited \/ exists s q, In s l1 /\ way r (s :: q) w) ->
  (cond visited r (s :: p) <-> (sp_virtual s = true -> ~ In (sp_base s) vis) /\ cond (if sp_virtual s then sp_base s :: vis else vis) (sp_base s) p).
Proof.
  intros El Nt Hp Hv. assert (Hs : In s (h_direct h r)) by (rewrite El; apply in_elt).
  pose proof (derives_nonempty h _ _ _ Hp) as Hne.
  (* Bases of the first step *)
  assert (First : forall v, (forall q, way r q v -> ~ earlier h r q [s]) <-> forall s' q, In s' l1 -> ~ way r (s' :: q) v).
  { intros v. split.
    - intros H s' q Hs' W. apply (H _ W). apply (proj1 (before_iff r l1 s l2 s' El)) in Hs' as (a & b & c & E). eapply earlier_here. exact E.
    - intros H q W E. destruct q as [|s' q]; [exact (way_nonempty _ _ W)|]. apply earlier_inv in E as [E|[_ E]]; [|inversion E].
      apply (proj2 (before_iff r l1 s l2 s' El)) in E. exact (H s' q E W). }
  assert (Later : forall p1 x p2 v, p = p1 ++ x :: p2 -> sp_virtual x = true -> sp_base x = v ->
    ((~ In v visited /\ forall q, way r q v -> ~ earlier h r q (s :: p1 ++ [x])) <->
     (~ In v (if sp_virtual s then sp_base s :: vis else vis) /\ forall q, way (sp_base s) q v -> ~ earlier h (sp_base s) q (p1 ++ [x])))).
  { intros p1 x p2 v E Vx Ev.
    assert (Hd : derives h (sp_base s) (p1 ++ [x]) v).
    { clear - Hp E Ev. subst p v. revert Hp. generalize (sp_base s). induction p1 as [|y p1 IH]; intros r Hp; cbn in *.
      - apply derives_inv in Hp as [Hx _]. now constructor.
      - apply derives_inv in Hp as [Hy [[E _]|Hp]]; [destruct p1; discriminate E|]. apply derives_step; auto. }
    pose proof (derives_height h A _ _ _ Hd) as Hh. assert (Nv : v <> sp_base s) by (intros ->; lia).
    assert (V1 : In v (if sp_virtual s then sp_base s :: vis else vis) <-> In v vis) by (destruct (sp_virtual s); [|reflexivity]; cbn; intuition congruence).
    rewrite V1, Hv. split.
    - intros [H1 H2]. split.
      + intros [H|(s' & q & Hs' & W)]; [exact (H1 H)|]. apply (H2 _ W). apply (proj1 (before_iff r l1 s l2 s' El)) in Hs' as (a & b & c & Eq). eapply earlier_here. exact Eq.
      + intros q W Eq. apply (H2 (s :: q)); [apply way_step; assumption|]. apply earlier_there. exact Eq.
    - intros [H1 H2]. split; [intros H; apply H1; left; exact H|]. intros q W Eq. destruct q as [|s' q]; [exact (way_nonempty _ _ W)|].
      apply earlier_inv in Eq as [Eq|[-> Eq]].
      + apply (proj2 (before_iff r l1 s l2 s' El)) in Eq. apply H1. right. eauto.
      + apply way_inv in W as [_ [(-> & _ & Ew)|[_ W]]]; [inversion Eq|]. exact (H2 q W Eq). }
  split.
  - intros C. split.
    + intros Vs Hin. destruct (C [] s p eq_refl Hne Vs) as [C1 C2]. apply Hv in Hin as [Hin|(s' & q & Hs' & W)]; [exact (C1 Hin)|].
      exact (proj1 (First _) C2 s' q Hs' W).
    + intros p1 x p2 E N Vx. apply (proj1 (Later p1 x p2 _ E Vx eq_refl)). apply (C (s :: p1) x p2); [rewrite E; reflexivity|exact N|exact Vx].
  - intros [C1 C2] p1 x p2 E N Vx. destruct p1 as [|y p1]; cbn in E.
    + injection E as <- ->. specialize (C1 Vx). rewrite Hv in C1. split; [tauto|]. apply First. intros s' q Hs' W. apply C1. right. eauto.
    + injection E as <- E. apply (proj2 (Later p1 x p2 _ E Vx eq_refl)). exact (C2 p1 x p2 E N Vx).
Qed.

(** *** The search *)

Lemma find_paths_exact fuel : forall r scratch visited, h_height h r < fuel -> closed r visited ->
  exists paths visited', find_paths fuel h t r scratch visited = Some (paths, visited') /\
    (forall q, In q paths <-> exists p, q = scratch ++ p /\ derives h r p t /\ cond visited r p) /\
    (forall w, In w visited' <-> In w visited \/ exists q, way r q w).
Proof.
  induction fuel as [|fuel IH]; intros r scratch visited F C; [lia|]. cbn [find_paths].
  match goal with |- context [fold_opt ?f ?l ?init] =>
    destruct (fold_opt_inv f l (fun l1 acc =>
      (forall q, In q (fst acc) <-> exists s p, q = scratch ++ s :: p /\ In s l1 /\ derives h r (s :: p) t /\ cond visited r (s :: p)) /\
      (forall w, In w (snd acc) <-> In w visited \/ exists s q, In s l1 /\ way r (s :: q) w)) init) as ([paths visited'] & E & S1 & S2)
  end.
  - cbn. split; [intros q; split; [intros []|intros (s & p & _ & [] & _)]|]. intros w. split; [auto|]. intros [H|(s & q & [] & _)]. exact H.
  - intros l1 s l2 [paths vis] El [S1 S2]. cbn [fst snd] in *.
    assert (Hs : In s (h_direct h r)) by (rewrite El; apply in_elt).
    (* Classes seen so far are closed below [r] *)
    assert (Cl : forall v, In v vis -> above r v -> v <> t -> forall q w, way v q w -> In w vis).
    { intros v Hv Ab Nv q w W. apply S2. apply S2 in Hv as [Hv|(s' & q' & Hs' & W')]; [left; exact (C v Hv Ab Nv q w W)|].
      right. exists s', (q' ++ q). split; [exact Hs'|]. exact (way_app _ _ _ _ _ W' Nv W). }
    assert (Split : forall (P : bspec -> Prop), (exists x, In x (l1 ++ [s]) /\ P x) <-> (exists x, In x l1 /\ P x) \/ P s).
    { intros P. split; [intros (x & Hx & HP); apply in_app_iff in Hx as [Hx|[<-|[]]]; eauto|].
      intros [(x & Hx & HP)|HP]; [exists x; split; [apply in_app_iff; left; exact Hx|exact HP]|exists s; split; [apply in_elt|exact HP]]. }
    assert (SW : forall w, (exists x q, In x (l1 ++ [s]) /\ way r (x :: q) w) <-> (exists x q, In x l1 /\ way r (x :: q) w) \/ exists q, way r (s :: q) w).
    { intros w. split; [intros (x & q & Hx & W); apply in_app_iff in Hx as [Hx|[<-|[]]]; eauto|].
      intros [(x & q & Hx & W)|(q & W)]; [exists x, q; split; [apply in_app_iff; left; exact Hx|exact W]|exists s, q; split; [apply in_elt|exact W]]. }
    assert (SP : forall q, (exists x p, q = scratch ++ x :: p /\ In x (l1 ++ [s]) /\ derives h r (x :: p) t /\ cond visited r (x :: p)) <->
      In q paths \/ exists p, q = scratch ++ s :: p /\ derives h r (s :: p) t /\ cond visited r (s :: p)).
    { intros q. rewrite S1. split.
      - intros (x & p & E & Hx & H). apply in_app_iff in Hx as [Hx|[<-|[]]]; [left; eauto 6|right; eauto].
      - intros [(x & p & E & Hx & H)|(p & E & H)]; [exists x, p; split; [exact E|split; [apply in_app_iff; left; exact Hx|exact H]]|exists s, p; split; [exact E|split; [apply in_elt|exact H]]]. }
    destruct (Nat.eqb (sp_base s) t) eqn:Et.
    + apply Nat.eqb_eq in Et. eexists. split; [reflexivity|]. cbn [fst snd]. split.
      * intros q. rewrite SP, in_app_iff. cbn [In]. split; (intros [H|H]; [left; exact H|right]).
        -- destruct H as [<-|[]]. exists []. split; [reflexivity|]. split; [rewrite <- Et; now constructor|]. intros p1 x p2 E N. destruct p1 as [|? [|? ?]]; cbn in E; [injection E as _ <-; congruence|discriminate E|discriminate E].
        -- destruct H as (p & -> & Hd & _). left. apply derives_inv in Hd as [_ [[-> _]|Hd]]; [reflexivity|]. apply (derives_height h A) in Hd. rewrite Et in Hd. lia.
      * intros w. rewrite SW.
        assert (W : (exists q, way r (s :: q) w) <-> sp_virtual s = true /\ w = sp_base s).
        { split; [intros (q & W); apply way_inv in W as [_ [(_ & V & ->)|[N _]]]; [auto|congruence]|]. intros [V ->]. exists []. now constructor. }
        rewrite W. destruct (sp_virtual s); cbn [In]; rewrite S2; intuition congruence.
    + apply Nat.eqb_neq in Et. destruct (sp_virtual s && mem (sp_base s) vis) eqn:Ev; cbn [negb].
      * apply Bool.andb_true_iff in Ev as [Vs Hm]. apply mem_iff in Hm. rewrite Vs. eexists. split; [reflexivity|]. cbn [fst snd]. split.
        -- intros q. rewrite SP. split; [auto|]. intros [H|(p & -> & Hd & Hc)]; [exact H|]. exfalso.
           apply derives_inv in Hd as [_ [[_ E]|Hd]]; [congruence|]. apply (proj1 (cond_cons visited vis r l1 s l2 p El Et Hd S2)) in Hc as [Hc _]. exact (Hc Vs Hm).
        -- intros w. rewrite SW. cbn [In]. rewrite S2. split; [intros [<-|H]; [right; right; exists []; now constructor|tauto]|].
           intros [H|[H|(q & W)]]; [auto|auto|]. apply way_inv in W as [_ [(_ & _ & ->)|[_ W]]]; [auto|]. right. apply S2.
           refine (Cl (sp_base s) Hm _ Et q w W). exists [s]. now constructor.
      * assert (C' : closed (sp_base s) (if sp_virtual s then sp_base s :: vis else vis)).
        { intros v Hv (p & Hp) Nv q w W. assert (Hv' : In v vis).
          { destruct (sp_virtual s); [|exact Hv]. destruct Hv as [<-|Hv]; [|exact Hv]. apply (derives_height h A) in Hp. lia. }
          assert (In w vis) by (apply (Cl v Hv') with (q := q); [exists (s :: p); now constructor|exact Nv|exact W]). destruct (sp_virtual s); [right|]; assumption. }
        destruct (IH (sp_base s) (scratch ++ [s]) (if sp_virtual s then sp_base s :: vis else vis)) as (more & vis' & E & T1 & T2); [specialize (A _ _ Hs); lia|exact C'|].
        rewrite E. eexists. split; [reflexivity|]. cbn [fst snd]. split.
        -- intros q. rewrite SP, in_app_iff, T1. split; (intros [H|H]; [left; exact H|right]).
           ++ destruct H as (p & -> & Hd & Hc). exists p. rewrite <- app_assoc. split; [reflexivity|]. split; [now constructor|].
              apply (cond_cons visited vis r l1 s l2 p El Et Hd S2). split; [|exact Hc]. intros V Hin. apply mem_iff in Hin. rewrite V, Hin in Ev. discriminate Ev.
           ++ destruct H as (p & -> & Hd & Hc). apply derives_inv in Hd as [_ [[_ E']|Hd]]; [congruence|]. exists p. rewrite <- app_assoc. split; [reflexivity|]. split; [exact Hd|].
              apply (cond_cons visited vis r l1 s l2 p El Et Hd S2) in Hc as [_ Hc]. exact Hc.
        -- intros w. rewrite SW, T2.
           assert (W : (exists q, way r (s :: q) w) <-> (sp_virtual s = true /\ w = sp_base s) \/ exists q, way (sp_base s) q w).
           { split; [intros (q & W); apply way_inv in W as [_ [(_ & V & ->)|[_ W]]]; [auto|right; eauto]|].
             intros [[V ->]|(q & W)]; [exists []; now constructor|exists q; now constructor]. }
           rewrite W. destruct (sp_virtual s); cbn [In]; rewrite S2; intuition congruence.
  - cbn [fst snd] in S1, S2. exists paths, visited'. split; [exact E|]. split.
    + intros q. rewrite S1. split.
      * intros (s & p & -> & _ & H). eauto.
      * intros (p & -> & Hd & Hc). destruct p as [|s p]; [inversion Hd|]. exists s, p. destruct (derives_inv _ _ _ _ Hd). auto.
    + intros w. rewrite S2. split.
      * intros [H|(s & q & _ & W)]; [auto|right; eauto].
      * intros [H|(q & W)]; [auto|]. destruct q as [|s q]; [destruct (way_nonempty _ _ W)|]. right. exists s, q. destruct (way_inv _ _ _ _ W). auto.
Qed.

(** *** Without [t] *)

Lemma derives_app r p q b : derives h r (p ++ q) b -> p <> [] -> q <> [] -> exists c, derives h r p c /\ derives h c q b.
Proof.
  revert r. induction p as [|s p IH]; intros r H Np Nq; [congruence|]. cbn in H. apply derives_inv in H as [Hs [[E _]|H]].
  - destruct p; [|discriminate E]. destruct q; [congruence|discriminate E].
  - destruct p as [|s' p].
    + exists (sp_base s). split; [now constructor|exact H].
    + destruct (IH _ H ltac:(discriminate) Nq) as (c & H1 & H2). exists c. split; [now constructor|exact H2].
Qed.

Lemma derives_way r q s v : derives h r (q ++ [s]) v -> sp_virtual s = true -> above v t -> way r (q ++ [s]) v.
Proof.
  intros H V (p & Hp). revert r H. induction q as [|x q IH]; intros r H; cbn in *.
  - apply derives_inv in H as [Hs [[_ ->]|H]]; [now constructor|inversion H].
  - apply derives_inv in H as [Hx [[E _]|H]]; [destruct q; discriminate E|]. apply way_step; [exact Hx| |auto].
    intros E. apply (derives_height h A) in H, Hp. rewrite E in H. lia.
Qed.

Lemma way_ends r q v : way r q v -> exists q' s, q = q' ++ [s] /\ sp_virtual s = true /\ sp_base s = v.
Proof.
  induction 1 as [r s Hs V|r s q w Hs N W (q' & x & -> & V & E)]; [exists [], s; auto|]. exists (s :: q'), x. auto.
Qed.

Lemma cond_followed r p : derives h r p t -> (cond [] r p <-> followed h r p).
Proof.
  intros Hd. split.
  - intros C p1 s p2 E N V q s' Hq Vs'. destruct (C p1 s p2 E N V) as [_ C2]. apply C2. apply derives_way; [exact Hq|exact Vs'|].
    rewrite E in Hd. change (p1 ++ s :: p2) with (p1 ++ [s] ++ p2) in Hd. rewrite app_assoc in Hd.
    destruct (derives_app r (p1 ++ [s]) p2 t Hd ltac:(destruct p1; discriminate) N) as (c & Hc & H2).
    assert (c = sp_base s) as ->; [|exists p2; exact H2]. clear - Hc. revert r Hc. induction p1 as [|x p1 IH]; intros r Hc; cbn in *.
    + apply derives_inv in Hc as [_ [[_ ->]|Hc]]; [reflexivity|inversion Hc].
    + apply derives_inv in Hc as [_ [[E _]|Hc]]; [destruct p1; discriminate E|]. eauto.
  - intros C p1 s p2 E N V. split; [intros []|]. intros q W. destruct (way_ends _ _ _ W) as (q' & s' & -> & V' & _). apply (C p1 s p2 E N V); [exact (way_derives _ _ _ W)|exact V'].
Qed.

Lemma base_paths_exact r : exists paths, base_paths h r t = Some paths /\ forall p, In p paths <-> derives h r p t /\ followed h r p.
Proof.
  destruct (find_paths_exact (S (h_height h r)) r [] []) as (paths & visited & E & S1 & _); [lia|intros v []|].
  exists paths. unfold base_paths. rewrite E. split; [reflexivity|]. intros p. rewrite S1. split.
  - intros (q & -> & Hd & Hc). cbn. split; [exact Hd|]. apply cond_followed; assumption.
  - intros [Hd Hf]. exists p. split; [reflexivity|]. split; [exact Hd|]. apply cond_followed; assumption.
Qed.
End Virtual.

(** ** Policies *)

Lemma policy_exact h : acyclic h -> distinct_bases h -> forall u st r,
  exists p, create_policy u st h r = Some p /\
    (forall b, should_hide p b = true <-> hides u st r b) /\
    (forall b, should_inline p b = true <-> requested u st r b /\ exists q, derives h r q b /\ followed h r q /\ open_path (hides u st r) q).
Proof.
  intros A D u st r. unfold create_policy. destruct (gather_spec u st r) as (cand & hid & -> & G1 & G2). unfold make_policy.
  assert (I : forall b, exists v, inlines h r cand hid b = Some v /\ (v = true <-> In b cand /\ exists q, derives h r q b /\ followed h r q /\ open_path (fun b => In b hid) q)).
  { intros b. unfold inlines. destruct (mem b cand) eqn:E; cbn [negb].
    - apply mem_iff in E. destruct (base_paths_exact h A D b r) as (paths & -> & S1). cbn [option_map]. eexists. split; [reflexivity|]. rewrite existsb_exists. split.
      + intros (p & Hp & Hv). split; [exact E|]. exists p. apply S1 in Hp as [H1 H2]. split; [exact H1|]. split; [exact H2|now apply valid_path_iff].
      + intros (_ & p & Hp & Hf & Ho). exists p. split; [apply S1; auto|now apply valid_path_iff].
    - apply mem_false in E. eexists. split; [reflexivity|]. split; [discriminate|tauto]. }
  match goal with |- context [fold_opt ?f ?l ?init] =>
    destruct (fold_opt_inv f l (fun l1 acc => forall b, In b acc <-> In b l1 /\ In b cand /\ exists q, derives h r q b /\ followed h r q /\ open_path (fun b => In b hid) q) init) as (acc & E & S1)
  end.
  - cbn. tauto.
  - intros l1 a l2 acc _ S1. destruct (I a) as (v & Ev & V). rewrite Ev. destruct v.
    + eexists. split; [reflexivity|]. intros b. rewrite in_add_nat, in_app_iff, S1. cbn [In]. split.
      * intros [->|(H1 & H2)]; [split; [auto|now apply V]|auto].
      * intros [[Hb|[<-|[]]] Hc]; [right; auto|left; reflexivity].
    + eexists. split; [reflexivity|]. intros b. rewrite in_app_iff, S1. cbn [In]. split; [tauto|].
      intros [[Hb|[<-|[]]] Hc]; [auto|]. apply V in Hc. discriminate Hc.
  - rewrite E. cbn [option_map]. eexists. split; [reflexivity|]. unfold should_hide, should_inline. cbn [p_hide p_inline]. split; [intros b; rewrite mem_iff; apply G2|].
    intros b. rewrite mem_iff, S1. split.
    + intros (_ & Hc & q & Hq & Hf & Ho). split; [now apply G1|]. exists q. split; [exact Hq|]. split; [exact Hf|]. eapply open_path_ext; [|exact Ho]. exact G2.
    + intros (Hb & q & Hq & Hf & Ho). split; [apply (forall_bases_spec h A); [lia|eauto]|]. split; [now apply G1|]. exists q. split; [exact Hq|]. split; [exact Hf|].
      eapply open_path_ext; [|exact Ho]. intros x. symmetry. apply G2.
Qed.
