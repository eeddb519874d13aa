(** * Proofs about the instantiation of annotated templates *)
From Verif Require Import Base GraphModel TemplateModel TemplateSpec.

Section Templates.
Context (t : templates) (m0 : statuses) (P : proper_statuses m0).

Lemma mem_done i l : mem i l = true <-> In i l.
Proof. unfold mem. rewrite existsb_exists. split; [intros (x & Hx & E); apply Nat.eqb_eq in E; subst; exact Hx|intros H; exists i; split; [exact H|apply Nat.eqb_refl]]. Qed.

Lemma untouched_dec k : untouched k \/ ~ untouched k.
Proof. destruct k; unfold untouched; auto; right; intros [C|C]; discriminate. Qed.

(** ** Implicit instantiation *)

Definition triggered (m m' : statuses) : Prop := forall i, m' i = m i \/ (s_kind (m i) = Undeclared /\ t_defined t i = true /\ m' i = mkStatus Implicit true).

Lemma trigger_spec m k : triggered m (trigger t m k).
Proof.
  intros i. unfold trigger. destruct (s_kind (m k)) eqn:E; auto. destruct (t_defined t k) eqn:D; [|auto]. unfold set_status. destruct (Nat.eqb_spec k i) as [->|]; [right|left]; auto.
Qed.

Lemma triggers_spec l : forall m, triggered m (fold_left (trigger t) l m).
Proof.
  induction l as [|k l IH]; intros m i; cbn [fold_left]; [left; reflexivity|]. destruct (IH (trigger t m k) i) as [E|(E & D & E')].
  - rewrite E. apply trigger_spec.
  - destruct (trigger_spec m k i) as [F|(F & _ & F')]; [rewrite F in E; right; auto|rewrite F' in E; discriminate].
Qed.

(** ** Invariant *)

Record inv (s : tstate) : Prop := {
  inv_needed : forall i, In i (ts_done s) \/ In i (ts_pending s) -> needed t m0 i;
  inv_roots : forall i, In i (t_roots t) -> In i (ts_done s) \/ In i (ts_pending s);
  inv_members : forall i k, In i (ts_done s) -> has_contents m0 i -> In k (t_mentions t i) -> In k (ts_done s) \/ In k (ts_pending s);
  inv_instantiated : forall i, In i (ts_instantiated s) <-> In i (ts_done s) /\ ~ untouched (s_kind (m0 i));
  inv_once : NoDup (ts_instantiated s);
  inv_added : forall i, In i (ts_added s) <-> In i (ts_done s) /\ (s_kind (m0 i) = Undeclared \/ s_kind (m0 i) = Implicit);
  inv_added_once : NoDup (ts_added s);
  inv_status : forall i, (In i (ts_instantiated s) /\ ts_status s i = mkStatus InstantiationDefinition true) \/
    (~ In i (ts_instantiated s) /\ (ts_status s i = m0 i \/ (s_kind (m0 i) = Undeclared /\ t_defined t i = true /\ ts_status s i = mkStatus Implicit true))) }.

Lemma nodup_snoc {A} (l : list A) x : NoDup l -> ~ In x l -> NoDup (l ++ [x]).
Proof.
  intros Hl Hx. induction Hl as [|y l Hy Hl IH]; cbn; [constructor; [intros []|constructor]|]. constructor.
  - intros C. apply in_app_iff in C. destruct C as [C|[<-|[]]]; [exact (Hy C)|apply Hx; left; reflexivity].
  - apply IH. intros C. apply Hx. right. exact C.
Qed.

(** Without the member part, which is restored by visiting. *)
Definition contents (i : nat) (s : tstate) : list nat := if s_complete (ts_status s i) then t_mentions t i else [].

Lemma instantiate_done i pending s : inv s -> ts_pending s = i :: pending -> In i (ts_done s) ->
  forall s', instantiate t i (mkTState (ts_status s) pending (i :: ts_done s) (ts_added s) (ts_instantiated s)) = Some s' ->
  s' = mkTState (ts_status s) pending (i :: ts_done s) (ts_added s) (ts_instantiated s).
Proof.
  intros I Hp Hd s' H. unfold instantiate in H. cbn [ts_status ts_pending ts_done ts_added ts_instantiated] in H.
  destruct (s_complete _ && _); [discriminate|]. destruct (untouched_dec (s_kind (m0 i))) as [U|U].
  - assert (Hi : ~ In i (ts_instantiated s)) by (rewrite (inv_instantiated s I); tauto).
    destruct (inv_status s I i) as [[C _]|[_ [E|(E & _)]]]; [destruct (Hi C)| |rewrite E in U; destruct U; discriminate].
    rewrite E in H. destruct U as [U|U]; rewrite U in H; injection H as <-; reflexivity.
  - assert (Hi : In i (ts_instantiated s)) by (apply (inv_instantiated s I); tauto).
    destruct (inv_status s I i) as [[_ E]|[C _]]; [|destruct (C Hi)]. rewrite E in H. cbn in H. injection H as <-. reflexivity.
Qed.

Lemma instantiate_new i pending s : inv s -> ts_pending s = i :: pending -> ~ In i (ts_done s) ->
  forall s', instantiate t i (mkTState (ts_status s) pending (i :: ts_done s) (ts_added s) (ts_instantiated s)) = Some s' ->
  ts_pending s' = pending /\ ts_done s' = i :: ts_done s /\
  ts_instantiated s' = ts_instantiated s ++ (match s_kind (m0 i) with Specialization | InstantiationDefinition => [] | _ => [i] end) /\
  ts_added s' = ts_added s ++ (match s_kind (m0 i) with Undeclared | Implicit => [i] | _ => [] end) /\
  (~ untouched (s_kind (m0 i)) -> exists m1, triggered (set_status i (mkStatus InstantiationDefinition true) (ts_status s)) m1 /\ ts_status s' = m1) /\
  (untouched (s_kind (m0 i)) -> ts_status s' = ts_status s) /\ (has_contents m0 i <-> s_complete (ts_status s' i) = true).
Proof.
  intros I Hp Hd s' H. assert (Hi : ~ In i (ts_instantiated s)) by (rewrite (inv_instantiated s I); tauto).
  destruct (inv_status s I i) as [[C _]|[_ Hst]]; [destruct (Hi C)|]. unfold instantiate in H. cbn [ts_status ts_pending ts_done ts_added ts_instantiated] in H.
  destruct (s_complete (ts_status s i) && _); [discriminate|].
  assert (Hfin : forall added, (if match s_kind (ts_status s i) with Undeclared => t_defined t i | _ => s_complete (ts_status s i) end
      then Some (mkTState (fold_left (trigger t) (t_triggers t i) (set_status i (mkStatus InstantiationDefinition true) (ts_status s))) pending (i :: ts_done s) added (ts_instantiated s ++ [i])) else None) = Some s' ->
    ~ untouched (s_kind (m0 i)) ->
    ts_pending s' = pending /\ ts_done s' = i :: ts_done s /\ ts_instantiated s' = ts_instantiated s ++ [i] /\ ts_added s' = added /\
    (exists m1, triggered (set_status i (mkStatus InstantiationDefinition true) (ts_status s)) m1 /\ ts_status s' = m1) /\ (has_contents m0 i <-> s_complete (ts_status s' i) = true)).
  { intros added Hs' U. destruct (match s_kind (ts_status s i) with Undeclared => t_defined t i | _ => s_complete (ts_status s i) end); [|discriminate]. injection Hs' as <-. cbn [ts_status ts_pending ts_done ts_added ts_instantiated].
    do 4 (split; [reflexivity|]). split; [eexists; split; [apply triggers_spec|reflexivity]|]. split; [intros _|intros _; right; exact U].
    destruct (triggers_spec (t_triggers t i) (set_status i (mkStatus InstantiationDefinition true) (ts_status s)) i) as [E|(E & _)]; unfold set_status in E; rewrite Nat.eqb_refl in E; [unfold set_status; rewrite E; reflexivity|discriminate]. }
  assert (K : forall k, k <> Specialization -> k <> InstantiationDefinition -> ~ untouched k) by (intros k A B [C|C]; auto).
  destruct Hst as [E|(E & D & E')].
  - rewrite E in H, Hfin. destruct (s_kind (m0 i)) eqn:Ek.
    + destruct (Hfin _ H) as (A1 & A2 & A3 & A4 & A5 & A6); [apply K; discriminate|]. repeat (split; [assumption|]). split; [intros _; exact A5|]. split; [intros [C|C]; discriminate|exact A6].
    + destruct (Hfin _ H) as (A1 & A2 & A3 & A4 & A5 & A6); [apply K; discriminate|]. repeat (split; [assumption|]). split; [intros _; exact A5|]. split; [intros [C|C]; discriminate|exact A6].
    + injection H as <-. cbn [ts_status ts_pending ts_done ts_added ts_instantiated]. rewrite !app_nil_r. do 4 (split; [reflexivity|]). split; [intros C; destruct C; left; reflexivity|]. split; [reflexivity|]. rewrite E.
      unfold has_contents. rewrite Ek. split; [intros [C|C]; [exact C|destruct C; left; reflexivity]|auto].
    + destruct (Hfin _ H) as (A1 & A2 & A3 & A4 & A5 & A6); [apply K; discriminate|]. repeat (split; [assumption|]). rewrite app_nil_r. split; [assumption|]. split; [intros _; exact A5|]. split; [intros [C|C]; discriminate|exact A6].
    + injection H as <-. cbn [ts_status ts_pending ts_done ts_added ts_instantiated]. rewrite !app_nil_r. do 4 (split; [reflexivity|]). split; [intros C; destruct C; right; reflexivity|]. split; [reflexivity|]. rewrite E.
      unfold has_contents. rewrite Ek. split; [intros [C|C]; [exact C|destruct C; right; reflexivity]|auto].
  - rewrite E' in H, Hfin. cbn [s_kind] in H. rewrite E. destruct (Hfin _ H) as (A1 & A2 & A3 & A4 & A5 & A6); [rewrite E; apply K; discriminate|].
    repeat (split; [assumption|]). split; [intros _; exact A5|]. split; [intros [C|C]; discriminate|exact A6].
Qed.

Lemma in_visited k found s : In k (ts_pending (visit found s)) <-> In k (ts_pending s) \/ (In k found /\ ~ In k (ts_done s)).
Proof.
  cbn. rewrite in_app_iff, filter_In, negb_true_iff. pose proof (mem_done k (ts_done s)) as M. destruct (mem k (ts_done s)); split; intros [H|[H1 H2]]; auto.
  - discriminate.
  - destruct H2. apply M. reflexivity.
  - right. split; [exact H1|]. intros C. apply M in C. discriminate.
Qed.

Ltac unproject := repeat match goal with
  | |- context [ts_done (visit ?f ?x)] => change (ts_done (visit f x)) with (ts_done x)
  | |- context [ts_status (visit ?f ?x)] => change (ts_status (visit f x)) with (ts_status x)
  | |- context [ts_added (visit ?f ?x)] => change (ts_added (visit f x)) with (ts_added x)
  | |- context [ts_instantiated (visit ?f ?x)] => change (ts_instantiated (visit f x)) with (ts_instantiated x)
  end.

Lemma round_inv i pending s s' : inv s -> ts_pending s = i :: pending -> round t i pending s = Some s' -> inv s' /\ ts_done s' = i :: ts_done s.
Proof.
  intros I Hp H. unfold round in H. destruct (instantiate t i _) as [s1|] eqn:E; [|discriminate]. injection H as <-.
  assert (Hn : needed t m0 i) by (apply (inv_needed s I); right; rewrite Hp; left; reflexivity).
  set (found := if s_complete (ts_status s1 i) then t_mentions t i else []).
  destruct (in_dec Nat.eq_dec i (ts_done s)) as [Hd|Hd].
  - pose proof (instantiate_done i pending s I Hp Hd s1 E) as ->. cbn [ts_status] in found. split; [|reflexivity].
    assert (Hin : forall k, In k (ts_done s) \/ In k (ts_pending s) -> In k (i :: ts_done s) \/ In k pending).
    { intros k [Hk|Hk]; [left; right; exact Hk|]. rewrite Hp in Hk. destruct Hk as [<-|Hk]; [left; left; reflexivity|right; exact Hk]. }
    assert (Hc : s_complete (ts_status s i) = true -> has_contents m0 i).
    { intros Hc. destruct (inv_status s I i) as [[Hi _]|[_ [Es|(Es & _)]]].
      - right. apply (inv_instantiated s I), Hi.
      - left. rewrite <- Es. exact Hc.
      - right. rewrite Es. intros [C|C]; discriminate. }
    match goal with |- inv ?x => change x with (visit found (mkTState (ts_status s) pending (i :: ts_done s) (ts_added s) (ts_instantiated s))) end.
    constructor; unproject; cbn [ts_status ts_done ts_added ts_instantiated].
    + intros k [Hk|Hk]; [apply (inv_needed s I); left; destruct Hk as [<-|Hk]; assumption|]. apply in_visited in Hk. cbn [ts_pending] in Hk.
      destruct Hk as [Hk|[Hk _]]; [apply (inv_needed s I); right; rewrite Hp; right; exact Hk|]. unfold found in Hk. destruct (s_complete (ts_status s i)) eqn:C; [|destruct Hk]. exact (needed_member t m0 i k Hn (Hc eq_refl) Hk).
    + intros k Hk. apply (inv_roots s I), Hin in Hk. destruct Hk as [Hk|Hk]; [left; exact Hk|right; apply in_visited; left; exact Hk].
    + intros a k Ha Hca Hk. assert (Ha' : In a (ts_done s)) by (destruct Ha as [<-|Ha]; assumption). apply (inv_members s I a k Ha' Hca), Hin in Hk. destruct Hk as [Hk|Hk]; [left; exact Hk|right; apply in_visited; left; exact Hk].
    + intros k. rewrite (inv_instantiated s I). cbn [In]. split; [intros [X Y]; auto|]. intros [[<-|Hk] U]; auto.
    + exact (inv_once s I).
    + intros k. rewrite (inv_added s I). cbn [In]. split; [intros [X Y]; auto|]. intros [[<-|Hk] U]; auto.
    + exact (inv_added_once s I).
    + exact (inv_status s I).
  - destruct (instantiate_new i pending s I Hp Hd s1 E) as (A1 & A2 & A3 & A4 & A5 & A6 & A7). split; [|exact A2].
    assert (Hi : ~ In i (ts_instantiated s)) by (rewrite (inv_instantiated s I); tauto).
    assert (Ha : ~ In i (ts_added s)) by (rewrite (inv_added s I); tauto).
    assert (Hin : forall k, In k (ts_done s) \/ In k (ts_pending s) -> In k (i :: ts_done s) \/ In k pending).
    { intros k [Hk|Hk]; [left; right; exact Hk|]. rewrite Hp in Hk. destruct Hk as [<-|Hk]; [left; left; reflexivity|right; exact Hk]. }
    assert (Hinst : forall k, In k (ts_instantiated s1) <-> In k (ts_instantiated s) \/ (k = i /\ ~ untouched (s_kind (m0 i)))).
    { intros k. rewrite A3, in_app_iff. destruct (s_kind (m0 i)); cbn [In]; unfold untouched; split; intros [X|X]; auto; try (destruct X as [X|[]]; right; split; [congruence|intros [C|C]; discriminate]); try (destruct X; fail); try (destruct X as [-> X]; auto; destruct X; auto). }
    match goal with |- inv ?x => change x with (visit found s1) end.
    constructor; unproject; rewrite ?A2.
    + intros k [Hk|Hk]; [destruct Hk as [<-|Hk]; [exact Hn|apply (inv_needed s I); left; exact Hk]|]. apply in_visited in Hk. rewrite A1 in Hk.
      destruct Hk as [Hk|[Hk _]]; [apply (inv_needed s I); right; rewrite Hp; right; exact Hk|]. unfold found in Hk. destruct (s_complete (ts_status s1 i)) eqn:C; [|destruct Hk]. apply (needed_member t m0 i k Hn); [apply A7; reflexivity|exact Hk].
    + intros k Hk. apply (inv_roots s I), Hin in Hk. destruct Hk as [Hk|Hk]; [left; exact Hk|right; apply in_visited; rewrite A1; left; exact Hk].
    + intros a k Haa Hca Hk. destruct Haa as [<-|Haa].
      * destruct (in_dec Nat.eq_dec k (i :: ts_done s)) as [Hkd|Hkd]; [left; exact Hkd|right]. apply in_visited. right. rewrite A2. split; [|exact Hkd]. unfold found. apply A7 in Hca. rewrite Hca. exact Hk.
      * apply (inv_members s I a k Haa Hca), Hin in Hk. destruct Hk as [Hk|Hk]; [left; exact Hk|right; apply in_visited; rewrite A1; left; exact Hk].
    + intros k. rewrite Hinst, (inv_instantiated s I). cbn [In]. split; [intros [[X Y]|[-> Y]]; auto|]. intros [[<-|X] Y]; auto.
    + rewrite A3. destruct (s_kind (m0 i)); rewrite ?app_nil_r; try exact (inv_once s I); apply nodup_snoc; auto; exact (inv_once s I).
    + intros k. rewrite A4, in_app_iff, (inv_added s I). cbn [In]. split.
      * intros [[X Y]|X]; [auto|]. destruct (s_kind (m0 i)) eqn:Ek; cbn [In] in X; destruct X as [<-|[]] || destruct X; rewrite Ek; auto.
      * intros [[<-|X] Y]; [right; destruct Y as [Y|Y]; rewrite Y; left; reflexivity|left; auto].
    + rewrite A4. destruct (s_kind (m0 i)); rewrite ?app_nil_r; try exact (inv_added_once s I); apply nodup_snoc; auto; exact (inv_added_once s I).
    + intros k. rewrite Hinst. destruct (Nat.eq_dec k i) as [->|Hki].
      * destruct (untouched_dec (s_kind (m0 i))) as [U|U].
        -- right. split; [tauto|]. rewrite (A6 U). destruct (inv_status s I i) as [[C _]|[_ Hs]]; [destruct (Hi C)|exact Hs].
        -- left. split; [auto|]. destruct (A5 U) as (m1 & Ht & ->). destruct (Ht i) as [X|(X & _)]; unfold set_status in X; rewrite Nat.eqb_refl in X; [exact X|discriminate].
      * assert (Hk : ts_status s1 k = ts_status s k \/ (s_kind (ts_status s k) = Undeclared /\ t_defined t k = true /\ ts_status s1 k = mkStatus Implicit true)).
        { destruct (untouched_dec (s_kind (m0 i))) as [U|U]; [left; rewrite (A6 U); reflexivity|]. destruct (A5 U) as (m1 & Ht & ->). destruct (Ht k) as [X|X]; unfold set_status in X; destruct (Nat.eqb_spec i k); try congruence; auto. }
        destruct (inv_status s I k) as [[B1 B2]|[B1 B2]].
        -- left. split; [auto|]. destruct Hk as [->|(X & _)]; [exact B2|rewrite B2 in X; discriminate].
        -- right. split; [intros [X|[X _]]; auto|]. destruct Hk as [->|(X & Y & Z)]; [exact B2|]. right. destruct B2 as [B2|(_ & _ & B2)]; rewrite B2 in X; [auto|discriminate].
Qed.

Lemma inv_initial : inv (visit (t_roots t) (mkTState m0 [] [] [] [])).
Proof.
  assert (F : filter (fun i => negb (mem i [])) (t_roots t) = t_roots t) by (induction (t_roots t) as [|x l IH]; cbn; [reflexivity|f_equal; exact IH]).
  constructor; cbn [ts_status ts_done ts_added ts_instantiated visit ts_pending]; rewrite ?F; cbn [app].
  - intros i [[]|H]. apply needed_root, H.
  - intros i H. right. exact H.
  - intros i k [].
  - intros i. split; [intros []|intros [[] _]].
  - constructor.
  - intros i. split; [intros []|intros [[] _]].
  - constructor.
  - intros i. right. split; [intros []|left; reflexivity].
Qed.

(** ** No crash *)

Lemma round_never_crashes i pending s : instantiable t m0 -> inv s -> ts_pending s = i :: pending -> round t i pending s <> None.
Proof.
  intros H I Hp. assert (Hn : needed t m0 i) by (apply (inv_needed s I); right; rewrite Hp; left; reflexivity). destruct (H i Hn) as [Hd Hu].
  unfold round, instantiate. cbn [ts_status ts_pending ts_done ts_added ts_instantiated]. rewrite Hd, Nat.eqb_refl. cbn [negb]. rewrite andb_false_r.
  destruct (inv_status s I i) as [[_ E]|[_ [E|(E & D & E')]]].
  - rewrite E. cbn. discriminate.
  - rewrite E. pose proof (P i) as Pi. destruct (s_kind (m0 i)) eqn:Ek; try discriminate; [rewrite (Hu eq_refl)| |]; try rewrite Pi; discriminate.
  - rewrite E'. cbn. discriminate.
Qed.

(** ** Fuel *)

Lemma rounds_more : forall n fuel s, n <= fuel -> rounds n t s <> OutOfFuel -> rounds fuel t s = rounds n t s.
Proof.
  induction n as [|n IH]; intros fuel s Hf H; cbn [rounds] in *.
  - destruct (ts_pending s) eqn:E; [|congruence]. destruct fuel; cbn [rounds]; rewrite E; reflexivity.
  - destruct fuel as [|fuel]; [lia|]. cbn [rounds]. destruct (ts_pending s) as [|i pending]; [reflexivity|]. destruct (round t i pending s) as [s'|]; [|reflexivity]. apply IH; [lia|exact H].
Qed.

Lemma rounds_inv : forall n s s', inv s -> rounds n t s = Finished s' -> inv s' /\ ts_pending s' = [].
Proof.
  induction n as [|n IH]; intros s s' I H; cbn [rounds] in H; destruct (ts_pending s) as [|i pending] eqn:E; try discriminate.
  - injection H as <-. split; [exact I|exact E].
  - injection H as <-. split; [exact I|exact E].
  - destruct (round t i pending s) as [s1|] eqn:Er; [|discriminate]. destruct (round_inv i pending s s1 I E Er) as [I1 _]. exact (IH s1 s' I1 H).
Qed.

Lemma rounds_never_crash : instantiable t m0 -> forall n s, inv s -> rounds n t s <> Crash.
Proof.
  intros H. induction n as [|n IH]; intros s I; cbn [rounds]; destruct (ts_pending s) as [|i pending] eqn:E; try discriminate.
  destruct (round t i pending s) as [s1|] eqn:Er; [|destruct (round_never_crashes i pending s H I E Er)]. apply IH. exact (proj1 (round_inv i pending s s1 I E Er)).
Qed.

(** ** Termination *)

Section Finite.
Context (L : list nat) (HL : forall i, needed t m0 i -> In i L).

Definition left_over (s : tstate) : nat := length (filter (fun i => negb (mem i (ts_done s))) L).

Lemma filter_length_le {A} (f g : A -> bool) l : (forall x, In x l -> f x = true -> g x = true) -> length (filter f l) <= length (filter g l).
Proof.
  induction l as [|x l IH]; intros H; cbn; [lia|]. assert (IH' : length (filter f l) <= length (filter g l)) by (apply IH; intros y Hy; apply H; right; exact Hy).
  destruct (f x) eqn:E; [rewrite (H x (or_introl eq_refl) E); cbn; lia|]. destruct (g x); cbn; lia.
Qed.

Lemma filter_length_lt {A} (f g : A -> bool) l x : (forall y, In y l -> f y = true -> g y = true) -> In x l -> f x = false -> g x = true -> length (filter f l) < length (filter g l).
Proof.
  intros H Hx Hf Hg. induction l as [|y l IH]; [destruct Hx|]. assert (Hle : length (filter f l) <= length (filter g l)) by (apply filter_length_le; intros z Hz; apply H; right; exact Hz).
  cbn. destruct Hx as [->|Hx].
  - rewrite Hf, Hg. cbn. lia.
  - assert (Hlt : length (filter f l) < length (filter g l)) by (apply IH; [intros z Hz; apply H; right; exact Hz|exact Hx]). destruct (f y) eqn:E; [rewrite (H y (or_introl eq_refl) E); cbn; lia|]. destruct (g y); cbn; lia.
Qed.

Lemma left_over_decreases s s' i : In i L -> ~ In i (ts_done s) -> ts_done s' = i :: ts_done s -> left_over s' < left_over s.
Proof.
  intros Hi Hd E. unfold left_over. rewrite E. apply (filter_length_lt _ _ _ i).
  - intros x _. rewrite !negb_true_iff. cbn. intros H. apply orb_false_iff in H. exact (proj2 H).
  - exact Hi.
  - cbn. rewrite Nat.eqb_refl. reflexivity.
  - apply negb_true_iff. destruct (mem i (ts_done s)) eqn:M; [apply mem_done in M; destruct (Hd M)|reflexivity].
Qed.

(** A round for something that has been done before. *)
Lemma round_done i pending s s' : inv s -> ts_pending s = i :: pending -> In i (ts_done s) -> round t i pending s = Some s' ->
  exists more, ts_pending s' = pending ++ more /\ (forall k, In k more -> ~ In k (ts_done s) /\ In k (ts_pending s)).
Proof.
  intros I Hp Hd H. unfold round in H. destruct (instantiate t i _) as [s1|] eqn:E; [|discriminate]. injection H as <-. pose proof (instantiate_done i pending s I Hp Hd s1 E) as ->.
  cbn [visit ts_pending ts_status ts_done]. eexists. split; [reflexivity|]. intros k Hk. apply filter_In in Hk. destruct Hk as [Hk Hn]. apply negb_true_iff in Hn.
  assert (Hn' : ~ In k (i :: ts_done s)) by (intros C; apply mem_done in C; congruence). assert (Hn2 : ~ In k (ts_done s)) by (intros C; apply Hn'; right; exact C). split; [exact Hn2|].
  destruct (s_complete (ts_status s i)) eqn:Ec; [|destruct Hk]. destruct (inv_members s I i k Hd) with (2 := Hk) as [C|C]; [|destruct (Hn2 C)|exact C].
  destruct (inv_status s I i) as [[Hi _]|[_ [Es|(Es & _)]]].
  - right. apply (inv_instantiated s I), Hi.
  - left. rewrite <- Es. exact Ec.
  - right. rewrite Es. intros [C|C]; discriminate.
Qed.

Definition ends (s : tstate) : Prop := exists n, rounds n t s <> OutOfFuel.

Lemma ends_step s i pending : ts_pending s = i :: pending -> (forall s', round t i pending s = Some s' -> ends s') -> ends s.
Proof.
  intros Hp H. destruct (round t i pending s) as [s'|] eqn:E.
  - destruct (H s' eq_refl) as (n & Hn). exists (S n). cbn [rounds]. rewrite Hp, E. exact Hn.
  - exists 1. cbn [rounds]. rewrite Hp, E. discriminate.
Qed.

Lemma ends_all_done : forall pending s, inv s -> ts_pending s = pending -> (forall i, In i pending -> In i (ts_done s)) -> ends s.
Proof.
  induction pending as [|i pending IH]; intros s I Hp Hd.
  - exists 0. cbn [rounds]. rewrite Hp. discriminate.
  - apply (ends_step s i pending Hp). intros s' Hr. destruct (round_inv i pending s s' I Hp Hr) as [I' Hd'].
    destruct (round_done i pending s s' I Hp (Hd i (or_introl eq_refl)) Hr) as (more & Hp' & Hm).
    destruct more as [|k more].
    + apply IH; [exact I'|rewrite Hp', app_nil_r; reflexivity|]. intros k Hk. rewrite Hd'. right. apply Hd. right. exact Hk.
    + exfalso. destruct (Hm k (or_introl eq_refl)) as [N M]. rewrite Hp in M. exact (N (Hd k M)).
Qed.

Lemma first_new (done : list nat) : forall pending, (forall i, In i pending -> In i done) \/
  exists pre i rest, pending = pre ++ i :: rest /\ (forall k, In k pre -> In k done) /\ ~ In i done.
Proof.
  induction pending as [|i pending IH]; [left; intros i []|]. destruct (in_dec Nat.eq_dec i done) as [Hi|Hi].
  - destruct IH as [H|(pre & k & rest & -> & H1 & H2)]; [left; intros k [<-|Hk]; auto|]. right. exists (i :: pre), k, rest. split; [reflexivity|]. split; [intros x [<-|Hx]; auto|exact H2].
  - right. exists [], i, pending. split; [reflexivity|]. split; [intros x []|exact Hi].
Qed.

Lemma ends_always : forall n s, inv s -> left_over s <= n -> ends s.
Proof.
  induction n as [n IHn] using (well_founded_induction Wf_nat.lt_wf). intros s I Hn.
  destruct (first_new (ts_done s) (ts_pending s)) as [Hd|(pre & i & rest & Hp & Hpre & Hi)]; [exact (ends_all_done _ s I eq_refl Hd)|].
  revert s rest I Hn Hp Hpre Hi. induction pre as [|k pre IH]; intros s rest I Hn Hp Hpre Hi.
  - apply (ends_step s i rest Hp). intros s' Hr. destruct (round_inv i rest s s' I Hp Hr) as [I' Hd'].
    assert (Hlt : left_over s' < left_over s). { apply (left_over_decreases s s' i); [|exact Hi|exact Hd']. apply HL, (inv_needed s I). right. rewrite Hp. left. reflexivity. }
    apply (IHn (left_over s')); [lia|exact I'|lia].
  - apply (ends_step s k (pre ++ i :: rest) Hp). intros s' Hr. destruct (round_inv k _ s s' I Hp Hr) as [I' Hd'].
    destruct (round_done k _ s s' I Hp (Hpre k (or_introl eq_refl)) Hr) as (more & Hp' & _).
    apply (IH s' (rest ++ more)); [exact I'| |rewrite Hp', <- app_assoc; reflexivity| |].
    + assert (left_over s' <= left_over s); [|lia]. unfold left_over. apply filter_length_le. intros x _. rewrite !negb_true_iff, Hd'. cbn. intros H. apply orb_false_iff in H. exact (proj2 H).
    + intros x Hx. rewrite Hd'. right. apply Hpre. right. exact Hx.
    + rewrite Hd'. intros [<-|C]; [apply Hi, Hpre; left; reflexivity|exact (Hi C)].
Qed.
End Finite.

(** ** Result *)

Lemma finished_done s : inv s -> ts_pending s = [] -> forall i, In i (ts_done s) <-> needed t m0 i.
Proof.
  intros I Hp i. split; [intros H; apply (inv_needed s I); left; exact H|]. intros H. induction H as [i H|i k H IH Hc Hk].
  - apply (inv_roots s I) in H. rewrite Hp in H. destruct H as [H|[]]. exact H.
  - apply (inv_members s I i k IH Hc) in Hk. rewrite Hp in Hk. destruct Hk as [Hk|[]]. exact Hk.
Qed.

Lemma finished_spec fuel s : run_templates fuel t m0 = Finished s ->
  NoDup (ts_instantiated s) /\ (forall i, In i (ts_instantiated s) <-> needed t m0 i /\ ~ untouched (s_kind (m0 i))) /\
  (forall i, needed t m0 i -> ~ untouched (s_kind (m0 i)) -> ts_status s i = mkStatus InstantiationDefinition true) /\
  NoDup (ts_added s) /\ (forall i, In i (ts_added s) <-> needed t m0 i /\ (s_kind (m0 i) = Undeclared \/ s_kind (m0 i) = Implicit)) /\
  (forall i, ~ needed t m0 i \/ untouched (s_kind (m0 i)) -> ts_status s i = m0 i \/ (s_kind (m0 i) = Undeclared /\ ts_status s i = mkStatus Implicit true)).
Proof.
  intros H. destruct (rounds_inv _ _ _ inv_initial H) as [I Hp]. pose proof (finished_done s I Hp) as D.
  assert (Hi : forall i, In i (ts_instantiated s) <-> needed t m0 i /\ ~ untouched (s_kind (m0 i))) by (intros i; rewrite (inv_instantiated s I), D; reflexivity).
  split; [exact (inv_once s I)|]. split; [exact Hi|]. split.
  - intros i Hn Hu. destruct (inv_status s I i) as [[_ E]|[C _]]; [exact E|]. destruct C. apply Hi. split; assumption.
  - split; [exact (inv_added_once s I)|]. split; [intros i; rewrite (inv_added s I), D; reflexivity|]. intros i Hn. destruct (inv_status s I i) as [[C _]|[_ [E|(E & _ & E')]]]; [apply Hi in C; tauto|auto|auto].
Qed.

Lemma terminates_iff : instantiable t m0 ->
  ((exists L, forall i, needed t m0 i -> In i L) <-> exists n s, forall fuel, n <= fuel -> run_templates fuel t m0 = Finished s).
Proof.
  intros Hi. split.
  - intros (L & HL). destruct (ends_always L HL _ _ inv_initial (le_n _)) as (n & Hn). 
    destruct (rounds n t (visit (t_roots t) (mkTState m0 [] [] [] []))) as [s| |] eqn:E.
    + exists n, s. intros fuel Hf. unfold run_templates. rewrite (rounds_more n fuel _ Hf); [exact E|congruence].
    + destruct (rounds_never_crash Hi n _ inv_initial E).
    + destruct (Hn eq_refl).
  - intros (n & s & H). destruct (rounds_inv _ _ _ inv_initial (H n (le_n _))) as [I Hp]. exists (ts_done s). intros i. apply (finished_done s I Hp).
Qed.

Lemma never_crashes : instantiable t m0 -> forall fuel, run_templates fuel t m0 <> Crash.
Proof. intros H fuel. apply (rounds_never_crash H), inv_initial. Qed.

End Templates.

(** ** A template that is instantiated for ever *)

Definition endless_templates : templates := mkTemplates [0] (fun i => [S i]) (fun i => i) (fun _ => true) (fun _ => []).
Definition endless_statuses : statuses := fun _ => mkStatus Undeclared false.

Lemma endless : exists t m, proper_statuses m /\ instantiable t m /\ forall fuel s, run_templates fuel t m <> Finished s.
Proof.
  exists endless_templates, endless_statuses. assert (P : proper_statuses endless_statuses) by (intros i; reflexivity). split; [exact P|]. split; [intros i _; split; [reflexivity|intros _; reflexivity]|].
  intros fuel s H. destruct (rounds_inv endless_templates endless_statuses _ _ _ (inv_initial _ _) H) as [I Hp].
  pose proof (finished_done _ _ s I Hp) as D. assert (N : forall i, needed endless_templates endless_statuses i).
  { induction i as [|i IH]; [apply needed_root; left; reflexivity|]. apply (needed_member _ _ i); [exact IH| |left; reflexivity]. right. intros [C|C]; discriminate. }
  assert (B : forall l, exists b, forall i, In i l -> i <= b).
  { induction l as [|x l [b IH]]; [exists 0; intros i []|]. exists (x + b). intros i [<-|Hi]; [lia|]. specialize (IH i Hi). lia. }
  destruct (B (ts_done s)) as (b & Hb). specialize (Hb (S b) (proj2 (D (S b)) (N (S b)))). lia.
Qed.
