(** * Proofs about how results of functions are handed over to Python *)
From Verif Require Import Base ParserModel AnnotModel AnnotSpec AnnotStore AnnotProofs AnnotFinal CollectModel CollectSpec GraphModel GraphSpec GraphWalk EmitModel EmitSpec EmitFold EmitFinal ModuleModel ModuleSpec ModuleProofs ModuleFinal
  ImportSpec ImportProofs ExecSpec ExecProofs AccessSpec AccessProofs InvalidSpec InvalidProofs FindProofs DispatchSpec DispatchProofs LifeSpec LifeProofs PolicySpec.

(** ** Names of policies *)

(** What the policy amounts to. *)
Definition amounts (tr : treatment) (m : mode) : Prop :=
  match tr with Separate => m = Copy \/ m = Move | Shared => m = Reference | Inside => m = ReferenceInternal | Owned => m = TakeOwnership end.

Lemma expected_mode {V} n (h : handed V) tr : expected n h tr -> forall m, mode_by n = Some m -> amounts tr (effective m h).
Proof.
  intros E m M. destruct h as [v|a|a]; cbn in E.
  - subst tr. cbn. auto.
  - destruct E as (q & E). repeat (destruct E as [E|E]; [injection E as <- <- <-; vm_compute in M; injection M as <-; cbn; auto|]). destruct E.
  - destruct E as (q & E). repeat (destruct E as [E|E]; [injection E as <- <- <-; vm_compute in M; injection M as <-; cbn; auto|]). destruct E.
Qed.

Lemma expected_named {V} n (h : handed V) tr : location_of h <> None -> expected n h tr -> exists m, mode_by n = Some m.
Proof.
  intros L E. destruct h as [v|a|a]; cbn in E; [destruct (L eq_refl)| |];
    destruct E as (q & E); repeat (destruct E as [E|E]; [injection E as <- <- <-; eexists; vm_compute; reflexivity|]); destruct E.
Qed.

Lemma owned_expected {V} n (h : handed V) m a : mode_by n = Some m -> location_of h = Some a -> effective m h = TakeOwnership -> expected n h Owned.
Proof.
  intros M L E. assert (Hn : (n = [] /\ m = Automatic) \/ In (n, m) modes).
  { destruct n as [|c n]; [left; injection M as <-; auto|right]. unfold mode_by, mode_named in M. destruct (find _ modes) as [[n' m']|] eqn:F; [|discriminate M]. injection M as <-.
    apply find_some in F as [F1 F2]. apply str_eqb_eq in F2. cbn in F2. subst n'. exact F1. }
  assert (Hm : m = TakeOwnership \/ (m = Automatic /\ exists q, h = ByPointer q)) by (destruct h as [v|a'|a'], m; try discriminate E; try (left; reflexivity); right; split; [reflexivity|exists a'; reflexivity]).
  destruct Hn as [[-> ->]|Hn].
  - destruct Hm as [Hm|[_ (q & ->)]]; [discriminate Hm|]. cbn. exists Separate. now left.
  - destruct Hn as [E'|[E'|[E'|[E'|[E'|[E'|[E'|[]]]]]]]]; injection E' as <- <-; destruct Hm as [Hm|[Hm (q & ->)]]; try discriminate Hm.
    + exists Separate. right. now left.
    + destruct h as [v|a'|a']; [discriminate L| |]; exists Owned; do 3 right; now left.
Qed.

(** ** Programs *)

Section Programs.
Context {V : Type} (copyable movable : nat -> bool) (moved : V -> V).
Notation step := (step copyable movable moved).
Notation steps := (steps copyable movable moved).
Notation converted := (converted copyable movable moved).

Lemma put_same {A} (f : nat -> option A) k v : put f k v k = v.
Proof. unfold put. rewrite Nat.eqb_refl. reflexivity. Qed.
Lemma put_other {A} (f : nat -> option A) k v j : k <> j -> put f k v j = f j.
Proof. unfold put. intros H. destruct (Nat.eqb_spec k j); [contradiction|reflexivity]. Qed.

Lemma steps_split (s : runtime V) es1 e es2 s' : steps s (es1 ++ e :: es2) s' -> exists s1 s2, steps s es1 s1 /\ step s1 e s2 /\ steps s2 es2 s'.
Proof.
  revert s. induction es1 as [|e1 es1 IH]; cbn; intros s H; inversion H; subst.
  - exists s, s1. split; [constructor|auto].
  - destruct (IH _ H5) as (a & b & Ha & Hb). exists a, b. split; [econstructor; eassumption|exact Hb].
Qed.

(** Objects in Python stay what they are until they are dropped. *)
Lemma converted_objects m parent s h res s' : converted m parent s h res s' -> forall q x, rt_objects s q = Some x -> rt_objects s' q = Some x.
Proof.
  intros H q x Hq. destruct H; try exact Hq; cbn; rewrite put_other; try exact Hq; unfold fresh in *; congruence.
Qed.
Lemma converted_kept m parent s h res s' : converted m parent s h res s' -> forall k, In k (rt_kept s) -> In k (rt_kept s').
Proof. intros [] k Hk; cbn; auto. Qed.

Lemma step_objects s e s' : step s e s' -> forall q x, e <> EDrop q -> rt_objects s q = Some x -> rt_objects s' q = Some x.
Proof.
  intros H q x Hne Hq. destruct H; cbn; try exact Hq; try (rewrite put_other; [exact Hq|]; unfold fresh in *; congruence).
  eapply converted_objects; eassumption.
Qed.
Lemma steps_objects s es s' : steps s es s' -> forall q x, ~ In (EDrop q) es -> rt_objects s q = Some x -> rt_objects s' q = Some x.
Proof.
  induction 1 as [|s e s1 es s2 H _ IH]; intros q x Hn Hq; [exact Hq|]. apply IH; [intros K; apply Hn; right; exact K|].
  eapply step_objects; [exact H| |exact Hq]. intros ->. apply Hn. now left.
Qed.

(** ... and are kept alive. *)
Lemma step_kept s e s' r q : step s e s' -> e <> EDrop r -> In (r, q) (rt_kept s) -> rt_objects s q <> None -> In (r, q) (rt_kept s') /\ rt_objects s' q <> None.
Proof.
  intros H Hne Hk Hq.
  assert (Hd : forall q', e = EDrop q' -> q' <> q).
  { intros q' -> ->. inversion H as [| | | |? Hx Hd|? ? ? Hx Hd| | |]; subst; exact (Hd _ Hk). }
  split.
  - destruct H; cbn; try exact Hk; try (apply filter_In; split; [exact Hk|]; cbn; rewrite negb_true_iff; apply Nat.eqb_neq; congruence).
    eapply converted_kept; eassumption.
  - destruct (rt_objects s q) as [x|] eqn:E; [|destruct (Hq eq_refl)].
    rewrite (step_objects _ _ _ H q x); [discriminate| |exact E]. intros ->. exact (Hd q eq_refl eq_refl).
Qed.
Lemma steps_kept s es s' r q : steps s es s' -> ~ In (EDrop r) es -> In (r, q) (rt_kept s) -> rt_objects s q <> None -> rt_objects s' q <> None.
Proof.
  induction 1 as [|s e s1 es s2 H _ IH]; intros Hn Hk Hq; [exact Hq|].
  destruct (step_kept _ _ _ r q H) as [K1 K2]; try assumption; [intros ->; apply Hn; now left|].
  apply IH; [intros K; apply Hn; right; exact K|exact K1|exact K2].
Qed.

(** Objects for different locations, and for the same. *)
Lemma apart_independent (s : runtime V) a r b owned : rt_objects s r = Some (Wraps b owned) -> b <> a -> independent copyable movable moved s a r.
Proof.
  intros Hr N. split; [|split; [|split]].
  - intros v s' H. inversion H as [| | |? ? a' (o & Hx) _| | | | |]; subst. cbn. apply put_other. congruence.
  - intros s' H. inversion H as [| | | |? Hx _|? a' o Hx _| | |]; subst; [congruence|]. cbn. destruct o; [apply put_other; congruence|reflexivity].
  - intros v s' H. inversion H; subst. unfold content. cbn. rewrite Hr. apply put_other. congruence.
  - intros s' H. inversion H; subst. unfold content. cbn. rewrite Hr. apply put_other. congruence.
Qed.

Lemma wraps_same (s : runtime V) a r owned : rt_objects s r = Some (Wraps a owned) -> same_object_as copyable movable moved s a r.
Proof.
  intros Hr. split; [unfold content; rewrite Hr; reflexivity|]. split.
  - intros v s' H. inversion H as [| | |? ? a' (o & Hx) _| | | | |]; subst. assert (a' = a) as -> by congruence. cbn. apply put_same.
  - intros v s' H. inversion H; subst. unfold content. cbn. rewrite Hr. apply put_same.
Qed.

Lemma drop_owned (s : runtime V) a r owned : rt_objects s r = Some (Wraps a owned) ->
  if owned then destroyed_with copyable movable moved s a r else left_alone copyable movable moved s a r.
Proof.
  intros Hr. destruct owned; intros s' H; inversion H as [| | | |? Hx _|? a' o Hx _| | |]; subst; try congruence; rewrite Hr in Hx; injection Hx as <- <-; cbn; [apply put_same|reflexivity].
Qed.

Lemma named_moving {W} n m (h : handed W) : mode_by n = Some m -> location_of h <> None -> effective m h = Move -> n = $"move".
Proof.
  intros M L E. assert (m = Move) as -> by (destruct h, m; try discriminate E; try reflexivity; destruct (L eq_refl)). destruct n as [|c n]; [discriminate M|]. unfold mode_by, mode_named in M. destruct (find _ modes) as [[n' m']|] eqn:F; [|discriminate M]. injection M as ->.
  apply find_some in F as [F1 F2]. apply str_eqb_eq in F2. cbn in F2. subst n'. destruct F1 as [E'|[E'|[E'|[E'|[E'|[E'|[E'|[]]]]]]]]; try discriminate E'. injection E' as <- <-. reflexivity.
Qed.

(** What is returned the first time. *)
Lemma converted_new n m parent s h r s' tr : mode_by n = Some m -> converted m parent s h (Some r) s' -> (forall a q, location_of h = Some a -> ~ registered s a q) -> expected n h tr ->
  rt_objects s r = None /\ content s' r = (match h with ByValue v => Some v | _ => match location_of h with Some a => rt_memory s a | None => None end end) /\
  (forall a, rt_memory s a <> None -> n <> $"move" \/ location_of h <> Some a -> rt_memory s' a = rt_memory s a) /\
  match tr with
  | Separate => exists b, rt_objects s' r = Some (Wraps b true) /\ rt_memory s b = None
  | Shared => exists a, location_of h = Some a /\ rt_objects s' r = Some (Wraps a false)
  | Inside => exists a q, location_of h = Some a /\ rt_objects s' r = Some (Wraps a false) /\ parent = Some q /\ In (r, q) (rt_kept s')
  | Owned => exists a, location_of h = Some a /\ rt_objects s' r = Some (Wraps a true)
  end.
Proof.
  intros M C Nr E. assert (Am := expected_mode _ _ _ E _ M).
  assert (Hc : forall (s : runtime V) v b, content (constructed s r b v) r = Some v) by (intros; unfold content; cbn; rewrite !put_same; reflexivity).
  assert (Hm : forall (s : runtime V) v b a, rt_memory s b = None -> rt_memory s a <> None -> rt_memory (constructed s r b v) a = rt_memory s a) by (intros; cbn; apply put_other; congruence).
  assert (Hh : forall a (X : option V), location_of h = Some a -> match h with ByValue v => Some v | _ => X end = X) by (intros a X; destruct h; [discriminate|reflexivity|reflexivity]).
  inversion C as [|v r0 b F U|h0 a r0 L R|h0 a v r0 b L R Ef Cp Mm F U|h0 a v r0 b L R Ef Cp Mm F U|h0 a v r0 b L R Ef Nm Cp Mm F U|h0 a r0 L R Ef F|h0 a r0 L R Ef F|h0 a r0 q L R Ef F P]; subst; try destruct U as [U1 U2].
  - cbn in E. subst tr. split; [exact F|]. split; [apply Hc|]. split; [intros; apply Hm; assumption|]. exists b. cbn. rewrite put_same. auto.
  - destruct (Nr a r L R).
  - split; [exact F|]. split; [rewrite (Hh _ _ L), L, Mm; apply Hc|]. split; [intros; apply Hm; assumption|]. rewrite Ef in Am. destruct tr; cbn in Am; try discriminate Am. exists b. cbn. rewrite put_same. auto.
  - split; [exact F|]. split; [rewrite (Hh _ _ L), L, Mm; apply Hc|]. split.
    { intros a' Ha' [N|N]; [destruct N; eapply named_moving; [exact M|rewrite L; discriminate|exact Ef]|]. assert (a <> a') by congruence.
      cbn. rewrite put_other by congruence. apply put_other. assumption. }
    rewrite Ef in Am. destruct tr; cbn in Am; try discriminate Am. exists b. cbn. rewrite put_same. auto.
  - split; [exact F|]. split; [rewrite (Hh _ _ L), L, Mm; apply Hc|]. split; [intros; apply Hm; assumption|]. rewrite Ef in Am. destruct tr; cbn in Am; try discriminate Am. exists b. cbn. rewrite put_same. auto.
  - split; [exact F|]. rewrite (Hh _ _ L), L. unfold content. cbn. rewrite put_same. split; [reflexivity|]. split; [reflexivity|]. rewrite Ef in Am. destruct tr; cbn in Am; try discriminate Am; try (destruct Am; discriminate); eauto.
  - split; [exact F|]. rewrite (Hh _ _ L), L. unfold content. cbn. rewrite put_same. split; [reflexivity|]. split; [reflexivity|]. rewrite Ef in Am. destruct tr; cbn in Am; try discriminate Am; try (destruct Am; discriminate); eauto.
  - split; [exact F|]. rewrite (Hh _ _ L), L. unfold content. cbn. rewrite put_same. split; [reflexivity|]. split; [reflexivity|]. rewrite Ef in Am. destruct tr; cbn in Am; try discriminate Am; try (destruct Am; discriminate); eauto 7.
Qed.

(** Owned objects. *)
Lemma converted_owned m parent s h res s' : converted m parent s h res s' -> forall r a, rt_objects s' r = Some (Wraps a true) ->
  rt_objects s r = Some (Wraps a true) \/ (res = Some r /\ (location_of h <> Some a \/ (location_of h = Some a /\ effective m h = TakeOwnership))).
Proof.
  intros C r a Hr. destruct C as [|v r0 b F U|h a0 r0 L R|h a0 v r0 b L R Ef Cp Mm F U|h a0 v r0 b L R Ef Cp Mm F U|h a0 v r0 b L R Ef Nm Cp Mm F U|h a0 r0 L R Ef F|h a0 r0 L R Ef F|h a0 r0 q L R Ef F P];
    try (left; exact Hr); cbn in Hr; unfold put in Hr; destruct (Nat.eqb_spec r0 r) as [->|]; try (left; exact Hr); right; split; try reflexivity; try discriminate Hr; injection Hr as Hr; subst.
  - left. discriminate.
  - left. rewrite L. intros K. injection K as ->. destruct U. congruence.
  - left. rewrite L. intros K. injection K as ->. destruct U. congruence.
  - left. rewrite L. intros K. injection K as ->. destruct U. congruence.
  - right. auto.
Qed.

Lemma owned_origin es s : steps (@at_start V) es s -> forall r a, rt_objects s r = Some (Wraps a true) ->
  (exists v, In (EConstruct r a v) es) \/
  exists t parent h m, In (EReturn t parent h (Some r)) es /\ passed_mode t = Some m /\ (location_of h <> Some a \/ (location_of h = Some a /\ effective m h = TakeOwnership)).
Proof.
  assert (G : forall es s1 s, steps s1 es s -> forall es0, (forall r a, rt_objects s1 r = Some (Wraps a true) ->
      (exists v, In (EConstruct r a v) es0) \/ exists t parent h m, In (EReturn t parent h (Some r)) es0 /\ passed_mode t = Some m /\ (location_of h <> Some a \/ (location_of h = Some a /\ effective m h = TakeOwnership))) ->
      forall r a, rt_objects s r = Some (Wraps a true) ->
      (exists v, In (EConstruct r a v) (es0 ++ es)) \/ exists t parent h m, In (EReturn t parent h (Some r)) (es0 ++ es) /\ passed_mode t = Some m /\ (location_of h <> Some a \/ (location_of h = Some a /\ effective m h = TakeOwnership))).
  { clear es s. induction 1 as [s|s e s1 es s2 H _ IH]; intros es0 I.
    - rewrite app_nil_r. exact I.
    - intros r a. replace (es0 ++ e :: es) with ((es0 ++ [e]) ++ es) by (rewrite <- app_assoc; reflexivity). apply IH. clear IH. intros r' a' Hr.
      assert (Old : rt_objects s r' = Some (Wraps a' true) -> (exists v, In (EConstruct r' a' v) (es0 ++ [e])) \/ exists t parent h m, In (EReturn t parent h (Some r')) (es0 ++ [e]) /\ passed_mode t = Some m /\ (location_of h <> Some a' \/ (location_of h = Some a' /\ effective m h = TakeOwnership))).
      { intros K. destruct (I _ _ K) as [(v & Hv)|(t & pa & h & m & Hv & K2)]; [left; exists v|right; exists t, pa, h, m; split; [|exact K2]]; apply in_or_app; left; exact Hv. }
      destruct H as [r0 b v F U|r0 F|t m pa h res s' Pm Ex C|r0 v0 a0 R Hm|r0 R K|r0 a0 o R K|a0 v0 Hm|a0 v0 Hm|a0 Hm]; cbn in Hr; try (apply Old; exact Hr).
      + unfold put in Hr. destruct (Nat.eqb_spec r0 r') as [->|]; [|apply Old; exact Hr]. injection Hr as ->. left. exists v. apply in_or_app. right. now left.
      + unfold put in Hr. destruct (Nat.eqb_spec r0 r') as [->|]; [discriminate Hr|apply Old; exact Hr].
      + destruct (converted_owned _ _ _ _ _ _ C _ _ Hr) as [K|[-> K]]; [apply Old; exact K|]. right. exists t, pa, h, m. split; [apply in_or_app; right; now left|auto].
      + unfold put in Hr. destruct (Nat.eqb_spec r0 r') as [->|]; [discriminate Hr|apply Old; exact Hr].
      + unfold put in Hr. destruct (Nat.eqb_spec r0 r') as [->|]; [discriminate Hr|apply Old; exact Hr]. }
  intros H r a Hr. apply (G es at_start s H []); [|exact Hr]. intros r' a' K. discriminate K.
Qed.

(** There is always room for further objects. *)
Definition bounded (s : runtime V) (n : nat) : Prop := (forall r, n <= r -> rt_objects s r = None) /\ (forall a, n <= a -> rt_memory s a = None) /\ forall r a o, rt_objects s r = Some (Wraps a o) -> a < n.

Lemma bounded_more s n n' : bounded s n -> n <= n' -> bounded s n'.
Proof. intros (A & B & C) L. split; [|split]; [intros; apply A; lia|intros; apply B; lia|intros r a o H; apply C in H; lia]. Qed.
Lemma bounded_objects m o k n q x : bounded (mkRuntime m o k) n -> (forall a w, x = Some (Wraps a w) -> a < n) -> forall k', bounded (mkRuntime m (put o q x) k') (S (max n q)).
Proof.
  intros (A & B & C) H k'. cbn in *. split; [|split]; cbn.
  - intros r Hr. rewrite put_other by lia. apply A. lia.
  - intros a Ha. apply B. lia.
  - intros r a w Hr. unfold put in Hr. destruct (Nat.eqb_spec q r); [apply H in Hr; lia|apply C in Hr; lia].
Qed.
Lemma bounded_memory m o k n a x : bounded (mkRuntime m o k) n -> bounded (mkRuntime (put m a x) o k) (S (max n a)).
Proof.
  intros (A & B & C). cbn in *. split; [|split]; cbn.
  - intros r Hr. apply A. lia.
  - intros b Hb. rewrite put_other by lia. apply B. lia.
  - intros r b w Hr. apply C in Hr. lia.
Qed.
Lemma bounded_constructed s n r b v : bounded s n -> bounded (constructed s r b v) (S (max (S (max n b)) r)).
Proof.
  intros H. destruct s as [m o k]. unfold constructed. cbn. refine (bounded_objects _ _ _ _ _ _ (bounded_memory _ _ _ _ b (Some v) H) _ _). intros a w E. injection E as <- _. lia.
Qed.
Lemma bounded_wrapped s n r a w : bounded s n -> exists n', bounded (wrapped s r a w) n'.
Proof.
  intros H. destruct s as [m o k]. unfold wrapped. cbn. eexists. refine (bounded_objects _ _ _ _ _ _ (bounded_more _ _ (max n (S a)) H _) _ _); [lia|]. intros a' w' E. injection E as <- _. lia.
Qed.

Lemma step_bounded s e s' n : step s e s' -> bounded s n -> exists n', bounded s' n'.
Proof.
  intros H B. assert (Bm : forall a x, exists n', bounded (mkRuntime (put (rt_memory s) a x) (rt_objects s) (rt_kept s)) n') by (intros; destruct s; eexists; apply (bounded_memory _ _ _ _ _ _ B)).
  destruct H as [r0 b v F U|r0 F|t m pa h res s' Pm Ex C|r0 v0 a0 R Hm|r0 R K|r0 a0 o R K|a0 v0 Hm|a0 v0 Hm|a0 Hm]; try (apply Bm).
  - eexists. apply bounded_constructed. exact B.
  - destruct s. eexists. refine (bounded_objects _ _ _ _ _ _ B _ _). intros ? ? E. discriminate E.
  - destruct C; try (eexists; apply bounded_constructed; exact B); try (eapply bounded_wrapped; exact B); try (exists n; exact B).
    destruct (Bm a (Some (moved v))) as (n' & B'). eexists. apply bounded_constructed. exact B'.
  - destruct s. eexists. refine (bounded_objects _ _ _ _ _ _ B _ _). intros ? ? E. discriminate E.
  - destruct (Bm a0 None) as (n' & B'). destruct s. destruct o.
    + eexists. refine (bounded_objects _ _ _ _ _ _ B' _ _). intros ? ? E. discriminate E.
    + eexists. refine (bounded_objects _ _ _ _ _ _ B _ _). intros ? ? E. discriminate E.
Qed.
Lemma steps_bounded s es s' : steps s es s' -> forall n, bounded s n -> exists n', bounded s' n'.
Proof. induction 1 as [|s e s1 es s2 H _ IH]; intros n B; [eauto|]. destruct (step_bounded _ _ _ _ H B) as (n' & B'). eauto. Qed.
Lemma room es s : steps at_start es s -> exists r b, fresh s r /\ unused s b.
Proof.
  intros H. destruct (steps_bounded _ _ _ H 0) as (n & A & B & C); [split; [reflexivity|split; [reflexivity|discriminate]]|].
  exists n, n. split; [apply A; lia|]. split; [apply B; lia|]. intros r (o & Hr). apply C in Hr. lia.
Qed.

Lemma known_dec es s : steps at_start es s -> forall a, (exists q, registered s a q) \/ forall q, ~ registered s a q.
Proof.
  intros H a. destruct (steps_bounded _ _ _ H 0) as (n & A & _ & _); [split; [reflexivity|split; [reflexivity|discriminate]]|].
  assert (D : forall k, (exists q, registered s a q) \/ forall q, q < k -> ~ registered s a q).
  { induction k as [|k [IH|IH]]; [right; intros q Hq; lia|left; exact IH|].
    destruct (rt_objects s k) as [[|a' o]|] eqn:E.
    - right. intros q Hq (w & Hw). destruct (Nat.eq_dec q k) as [->|]; [congruence|]. apply (IH q); [lia|]. exists w. exact Hw.
    - destruct (Nat.eq_dec a' a) as [->|N]; [left; exists k, o; exact E|]. right. intros q Hq (w & Hw). destruct (Nat.eq_dec q k) as [->|]; [congruence|]. apply (IH q); [lia|]. exists w. exact Hw.
    - right. intros q Hq (w & Hw). destruct (Nat.eq_dec q k) as [->|]; [congruence|]. apply (IH q); [lia|]. exists w. exact Hw. }
  destruct (D n) as [K|K]; [left; exact K|right]. intros q (w & Hw). destruct (Nat.lt_ge_cases q n) as [L|L]; [apply (K q L); exists w; exact Hw|]. rewrite A in Hw by exact L. discriminate Hw.
Qed.

Lemma conversion_possible es s n m parent h tr : steps at_start es s -> mode_by n = Some m -> expected n h tr ->
  (forall a, location_of h = Some a -> rt_memory s a <> None /\ copyable a = true) -> (tr = Inside -> parent <> None) ->
  exists result s', converted m parent s h result s'.
Proof.
  intros H M E Hl Hp. destruct (room _ _ H) as (r & b & F & U). assert (Am := expected_mode _ _ _ E _ M).
  destruct (location_of h) as [a|] eqn:L; [|destruct h as [v|a|[a|]]; try discriminate L; [do 2 eexists; apply cv_value; eassumption|do 2 eexists; apply cv_null]].
  destruct (Hl a eq_refl) as [Hm Cp]. destruct (rt_memory s a) as [v|] eqn:Em; [|destruct (Hm eq_refl)].
  destruct (known_dec _ _ H a) as [(q & K)|K]; [do 2 eexists; eapply cv_known; eassumption|].
  destruct tr; cbn in Am.
  - destruct Am as [Am|Am]; [do 2 eexists; eapply cv_copy; eassumption|]. destruct (movable a) eqn:Mv; do 2 eexists; [eapply cv_move; eassumption|eapply cv_move_copy; eassumption].
  - do 2 eexists. eapply cv_reference; eassumption.
  - destruct parent as [q|]; [|destruct (Hp eq_refl eq_refl)]. do 2 eexists. eapply cv_internal; try eassumption. reflexivity.
  - do 2 eexists. eapply cv_own; eassumption.
Qed.
End Programs.

(** ** In the module *)

Section Module.
Context (default_holder : str -> bool) (mro : nat -> list nat) (manual : nat -> object -> pystate -> option pystate) (fails : stmt -> bool).
Context (u : unit) (w : facts) (found : nat -> list nat) (implicit : nat -> bool) (iteration : list nat -> list nat) (n : nat) (name : str) (b : bstate).
Context (files : list (list item)) (rs : list ereport) (st' : storage) (m : item) (s : ImportSpec.state) (p : pystate).
Hypothesis (Se : setting u w iteration) (Hn : 0 < n) (HG : generate u w found implicit iteration n name = Some (RGraph b (EWritten files rs st'))).
Hypothesis (M : adds_nothing manual) (R : run_module mro manual fails default_holder files m = Some (s, p)).

Lemma policy_passed t k : to_return u p t k -> passed_mode t = mode_by k.
Proof.
  intros [o k' static l t' f ans n' Ho Ht Hf Va Ca La|c k' ro n' i _|c k' ro n' i _]; [|reflexivity|reflexivity].
  destruct (overload_origin (V := nat) (fun _ => false) (fun _ _ => 0) (fun _ _ _ _ => true) default_holder mro manual fails u w found implicit iteration n name b files rs st' m s p Se Hn HG M R _ _ _ _ _ Ho Ht) as (vis & st2 & e & r & B & Fa & Hte).
  destruct B as (ex & st1 & st3 & Hc & D & _ & _ & Ff). destruct (function_arguments _ _ Hf) as (args & Hm).
  assert (Hcl : closing t' = false) by (destruct Hm as [(? & ? & ? & ->)|(? & ? & ->)]; reflexivity).
  destruct (proj1 (in_parts _ _ _ _ _ _ _ _ _ D t' Hcl) Hte) as (i & Hin & a & Ha & Hsh & Hb).
  destruct (bound_parameters _ _ _ _ _ _ Hb _ _ Hm) as (E & Hsf & _).
  assert (Hp : passed_mode t' = mode_by (fn_policy (at_function a))).
  { clear -Hb Hm. assert (Hf : forall t, bound_function u (w_extra w) i a t -> passed_mode t = mode_by (fn_policy (at_function a))) by (intros t0 []; reflexivity).
    assert (Hal : forall t, bound_alias u (w_extra w) i a t -> ~ has_arguments t f args) by (intros t0 [] [(? & ? & ? & Q)|(? & ? & Q)]; discriminate Q).
    destruct ex; cbn [EmitSpec.bound] in Hb; destruct Hb; try reflexivity; try (apply Hf; assumption); try (destruct Hm as [(? & ? & ? & E)|(? & ? & E)]; discriminate E);
      match goal with H : bound_alias _ _ _ _ _ |- _ => destruct (Hal _ H Hm) end. }
  subst i.
  assert (Hoa : own_attributes u f a).
  { apply (define_faithful _ _ _ _ _ _ _ _ _ D (Ff Fa)); [|exact Ha]. unfold is_tag_kind, kind. unfold supports_function in Hsf. destruct (d_kind (u_decls u f)); try discriminate; reflexivity. }
  destruct (own_says _ _ _ Hoa) as [Hs _]. destruct (valid_described u f a Hoa Va Hs) as (ans' & v & Ca' & De & _).
  destruct (carried_unique2 _ _ _ _ _ Ca' Ca) as [-> _]. rewrite Hp. f_equal. exact (latest_unique _ _ _ _ _ (de_return_value_policy _ _ _ _ De) La).
Qed.

Context {V : Type} (copyable movable : nat -> bool) (moved : V -> V).
Notation step := (step copyable movable moved).
Notation steps := (steps copyable movable moved).

Theorem returned_as_annotated es1 t k parent h r es2 s1 s2 s3 tr : to_return u p t k -> expected k h tr ->
  steps at_start es1 s1 -> step s1 (EReturn t parent h (Some r)) s2 -> steps s2 es2 s3 -> ~ In (EDrop r) es2 -> (forall a q, location_of h = Some a -> ~ registered s1 a q) ->
  rt_objects s1 r = None /\ content s2 r = (match h with ByValue v => Some v | _ => match location_of h with Some a => rt_memory s1 a | None => None end end) /\
  (forall a, rt_memory s1 a <> None -> k <> $"move" \/ location_of h <> Some a -> rt_memory s2 a = rt_memory s1 a) /\
  treated copyable movable moved tr h parent s1 s3 r.
Proof.
  intros T E H1 Hs H3 Nd Nr. inversion Hs as [| |? md ? ? ? ? Pm Ex C| | | | | |]; subst. rewrite (policy_passed _ _ T) in Pm.
  destruct (converted_new _ _ _ _ _ _ _ _ _ _ _ Pm C Nr E) as (A & Hc & Hm & K). split; [exact A|]. split; [exact Hc|]. split; [exact Hm|].
  assert (St := steps_objects _ _ _ _ _ _ H3). destruct tr; cbn [treated].
  - destruct K as (b' & Hr & Hb). intros a Ha. eapply apart_independent; [apply St; [exact Nd|exact Hr]|congruence].
  - destruct K as (a' & L & Hr). intros a La. assert (a' = a) as -> by congruence. apply St in Hr; [|exact Nd]. split; [eapply wraps_same; exact Hr|exact (drop_owned _ _ _ _ _ _ _ Hr)].
  - destruct K as (a' & q & L & Hr & -> & Hk). intros a La. assert (a' = a) as -> by congruence. assert (Hr' := Hr). apply St in Hr'; [|exact Nd].
    split; [eapply wraps_same; exact Hr'|]. split; [exact (drop_owned _ _ _ _ _ _ _ Hr')|]. exists q. split; [reflexivity|].
    eapply steps_kept; [exact H3|exact Nd|exact Hk|]. specialize (Ex q eq_refl). destruct (rt_objects s1 q) as [x|] eqn:Eq; [|destruct (Ex eq_refl)].
    rewrite (converted_objects _ _ _ _ _ _ _ _ _ C _ _ Eq). discriminate.
  - destruct K as (a' & L & Hr). intros a La. assert (a' = a) as -> by congruence. apply St in Hr; [|exact Nd]. split; [eapply wraps_same; exact Hr|exact (drop_owned _ _ _ _ _ _ _ Hr)].
Qed.

Theorem known_returned es t parent h r s1 s2 a q : steps at_start es s1 -> step s1 (EReturn t parent h (Some r)) s2 -> location_of h = Some a -> registered s1 a q ->
  registered s1 a r /\ s2 = s1.
Proof.
  intros H Hs L K. inversion Hs as [| |? md ? ? ? ? Pm Ex C| | | | | |]; subst.
  inversion C as [|v r0 b' F U|h0 a' r0 L' R'|h0 a' v r0 b' L' R' Ef Cp Mm F U|h0 a' v r0 b' L' R' Ef Cp Mm F U|h0 a' v r0 b' L' R' Ef Nm Cp Mm F U|h0 a' r0 L' R' Ef F|h0 a' r0 L' R' Ef F|h0 a' r0 q' L' R' Ef F P]; subst;
    try discriminate L; assert (a' = a) as -> by congruence; try (destruct (R' _ K)). auto.
Qed.

Theorem destroyed_by_python es s1 r s2 a : steps at_start es s1 -> (forall t parent h result, In (EReturn t parent h result) es -> exists k, to_return u p t k) ->
  step s1 (EDrop r) s2 -> rt_memory s1 a <> None -> rt_memory s2 a = None ->
  (exists v, In (EConstruct r a v) es) \/
  exists t parent h k, In (EReturn t parent h (Some r)) es /\ to_return u p t k /\ (location_of h <> Some a \/ expected k h Owned).
Proof.
  intros H Hall Hs Ha Hn2. inversion Hs as [| | | |? R' K|? a' o R' K| | |]; subst; cbn in Hn2; [congruence|]. destruct o; [|congruence].
  unfold put in Hn2. destruct (Nat.eqb_spec a' a) as [->|]; [|congruence].
  destruct (owned_origin _ _ _ _ _ H _ _ R') as [A|(t & pa & h & md & Hin & Pm & A)]; [left; exact A|right].
  destruct (Hall _ _ _ _ Hin) as (k & T). exists t, pa, h, k. split; [exact Hin|]. split; [exact T|]. destruct A as [A|[L A]]; [left; exact A|right].
  eapply owned_expected; [rewrite <- (policy_passed _ _ T); exact Pm|exact L|exact A].
Qed.

Theorem returns_succeed es s1 t k parent h tr : steps at_start es s1 -> to_return u p t k -> expected k h tr -> In k (map fst expectations) -> (forall a, location_of h = Some a -> rt_memory s1 a <> None /\ copyable a = true) ->
  (forall q, parent = Some q -> rt_objects s1 q <> None) -> (tr = Inside -> parent <> None) -> exists result s2, step s1 (EReturn t parent h result) s2.
Proof.
  intros H T E Nm0 Hl Ex Hp. assert (Nm : mode_by k <> None) by (clear -Nm0; repeat (destruct Nm0 as [<-|Nm0]; [vm_compute; discriminate|]); destruct Nm0). destruct (mode_by k) as [md|] eqn:Md; [|destruct (Nm eq_refl)].
  destruct (conversion_possible copyable movable moved _ _ _ _ parent _ _ H Md E Hl Hp) as (res & s2 & C). exists res, s2. econstructor; [rewrite (policy_passed _ _ T); exact Md|exact Ex|exact C].
Qed.
End Module.
