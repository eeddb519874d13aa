(** * Proofs about the instantiation of default arguments *)
From Verif Require Import Base DefaultModel DefaultSpec.

Definition extends (t t1 : tree) : Prop :=
  (forall n, exists added, tr_children t1 n = tr_children t n ++ added) /\
  (forall q, tr_default t1 q = tr_default t q \/ (tr_default t q = Uninstantiated /\ exists e, tr_default t1 q = Parsed e)).

Lemma extends_refl t : extends t t.
Proof. split; [intros n; exists []; now rewrite app_nil_r|auto]. Qed.

Lemma kept t t1 q : extends t t1 -> tr_default t q <> Uninstantiated -> tr_default t1 q = tr_default t q.
Proof. intros [_ D] H. destruct (D q) as [E|[E _]]; [exact E|contradiction]. Qed.

Lemma extends_trans t1 t2 t3 : extends t1 t2 -> extends t2 t3 -> extends t1 t3.
Proof.
  intros [C1 D1] X2. split.
  - intros n. destruct (C1 n) as [a Ha], (proj1 X2 n) as [b Hb]. exists (a ++ b). now rewrite Hb, Ha, app_assoc.
  - intros q. destruct (D1 q) as [<-|[E (e & He)]]; [exact (proj2 X2 q)|]. right. split; [exact E|]. exists e. rewrite (kept _ _ q X2); congruence.
Qed.

Section Proofs.
Context (sr : source) (sema : nat -> nat -> tree -> tree * bool) (S : sema_spec sema).

Lemma within_extends t t1 m n : extends t t1 -> within sr t m n -> within sr t1 m n.
Proof.
  intros [C _]. induction 1 as [n H|m c n H Hc _ IH]; [now constructor|]. apply within_child with c; [exact H| |exact IH].
  destruct (C m) as [a ->]. apply in_app_iff. auto.
Qed.

Lemma visit_extends t n t1 l : visit sr sema t n = (t1, l) -> extends t t1.
Proof.
  unfold visit. destruct (sr_node sr n) as [[f|]| | |]; try (intros [= <- _]; apply extends_refl).
  destruct (uninstantiated t n); [|intros [= <- _]; apply extends_refl].
  destruct (sr_invalid sr f); [intros [= <- _]; apply extends_refl|]. destruct (sr_undeclared sr f); [intros [= <- _]; apply extends_refl|].
  destruct (sema f n t) as [t2 b] eqn:E. intros [= <- _]. split; [intros m; eapply sm_children; eassumption|intros q; eapply sm_default; eassumption].
Qed.

Lemma uninstantiated_iff t p : uninstantiated t p = true <-> tr_default t p = Uninstantiated.
Proof. unfold uninstantiated. destruct (tr_default t p); split; congruence. Qed.

(** Nothing more to do for a parameter. *)
Definition settled (t : tree) (log : list (nat * bool)) (p : nat) : Prop :=
  instantiated_parameter sr p -> tr_default t p <> Uninstantiated \/ In (p, true) log.

Lemma settled_later t t1 log l p : extends t t1 -> settled t log p -> settled t1 (log ++ l) p.
Proof.
  intros X H I. destruct (H I) as [Hd|Hl]; [left; now rewrite (kept _ _ p X Hd)|right; apply in_app_iff; auto].
Qed.

Lemma visit_settles t n t1 l log : visit sr sema t n = (t1, l) -> settled t1 (log ++ l) n.
Proof.
  unfold visit. intros H (f & Kn & Kv & Ku). rewrite Kn, Kv, Ku in H. destruct (uninstantiated t n) eqn:E.
  - destruct (sema f n t) as [t2 b] eqn:Es. injection H as <- <-. destruct b; [right; apply in_app_iff; cbn; auto|left; destruct (sm_result _ S _ _ _ _ Es) as [e ->]; discriminate].
  - injection H as <- <-. left. intros Hu. apply uninstantiated_iff in Hu. congruence.
Qed.

(** Requests are for parameters that need it. *)
Lemma visit_log t n t1 l p b : visit sr sema t n = (t1, l) -> In (p, b) l -> p = n /\ l = [(n, b)] /\ instantiated_parameter sr p /\ tr_default t p = Uninstantiated /\ (b = false -> tr_default t1 p <> Uninstantiated).
Proof.
  unfold visit. destruct (sr_node sr n) as [[f|]| | |] eqn:K; try (intros [= _ <-] []).
  destruct (uninstantiated t n) eqn:E; [|intros [= _ <-] []]. destruct (sr_invalid sr f) eqn:Ei; [intros [= _ <-] []|]. destruct (sr_undeclared sr f) eqn:Eu; [intros [= _ <-] []|].
  destruct (sema f n t) as [t2 b'] eqn:Es. intros [= <- <-] [H|[]]. injection H as <- <-. apply uninstantiated_iff in E.
  split; [reflexivity|]. split; [reflexivity|]. split; [exists f; auto|]. split; [exact E|]. intros ->. destruct (sm_result _ S _ _ _ _ Es) as [e ->]. discriminate.
Qed.

(** What remains to be visited. *)
Definition remains (t : tree) (todo : list task) (p : nat) : Prop :=
  (exists n, In (Visit n) todo /\ within sr t n p) \/
  (exists n i j c, In (Rest n i) todo /\ i <= j /\ nth_error (tr_children t n) j = Some c /\ within sr t c p).

Lemma remains_extends t t1 todo p : extends t t1 -> remains t todo p -> remains t1 todo p.
Proof.
  intros X [(n & Hn & Hw)|(n & i & j & c & Hn & Hi & Hc & Hw)].
  - left. exists n. split; [exact Hn|eapply within_extends; eassumption].
  - right. exists n, i, j, c. split; [exact Hn|]. split; [exact Hi|]. split; [|eapply within_extends; eassumption].
    destruct (proj1 X n) as [a ->]. rewrite nth_error_app1; [exact Hc|]. apply nth_error_Some. congruence.
Qed.

Definition successes (log : list (nat * bool)) : list nat := map fst (filter (fun x => negb (snd x)) log).

Lemma successes_app l1 l2 : successes (l1 ++ l2) = successes l1 ++ successes l2.
Proof. unfold successes. now rewrite filter_app, map_app. Qed.

Lemma in_successes log p : In p (successes log) <-> In (p, false) log.
Proof.
  unfold successes. rewrite in_map_iff. split.
  - intros ([q b] & <- & H). apply filter_In in H as [H Hb]. destruct b; [discriminate Hb|exact H].
  - intros H. exists (p, false). split; [reflexivity|]. apply filter_In. auto.
Qed.

Lemma nodup_snoc (l : list nat) x : NoDup l -> ~ In x l -> NoDup (l ++ [x]).
Proof.
  induction 1 as [|y l Hy _ IH]; cbn; intros Hx; [constructor; [intros []|constructor]|].
  constructor; [rewrite in_app_iff; cbn; intuition|apply IH; intuition].
Qed.

Record done_so_far (t : tree) (log : list (nat * bool)) : Prop := {
  ds_nodup : NoDup (successes log);
  ds_done : forall p, In (p, false) log -> tr_default t p <> Uninstantiated
}.

Lemma done_visit t log n t1 l : done_so_far t log -> visit sr sema t n = (t1, l) -> done_so_far t1 (log ++ l).
Proof.
  intros [N D] V. assert (X := visit_extends _ _ _ _ V). constructor.
  - rewrite successes_app. destruct l as [|[q b] l]; [cbn; now rewrite app_nil_r|].
    destruct (visit_log _ _ _ _ q b V (or_introl eq_refl)) as (-> & E & _ & Hu & _). rewrite E. destruct b; [cbn; now rewrite app_nil_r|].
    cbn. apply nodup_snoc; [exact N|]. intros H. apply in_successes in H. exact (D _ H Hu).
  - intros p Hp. apply in_app_iff in Hp as [Hp|Hp]; [rewrite (kept _ _ p X (D p Hp)); exact (D p Hp)|].
    destruct (visit_log _ _ _ _ p false V Hp) as (_ & _ & _ & _ & H). auto.
Qed.

Lemma run_settles fuel : forall t log todo t' log', run sr sema fuel t log todo = Some (t', log') ->
  extends t t' /\ (exists l, log' = log ++ l /\ forall p b, In (p, b) l -> instantiated_parameter sr p /\ tr_default t p = Uninstantiated) /\
  (forall p, remains t todo p -> settled t' log' p) /\ (done_so_far t log -> done_so_far t' log').
Proof.
  induction fuel as [|k IH]; intros t log todo t' log'; [discriminate|]. cbn [run]. destruct todo as [|[n|n i] r].
  - intros [= <- <-]. split; [apply extends_refl|]. split; [exists []; split; [now rewrite app_nil_r|intros p b []]|]. split; [|auto].
    intros p [(n & [] & _)|(n & i & j & c & [] & _)].
  - assert (Hvisit : sr_node sr n <> NImplicit -> sr_node sr n <> NTemplate -> forall t1 l, visit sr sema t n = (t1, l) -> run sr sema k t1 (log ++ l) (Rest n 0 :: r) = Some (t', log') ->
      extends t t' /\ (exists l, log' = log ++ l /\ forall p b, In (p, b) l -> instantiated_parameter sr p /\ tr_default t p = Uninstantiated) /\
      (forall p, remains t (Visit n :: r) p -> settled t' log' p) /\ (done_so_far t log -> done_so_far t' log')).
    { intros K1 K2 t1 l V R. destruct (IH _ _ _ _ _ R) as (X & (l2 & -> & Hl) & Hs & Hd). assert (X1 := visit_extends _ _ _ _ V).
      split; [eapply extends_trans; eassumption|]. split; [|split].
      - exists (l ++ l2). split; [now rewrite app_assoc|]. intros p b Hp. apply in_app_iff in Hp as [Hp|Hp].
        + destruct (visit_log _ _ _ _ p b V Hp) as (_ & _ & Hi & Hu & _). auto.
        + destruct (Hl p b Hp) as [Hi Hu]. split; [exact Hi|]. destruct (tr_default t p) eqn:E; try reflexivity; rewrite (kept _ _ p X1), E in Hu by congruence; discriminate Hu.
      - intros p [(m & [Hm|Hm] & Hw)|(m & i & j & c & [Hm|Hm] & Hr)]; try discriminate Hm.
        + injection Hm as <-. inversion Hw as [m Hm|m c m' Hm Hc Hw']; subst.
          * eapply settled_later; [exact X|]. eapply visit_settles; exact V.
          * apply Hs. eapply remains_extends; [exact X1|]. apply In_nth_error in Hc as [j Hj]. right. exists n, 0, j, c. split; [now left|]. split; [lia|auto].
        + apply Hs. eapply remains_extends; [exact X1|]. left. exists m. split; [now right|exact Hw].
        + apply Hs. eapply remains_extends; [exact X1|]. right. exists m, i, j, c. split; [now right|exact Hr].
      - intros H. apply Hd. eapply done_visit; eassumption. }
    destruct (sr_node sr n) as [f| | |] eqn:K.
    + destruct (visit sr sema t n) as [t1 l] eqn:V. intros R. apply (Hvisit ltac:(congruence) ltac:(congruence) t1 l eq_refl R).
    + intros R. destruct (IH _ _ _ _ _ R) as (X & Hl & Hs & Hd). split; [exact X|]. split; [exact Hl|]. split; [|exact Hd].
      intros p [(m & [Hm|Hm] & Hw)|(m & i & j & c & [Hm|Hm] & Hr)]; try discriminate Hm.
      * injection Hm as <-. inversion Hw as [m Hm|m c m' Hm Hc Hw']; subst; [intros (f & Hf & _); congruence|].
        apply Hs. left. exists c. split; [apply in_app_iff; left; apply in_map, Hc|exact Hw'].
      * apply Hs. left. exists m. split; [apply in_app_iff; auto|exact Hw].
      * apply Hs. right. exists m, i, j, c. split; [apply in_app_iff; auto|exact Hr].
    + intros R. destruct (IH _ _ _ _ _ R) as (X & Hl & Hs & Hd). split; [exact X|]. split; [exact Hl|]. split; [|exact Hd].
      intros p [(m & [Hm|Hm] & Hw)|(m & i & j & c & [Hm|Hm] & Hr)]; try discriminate Hm.
      * injection Hm as <-. inversion Hw; subst; congruence.
      * apply Hs. left. exists m. auto.
      * apply Hs. right. exists m, i, j, c. auto.
    + destruct (visit sr sema t n) as [t1 l] eqn:V. intros R. apply (Hvisit ltac:(congruence) ltac:(congruence) t1 l eq_refl R).
  - destruct (nth_error (tr_children t n) i) as [c|] eqn:Ec; intros R; destruct (IH _ _ _ _ _ R) as (X & Hl & Hs & Hd); (split; [exact X|]; split; [exact Hl|]; split; [|exact Hd]);
      intros p [(m & [Hm|Hm] & Hw)|(m & i' & j & c' & [Hm|Hm] & Hi & Hr)]; try discriminate Hm.
    + apply Hs. left. exists m. split; [right; right; exact Hm|exact Hw].
    + injection Hm as <- <-. apply Hs. destruct (Nat.eq_dec i j) as [<-|Hne].
      * destruct Hr as [Hc Hw]. rewrite Ec in Hc. injection Hc as <-. left. exists c. split; [now left|exact Hw].
      * right. exists n, (Datatypes.S i), j, c'. split; [right; now left|]. split; [lia|exact Hr].
    + apply Hs. right. exists m, i', j, c'. split; [right; right; exact Hm|auto].
    + apply Hs. left. exists m. auto.
    + injection Hm as <- <-. destruct Hr as [Hc _]. exfalso. apply nth_error_None in Ec. assert (j < length (tr_children t n)) by (apply nth_error_Some; congruence). lia.
    + apply Hs. right. exists m, i', j, c'. auto.
Qed.

Lemma defaults_instantiated fuel root t t' log : instantiate_defaults sr sema fuel root t = Some (t', log) ->
  (forall p, within sr t root p -> instantiated_parameter sr p -> tr_default t p = Uninstantiated -> (exists e, tr_default t' p = Parsed e) \/ In (p, true) log) /\
  (forall p, tr_default t p <> Uninstantiated -> tr_default t' p = tr_default t p) /\
  (forall p b, In (p, b) log -> instantiated_parameter sr p /\ tr_default t p = Uninstantiated) /\
  NoDup (map fst (filter (fun x => negb (snd x)) log)).
Proof.
  unfold instantiate_defaults. intros R. destruct (run_settles _ _ _ _ _ _ R) as (X & (l & -> & Hl) & Hs & Hd). cbn [app] in *.
  split; [|split; [intros p; exact (kept _ _ p X)|split; [exact Hl|]]].
  - intros p Hw Hi Hu. destruct (Hs p) as [H|H]; [left; exists root; split; [now left|exact Hw]|exact Hi| |auto].
    left. destruct (proj2 X p) as [E|[_ E]]; [congruence|exact E].
  - apply Hd. constructor; [constructor|intros p []].
Qed.

(** All parameters, unless declarations were added. *)
Lemma defaults_printable fuel root t t' log : instantiate_defaults sr sema fuel root t = Some (t', log) -> (forall p, ~ In (p, true) log) ->
  (forall n, tr_children t' n = tr_children t n) -> (forall p, tr_default t p <> Unparsed) ->
  forall p, within sr t' root p -> instantiated_parameter sr p -> printable t' p.
Proof.
  intros R Hf Hc Hn p Hw Hi. destruct (defaults_instantiated _ _ _ _ _ R) as (H1 & H2 & _).
  assert (W : within sr t root p). { clear -Hw Hc. induction Hw as [n H|m c n H Hi _ IH]; [now constructor|]. apply within_child with c; [exact H|now rewrite <- Hc|exact IH]. }
  unfold printable. assert (Hu : tr_default t p = Uninstantiated \/ tr_default t p <> Uninstantiated) by (destruct (tr_default t p); (now left) || (right; discriminate)).
  destruct Hu as [Hu|Hu]; [|rewrite (H2 p Hu); split; [apply Hn|exact Hu]].
  destruct (H1 p W Hi Hu) as [(e & ->)|Hl]; [split; discriminate|destruct (Hf p Hl)].
Qed.
End Proofs.

Lemma defaults_available sr sema fuel root t t' log : sema_spec sema -> instantiate_defaults sr sema fuel root t = Some (t', log) ->
  (forall p, within sr t root p -> instantiated_parameter sr p -> tr_default t p = Uninstantiated -> (exists e, tr_default t' p = Parsed e) \/ In (p, true) log) /\
  (forall p, tr_default t p <> Uninstantiated -> tr_default t' p = tr_default t p) /\
  (forall p b, In (p, b) log -> instantiated_parameter sr p /\ tr_default t p = Uninstantiated) /\
  NoDup (map fst (filter (fun x => negb (snd x)) log)) /\
  ((forall p, ~ In (p, true) log) -> (forall n, tr_children t' n = tr_children t n) -> (forall p, tr_default t p <> Unparsed) ->
   forall p, within sr t' root p -> instantiated_parameter sr p -> printable t' p).
Proof.
  intros S R. destruct (defaults_instantiated _ _ S _ _ _ _ _ R) as (H1 & H2 & H3 & H4). repeat (split; [assumption|]). exact (defaults_printable _ _ S _ _ _ _ _ R).
Qed.
