(** * Proofs about inlining and visible declarations *)
From Verif Require Import Base ParserModel AnnotModel AnnotStore CollectModel GraphModel GraphWalk GraphProofs InlineModel InlineSpec.

(** ** Requests *)

Lemma lookup_attrs_member st i a : lookup_attrs st i = Some a -> In (i, a) st.
Proof.
  induction st as [|[j b] st IH]; cbn; [discriminate|]. destruct (Nat.eqb i j) eqn:E.
  - intros [= ->]. apply Nat.eqb_eq in E. subst. now left.
  - intros H. right. auto.
Qed.

Lemma asks_to_inline_listed u st c b : asks_to_inline u st c b -> In b (all_inline_bases st).
Proof.
  intros (a & Ha & Hb). unfold get_record, get in Ha. destruct (supports_record _); [|discriminate].
  destruct (lookup_attrs st c) as [x|] eqn:E; [|discriminate]. cbn in Ha. injection Ha as <-.
  apply in_flat_map. exists (c, x). split; [now apply lookup_attrs_member|exact Hb].
Qed.

Lemma in_fold_add x bs : forall l, In x (fold_left (fun h b => add_nat b h) bs l) <-> In x l \/ In x bs.
Proof.
  induction bs as [|b bs IH]; intros l; cbn [fold_left]; [cbn; tauto|].
  rewrite IH, in_add_nat. cbn. intuition congruence.
Qed.

Lemma push_spec bs : forall rem cand,
  NoDup cand ->
  let '(rem', cand') := fold_left (fun rc b => if mem b (snd rc) then rc else (b :: fst rc, snd rc ++ [b])) bs (rem, cand) in
  NoDup cand' /\ (forall x, In x cand' <-> In x cand \/ In x bs) /\ (forall x, In x rem -> In x rem') /\
  (forall x, In x cand' -> In x cand \/ In x rem') /\ (forall x, In x rem' -> In x rem \/ In x cand') /\
  length rem' + length cand = length rem + length cand'.
Proof.
  induction bs as [|b bs IH]; intros rem cand N; cbn [fold_left].
  - cbn. intuition auto.
  - cbn [fst snd]. destruct (mem b cand) eqn:E.
    + specialize (IH rem cand N). destruct (fold_left _ bs (rem, cand)) as [rem' cand'].
      destruct IH as (A & B & C & D & F & G). repeat split; auto.
      * intros H. apply B in H. cbn. tauto.
      * intros [H|[->|H]]; apply B; auto. left. now apply mem_iff.
    + assert (N' : NoDup (cand ++ [b])).
      { apply mem_false in E. apply NoDup_rev in N. rewrite <- (rev_involutive cand) in E |- *.
        rewrite <- in_rev in E. change (rev (rev cand) ++ [b]) with (rev (b :: rev cand)). apply NoDup_rev. constructor; auto. }
      specialize (IH (b :: rem) (cand ++ [b]) N'). destruct (fold_left _ bs _) as [rem' cand'].
      destruct IH as (A & B & C & D & F & G). repeat split; auto.
      * intros H. apply B in H. rewrite in_app_iff in H. cbn in H |- *. tauto.
      * intros H. apply B. rewrite in_app_iff. cbn in H |- *. tauto.
      * intros x H. apply C. now right.
      * intros x H. destruct (D x H) as [H'|H']; [|auto]. apply in_app_iff in H' as [H'|[<-|[]]]; [auto|].
        right. apply C. now left.
      * intros x H. destruct (F x H) as [[<-|H']|H']; auto. right. apply B. rewrite in_app_iff. cbn. auto.
      * rewrite app_length in G. cbn [length] in G. lia.
Qed.

Section Gather.
Context (u : unit) (st : storage) (r : nat).

Record gathered (rem cand hid : list nat) : Prop := {
  ga_nodup : NoDup cand;
  ga_sound : forall b, In b cand -> requested u st r b;
  ga_hidden : forall b, In b hid -> hides u st r b;
  ga_rem : forall b, In b rem -> b = r \/ In b cand;
  ga_closed : forall c, c = r \/ In c cand -> In c rem \/ ((forall b, asks_to_inline u st c b -> In b cand) /\ (forall b, asks_to_hide u st c b -> In b hid))
}.

Lemma requested_listed b : requested u st r b -> In b (all_inline_bases st).
Proof. intros [? H|? ? ? H]; eapply asks_to_inline_listed; eauto. Qed.

Lemma gather_total fuel : forall rem cand hid, gathered rem cand hid -> length rem + length (all_inline_bases st) <= fuel + length cand ->
  exists cand' hid', gather fuel u st rem cand hid = Some (cand', hid') /\ gathered [] cand' hid'.
Proof.
  induction fuel as [|fuel IH]; intros rem cand hid G F.
  - destruct rem as [|x rem]; cbn [gather]; [eauto|]. exfalso.
    assert (length cand <= length (all_inline_bases st)).
    { apply NoDup_incl_length; [apply (ga_nodup _ _ _ G)|]. intros b Hb. apply requested_listed, (ga_sound _ _ _ G), Hb. }
    cbn [length] in F. lia.
  - destruct rem as [|x rem]; cbn [gather]; [eauto|]. destruct (get_record u st x) as [a|] eqn:E.
    + pose proof (push_spec (r_inline_base a) rem cand (ga_nodup _ _ _ G)) as P. destruct (fold_left _ (r_inline_base a) (rem, cand)) as [rem' cand'].
      destruct P as (A & B & C & D & K & L). apply IH; [|cbn [length] in F; lia].
      assert (Hx : x = r \/ requested u st r x).
      { destruct (ga_rem _ _ _ G x (or_introl eq_refl)) as [->|Hx]; [now left|right]. now apply (ga_sound _ _ _ G). }
      assert (S' : forall b, In b cand' -> requested u st r b).
      { intros b Hb. apply B in Hb as [Hb|Hb]; [now apply (ga_sound _ _ _ G)|].
        assert (asks_to_inline u st x b) by (exists a; auto). destruct Hx as [->|Hx]; [now apply requested_own|eapply requested_via; eauto]. }
      constructor; auto.
      * intros b Hb. apply in_fold_add in Hb as [Hb|Hb]; [now apply (ga_hidden _ _ _ G)|].
        assert (asks_to_hide u st x b) by (exists a; auto). destruct Hx as [->|Hx]; [now left|right; eauto].
      * intros b Hb. destruct (K b Hb) as [Hb'|]; [|auto]. destruct (ga_rem _ _ _ G b (or_intror Hb')) as [|]; auto. right. apply B. auto.
      * intros c Hc. destruct (Nat.eq_dec c x) as [->|Hne].
        -- right. split; intros b (a' & Ea & Hb); rewrite E in Ea; injection Ea as <-; [apply B|apply in_fold_add]; auto.
        -- assert (In c rem' \/ (c = r \/ In c cand)) as [|Hc'] by (destruct Hc as [|Hc]; [auto|]; destruct (D c Hc); auto); [auto|].
           destruct (ga_closed _ _ _ G c Hc') as [[->|Hc'']|[P Q]]; [congruence|left; auto|].
           right. split; intros b Hb; [apply B|apply in_fold_add]; auto.
    + apply IH; [|cbn [length] in F; lia]. destruct G as [A B C D K]. constructor; auto.
      * intros b Hb. apply D. now right.
      * intros c Hc. destruct (K c Hc) as [[->|H]|H]; auto. right.
        split; intros b (a & Ea & _); congruence.
Qed.

Theorem gather_spec : exists cand hid, gather_all u st r = Some (cand, hid) /\
  (forall b, In b cand <-> requested u st r b) /\ (forall b, In b hid <-> hides u st r b).
Proof.
  destruct (gather_total (S (length (all_inline_bases st))) [r] [] []) as (cand & hid & E & G).
  { constructor; cbn; try easy; [constructor| |].
    - intros b [->|[]]; auto.
    - intros c [->|[]]; auto. }
  { cbn. lia. }
  exists cand, hid. split; [exact E|]. split; intros b; split.
  - apply (ga_sound _ _ _ G).
  - induction 1 as [b Hb|c b _ IH Hb].
    + destruct (ga_closed _ _ _ G r (or_introl eq_refl)) as [[]|[P _]]. auto.
    + destruct (ga_closed _ _ _ G c (or_intror IH)) as [[]|[P _]]. auto.
  - apply (ga_hidden _ _ _ G).
  - assert (X : forall c, requested u st r c -> In c cand).
    { induction 1 as [b' Hb|c b' _ IH Hb].
      - destruct (ga_closed _ _ _ G r (or_introl eq_refl)) as [[]|[P _]]. auto.
      - destruct (ga_closed _ _ _ G c (or_intror IH)) as [[]|[P _]]. auto. }
    intros [Hb|(c & Hc & Hb)].
    + destruct (ga_closed _ _ _ G r (or_introl eq_refl)) as [[]|[_ P]]. auto.
    + destruct (ga_closed _ _ _ G c (or_intror (X c Hc))) as [[]|[_ P]]. auto.
Qed.
End Gather.

(** ** Paths *)
Section Paths.
Context (h : hierarchy) (A : acyclic h).

Lemma derives_height r p b : derives h r p b -> h_height h b < h_height h r.
Proof. induction 1 as [r s H|r s p b H _ IH]; pose proof (A _ _ H); lia. Qed.

Lemma derives_nonempty r p b : derives h r p b -> p <> [].
Proof. intros []; discriminate. Qed.

Lemma find_paths_spec t fuel : forall r scratch visited, h_height h r < fuel ->
  exists paths visited', find_paths fuel h t r scratch visited = Some (paths, visited') /\
    (forall q, In q paths -> exists p, q = scratch ++ p /\ derives h r p t) /\
    (forall p, derives h r p t -> plain p -> In (scratch ++ p) paths).
Proof.
  induction fuel as [|fuel IH]; intros r scratch visited F; [lia|]. cbn [find_paths].
  match goal with |- context [fold_opt ?f ?l ?init] =>
    destruct (fold_opt_inv f l (fun l1 acc =>
      (forall q, In q (fst acc) -> exists p, q = scratch ++ p /\ derives h r p t) /\
      (forall s p, In s l1 -> (p = [] /\ sp_base s = t) \/ derives h (sp_base s) p t -> plain (s :: p) -> In (scratch ++ s :: p) (fst acc))) init) as ([paths visited'] & E & S1 & S2)
  end.
  - cbn. split; easy.
  - intros l1 s l2 [paths vis] El [S1 S2]. cbn [fst] in *.
    assert (Hs : In s (h_direct h r)) by (rewrite El; apply in_elt).
    destruct (Nat.eqb (sp_base s) t) eqn:Et.
    + apply Nat.eqb_eq in Et. eexists. split; [reflexivity|]. cbn [fst]. split.
      * intros q Hq. apply in_app_iff in Hq as [Hq|[<-|[]]]; [auto|]. exists [s]. split; [reflexivity|]. subst t. now constructor.
      * intros s' p Hs' Hp Pl. apply in_app_iff in Hs' as [Hs'|[<-|[]]]; [apply in_app_iff; left; auto|].
        destruct Hp as [[-> _]|Hp]; [apply in_app_iff; right; now left|].
        apply derives_height in Hp. subst t. lia.
    + apply Nat.eqb_neq in Et.
      assert (Skip : negb (sp_virtual s && mem (sp_base s) vis) = false -> forall s' p, In s' (l1 ++ [s]) ->
          (p = [] /\ sp_base s' = t) \/ derives h (sp_base s') p t -> plain (s' :: p) -> In (scratch ++ s' :: p) paths).
      { intros D s' p Hs' Hp Pl. apply in_app_iff in Hs' as [Hs'|[<-|[]]]; [auto|].
        destruct Hp as [[-> Hp]|Hp]; [congruence|]. exfalso.
        assert (sp_virtual s = false) as V.
        { apply Pl. pose proof (derives_nonempty _ _ _ Hp). destruct p; [congruence|]. now left. }
        rewrite V in D. discriminate. }
      destruct (negb _) eqn:D.
      * destruct (IH (sp_base s) (scratch ++ [s]) (if sp_virtual s then sp_base s :: vis else vis)) as (more & vis' & E & T1 & T2).
        { specialize (A _ _ Hs). lia. }
        rewrite E. eexists. split; [reflexivity|]. cbn [fst]. split.
        -- intros q Hq. apply in_app_iff in Hq as [Hq|Hq]; [auto|]. destruct (T1 q Hq) as (p & -> & Hp).
           exists (s :: p). rewrite <- app_assoc. split; [reflexivity|]. now constructor.
        -- intros s' p Hs' Hp Pl. apply in_app_iff in Hs' as [Hs'|[<-|[]]]; [apply in_app_iff; left; auto|].
           destruct Hp as [[-> Hp]|Hp]; [congruence|]. apply in_app_iff. right.
           change (scratch ++ s :: p) with (scratch ++ [s] ++ p). rewrite app_assoc. apply T2; [exact Hp|].
           intros x Hx. apply Pl. pose proof (derives_nonempty _ _ _ Hp). destruct p; [congruence|]. now right.
      * eexists. split; [reflexivity|]. cbn [fst]. split; auto.
  - cbn [fst] in S1, S2. exists paths, visited'. split; [exact E|]. split; [exact S1|].
    intros p Hp. destruct Hp as [r' s Hs|r' s p b Hs Hp]; intros Pl; apply S2; auto.
Qed.

Lemma base_paths_spec r t : exists paths, base_paths h r t = Some paths /\
  (forall p, In p paths -> derives h r p t) /\ (forall p, derives h r p t -> plain p -> In p paths).
Proof.
  destruct (find_paths_spec t (S (h_height h r)) r [] []) as (paths & visited & E & S1 & S2); [lia|].
  exists paths. unfold base_paths. rewrite E. split; [reflexivity|]. split; [|exact S2].
  intros p Hp. destruct (S1 p Hp) as (p' & -> & Hd). exact Hd.
Qed.

Lemma roots_plain : virtual_bases_are_roots h -> forall r p b, derives h r p b -> plain p.
Proof.
  intros V r p b. induction 1 as [r s H|r s p b H Hp IH]; intros x Hx; [destruct Hx|].
  pose proof (derives_nonempty _ _ _ Hp). destruct p as [|y p]; [congruence|]. destruct Hx as [<-|Hx]; [|apply IH, Hx].
  destruct (sp_virtual s) eqn:E; [|reflexivity]. exfalso. pose proof (V _ _ H E) as D. inversion Hp as [? ? Hy|? ? ? ? Hy]; subst; rewrite D in Hy; destruct Hy.
Qed.

Lemma forall_bases_spec fuel : forall r b, h_height h r < fuel -> (In b (forall_bases fuel h r) <-> exists p, derives h r p b).
Proof.
  induction fuel as [|fuel IH]; intros r b F; [lia|]. cbn [forall_bases]. rewrite in_flat_map. split.
  - intros (s & Hs & [<-|Hb]); [exists [s]; now constructor|]. apply IH in Hb as [p Hp]; [|specialize (A _ _ Hs); lia].
    exists (s :: p). now constructor.
  - intros [p Hp]. destruct Hp as [r s Hs|r s p b Hs Hp].
    + exists s. split; [exact Hs|now left].
    + exists s. split; [exact Hs|right]. apply IH; [specialize (A _ _ Hs); lia|eauto].
Qed.

Lemma valid_path_iff hidden p : is_valid_path hidden p = true <-> open_path (fun b => In b hidden) p.
Proof.
  unfold is_valid_path, open_path. rewrite Bool.andb_true_iff, Bool.negb_true_iff, forallb_forall. split.
  - intros [P Q] s Hs. split; [auto|]. intros Hh. enough (existsb (fun s => mem (sp_base s) hidden) p = true) by congruence.
    apply existsb_exists. exists s. split; [exact Hs|now apply mem_iff].
  - intros P. split; [intros s Hs; apply P, Hs|]. destruct (existsb _ p) eqn:E; [|reflexivity].
    apply existsb_exists in E as (s & Hs & Hm). apply mem_iff in Hm. destruct (P s Hs) as [_ N]. now destruct (N Hm).
Qed.

Lemma open_path_ext (H1 H2 : nat -> Prop) p : (forall b, H1 b <-> H2 b) -> open_path H1 p -> open_path H2 p.
Proof. intros E P s Hs. destruct (P s Hs). split; [auto|]. now rewrite <- E. Qed.

Lemma inlines_spec r cand hidden b : exists v, inlines h r cand hidden b = Some v /\
  (v = true -> In b cand /\ exists p, derives h r p b /\ open_path (fun b => In b hidden) p) /\
  (In b cand -> (exists p, derives h r p b /\ plain p /\ open_path (fun b => In b hidden) p) -> v = true).
Proof.
  unfold inlines. destruct (mem b cand) eqn:E; cbn [negb].
  - apply mem_iff in E. destruct (base_paths_spec r b) as (paths & -> & S1 & S2). cbn [option_map].
    eexists. split; [reflexivity|]. split.
    + intros Hv. split; [exact E|]. apply existsb_exists in Hv as (p & Hp & Hv). exists p. split; [auto|now apply valid_path_iff].
    + intros _ (p & Hp & Pl & Ho). apply existsb_exists. exists p. split; [auto|now apply valid_path_iff].
  - apply mem_false in E. eexists. split; [reflexivity|]. split; [discriminate|tauto].
Qed.

Lemma make_policy_spec r cand hidden : exists p, make_policy h r cand hidden = Some p /\ p_hide p = hidden /\
  (forall b, In b (p_inline p) -> In b cand /\ exists q, derives h r q b /\ open_path (fun b => In b hidden) q) /\
  (forall b q, In b cand -> derives h r q b -> plain q -> open_path (fun b => In b hidden) q -> In b (p_inline p)).
Proof.
  unfold make_policy.
  match goal with |- context [fold_opt ?f ?l ?init] =>
    destruct (fold_opt_inv f l (fun l1 acc => forall b,
      (In b acc -> In b cand /\ exists q, derives h r q b /\ open_path (fun b => In b hidden) q) /\
      (In b l1 -> In b cand -> (exists q, derives h r q b /\ plain q /\ open_path (fun b => In b hidden) q) -> In b acc)) init) as (acc & E & S1)
  end.
  - cbn. easy.
  - intros l1 a l2 acc El I. destruct (inlines_spec r cand hidden a) as (v & Ev & V1 & V2). rewrite Ev. destruct v.
    + eexists. split; [reflexivity|]. intros b. rewrite in_add_nat, in_app_iff. cbn [In]. split.
      * intros [->|Hb]; [auto|now apply I].
      * intros [Hb|[->|[]]] Hc Hq; [right; now apply I|now left].
    + eexists. split; [reflexivity|]. intros b. rewrite in_app_iff. cbn [In]. split; [apply I|].
      intros [Hb|[->|[]]] Hc Hq; [now apply I|]. discriminate (V2 Hc Hq).
  - rewrite E. eexists. split; [reflexivity|]. split; [reflexivity|]. cbn [p_inline]. split.
    + intros b Hb. now apply S1.
    + intros b q Hb Hq Pl Ho. apply S1; [|exact Hb|eauto]. apply forall_bases_spec; [lia|eauto].
Qed.

Theorem policy_spec u st r : exists p, create_policy u st h r = Some p /\
  (forall b, In b (p_hide p) <-> hides u st r b) /\
  (forall b, In b (p_inline p) -> requested u st r b /\ exists q, derives h r q b /\ open_path (hides u st r) q) /\
  (forall b q, requested u st r b -> derives h r q b -> plain q -> open_path (hides u st r) q -> In b (p_inline p)).
Proof.
  unfold create_policy. destruct (gather_spec u st r) as (cand & hid & -> & G1 & G2).
  destruct (make_policy_spec r cand hid) as (p & E & Hh & S1 & S2). exists p. rewrite Hh. split; [exact E|]. split; [exact G2|]. split.
  - intros b Hb. destruct (S1 b Hb) as (Hc & q & Hq & Ho). split; [now apply G1|]. exists q. split; [exact Hq|].
    eapply open_path_ext; [|exact Ho]. exact G2.
  - intros b q Hb Hq Pl Ho. apply (S2 b q); auto; [now apply G1|]. eapply open_path_ext; [|exact Ho]. intros x. symmetry. apply G2.
Qed.

(** ** Listed bases *)

Lemma listed_bases_spec p g fuel : forall r, h_height h r < fuel ->
  exists l, listed_bases fuel h p g r = Some l /\
    forall b, In b l <-> lists h (fun i => In i (p_inline p)) (fun i => In i (p_hide p)) (fun i => has_node g i = true) r b.
Proof.
  induction fuel as [|fuel IH]; intros r F; [lia|]. cbn [listed_bases].
  set (L := lists h (fun i => In i (p_inline p)) (fun i => In i (p_hide p)) (fun i => has_node g i = true)).
  set (via := fun s b => sp_public s = true /\ ~ In (sp_base s) (p_hide p) /\
    ((In (sp_base s) (p_inline p) /\ L (sp_base s) b) \/ (~ In (sp_base s) (p_inline p) /\ has_node g (sp_base s) = true /\ b = sp_base s))).
  match goal with |- context [fold_opt ?f ?l ?init] =>
    destruct (fold_opt_inv f l (fun l1 acc => forall b, In b acc <-> exists s, In s l1 /\ via s b) init) as (acc & E & S1)
  end.
  - intros b. split; [intros []|intros (s & [] & _)].
  - intros l1 s l2 acc El I.
    assert (Hs : In s (h_direct h r)) by (rewrite El; apply in_elt).
    assert (Step : forall acc', (forall b, In b acc' <-> In b acc \/ via s b) -> forall b, In b acc' <-> exists s', In s' (l1 ++ [s]) /\ via s' b).
    { intros acc' H b. rewrite H, I. split.
      - intros [(s' & Hs' & Hv)|Hv]; [exists s'|exists s]; rewrite in_app_iff; cbn; auto.
      - intros (s' & Hs' & Hv). apply in_app_iff in Hs' as [Hs'|[->|[]]]; eauto. }
    unfold should_hide, should_inline.
    destruct (sp_public s) eqn:Ep; cbn [negb orb].
    2:{ eexists. split; [reflexivity|]. apply Step. intros b. split; [auto|]. intros [|(Hp & _)]; [auto|congruence]. }
    destruct (mem (sp_base s) (p_hide p)) eqn:Eh.
    { apply mem_iff in Eh. eexists. split; [reflexivity|]. apply Step. intros b. split; [auto|]. intros [|(_ & Hh & _)]; [auto|tauto]. }
    apply mem_false in Eh. destruct (mem (sp_base s) (p_inline p)) eqn:Ei.
    { apply mem_iff in Ei. destruct (IH (sp_base s)) as (l & El' & Hl); [specialize (A _ _ Hs); lia|]. rewrite El'. cbn [option_map].
      eexists. split; [reflexivity|]. apply Step. intros b. rewrite in_app_iff, Hl. unfold via. fold L. tauto. }
    apply mem_false in Ei. destruct (has_node g (sp_base s)) eqn:En; (eexists; split; [reflexivity|]); apply Step; intros b.
    + rewrite in_app_iff. cbn [In]. unfold via. intuition congruence.
    + unfold via. intuition congruence.
  - exists acc. split; [exact E|]. intros b. rewrite S1. split.
    + intros (s & Hs & Hp & Hh & [[Hi Hl]|(Hi & Hn & ->)]); [eapply lists_inlined; eauto|now apply lists_direct].
    + intros Hl. destruct Hl as [r s Hs Hp Hh Hi Hn|r s b Hs Hp Hh Hi Hl]; exists s; unfold via; auto 8.
Qed.
End Paths.

(** ** Visible declarations *)

Lemma should_inline_decl_iff members p i : should_inline_decl members p i = true <-> inlined_member members p i.
Proof.
  unfold should_inline_decl, inlined_member, should_inline. destruct p as [q|].
  2:{ split; [discriminate|]. intros (? & ? & [=] & _). }
  destruct (mb_constructor (members i)); cbn [orb].
  { split; [discriminate|]. intros (? & ? & _ & _ & _ & [=] & _). }
  destruct (mb_destructor (members i)).
  { split; [discriminate|]. intros (? & ? & _ & _ & _ & _ & [=]). }
  destruct (mb_parent (members i)) as [c|].
  - rewrite mem_iff. split; [intros H; exists q, c; auto|]. intros (? & ? & [= <-] & [= <-] & H & _). exact H.
  - split; [discriminate|]. intros (? & ? & _ & [=] & _).
Qed.

Lemma found_decl_spec members p decls f :
  (exists j, contributes members p f j /\ found_decl members p decls f = decls ++ [j]) \/
  ((forall j, ~ contributes members p f j) /\ found_decl members p decls f = decls).
Proof.
  unfold found_decl, contributes, denotes. destruct (fd_hiding f); cbn [negb orb].
  { right. split; [|reflexivity]. intros j ([=] & _). }
  destruct (mb_public (members (fd_decl f))) eqn:Ep; cbn [negb].
  2:{ right. split; [|reflexivity]. intros j (_ & [=] & _). }
  destruct (fd_in_base f && negb (should_inline_decl members p (fd_decl f))) eqn:Eb.
  { right. split; [|reflexivity]. intros j (_ & _ & H & _). apply Bool.andb_true_iff in Eb as [Eb Ei]. apply Bool.negb_true_iff in Ei.
    apply H, should_inline_decl_iff in Eb. congruence. }
  assert (Hb : fd_in_base f = true -> inlined_member members p (fd_decl f)).
  { intros E. rewrite E in Eb. cbn in Eb. apply Bool.negb_false_iff in Eb. now apply should_inline_decl_iff. }
  destruct (mb_shadow (members (fd_decl f))) as [t|].
  - destruct (mb_context (members t)) eqn:Ec; [right; split; [|reflexivity]; intros j (_ & _ & _ & -> & H & _); congruence|].
    destruct (mb_located (members t)) eqn:El; cbn [negb]; [left; exists t; auto 10|].
    right; split; [|reflexivity]; intros j (_ & _ & _ & -> & _ & H); congruence.
  - destruct (mb_context (members (fd_decl f))) eqn:Ec; [right; split; [|reflexivity]; intros j (_ & _ & _ & -> & H & _); congruence|].
    destruct (mb_located (members (fd_decl f))) eqn:El; cbn [negb]; [left; exists (fd_decl f); auto 10|].
    right; split; [|reflexivity]; intros j (_ & _ & _ & -> & _ & H); congruence.
Qed.

Lemma visible_from members p fs : forall decls, exists js, fold_left (found_decl members p) fs decls = decls ++ js /\ selection members p fs js.
Proof.
  induction fs as [|f fs IH]; intros decls; cbn [fold_left].
  - exists []. rewrite app_nil_r. split; constructor.
  - destruct (found_decl_spec members p decls f) as [(j & C & ->)|[N ->]].
    + destruct (IH (decls ++ [j])) as (js & -> & S). exists (j :: js). rewrite <- app_assoc. split; [reflexivity|now constructor].
    + destruct (IH decls) as (js & -> & S). exists js. split; [reflexivity|now constructor].
Qed.

Lemma visible_selection members p results : selection members p results (visible_decls members p results).
Proof. unfold visible_decls. destruct (visible_from members p results []) as (js & -> & S). exact S. Qed.

Lemma visible_iff members p results j : In j (visible_decls members p results) <-> exists f, In f results /\ contributes members p f j.
Proof.
  assert (U : forall f j j', contributes members p f j -> contributes members p f j' -> j = j').
  { intros f a b (_ & _ & _ & Ha & _) (_ & _ & _ & Hb & _). unfold denotes in *. destruct (mb_shadow _); congruence. }
  induction (visible_selection members p results) as [|f fs k js C S IH|f fs js N S IH].
  - split; [intros []|intros (? & [] & _)].
  - split.
    + intros [<-|H]; [exists f; split; [now left|exact C]|]. apply IH in H as (f' & Hf & H). exists f'. split; [now right|exact H].
    + intros (f' & [<-|Hf] & H); [left; eapply U; eauto|right; apply IH; eauto].
  - rewrite IH. split.
    + intros (f' & Hf & H). exists f'. split; [now right|exact H].
    + intros (f' & [<-|Hf] & H); [now destruct (N j)|eauto].
Qed.

(** ** Final forms *)

Lemma policy_general h : acyclic h -> forall u st r,
  exists p, create_policy u st h r = Some p /\
    (forall b, should_hide p b = true <-> hides u st r b) /\
    (forall b, should_inline p b = true -> requested u st r b /\ exists q, derives h r q b /\ open_path (hides u st r) q) /\
    (forall b q, requested u st r b -> derives h r q b -> plain q -> open_path (hides u st r) q -> should_inline p b = true).
Proof.
  intros A u st r. destruct (policy_spec h A u st r) as (p & E & H1 & H2 & H3). exists p. unfold should_hide, should_inline.
  split; [exact E|]. split; [intros b; rewrite mem_iff; apply H1|]. split.
  - intros b Hb. apply mem_iff in Hb. auto.
  - intros b q Hb Hq Pl Ho. apply mem_iff. eauto.
Qed.

Lemma policy_iff h : acyclic h -> virtual_bases_are_roots h -> forall u st r,
  exists p, create_policy u st h r = Some p /\
    (forall b, should_hide p b = true <-> hides u st r b) /\
    (forall b, should_inline p b = true <-> requested u st r b /\ exists q, derives h r q b /\ open_path (hides u st r) q).
Proof.
  intros A V u st r. destruct (policy_general h A u st r) as (p & E & H1 & H2 & H3). exists p.
  split; [exact E|]. split; [exact H1|]. intros b. split; [apply H2|]. intros (Hb & q & Hq & Ho).
  eapply H3; eauto. eapply roots_plain; eauto.
Qed.

Lemma derives_last h r q b : derives h r q b -> exists s, In s q /\ sp_base s = b.
Proof. induction 1 as [r s _|r s q b _ _ (x & Hx & E)]; [exists s; cbn; auto|exists x; cbn; auto]. Qed.

Lemma inlined_not_hidden h : acyclic h -> forall u st r p b, create_policy u st h r = Some p -> should_inline p b = true -> should_hide p b = false.
Proof.
  intros A u st r p b E Hi. destruct (policy_general h A u st r) as (p' & E' & H1 & H2 & _). rewrite E in E'. injection E' as <-.
  destruct (H2 b Hi) as (_ & q & Hq & Ho). destruct (derives_last _ _ _ _ Hq) as (s & Hs & <-).
  destruct (should_hide p (sp_base s)) eqn:Eh; [|reflexivity]. apply H1 in Eh. destruct (Ho s Hs) as [_ N]. now destruct (N Eh).
Qed.

Lemma lists_ext h (i1 i2 h1 h2 e : nat -> Prop) : (forall x, i1 x <-> i2 x) -> (forall x, h1 x <-> h2 x) -> forall r b, lists h i1 h1 e r b -> lists h i2 h2 e r b.
Proof.
  intros Ei Eh r b. induction 1 as [r s Hs Hp Hh Hi He|r s b Hs Hp Hh Hi _ IH].
  - apply lists_direct; auto; rewrite <- ?Ei, <- ?Eh; auto.
  - eapply lists_inlined; eauto; rewrite <- ?Ei, <- ?Eh; auto.
Qed.

Lemma listed_bases_listing h p g fuel : forall r l, listed_bases fuel h p g r = Some l ->
  listing h (fun i => should_inline p i = true) (fun i => should_hide p i = true) (fun i => has_node g i = true) (h_direct h r) l.
Proof.
  induction fuel as [|fuel IH]; intros r l E; [discriminate E|]. cbn [listed_bases] in E.
  enough (G : forall ds acc res, fold_opt (fun acc s =>
        if negb (sp_public s) || should_hide p (sp_base s) then Some acc
        else if should_inline p (sp_base s) then option_map (app acc) (listed_bases fuel h p g (sp_base s))
        else if has_node g (sp_base s) then Some (acc ++ [sp_base s])
        else Some acc) ds acc = Some res -> exists more, res = acc ++ more /\
     listing h (fun i => should_inline p i = true) (fun i => should_hide p i = true) (fun i => has_node g i = true) ds more).
  { destruct (G _ _ _ E) as (more & -> & H). exact H. }
  clear E l r. induction ds as [|s ds IHd]; cbn [fold_opt]; intros acc res E.
  { injection E as <-. exists []. split; [now rewrite app_nil_r|constructor]. }
  destruct (sp_public s) eqn:Ep; cbn [negb orb] in E.
  2:{ destruct (IHd _ _ E) as (more & -> & H). exists more. split; [reflexivity|]. apply listing_skip; auto. }
  destruct (should_hide p (sp_base s)) eqn:Eh.
  { destruct (IHd _ _ E) as (more & -> & H). exists more. split; [reflexivity|]. apply listing_skip; auto. }
  destruct (should_inline p (sp_base s)) eqn:Ei.
  - destruct (listed_bases fuel h p g (sp_base s)) as [l|] eqn:El; [|discriminate E]. cbn [option_map] in E.
    destruct (IHd _ _ E) as (more & -> & H). exists (l ++ more). split; [now rewrite app_assoc|].
    apply listing_inlined; [exact Ep|congruence|exact Ei|exact (IH _ _ El)|exact H].
  - destruct (has_node g (sp_base s)) eqn:En.
    + destruct (IHd _ _ E) as (more & -> & H). exists (sp_base s :: more). split; [now rewrite <- app_assoc|]. apply listing_take; congruence.
    + destruct (IHd _ _ E) as (more & -> & H). exists more. split; [reflexivity|]. apply listing_skip; [right; right; split; congruence|exact H].
Qed.

Lemma class_bases_listing h p g r l : class_bases h p g r = Some l ->
  listing h (fun i => should_inline p i = true) (fun i => should_hide p i = true) (fun i => has_node g i = true) (h_direct h r) l.
Proof. apply listed_bases_listing. Qed.

Lemma listing_mono h (i1 h1 e1 e2 : nat -> Prop) : (forall x, e1 x <-> e2 x) -> forall ds l, listing h i1 h1 e1 ds l -> listing h i1 h1 e2 ds l.
Proof.
  intros E ds l. induction 1 as [|s l r H _ IH|s l r H1 H2 H3 H4 _ IH|s l r1 r2 H1 H2 H3 _ IH1 _ IH2].
  - constructor.
  - apply listing_skip; [|exact IH]. rewrite <- E. exact H.
  - apply listing_take; auto. now apply E.
  - now apply listing_inlined.
Qed.

Lemma class_bases_spec h : acyclic h -> forall p g r,
  exists l, class_bases h p g r = Some l /\
    forall b, In b l <-> lists h (fun i => should_inline p i = true) (fun i => should_hide p i = true) (fun i => has_node g i = true) r b.
Proof.
  intros A p g r. destruct (listed_bases_spec h A p g (S (h_height h r)) r) as (l & E & H); [lia|]. exists l. split; [exact E|].
  intros b. rewrite H. unfold should_inline, should_hide. split; apply lists_ext; intros x; rewrite mem_iff; tauto.
Qed.

Lemma class_bases_sound h : acyclic h -> forall p g r l b, class_bases h p g r = Some l -> In b l ->
  has_node g b = true /\ should_hide p b = false /\ should_inline p b = false /\
  exists q, derives h r q b /\ forall s, In s q -> sp_public s = true /\ should_hide p (sp_base s) = false.
Proof.
  intros A p g r l b E Hb. destruct (class_bases_spec h A p g r) as (l' & E' & H). rewrite E in E'. injection E' as <-.
  apply H in Hb. clear H E. induction Hb as [r s Hs Hp Hh Hi He|r s b Hs Hp Hh Hi _ IH].
  - apply Bool.not_true_is_false in Hh, Hi. repeat split; auto. exists [s]. split; [now constructor|].
    intros x [<-|[]]. auto.
  - destruct IH as (P1 & P2 & P3 & q & Hq & Hall). apply Bool.not_true_is_false in Hh. repeat split; auto.
    exists (s :: q). split; [now constructor|]. intros x [<-|Hx]; auto.
Qed.
