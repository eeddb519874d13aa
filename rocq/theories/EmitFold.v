(** * Proofs about the definition of one context *)
From Coq Require Import Sorting.Sorted.
From Verif Require Import Base ParserModel AnnotModel AnnotSpec AnnotProofs AnnotStore AnnotFinal CollectModel GraphModel GraphSpec GraphWalk GraphProofs InlineModel EmitModel EmitSpec EmitMap EmitProofs.

(** ** Reports about parameters *)

Lemma trailing_split (ps : list param) k : trailing ps k -> exists l1 p l2 q l3, ps = l1 ++ p :: l2 ++ q :: l3 /\ length l1 = k /\ is_kwargs p = true /\ is_ordinary q = true /\
    (forall r, In r l2 -> is_ordinary r = false /\ is_kwargs r = false) /\
    (forall m1 m m2 r, l1 = m1 ++ m :: m2 -> is_kwargs m = true -> In r m2 -> is_ordinary r = false).
Proof. auto. Qed.

Lemma kw_not_ordinary p : is_kwargs p = true -> is_ordinary p = false.
Proof. unfold is_kwargs, is_ordinary. destruct (pm_variadic p) as [[]|]; congruence. Qed.

Lemma trailing_le ps k k' : trailing ps k -> trailing ps k' -> k' <= k.
Proof.
  intros (l1 & p & l2 & q & l3 & -> & <- & Kp & Oq & H2 & H1) (m1 & p' & m2 & q' & m3 & E & <- & Kp' & Oq' & H2' & H1').
  destruct (Nat.le_gt_cases (length m1) (length l1)) as [|Hgt]; [assumption|exfalso].
  (* p' comes after p *)
  assert (Es : exists n, m1 = l1 ++ p :: n /\ l2 ++ q :: l3 = n ++ p' :: m2 ++ q' :: m3).
  { revert m1 Hgt E H1'. clear. intros m1 Hgt E _. revert m1 Hgt E. induction l1 as [|z l1 IH]; intros [|y m1] Hgt E; cbn in *; try lia; injection E as -> E.
    - eauto.
    - destruct (IH m1 ltac:(lia) E) as (n & -> & En). eauto. }
  destruct Es as (n & -> & Es).
  assert (Hq : In q n \/ exists n', l2 = n ++ n').
  { clear - Es. revert n Es. induction l2 as [|z l2 IH]; intros [|y n] Es; cbn in *.
    - right. exists []. reflexivity.
    - injection Es as -> _. auto.
    - right. eauto.
    - injection Es as -> Es. destruct (IH n Es) as [|[n' ->]]; [auto|]. right. exists n'. reflexivity. }
  destruct Hq as [Hq|[n' ->]].
  - rewrite (H1' l1 p n q eq_refl Kp Hq) in Oq. discriminate.
  - rewrite <- app_assoc in Es. apply app_inv_head in Es. destruct n' as [|z n']; cbn in Es; injection Es as -> _.
    + apply kw_not_ordinary in Kp'. congruence.
    + destruct (H2 p'); [apply in_or_app; right; left; reflexivity|congruence].
Qed.

Lemma trailing_unique ps k k' : trailing ps k -> trailing ps k' -> k = k'.
Proof. intros H H'. apply Nat.le_antisymm; eapply trailing_le; eassumption. Qed.

Lemma parameter_reports x f a args rs : parameters x f a = (args, rs) -> forall r, In r rs <-> exists k, trailing (fi_params (x_fn x f)) k /\ r = ETrailingParameters f k.
Proof.
  intros E r. destruct (parameters_described x f a) as (args' & rs' & E' & _ & H). rewrite E in E'. injection E' as <- <-. destruct H as [[-> H]|(k & -> & H)].
  - split; [intros []|]. intros (k & Hk & _). destruct (H k Hk).
  - split.
    + intros [<-|[]]. eauto.
    + intros (k' & Hk & ->). rewrite (trailing_unique _ _ _ Hk H). left. reflexivity.
Qed.

Definition impl_reports (u : unit) (x : extra) (e : exposer) (i : nat) (a : attrs) (r : ereport) : Prop :=
  exists k s, bound u x e i a s /\ binds_function i s /\ trailing (fi_params (x_fn x i)) k /\ r = ETrailingParameters i k.

Lemma reports_no_function (P : stmt -> Prop) i (T : nat -> Prop) (R : nat -> ereport) : (forall s, P s -> ~ binds_function i s) ->
  forall r, In r [] <-> exists k s, P s /\ binds_function i s /\ T k /\ r = R k.
Proof. intros H r. split; [intros []|]. intros (k & s & Hs & Hb & _). destruct (H s Hs Hb). Qed.

Lemma reports_function (P : stmt -> Prop) i (T : nat -> Prop) (R : nat -> ereport) rs t : P t -> binds_function i t -> (forall r, In r rs <-> exists k, T k /\ r = R k) ->
  forall r, In r rs <-> exists k s, P s /\ binds_function i s /\ T k /\ r = R k.
Proof. intros Ht Hb H r. rewrite H. split; [intros (k & Hk & ->); eauto 8|intros (k & s & _ & _ & Hk & ->); eauto]. Qed.

Ltac no_function := intros s Hs [(? & ? & ? & ? & ->)|(? & ? & ? & ->)]; revert Hs; cbn; intros Hs; repeat (destruct Hs as [Hs|Hs]; [discriminate|]); try contradiction.

Lemma generic_reports u x st i a ss rs : lookup_attrs st i = Some a -> handle_generic u x st i = Some (ss, rs) ->
  forall r, In r rs <-> exists k s, In s ss /\ binds_function i s /\ trailing (fi_params (x_fn x i)) k /\ r = ETrailingParameters i k.
Proof.
  intros H. unfold handle_generic, get_typedef. rewrite !(get_stored _ _ _ _ _ _ H), (lookup_or_stored _ _ _ _ _ _ H eq_refl).
  destruct (_ && _); [discriminate|]. destruct (is_typedef (u_decls u i)).
  { destruct (n_visible (at_named a)); [destruct (t_expose_here (at_typedef a)); [|destruct (x_tag x i)]|]; intros [= <- <-];
      apply reports_no_function; no_function. }
  destruct (supports_field (u_decls u i)).
  { destruct (f_manual (at_field a)); [destruct (f_postamble (at_field a))|destruct (kind u i)]; try discriminate; intros [= <- <-];
      apply reports_no_function; no_function. }
  assert (F : match (if supports_function (u_decls u i) then Some (at_function a) else None) with
    | Some a => if fi_deleted (x_fn x i) then nothing else
        let '(args, rs) := parameters x i a in Some ([SFunction (is_method u i && d_static (u_decls u i)) (spelling u st i
          (if match fi_operator (x_fn x i) with Some OCall => true | _ => false end then $"__call__" else [])) i args a], rs)
    | None => nothing end = Some (ss, rs) ->
    forall r, In r rs <-> exists k s, In s ss /\ binds_function i s /\ trailing (fi_params (x_fn x i)) k /\ r = ETrailingParameters i k).
  { destruct (supports_function (u_decls u i)); [|intros [= <- <-]; apply reports_no_function; no_function].
    destruct (fi_deleted (x_fn x i)); [intros [= <- <-]; apply reports_no_function; no_function|].
    destruct (parameters x i (at_function a)) as [args rs'] eqn:E. intros [= <- <-]. eapply reports_function; [left; reflexivity|left; eauto|].
    exact (parameter_reports _ _ _ _ _ E). }
  destruct (supports_method (u_decls u i)); [|exact F]. destruct (_ || _); [|exact F]. intros [= <- <-]. apply reports_no_function. no_function.
Qed.

Lemma constructor_reports u x st r i implicit ss rs : handle_constructor u x st r i implicit = Some (ss, rs) ->
  forall r, In r rs <-> exists k s, In s ss /\ binds_function i s /\ trailing (fi_params (x_fn x i)) k /\ r = ETrailingParameters i k.
Proof.
  unfold handle_constructor. cbn zeta. destruct (_ || _); [intros [= <- <-]; apply reports_no_function; no_function|].
  destruct (parameters x i _) as [args rs'] eqn:E. destruct implicit; [destruct (fi_params (x_fn x i)) eqn:Ep; [discriminate|]; rewrite <- Ep|]; intros [= <- <-].
  - eapply reports_function; [right; left; reflexivity|right; eauto|]. exact (parameter_reports _ _ _ _ _ E).
  - eapply reports_function; [left; reflexivity|right; eauto|]. exact (parameter_reports _ _ _ _ _ E).
Qed.

Lemma operator_reports u x st r i ss rs : handle_operator u x st r i = Some (ss, rs) -> rs = [] /\ forall s, In s ss -> ~ binds_function i s.
Proof.
  unfold handle_operator. destruct (fi_deleted (x_fn x i)); [intros [= <- <-]; split; [reflexivity|no_function]|].
  destruct (fi_operator (x_fn x i)) as [k|]; [|discriminate]. intros H1.
  assert (H2 : match is_ostream_operator u x i k with
        | None => None
        | Some true => match get_named u st i with Some n => if is_empty (n_spelling n) then nothing else says (SPrint (n_spelling n) r) | None => nothing end
        | Some false => option_map (fun ss => (ss, [])) (emit_operator u x r i k)
        end = Some (ss, rs)) by (destruct k; try exact H1; discriminate).
  clear H1. destruct (is_ostream_operator u x i k) as [[]|]; [| |discriminate].
  - destruct (get_named u st i) as [n|]; [destruct (is_empty _)|]; injection H2 as <- <-; (split; [reflexivity|no_function]).
  - destruct (emit_operator u x r i k) as [ss'|] eqn:E; [|discriminate]. injection H2 as <- <-. split; [reflexivity|].
    apply emit_operator_inv in E. cbn zeta in E. destruct E as [[-> _]|(_ & _ & _ & ->)]; no_function.
Qed.

(** ** One declaration *)

Definition reports_of (u : unit) (x : extra) (i : nat) (ss : list stmt) (r : ereport) : Prop :=
  exists k s, In s ss /\ binds_function i s /\ trailing (fi_params (x_fn x i)) k /\ r = ETrailingParameters i k.

Lemma no_uses_by i a : ~ (negb (is_empty (m_getter_for a)) || negb (is_empty (m_setter_for a)) = true) -> uses_by i a [].
Proof.
  intros H. exists [], []. destruct (m_getter_for a), (m_setter_for a); cbn in H; try congruence. repeat split; try constructor; auto.
Qed.

Lemma record_rest u x st r p i a ps ss rs ps' dv : lookup_attrs st i = Some a -> shown dv a -> handle_record u x st r i ps = Some (ss, rs, ps') ->
  exists us props, method_uses u (XRecord r p) dv st i us /\ apply_uses us (ps, []) = (ps', props) /\ forall t, In t rs <-> In t props \/ reports_of u x i ss t.
Proof.
  intros H Hv. unfold handle_record. cbn zeta. rewrite !(get_stored _ _ _ _ _ _ H).
  assert (No : forall ss rs, (forall t, In t rs <-> reports_of u x i ss t) ->
     (supports_method (u_decls u i) = true -> ~ (negb (is_empty (m_getter_for (at_method a))) || negb (is_empty (m_setter_for (at_method a))) = true)) ->
     exists us props, method_uses u (XRecord r p) dv st i us /\ apply_uses us (ps, []) = (ps, props) /\ forall t, In t rs <-> In t props \/ reports_of u x i ss t).
  { intros ss0 rs0 Hr Hp. exists [], []. split; [|split; [reflexivity|intros t; rewrite Hr; cbn; tauto]].
    split; [|reflexivity]. intros r' p' a' _ E' _ Hm. rewrite H in E'. injection E' as <-. apply no_uses_by, Hp, Hm. }
  destruct (supports_constructor (u_decls u i)) eqn:Ec.
  { destruct (handle_constructor u x st r i (at_implicit_conversion a)) as [[ss0 rs0]|] eqn:E; [|discriminate]. intros [= <- <- <-]. apply No.
    - exact (constructor_reports _ _ _ _ _ _ _ _ E).
    - unfold supports_method. rewrite Ec. cbn. rewrite !andb_false_r. discriminate. }
  destruct (supports_operator (u_decls u i)) eqn:Eo.
  { destruct (handle_operator u x st r i) as [[ss0 rs0]|] eqn:E; [|discriminate]. intros [= <- <- <-]. apply operator_reports in E. destruct E as [-> E]. apply No.
    - apply reports_no_function. exact E.
    - unfold supports_method. rewrite Eo. cbn. rewrite !andb_false_r. discriminate. }
  destruct (supports_method (u_decls u i)) eqn:Em.
  - destruct (_ || _) eqn:Ep.
    + rewrite define_properties_uses. destruct (apply_uses _ _) as [ps0 rs0] eqn:E. intros [= <- <- <-]. eexists _, rs0. split; [|split; [exact E|]].
      * split; [|intros Hn; exfalso; apply Hn; eauto 8]. intros r' p' a' _ E' _ _. rewrite H in E'. injection E' as <-. apply uses_by_in_order.
      * intros t. split; [auto|]. intros [Ht|(k & s & [] & _)]. exact Ht.
    + assert (Hf : supports_field (u_decls u i) = false) by (unfold supports_method, is_method_decl in Em; unfold supports_field; destruct (d_kind (u_decls u i)); try discriminate; reflexivity).
      rewrite Hf. destruct (handle_generic u x st i) as [[ss0 rs0]|] eqn:E; [|discriminate]. intros [= <- <- <-]. apply No; [|congruence].
      exact (generic_reports _ _ _ _ _ _ _ H E).
  - destruct (supports_field (u_decls u i)).
    + destruct (f_manual (at_field a)); [destruct (f_postamble (at_field a)); [discriminate|]|]; intros [= <- <- <-]; (apply No; [|discriminate]);
        apply reports_no_function; no_function.
    + destruct (handle_generic u x st i) as [[ss0 rs0]|] eqn:E; [|discriminate]. intros [= <- <- <-]. apply No; [|discriminate].
      exact (generic_reports _ _ _ _ _ _ _ H E).
Qed.

Lemma impl_rest u x st e i a ps ss rs ps' dv : lookup_attrs st i = Some a -> shown dv a -> handle_impl u x st e i ps = Some (ss, rs, ps') ->
  exists us props, method_uses u e dv st i us /\ apply_uses us (ps, []) = (ps', props) /\ forall t, In t rs <-> In t props \/ reports_of u x i ss t.
Proof.
  intros H Hv. assert (No : forall ss rs, (forall r p, e <> XRecord r p) -> (forall t, In t rs <-> reports_of u x i ss t) ->
     exists us props, method_uses u e dv st i us /\ apply_uses us (ps, []) = (ps, props) /\ forall t, In t rs <-> In t props \/ reports_of u x i ss t).
  { intros ss0 rs0 Hr Hp. exists [], []. split; [|split; [reflexivity|intros t; rewrite Hp; cbn; tauto]].
    split; [|reflexivity]. intros r' p' a' E'. destruct (Hr _ _ E'). }
  destruct e as [|n|n|r p]; cbn [handle_impl].
  - destruct (handle_generic u x st i) as [[? ?]|] eqn:E; [|discriminate]. intros [= <- <- <-]. apply No; [discriminate|]. exact (generic_reports _ _ _ _ _ _ _ H E).
  - destruct (handle_generic u x st i) as [[? ?]|] eqn:E; [|discriminate]. intros [= <- <- <-]. apply No; [discriminate|]. exact (generic_reports _ _ _ _ _ _ _ H E).
  - unfold handle_enum. destruct (x_enumerator x i); intros [= <- <- <-]; (apply No; [discriminate|]); apply reports_no_function; no_function.
  - eapply record_rest; eassumption.
Qed.

Lemma is_visible_iff u st dv i : is_visible u st dv i = true <-> exists a, lookup_attrs st i = Some a /\ shown dv a.
Proof.
  unfold is_visible, get_named, get, shown. destruct (lookup_attrs st i) as [a|]; cbn.
  - destruct (n_visible (at_named a)) as [v|] eqn:E; split.
    + intros ->. eauto.
    + intros (b & [= <-] & [E'|[E' _]]); congruence.
    + intros ->. eauto.
    + intros (b & [= <-] & [E'|[_ E']]); congruence.
  - split; [discriminate|]. intros (a & E & _). discriminate.
Qed.

Lemma handle_spec u x e dv s i s' : handle_decl u x e dv s i = Some s' -> exists part ds rep us props,
  em_stmts s' = em_stmts s ++ part /\ em_reports s' = em_reports s ++ map (EAnnotation i) ds ++ rep /\
  insert (u_decls u) i (em_storage s) = Some (em_storage s', ds) /\
  NoDup part /\ (forall t, In t part <-> emitted_for u x e dv (em_storage s') i t) /\
  method_uses u e dv (em_storage s') i us /\ apply_uses us (em_properties s, []) = (em_properties s', props) /\
  (forall t, In t rep <-> In t props \/ trailing_report u x e dv (em_storage s') i t).
Proof.
  unfold handle_decl. destruct (insert (u_decls u) i (em_storage s)) as [[st ds]|] eqn:Ei; [|discriminate].
  destruct (is_visible u st dv i) eqn:Ev.
  - apply is_visible_iff in Ev. destruct Ev as (a & El & Hv).
    destruct (handle_impl u x st e i (em_properties s)) as [[[ss rs] ps]|] eqn:Eh; [|discriminate]. intros [= <-]. cbn [em_stmts em_reports em_storage em_properties].
    destruct (impl_part _ _ _ _ _ _ _ _ _ _ El Eh) as [D P]. destruct (impl_rest _ _ _ _ _ _ _ _ _ _ _ El Hv Eh) as (us & props & U1 & U2 & U3).
    assert (Pe : forall t, In t ss <-> emitted_for u x e dv st i t).
    { intros t. rewrite P. unfold emitted_for. split; [eauto|]. intros (b & Eb & _ & Hb). congruence. }
    exists ss, ds, rs, us, props. rewrite app_assoc. repeat (split; [auto; fail|]). intros t. rewrite U3. unfold reports_of, trailing_report.
    split; (intros [Ht|(k & s0 & Hs & Ht)]; [auto|right; exists k, s0; split; [apply Pe, Hs|exact Ht]]).
  - intros [= <-]. cbn [em_stmts em_reports em_storage em_properties].
    assert (Hno : forall a, lookup_attrs st i = Some a -> ~ shown dv a).
    { intros a El Hv. assert (is_visible u st dv i = true) by (apply is_visible_iff; eauto). congruence. }
    assert (Hne : forall t, ~ emitted_for u x e dv st i t).
    { intros t (a & El & Hv & _). exact (Hno a El Hv). }
    exists [], ds, [], [], []. rewrite !app_nil_r. split; [reflexivity|]. split; [reflexivity|]. split; [reflexivity|]. split; [constructor|]. split; [|split; [|split]].
    + intros t. split; [intros []|]. apply Hne.
    + split; [|reflexivity]. intros r p a _ El Hv. destruct (Hno a El Hv).
    + reflexivity.
    + intros t. split; [intros []|]. intros [[]|(k & s0 & Hs & _)]. destruct (Hne _ Hs).
Qed.

(** ** All declarations *)

Definition grows (u : unit) (st st' : storage) : Prop :=
  (forall j a, lookup_attrs st j = Some a -> lookup_attrs st' j = Some a) /\
  (forall j, d_skip (u_decls u j) = true -> lookup_attrs st' j = lookup_attrs st j).

Lemma insert_grows u i st st' ds : insert (u_decls u) i st = Some (st', ds) -> grows u st st'.
Proof.
  intros H. destruct (insert_spec _ _ _ _ _ H) as (H1 & H2 & _ & _ & H5). split.
  - intros j a Hj. destruct (Nat.eq_dec j i) as [->|E]; [apply H2, Hj|]. rewrite H1; assumption.
  - intros j Hj. destruct (Nat.eq_dec j i) as [->|E]; [destruct (H5 Hj) as [-> _]; reflexivity|]. apply H1, E.
Qed.

Lemma grows_refl u st : grows u st st.
Proof. split; auto. Qed.

Lemma grows_trans u a b c : grows u a b -> grows u b c -> grows u a c.
Proof. intros [H1 H2] [H3 H4]. split; [auto|]. intros j Hj. rewrite H4, H2; auto. Qed.

Lemma grows_same u i st1 st2 st3 ds : insert (u_decls u) i st1 = Some (st2, ds) -> grows u st2 st3 -> lookup_attrs st3 i = lookup_attrs st2 i.
Proof.
  intros H [G1 G2]. destruct (lookup_attrs st2 i) as [a|] eqn:E; [apply G1, E|].
  destruct (d_skip (u_decls u i)) eqn:Es; [rewrite <- E; apply G2, Es|]. exfalso.
  destruct (insert_spec _ _ _ _ _ H) as (_ & H2 & H3 & _). destruct (lookup_attrs st1 i) as [b|] eqn:E1.
  - rewrite (H2 b eq_refl) in E. discriminate.
  - destruct (H3 eq_refl Es) as (b & _ & Eb). congruence.
Qed.

Lemma emitted_for_same u x e dv st st' i t : lookup_attrs st' i = lookup_attrs st i -> emitted_for u x e dv st' i t <-> emitted_for u x e dv st i t.
Proof. intros E. unfold emitted_for. rewrite E. reflexivity. Qed.

Lemma trailing_report_same u x e dv st st' i t : lookup_attrs st' i = lookup_attrs st i -> trailing_report u x e dv st' i t <-> trailing_report u x e dv st i t.
Proof. intros E. unfold trailing_report, emitted_for. rewrite E. reflexivity. Qed.

Lemma method_uses_same u e dv st st' i us : lookup_attrs st' i = lookup_attrs st i -> method_uses u e dv st i us -> method_uses u e dv st' i us.
Proof. intros E. unfold method_uses. rewrite E. auto. Qed.

Lemma insert_reports u i st st' ds d : insert (u_decls u) i st = Some (st', ds) -> (In d ds <-> annotation_report u st i d).
Proof.
  unfold annotation_report, insert. unfold has at 2. cbn [lookup_attrs]. unfold has. destruct (d_skip (u_decls u i)).
  - intros [= <- <-]. split; [|intros [_ (? & ? & [= _ <-] & H)]; exact H]. intros H. split; [auto|]. eauto.
  - destruct (lookup_attrs st i) eqn:El.
    + intros [= <- <-]. split; [intros []|]. intros [[E|E] _]; discriminate.
    + destruct (compute_attrs (u_decls u i)) as [[a ds0]|]; [|discriminate]. intros [= <- <-]. split.
      * intros H. split; [auto|]. eauto.
      * intros [_ (? & ? & [= _ <-] & H)]. exact H.
Qed.

Lemma fold_spec u x e dv l : forall s s', fold_opt (handle_decl u x e dv) l s = Some s' -> exists parts reps uss props,
  em_stmts s' = em_stmts s ++ concat parts /\ em_reports s' = em_reports s ++ reps /\ grows u (em_storage s) (em_storage s') /\
  (forall j, ~ In j l -> lookup_attrs (em_storage s') j = lookup_attrs (em_storage s) j) /\
  (forall j, In j l -> d_skip (u_decls u j) = false -> lookup_attrs (em_storage s) j = None -> exists a, own_attributes u j a /\ lookup_attrs (em_storage s') j = Some a) /\
  Forall2 (fun i part => NoDup part /\ forall t, In t part <-> emitted_for u x e dv (em_storage s') i t) l parts /\
  Forall2 (method_uses u e dv (em_storage s')) l uss /\ apply_uses (concat uss) (em_properties s, []) = (em_properties s', props) /\
  (forall t, In t reps <-> In t props \/ (exists i, In i l /\ trailing_report u x e dv (em_storage s') i t) \/
     exists i d, In i l /\ annotation_report u (em_storage s) i d /\ t = EAnnotation i d).
Proof.
  induction l as [|i l IH]; intros s s'; cbn [fold_opt].
  - intros [= <-]. exists [], [], [], []. cbn. rewrite !app_nil_r. repeat (split; [auto using grows_refl; fail|]). split; [intros j []|].
    split; [constructor|]. split; [constructor|]. split; [reflexivity|]. intros t. split; [intros []|]. intros [[]|[(j & [] & _)|(j & d & [] & _)]].
  - destruct (handle_decl u x e dv s i) as [s1|] eqn:Eh; [|discriminate]. intros Ef.
    destruct (handle_spec _ _ _ _ _ _ _ Eh) as (part & ds & rep & us & props1 & S1 & S2 & Ei & ND & Hp & Hu & Ha & Hr).
    destruct (IH _ _ Ef) as (parts & reps & uss & props2 & T1 & T2 & G & Tn & To & Fp & Fu & Ta & Tr).
    pose proof (insert_grows _ _ _ _ _ Ei) as G1. pose proof (grows_same _ _ _ _ _ _ Ei G) as Same.
    exists (part :: parts), (map (EAnnotation i) ds ++ rep ++ reps), (us :: uss), (props1 ++ props2).
    cbn [concat]. split; [rewrite T1, S1, app_assoc; reflexivity|]. split; [rewrite T2, S2, <- !app_assoc; reflexivity|].
    split; [eapply grows_trans; eassumption|]. destruct (insert_spec _ _ _ _ _ Ei) as (I1 & I2 & I3 & _).
    split; [|split; [|split; [|split; [|split]]]].
    + intros j Hj. cbn in Hj. rewrite Tn by tauto. apply I1. intros ->. tauto.
    + intros j Hj Hs Hn. destruct (Nat.eq_dec j i) as [->|Hne].
      * destruct (I3 Hn Hs) as (a & Ec & El). exists a. rewrite Same. split; [|exact El]. exists [(i, a)], ds. unfold insert. rewrite Hs.
        unfold has. cbn [lookup_attrs]. rewrite Ec. cbn. rewrite Nat.eqb_refl. auto.
      * destruct Hj as [<-|Hj]; [congruence|]. apply To; auto. rewrite I1; assumption.
    + constructor; [|exact Fp]. split; [exact ND|]. intros t. rewrite Hp. symmetry. apply emitted_for_same, Same.
    + constructor; [|exact Fu]. eapply method_uses_same; eassumption.
    + rewrite apply_uses_app, Ha. cbn [fst snd]. rewrite Ta. reflexivity.
    + intros t. rewrite !in_app_iff, Hr, Tr, in_map_iff. split.
      * intros [(d & <- & Hd)|[[H|H]|[H|[(j & Hj & H)|(j & d & Hj & H & ->)]]]].
        -- right. right. exists i, d. split; [left; reflexivity|]. split; [|reflexivity]. eapply insert_reports; eassumption.
        -- auto.
        -- right. left. exists i. split; [left; reflexivity|]. eapply trailing_report_same; eassumption.
        -- auto.
        -- right. left. exists j. split; [right; exact Hj|exact H].
        -- right. right. exists j, d. split; [right; exact Hj|]. split; [|reflexivity]. destruct H as [[H|H] H2]; split; auto. left.
           destruct (lookup_attrs (em_storage s) j) as [b|] eqn:Eb; [|reflexivity]. rewrite (proj1 G1 j b Eb) in H. discriminate.
      * intros [[H|H]|[(j & [<-|Hj] & H)|(j & d & Hj & H & ->)]].
        -- auto.
        -- auto.
        -- right. left. right. eapply trailing_report_same; [symmetry|]; eassumption.
        -- right. right. right. left. eauto.
        -- destruct (Nat.eq_dec j i) as [->|Hne].
           ++ left. exists d. split; [reflexivity|]. eapply insert_reports; eassumption.
           ++ destruct Hj as [<-|Hj]; [congruence|]. right. right. right. right. exists j, d. split; [exact Hj|]. split; [|reflexivity].
              unfold annotation_report in *. rewrite I1; assumption.
Qed.

(** ** The definition of a context *)

Definition closing (s : stmt) : bool := match s with SUnused | SExportValues | SProperty _ _ _ => true | _ => false end.

Lemma bound_not_closing u x e i a s : bound u x e i a s -> closing s = false.
Proof.
  assert (Hf : forall s, bound_function u x i a s -> closing s = false) by (intros t []; reflexivity).
  assert (Ha : forall s, bound_alias u x i a s -> closing s = false) by (intros t []; reflexivity).
  destruct e; cbn [bound]; intros []; auto.
Qed.

Record defined (u : unit) (x : extra) (e : exposer) (dv : bool) (l : list nat) (st st' : storage) (ss : list stmt) (rs : list ereport) : Prop := {
  df_parts : exists parts final, ss = concat parts ++ final /\
    Forall2 (fun i part => NoDup part /\ forall t, In t part <-> emitted_for u x e dv st' i t) l parts /\
    Forall (fun s => closing s = true) final /\
    match e with
    | XContext | XNamespace _ => final = [SUnused]
    | XEnum i => final = [SExportValues] \/ final = []
    | XRecord _ _ => Forall (fun s => exists n g m, s = SProperty n g m) final
    end;
  df_stored : forall j a, lookup_attrs st j = Some a -> lookup_attrs st' j = Some a;
  df_others : forall j, ~ In j l -> lookup_attrs st' j = lookup_attrs st j;
  df_own : forall j, In j l -> d_skip (u_decls u j) = false -> lookup_attrs st j = None -> exists a, own_attributes u j a /\ lookup_attrs st' j = Some a;
  df_skipped : forall j, d_skip (u_decls u j) = true -> lookup_attrs st' j = lookup_attrs st j;
  df_trailing : forall f k, In (ETrailingParameters f k) rs <-> In f l /\ trailing_report u x e dv st' f (ETrailingParameters f k);
  df_annotation : forall i d, In (EAnnotation i d) rs <-> In i l /\ annotation_report u st i d;
  df_properties : exists uss, Forall2 (method_uses u e dv st') l uss /\
    (forall n g s, In (SProperty n g s) ss <-> last_of (users (concat uss) n false) = Some g /\ s = last_of (users (concat uss) n true)) /\
    StronglySorted str_lt (flat_map (fun s => match s with SProperty n _ _ => [n] | _ => [] end) ss) /\
    (forall m n, In (ENoGetter m n) rs <-> users (concat uss) n false = [] /\ last_of (users (concat uss) n true) = Some m) /\
    (forall m n b q, In (EAlreadyDefined m n b q) rs <-> exists l1 l2, users (concat uss) n b = l1 ++ q :: m :: l2);
  df_export : In SExportValues ss <-> exists i a, e = XEnum i /\ supports_enum (u_decls u i) = true /\ lookup_attrs st' i = Some a /\
    (e_export_values (at_enum a) = Some true \/ (e_export_values (at_enum a) = None /\ x_scoped x i = false))
}.

Lemma concat_closing u x e dv st l parts : Forall2 (fun i part => NoDup part /\ forall t, In t part <-> emitted_for u x e dv st i t) l parts ->
  forall s, In s (concat parts) -> closing s = false.
Proof.
  induction 1 as [|i part l parts [_ H] _ IH]; cbn [concat]; [intros s []|]. intros s Hs. apply in_app_or in Hs. destruct Hs as [Hs|Hs]; [|apply IH, Hs].
  apply H in Hs. destruct Hs as (a & _ & _ & Hb). eapply bound_not_closing, Hb.
Qed.

Lemma no_names (l : list stmt) : (forall s, In s l -> closing s = false) -> flat_map (fun s => match s with SProperty n _ _ => [n] | _ => [] end) l = [].
Proof.
  induction l as [|s l IH]; cbn; [reflexivity|]. intros H. rewrite IH by auto. specialize (H s (or_introl eq_refl)). destruct s; cbn in *; try reflexivity; discriminate.
Qed.

Lemma uses_empty u e dv st l uss : (forall r p, e <> XRecord r p) -> Forall2 (method_uses u e dv st) l uss -> concat uss = [].
Proof.
  intros He. induction 1 as [|i us l uss [_ H] _ IH]; cbn; [reflexivity|]. rewrite IH, app_nil_r. apply H. intros (r & p & _ & E & _). exact (He r p E).
Qed.

Lemma define_spec u x e dv decls st st' ss rs : define u x e dv decls st = Some (st', ss, rs) ->
  defined u x e dv (flat_map (expand x) decls) st st' ss rs.
Proof.
  unfold define. destruct (fold_opt _ _ _) as [s|] eqn:Ef; [|discriminate]. destruct (finalize u x (em_storage s) e (em_properties s)) as [fs frs] eqn:Efin.
  intros [= <- <- <-]. destruct (fold_spec _ _ _ _ _ _ _ Ef) as (parts & reps & uss & props & S1 & S2 & G & Sn & So & Fp & Fu & Sa & Sr).
  cbn [em_stmts em_reports em_storage em_properties app] in *. rewrite S1, S2.
  pose proof (apply_uses_spec (concat uss)) as A. rewrite Sa in A. destruct A as (A1 & A2 & A3).
  pose proof (emit_properties_spec _ A1) as (P1 & P2 & P3).
  pose proof (concat_closing _ _ _ _ _ _ _ Fp) as Cl.
  assert (Fin : Forall (fun s => closing s = true) fs /\
    match e with
    | XContext | XNamespace _ => fs = [SUnused]
    | XEnum i => fs = [SExportValues] \/ fs = []
    | XRecord _ _ => Forall (fun s => exists n g m, s = SProperty n g m) fs
    end /\ (forall f k, ~ In (ETrailingParameters f k) frs) /\ (forall i d, ~ In (EAnnotation i d) frs) /\ (forall m n b q, ~ In (EAlreadyDefined m n b q) frs) /\
    (forall n g m, In (SProperty n g m) fs <-> last_of (users (concat uss) n false) = Some g /\ m = last_of (users (concat uss) n true)) /\
    StronglySorted str_lt (flat_map (fun s => match s with SProperty n _ _ => [n] | _ => [] end) fs) /\
    (forall m n, In (ENoGetter m n) frs <-> users (concat uss) n false = [] /\ last_of (users (concat uss) n true) = Some m) /\
    (In SExportValues fs <-> exists i a, e = XEnum i /\ supports_enum (u_decls u i) = true /\ lookup_attrs (em_storage s) i = Some a /\
    (e_export_values (at_enum a) = Some true \/ (e_export_values (at_enum a) = None /\ x_scoped x i = false)))).
  { assert (Hn : (forall r p, e <> XRecord r p) -> (forall s, In s fs -> s = SUnused \/ s = SExportValues) -> frs = [] ->
      (forall f k, ~ In (ETrailingParameters f k) frs) /\ (forall i d, ~ In (EAnnotation i d) frs) /\ (forall m n b q, ~ In (EAlreadyDefined m n b q) frs) /\
      (forall n g m, In (SProperty n g m) fs <-> last_of (users (concat uss) n false) = Some g /\ m = last_of (users (concat uss) n true)) /\
      (forall m n, In (ENoGetter m n) frs <-> users (concat uss) n false = [] /\ last_of (users (concat uss) n true) = Some m)).
    { intros He Hs ->. rewrite (uses_empty _ _ _ _ _ _ He Fu). split; [intros f k []|]. split; [intros f k []|]. split; [intros m n b q []|]. split.
      - intros n g m. split; [intros H; apply Hs in H; destruct H; discriminate|intros [E _]; discriminate].
      - intros m n. split; [intros []|]. intros [_ E]. discriminate. }
    destruct e as [|c|c|r p]; cbn [finalize] in Efin.
    - injection Efin as <- <-. destruct Hn as (N1 & N2 & N3 & N4 & N5); [discriminate|intros s0 [<-|[]]; auto|reflexivity|].
      split; [repeat constructor|]. split; [reflexivity|]. split; [exact N1|]. split; [exact N2|]. split; [exact N3|]. split; [exact N4|].
      split; [constructor|]. split; [exact N5|]. split; [intros [E|[]]; discriminate|].
      intros (i & a & E & _). discriminate.
    - injection Efin as <- <-. destruct Hn as (N1 & N2 & N3 & N4 & N5); [discriminate|intros s0 [<-|[]]; auto|reflexivity|].
      split; [repeat constructor|]. split; [reflexivity|]. split; [exact N1|]. split; [exact N2|]. split; [exact N3|]. split; [exact N4|].
      split; [constructor|]. split; [exact N5|]. split; [intros [E|[]]; discriminate|].
      intros (i & a & E & _). discriminate.
    - assert (Hx : exists b : bool, fs = (if b then [SExportValues] else []) /\ frs = [] /\
        (b = true <-> exists i a, XEnum c = XEnum i /\ supports_enum (u_decls u i) = true /\ lookup_attrs (em_storage s) i = Some a /\
    (e_export_values (at_enum a) = Some true \/ (e_export_values (at_enum a) = None /\ x_scoped x i = false)))).
      { unfold get in Efin. destruct (supports_enum (u_decls u c)) eqn:Es.
        2:{ injection Efin as <- <-. exists false. split; [reflexivity|]. split; [reflexivity|]. split; [discriminate|]. intros (i & a & [= <-] & E & _). congruence. }
        destruct (lookup_attrs (em_storage s) c) as [a|] eqn:El; cbn [option_map] in Efin.
        2:{ injection Efin as <- <-. exists false. split; [reflexivity|]. split; [reflexivity|]. split; [discriminate|]. intros (i & a & [= <-] & _ & E & _). congruence. }
        exists (match e_export_values (at_enum a) with Some b => b | None => negb (x_scoped x c) end).
        assert (E : fs = (if match e_export_values (at_enum a) with Some b => b | None => negb (x_scoped x c) end then [SExportValues] else []) /\ frs = []).
        { destruct (match e_export_values (at_enum a) with Some b => b | None => negb (x_scoped x c) end); injection Efin as <- <-; auto. }
        destruct E as [-> ->]. split; [reflexivity|]. split; [reflexivity|]. split.
        - intros E. exists c, a. split; [reflexivity|]. split; [exact Es|]. split; [exact El|]. destruct (e_export_values (at_enum a)) as [b|]; [left; congruence|right].
          split; [reflexivity|]. apply negb_true_iff, E.
        - intros (i & a' & [= <-] & _ & E & Hd). rewrite El in E. injection E as <-. destruct Hd as [->|[-> ->]]; reflexivity. }
      destruct Hx as (b & -> & -> & Hb). destruct Hn as (N1 & N2 & N3 & N4 & N5); [discriminate|intros s0; destruct b; [intros [<-|[]]; auto|intros []]|reflexivity|].
      split; [destruct b; repeat constructor|]. split; [destruct b; auto|]. split; [exact N1|]. split; [exact N2|]. split; [exact N3|]. split; [exact N4|].
      split; [destruct b; constructor|]. split; [exact N5|].
      rewrite <- Hb. destruct b; cbn; intuition discriminate.
    - rewrite (surjective_pairing (emit_properties _)) in Efin. injection Efin as <- <-.
      assert (Fs : forall s0, In s0 (fst (emit_properties (em_properties s))) -> exists n g m, s0 = SProperty n g m).
      { intros s0 H. apply P1 in H. destruct H as (n & g & _ & ->). eauto. }
      assert (Fr : forall r0, In r0 (snd (emit_properties (em_properties s))) -> exists n m, r0 = ENoGetter m n).
      { intros s0 H. apply P2 in H. destruct H as (n & g & _ & _ & ->). eauto. }
      split; [apply Forall_forall; intros s0 H; destruct (Fs _ H) as (? & ? & ? & ->); reflexivity|].
      split; [apply Forall_forall; exact Fs|]. split; [intros f k H; destruct (Fr _ H) as (? & ? & E); discriminate|].
      split; [intros f k H; destruct (Fr _ H) as (? & ? & E); discriminate|]. split; [intros m n b q H; destruct (Fr _ H) as (? & ? & E); discriminate|].
      split; [|split; [exact P3|split]].
      + intros n g m. rewrite P1. split.
        * intros (n' & g' & Hg & [= -> -> ->]). rewrite A2 in *. auto.
        * intros [Hg ->]. exists n, g. rewrite !A2. auto.
      + intros m n. rewrite P2. split.
        * intros (n' & m' & Hg & Hs & [= -> ->]). rewrite A2 in *. cbn in *. split; [apply last_of_none, Hg|exact Hs].
        * intros [Hg Hs]. exists n, m. rewrite !A2. cbn. rewrite Hg. auto.
      + split; [intros H; destruct (Fs _ H) as (? & ? & ? & E); discriminate|]. intros (i & a & E & _). discriminate. }
  destruct Fin as (F1 & F2 & F3 & F4 & F5 & F6 & F7 & F8 & F9).
  assert (Pr : forall r, In r props -> exists m n b q, r = EAlreadyDefined m n b q).
  { intros r H. apply A3 in H. destruct H as (m & n & b & q & l1 & l2 & -> & _). eauto. }
  constructor; cbn [em_storage].
  - exists parts, fs. auto.
  - exact (proj1 G).
  - exact Sn.
  - exact So.
  - exact (proj2 G).
  - intros f k. rewrite in_app_iff, Sr. split.
    + intros [[H|[(i & Hi & H)|(i & d & _ & _ & E)]]|H]; [destruct (Pr _ H) as (? & ? & ? & ? & E); discriminate| |discriminate|destruct (F3 _ _ H)].
      pose proof H as (k' & s0 & _ & _ & _ & [= -> ->]). auto.
    + intros [Hf H]. left. right. left. eauto.
  - intros i d. rewrite in_app_iff, Sr. split.
    + intros [[H|[(j & _ & (? & ? & _ & _ & _ & E))|(j & d' & Hi & H & [= -> ->])]]|H]; [destruct (Pr _ H) as (? & ? & ? & ? & E); discriminate|discriminate|auto|destruct (F4 _ _ H)].
    + intros [Hi H]. left. right. right. eauto.
  - exists uss. split; [exact Fu|]. split; [|split; [|split]].
    + intros n g m. rewrite in_app_iff, F6. split; [intros [H|H]; [apply Cl in H; discriminate|exact H]|auto].
    + rewrite flat_map_app, (no_names _ Cl). exact F7.
    + intros m n. rewrite in_app_iff, Sr, F8. split; [|auto].
      intros [[H|[(j & _ & (? & ? & _ & _ & _ & E))|(j & d' & Hi & H & E)]]|H]; [destruct (Pr _ H) as (? & ? & ? & ? & E); discriminate|discriminate|discriminate|exact H].
    + intros m n b q. rewrite in_app_iff, Sr, A3. split.
      * intros [[(m' & n' & b' & q' & l1 & l2 & [= -> -> -> ->] & H)|[(j & _ & (? & ? & _ & _ & _ & E))|(j & d' & Hi & H & E)]]|H]; [eauto|discriminate|discriminate|destruct (F5 _ _ _ _ H)].
      * intros (l1 & l2 & H). left. left. eauto 10.
  - rewrite in_app_iff, F9. split; [intros [H|H]; [apply Cl in H; discriminate|exact H]|auto].
Qed.
