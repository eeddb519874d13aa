(** * Proofs about the bindings emitted for one context *)
From Verif Require Import Base ParserModel AnnotModel AnnotSpec AnnotProofs AnnotStore AnnotFinal CollectModel GraphModel GraphWalk GraphProofs InlineModel EmitModel EmitSpec.

(** ** Parameters *)

Lemma kinds_of p : (pm_variadic p = Some Kwargs /\ is_kwargs p = true /\ is_ordinary p = false) \/
  (pm_variadic p = Some Args /\ is_kwargs p = false /\ is_ordinary p = false) \/ (pm_variadic p = None /\ is_kwargs p = false /\ is_ordinary p = true).
Proof. unfold is_kwargs, is_ordinary. destruct (pm_variadic p) as [[]|]; auto. Qed.

Lemma after_kwargs f a ps : forall index pos k, exists rs, emit_parameters f a index pos (Some k) ps = ([], rs) /\
  ((rs = [] /\ forall p, In p ps -> is_ordinary p = false) \/
   exists l1 q l2, ps = l1 ++ q :: l2 /\ is_ordinary q = true /\ (forall r, In r l1 -> is_ordinary r = false) /\
     ((forall r, In r l1 -> is_kwargs r = false) /\ rs = [ETrailingParameters f k] \/
      exists m1 p m2, l1 = m1 ++ p :: m2 /\ is_kwargs p = true /\ (forall r, In r m2 -> is_kwargs r = false) /\ rs = [ETrailingParameters f (pos + length m1)])).
Proof.
  induction ps as [|p ps IH]; intros index pos k; cbn [emit_parameters].
  - exists []. split; [reflexivity|]. left. split; [reflexivity|]. intros p [].
  - destruct (kinds_of p) as [(E & K & O)|[(E & K & O)|(E & K & O)]]; rewrite E.
    + destruct (IH index (S pos) pos) as (rs & -> & H). exists rs. split; [reflexivity|].
      destruct H as [[-> H]|(l1 & q & l2 & -> & Oq & H1 & H2)].
      * left. split; [reflexivity|]. intros r [<-|Hr]; auto.
      * right. exists (p :: l1), q, l2. split; [reflexivity|]. split; [exact Oq|]. split; [intros r [<-|Hr]; auto|]. right.
        destruct H2 as [[H2 ->]|(m1 & p' & m2 & -> & Kp & H2 & ->)].
        -- exists [], p, l1. split; [reflexivity|]. split; [exact K|]. split; [exact H2|]. cbn. rewrite Nat.add_0_r. reflexivity.
        -- exists (p :: m1), p', m2. split; [reflexivity|]. split; [exact Kp|]. split; [exact H2|]. cbn [length]. f_equal. f_equal. lia.
    + destruct (IH index (S pos) k) as (rs & -> & H). exists rs. split; [reflexivity|].
      destruct H as [[-> H]|(l1 & q & l2 & -> & Oq & H1 & H2)].
      * left. split; [reflexivity|]. intros r [<-|Hr]; auto.
      * right. exists (p :: l1), q, l2. split; [reflexivity|]. split; [exact Oq|]. split; [intros r [<-|Hr]; auto|].
        destruct H2 as [[H2 ->]|(m1 & p' & m2 & -> & Kp & H2 & ->)].
        -- left. split; [|reflexivity]. intros r [<-|Hr]; auto.
        -- right. exists (p :: m1), p', m2. split; [reflexivity|]. split; [exact Kp|]. split; [exact H2|]. cbn [length]. f_equal. f_equal. lia.
    + exists [ETrailingParameters f k]. split; [reflexivity|]. right. exists [], p, ps. split; [reflexivity|]. split; [exact O|].
      split; [intros r []|]. left. split; [intros r []|reflexivity].
Qed.

Lemma parameters_spec f a ps : forall index pos, exists args rs, emit_parameters f a index pos None ps = (args, rs) /\
  (length args = length (described_params ps) /\
   forall k p g, nth_error (described_params ps) k = Some p -> nth_error args k = Some g ->
     ar_name g = pm_name p /\ ar_default g = pm_default p /\
     (ar_noconvert g = true <-> In (index + k) (fn_noconvert a)) /\ (ar_required g = true <-> In (index + k) (fn_required a))) /\
  ((rs = [] /\ forall k, ~ trailing ps k) \/ exists k, rs = [ETrailingParameters f (pos + k)] /\ trailing ps k).
Proof.
  unfold described_params. induction ps as [|p ps IH]; intros index pos; cbn [emit_parameters].
  - exists [], []. split; [reflexivity|]. split.
    + split; [reflexivity|]. intros [|k] p g; discriminate.
    + left. split; [reflexivity|]. intros k (l1 & p & l2 & q & l3 & E & _). destruct l1; discriminate.
  - destruct (kinds_of p) as [(E & K & O)|[(E & K & O)|(E & K & O)]]; rewrite E; cbn [take_while]; rewrite K; cbn [negb filter].
    + destruct (after_kwargs f a ps index (S pos) pos) as (rs & -> & H). exists [], rs. split; [reflexivity|]. split.
      * split; [reflexivity|]. intros [|k] r g; discriminate.
      * destruct H as [[-> H]|(l1 & q & l2 & -> & Oq & H1 & H2)].
        -- left. split; [reflexivity|]. intros k (m1 & p' & m2 & q & m3 & Eq & _ & _ & Oq & _).
           destruct m1 as [|r m1]; cbn in Eq; injection Eq as -> ->;
             (rewrite H in Oq; [discriminate|]); rewrite ?in_app_iff; cbn; rewrite ?in_app_iff; cbn; auto 6.
        -- right. destruct H2 as [[H2 ->]|(m1 & p' & m2 & -> & Kp & H2 & ->)].
           ++ exists 0. rewrite Nat.add_0_r. split; [reflexivity|]. exists [], p, l1, q, l2. repeat split; auto.
              intros m1 m m2 r Em. destruct m1; discriminate.
           ++ exists (S (length m1)). split; [f_equal; f_equal; lia|]. exists (p :: m1), p', m2, q, l2.
              split; [cbn; rewrite <- app_assoc; reflexivity|]. repeat split; auto.
              ** apply H1. rewrite in_app_iff. cbn. auto.
              ** intros n1 n n2 r En Kn Hr. apply H1. rewrite in_app_iff. left.
                 destruct n1; cbn in En; injection En as -> ->; [auto|]. rewrite in_app_iff. cbn. auto.
    + rewrite O. destruct (IH index (S pos)) as (args & rs & -> & Hd & Ht). exists args, rs. split; [reflexivity|]. split; [exact Hd|].
      destruct Ht as [[-> H]|(k & -> & H)].
      * left. split; [reflexivity|]. intros k (m1 & p' & m2 & q & m3 & Eq & El & Kp & Oq & H1 & H2).
        destruct m1 as [|r m1]; cbn in Eq; injection Eq as -> ->; [congruence|].
        apply (H (length m1)). exists m1, p', m2, q, m3. repeat split; auto; try apply H1; auto.
        intros n1 n n2 t -> Kn Ht. apply (H2 (r :: n1) n n2); auto.
      * right. exists (S k). split; [f_equal; f_equal; lia|]. destruct H as (m1 & p' & m2 & q & m3 & -> & El & Kp & Oq & H1 & H2).
        exists (p :: m1), p', m2, q, m3. split; [reflexivity|]. split; [cbn; lia|]. repeat split; auto; try apply H1; auto.
        intros n1 n n2 t En Kn Ht. destruct n1; cbn in En; injection En as -> ->; [congruence|]. eapply H2; eauto.
    + rewrite O. destruct (IH (S index) (S pos)) as (args & rs & -> & (Hl & Hd) & Ht). eexists (_ :: args), rs. split; [reflexivity|]. split.
      * split; [cbn [length]; congruence|]. intros [|k] r g; cbn [nth_error].
        -- intros [= <-] [= <-]. cbn [ar_name ar_default ar_noconvert ar_required]. rewrite Nat.add_0_r, !mem_iff. repeat split; auto.
        -- intros Hr Hg. destruct (Hd k r g Hr Hg) as (A & B & C & D). rewrite <- Nat.add_succ_comm. auto.
      * destruct Ht as [[-> H]|(k & -> & H)].
        -- left. split; [reflexivity|]. intros k (m1 & p' & m2 & q & m3 & Eq & El & Kp & Oq & H1 & H2).
           destruct m1 as [|r m1]; cbn in Eq; injection Eq as -> ->; [congruence|].
           apply (H (length m1)). exists m1, p', m2, q, m3. repeat split; auto; try apply H1; auto.
           intros n1 n n2 t -> Kn Ht. apply (H2 (r :: n1) n n2); auto.
        -- right. exists (S k). split; [f_equal; f_equal; lia|]. destruct H as (m1 & p' & m2 & q & m3 & -> & El & Kp & Oq & H1 & H2).
           exists (p :: m1), p', m2, q, m3. split; [reflexivity|]. split; [cbn; lia|]. repeat split; auto; try apply H1; auto.
           intros n1 n n2 t En Kn Ht. destruct n1; cbn in En; injection En as -> ->; [congruence|]. eapply H2; eauto.
Qed.

Lemma arg_ext g g' : ar_name g = ar_name g' -> ar_default g = ar_default g' -> (ar_noconvert g = true <-> ar_noconvert g' = true) ->
  (ar_required g = true <-> ar_required g' = true) -> g = g'.
Proof.
  destruct g as [n b c d], g' as [n' b' c' d']; cbn. intros -> -> H1 H2. f_equal; apply Bool.eq_true_iff_eq; assumption.
Qed.

Lemma nth_error_ext {A} (l : list A) : forall l', length l = length l' -> (forall k a b, nth_error l k = Some a -> nth_error l' k = Some b -> a = b) -> l = l'.
Proof.
  induction l as [|x l IH]; intros [|y l'] E H; try discriminate; [reflexivity|]. f_equal.
  - exact (H 0 x y eq_refl eq_refl).
  - apply IH; [cbn in E; congruence|]. intros k. apply (H (S k)).
Qed.

Lemma describes_unique a ps args args' : describes a ps args -> describes a ps args' -> args = args'.
Proof.
  intros [L H] [L' H']. apply nth_error_ext; [congruence|]. intros k g g' Hg Hg'.
  destruct (nth_error (described_params ps) k) as [p|] eqn:E.
  2:{ apply nth_error_None in E. rewrite <- L in E. apply nth_error_None in E. congruence. }
  destruct (H k p g E Hg) as (A & B & C & D). destruct (H' k p g' E Hg') as (A' & B' & C' & D').
  apply arg_ext; try congruence; [rewrite C, C'|rewrite D, D']; reflexivity.
Qed.

Lemma parameters_described x f a : exists args rs, parameters x f a = (args, rs) /\ describes a (fi_params (x_fn x f)) args /\
  ((rs = [] /\ forall k, ~ trailing (fi_params (x_fn x f)) k) \/ exists k, rs = [ETrailingParameters f k] /\ trailing (fi_params (x_fn x f)) k).
Proof. exact (parameters_spec f a (fi_params (x_fn x f)) 0 0). Qed.

(** ** What is bound for one declaration *)

Lemma get_stored {A} u st (sup : decl -> bool) (proj : attrs -> A) i a : lookup_attrs st i = Some a ->
  get u st sup proj i = if sup (u_decls u i) then Some (proj a) else None.
Proof. intros H. unfold get. rewrite H. reflexivity. Qed.

Lemma lookup_or_stored {A} u st (sup : decl -> bool) (proj : attrs -> A) i a : lookup_attrs st i = Some a -> sup (u_decls u i) = true ->
  lookup_or u st sup proj i = proj a.
Proof. intros H E. unfold lookup_or. rewrite (get_stored _ _ _ _ _ _ H), E. reflexivity. Qed.

Lemma is_empty_iff {A} (l : list A) : is_empty l = true <-> l = [].
Proof. destruct l; cbn; split; congruence. Qed.

Lemma is_empty_false {A} (l : list A) : is_empty l = false <-> l <> [].
Proof. destruct l; cbn; split; congruence. Qed.

Lemma spelling_called u st i a fallback : lookup_attrs st i = Some a -> called u a i fallback (spelling u st i fallback).
Proof.
  intros H. unfold spelling, called. rewrite (lookup_or_stored _ _ _ _ _ _ H eq_refl).
  destruct (n_spelling (at_named a)); cbn; [|left; split; [discriminate|reflexivity]]. right.
  destruct fallback; cbn; [right|left]; repeat split; discriminate.
Qed.

Lemma called_unique u a i fallback n m : called u a i fallback n -> called u a i fallback m -> n = m.
Proof. unfold called. intros [[? ->]|[(? & ? & ->)|(? & ? & ->)]] [[? ->]|[(? & ? & ->)|(? & ? & ->)]]; congruence. Qed.

Lemma not_property a : negb (is_empty (m_getter_for (at_method a))) || negb (is_empty (m_setter_for (at_method a))) = false <-> ~ is_property a.
Proof.
  unfold is_property. destruct (m_getter_for (at_method a)), (m_setter_for (at_method a)); cbn; split; try congruence; try tauto;
    intros H; exfalso; apply H; try (left; discriminate); right; discriminate.
Qed.

Lemma property_iff a : negb (is_empty (m_getter_for (at_method a))) || negb (is_empty (m_setter_for (at_method a))) = true <-> is_property a.
Proof.
  unfold is_property. destruct (m_getter_for (at_method a)), (m_setter_for (at_method a)); cbn; split; try congruence; try tauto;
    intros H; try (left; discriminate); try (right; discriminate).
Qed.

Lemma static_iff u i : supports_function (u_decls u i) = true -> kind u i <> KConstructor ->
  (is_method u i && d_static (u_decls u i) = true <-> (exists o, kind u i = KMethod o \/ kind u i = KConversion) /\ d_static (u_decls u i) = true).
Proof.
  unfold supports_function, is_method, kind. intros H Hc. rewrite andb_true_iff. apply and_iff_compat_r.
  destruct (d_kind (u_decls u i)) eqn:E; try discriminate; try congruence; split; try discriminate; try reflexivity; intros H1.
  - destruct H1 as [oo [H1|H1]]; discriminate.
  - eexists. left. reflexivity.
  - exists NoOperator. right. reflexivity.
Qed.

Lemma function_part u x st i a : lookup_attrs st i = Some a -> supports_function (u_decls u i) = true -> kind u i <> KConstructor ->
  (supports_method (u_decls u i) = true -> ~ is_property a) -> fi_deleted (x_fn x i) = false -> forall s,
  let '(args, _) := parameters x i (at_function a) in
  s = SFunction (is_method u i && d_static (u_decls u i)) (spelling u st i (if match fi_operator (x_fn x i) with Some OCall => true | _ => false end then $"__call__" else [])) i args (at_function a)
  <-> bound_function u x i a s.
Proof.
  intros H Hs Hc Hp Hd s. destruct (parameters_described x i (at_function a)) as (args & rs & -> & D & _).
  assert (Ef : @eq str (if match fi_operator (x_fn x i) with Some OCall => true | _ => false end then $"__call__" else [])
    (match fi_operator (x_fn x i) with Some OCall => $"__call__" | _ => [] end)) by (destruct (fi_operator (x_fn x i)) as [[]|]; reflexivity).
  rewrite Ef. split.
  - intros ->. constructor; auto; [apply spelling_called; exact H|apply static_iff; assumption].
  - intros [static n args' _ _ _ _ Hn Hst Hd']. f_equal.
    + apply Bool.eq_true_iff_eq. rewrite Hst. symmetry. apply static_iff; assumption.
    + eapply called_unique; [exact Hn|]. apply spelling_called. exact H.
    + eapply describes_unique; eassumption.
Qed.

Lemma generic_part u x st i a ss rs : lookup_attrs st i = Some a -> handle_generic u x st i = Some (ss, rs) ->
  NoDup ss /\ forall s, In s ss <-> bound_in_namespace u x i a s.
Proof.
  intros H. unfold handle_generic, get_typedef. rewrite !(get_stored _ _ _ _ _ _ H), (lookup_or_stored _ _ _ _ _ _ H eq_refl).
  unfold has. rewrite H, andb_true_r.
  assert (None_ : forall P : stmt -> Prop, (forall s, ~ P s) -> NoDup (@nil stmt) /\ forall s, In s [] <-> P s).
  { intros P HP. split; [constructor|]. intros s. split; [intros []|]. intros Hs. exact (HP s Hs). }
  assert (One : forall t (P : stmt -> Prop), (forall s, s = t <-> P s) -> NoDup [t] /\ forall s, In s [t] <-> P s).
  { intros t P HP. split; [repeat constructor; intros []|]. intros s. rewrite <- HP. cbn. split; [intros [<-|[]]; reflexivity|intros ->; auto]. }
  destruct (supports_constructor (u_decls u i)) eqn:Ec; [discriminate|].
  assert (Hc : kind u i <> KConstructor).
  { unfold supports_constructor in Ec. unfold kind. intros E. rewrite E in Ec. discriminate. }
  destruct (is_typedef (u_decls u i)) eqn:Et.
  - assert (K : kind u i = KTypedef) by (unfold is_typedef in Et; unfold kind; destruct (d_kind (u_decls u i)); congruence).
    assert (Ks : supports_function (u_decls u i) = false) by (unfold supports_function; unfold kind in K; rewrite K; reflexivity).
    assert (Inv : forall s, bound_in_namespace u x i a s -> bound_alias u x i a s).
    { intros s [s' Hf|s' Ha|n Kv|l [Kv|Kv]]; [destruct Hf; congruence|exact Ha|congruence..]. }
    destruct (n_visible (at_named a)) as [v|] eqn:Ev.
    + destruct (t_expose_here (at_typedef a)) eqn:Eh.
      { intros [= <- <-]. apply None_. intros s Hs%Inv. destruct Hs. congruence. }
      destruct (x_tag x i) as [t|] eqn:Ex.
      * intros [= <- <-]. apply One. intros s. split.
        -- intros ->. apply ns_alias. econstructor; eauto. apply spelling_called, H.
        -- intros Hs%Inv. destruct Hs as [v' n t' _ _ _ Ex' Hn]. f_equal; [|congruence]. eapply called_unique; [exact Hn|]. apply spelling_called, H.
      * intros [= <- <-]. apply None_. intros s Hs%Inv. destruct Hs. congruence.
    + intros [= <- <-]. apply None_. intros s Hs%Inv. destruct Hs. congruence.
  - assert (Kt : kind u i <> KTypedef) by (unfold is_typedef in Et; unfold kind; intros E; rewrite E in Et; discriminate).
    assert (Na : forall s, ~ bound_alias u x i a s) by (intros s []; congruence).
    destruct (supports_field (u_decls u i)) eqn:Ef.
    + assert (Ks : supports_function (u_decls u i) = false) by (unfold supports_field in Ef; unfold supports_function; destruct (d_kind (u_decls u i)); congruence).
      destruct (f_manual (at_field a)) as [l|] eqn:Em.
      * destruct (f_postamble (at_field a)) eqn:Ep; intros [= <- <-].
        -- apply None_. intros s [s' Hf|s' Ha|n Kv|l' Kv]; [destruct Hf; congruence|exact (Na _ Ha)|congruence|congruence].
        -- apply One. intros s. split.
           ** intros ->. apply ns_manual; [|assumption..]. unfold kind. unfold supports_field in Ef. destruct (d_kind (u_decls u i)); auto; discriminate.
           ** intros [s' Hf|s' Ha|n _ Hm|l' _ Hm]; [destruct Hf; congruence|destruct (Na _ Ha)|congruence|congruence].
      * unfold kind at 1. destruct (d_kind (u_decls u i)) eqn:K; unfold supports_field in Ef; rewrite K in Ef; try discriminate.
        intros [= <- <-]. apply One. intros s. split.
        -- intros ->. apply ns_variable; [exact K|assumption|]. apply spelling_called, H.
        -- intros [s' Hf|s' Ha|n _ _ Hn|l' _ Hm]; [destruct Hf; congruence|destruct (Na _ Ha)| |congruence]. f_equal. eapply called_unique; [exact Hn|]. apply spelling_called, H.
    + assert (Kv : kind u i <> KVar) by (unfold supports_field in Ef; unfold kind; intros E; rewrite E in Ef; discriminate).
      assert (Kf : kind u i <> KField) by (unfold supports_field in Ef; unfold kind; intros E; rewrite E in Ef; discriminate).
      assert (Inv : forall s, bound_in_namespace u x i a s <-> bound_function u x i a s).
      { intros s. split; [|apply ns_function]. intros [s' Hf|s' Ha|n Kv'|l [Kv'|Kv']]; [exact Hf|destruct (Na _ Ha)|congruence|congruence|congruence]. }
      destruct (supports_method (u_decls u i)) eqn:Em.
      * destruct (_ || _) eqn:Ep.
        { intros [= <- <-]. apply None_. intros s Hs%Inv. apply property_iff in Ep. destruct Hs as [? ? ? _ _ Hp]. exact (Hp Em Ep). }
        apply not_property in Ep. destruct (supports_function (u_decls u i)) eqn:Es.
        2:{ intros [= <- <-]. apply None_. intros s Hs%Inv. destruct Hs. congruence. }
        destruct (fi_deleted (x_fn x i)) eqn:Ed.
        { intros [= <- <-]. apply None_. intros s Hs%Inv. destruct Hs. congruence. }
        pose proof (function_part u x st i a H Es Hc (fun _ => Ep) Ed) as F. destruct (parameters x i (at_function a)) as [args rs'].
        intros [= <- <-]. apply One. intros s. rewrite Inv. apply F.
      * destruct (supports_function (u_decls u i)) eqn:Es.
        2:{ intros [= <- <-]. apply None_. intros s Hs%Inv. destruct Hs. congruence. }
        destruct (fi_deleted (x_fn x i)) eqn:Ed.
        { intros [= <- <-]. apply None_. intros s Hs%Inv. destruct Hs. congruence. }
        pose proof (function_part u x st i a H Es Hc) as F. rewrite Em in F. specialize (F ltac:(discriminate) Ed).
        destruct (parameters x i (at_function a)) as [args rs'].
        intros [= <- <-]. apply One. intros s. rewrite Inv. apply F.
Qed.

Lemma none_bound (P : stmt -> Prop) : (forall s, ~ P s) -> NoDup (@nil stmt) /\ forall s, In s [] <-> P s.
Proof. intros HP. split; [constructor|]. intros s. split; [intros []|]. intros Hs. exact (HP s Hs). Qed.

Lemma one_bound t (P : stmt -> Prop) : (forall s, s = t <-> P s) -> NoDup [t] /\ forall s, In s [t] <-> P s.
Proof.
  intros HP. split; [repeat constructor; intros []|]. intros s. rewrite <- HP. cbn. split; [intros [<-|[]]; reflexivity|intros ->; auto].
Qed.

Lemma operator_kind u i : supports_operator (u_decls u i) = true ->
  (kind u i = KFunction OtherOperator /\ is_method u i = false) \/ (kind u i = KMethod OtherOperator /\ is_method u i = true).
Proof.
  unfold supports_operator, is_method, kind. destruct (d_kind (u_decls u i)) as [| | | | | |[]|[]| | | | |]; try discriminate; auto.
Qed.

Lemma operands_iff u x r i types : supports_operator (u_decls u i) = true -> (operands u x r i types <-> types = operand_types u x r i).
Proof.
  intros Hs. unfold operands, operand_types. destruct (operator_kind u i Hs) as [[K ->]|[K ->]]; cbn [app]; split.
  - intros (params & -> & [[_ ->]|[E _]]); [reflexivity|congruence].
  - intros ->. eexists. split; [reflexivity|]. auto.
  - intros (params & -> & [[E _]|[_ ->]]); [congruence|reflexivity].
  - intros ->. eexists. split; [reflexivity|]. auto.
Qed.

Lemma ostream_true u x i k : supports_operator (u_decls u i) = true ->
  (is_ostream_operator u x i k = Some true <-> k = OLessLess /\ kind u i = KFunction OtherOperator /\ fi_pointee (x_fn x i) = Named true).
Proof.
  intros Hs. unfold is_ostream_operator. destruct (operator_kind u i Hs) as [[K ->]|[K ->]]; cbn [orb].
  - destruct k; cbn; try (split; [discriminate|intros (E & _); discriminate E]).
    destruct (fi_pointee (x_fn x i)); split; try discriminate; try (intros (_ & _ & E); discriminate E).
    + intros [= ->]. auto.
    + intros (_ & _ & [= ->]). reflexivity.
  - split; [discriminate|]. intros (_ & E & _). congruence.
Qed.

Lemma emit_operator_inv u x r i k ss : emit_operator u x r i k = Some ss ->
  let types := operand_types u x r i in
  (ss = [] /\ (never_emitted k = true \/ (length types = 1 /\ (k = OStar \/ k = OAmp)))) \/
  (never_emitted k = false /\ ~ (length types = 1 /\ (k = OStar \/ k = OAmp)) /\ (length types = 1 \/ length types = 2) /\
   ss = [SOperator (match types with lhs :: _ :: _ => binary_name k (negb (core_eqb (ty_core lhs) (CRecord r))) | _ => unary_name k end) i
     (mkLambda (match types with [lhs; rhs] => if core_eqb (ty_core lhs) (CRecord r) then [lhs; rhs] else [rhs; lhs] | _ => types end)
          (fi_result (x_fn x i)) k (match types with [lhs; rhs] => if core_eqb (ty_core lhs) (CRecord r) then [Lhs; Rhs] else [Rhs; Lhs] | _ => [Lhs] end))]).
Proof.
  unfold emit_operator. cbn zeta. destruct (never_emitted k) eqn:En; [intros [= <-]; left; auto|].
  assert (Hk : (match k with OStar | OAmp => true | _ => false end) = true <-> k = OStar \/ k = OAmp).
  { destruct k; split; intros H; try discriminate; auto; destruct H; discriminate. }
  destruct (operand_types u x r i) as [|lhs [|rhs [|? ?]]]; cbn [length Nat.eqb andb].
  - discriminate.
  - destruct (match k with OStar | OAmp => true | _ => false end).
    + intros [= <-]. left. split; [reflexivity|]. right. split; [reflexivity|]. apply Hk. reflexivity.
    + cbn [option_map operator_lambda rev app]. intros [= <-]. right. split; [reflexivity|]. split; [intros [_ H]; apply Hk in H; discriminate|]. split; [auto|].
      destruct (negb _); reflexivity.
  - cbn [option_map operator_lambda rev app]. intros [= <-]. right. split; [reflexivity|]. split; [intros [E _]; discriminate|]. split; [auto|].
    destruct (core_eqb _ _); reflexivity.
  - discriminate.
Qed.

Lemma operator_part u x st r i a ss rs : lookup_attrs st i = Some a -> supports_operator (u_decls u i) = true ->
  handle_operator u x st r i = Some (ss, rs) -> rs = [] /\ NoDup ss /\ forall s, In s ss <-> bound_in_record u x r i a s.
Proof.
  intros H Hs. unfold handle_operator, get_named. rewrite (get_stored _ _ _ _ _ _ H).
  assert (Ne : kind u i <> KTypedef /\ kind u i <> KVar /\ kind u i <> KField /\ kind u i <> KConstructor).
  { destruct (operator_kind u i Hs) as [[-> _]|[-> _]]; repeat split; discriminate. }
  destruct Ne as (N1 & N2 & N3 & N4).
  assert (Inv : forall s, bound_in_record u x r i a s ->
    fi_deleted (x_fn x i) = false /\ ((exists n, s = SPrint n r /\ kind u i = KFunction OtherOperator /\ fi_operator (x_fn x i) = Some OLessLess /\
      fi_pointee (x_fn x i) = Named true /\ n_spelling (at_named a) = n /\ n <> []) \/
     exists k, fi_operator (x_fn x i) = Some k /\ ~ (k = OLessLess /\ kind u i = KFunction OtherOperator /\ fi_pointee (x_fn x i) = Named true) /\
       never_emitted k = false /\ ~ (length (operand_types u x r i) = 1 /\ (k = OStar \/ k = OAmp)) /\
       s = SOperator (match operand_types u x r i with lhs :: _ :: _ => binary_name k (negb (core_eqb (ty_core lhs) (CRecord r))) | _ => unary_name k end) i
     (mkLambda (match operand_types u x r i with [lhs; rhs] => if core_eqb (ty_core lhs) (CRecord r) then [lhs; rhs] else [rhs; lhs] | _ => operand_types u x r i end)
          (fi_result (x_fn x i)) k (match operand_types u x r i with [lhs; rhs] => if core_eqb (ty_core lhs) (CRecord r) then [Lhs; Rhs] else [Rhs; Lhs] | _ => [Lhs] end)))).
  { intros s [s' E _|s' []|l [E|E]|? ? ? [[E _]|[E _]]|? E|? ? E|n K Ho Hd Hp En Hn|k types n l Ho Hd _ Hnp Hne Hops Hnu -> ->]; try congruence.
    - split; [exact Hd|]. left. exists n. auto 6.
    - split; [exact Hd|]. right. apply operands_iff in Hops; [|exact Hs]. subst types. exists k. auto 6. }
  destruct (fi_deleted (x_fn x i)) eqn:Ed.
  { intros [= <- <-]. split; [reflexivity|]. apply none_bound. intros s [E _]%Inv. discriminate. }
  destruct (fi_operator (x_fn x i)) as [k|] eqn:Eo; [|discriminate].
  intros H1. assert (Hk : k <> OCall) by (intros ->; discriminate).
  assert (H2 : match is_ostream_operator u x i k with
        | None => None
        | Some true => if is_empty (n_spelling (at_named a)) then nothing else says (SPrint (n_spelling (at_named a)) r)
        | Some false => option_map (fun ss => (ss, [])) (emit_operator u x r i k)
        end = Some (ss, rs)) by (destruct k; try exact H1; congruence).
  clear H1. destruct (is_ostream_operator u x i k) as [[]|] eqn:Es; [| |discriminate].
  - apply ostream_true in Es; [|exact Hs]. destruct Es as (-> & K & Hp). destruct (is_empty _) eqn:Ee.
    + injection H2 as <- <-. split; [reflexivity|]. apply none_bound. intros s [_ [(n & _ & _ & _ & _ & <- & Hn)|(k & [= <-] & Hn & _)]]%Inv.
      * apply is_empty_iff in Ee. contradiction.
      * apply Hn. auto.
    + injection H2 as <- <-. apply is_empty_false in Ee. split; [reflexivity|]. apply one_bound. intros s. split.
      * intros ->. apply rec_print; auto.
      * intros [_ [(n & -> & _ & _ & _ & <- & Hn)|(k & [= <-] & Hn & _)]]%Inv; [reflexivity|]. exfalso. apply Hn. auto.
  - assert (Hno : ~ (k = OLessLess /\ kind u i = KFunction OtherOperator /\ fi_pointee (x_fn x i) = Named true)).
    { rewrite <- (ostream_true u x i k Hs). congruence. }
    destruct (emit_operator u x r i k) as [ss'|] eqn:E; [|discriminate]. injection H2 as <- <-. split; [reflexivity|].
    apply emit_operator_inv in E. cbn zeta in E. destruct E as [[-> E]|(E1 & E2 & E3 & ->)].
    + apply none_bound. intros s [_ [(n & _ & K & [= ->] & Hp & _)|(k' & [= <-] & _ & Hn & Hu & _)]]%Inv; [tauto|]. destruct E as [E|E]; [congruence|tauto].
    + apply one_bound. intros s. split.
      * intros ->. eapply rec_operator; eauto. apply operands_iff; [exact Hs|reflexivity].
      * intros [_ [(n & _ & K & [= ->] & Hp & _)|(k' & [= <-] & _ & Hn & Hu & ->)]]%Inv; [tauto|]. reflexivity.
Qed.

Lemma constructor_part u x st r i a ss rs : lookup_attrs st i = Some a -> kind u i = KConstructor ->
  handle_constructor u x st r i (at_implicit_conversion a) = Some (ss, rs) -> NoDup ss /\ forall s, In s ss <-> bound_in_record u x r i a s.
Proof.
  intros H K. assert (Es : supports_function (u_decls u i) = true) by (unfold supports_function; unfold kind in K; rewrite K; reflexivity).
  assert (Eo : supports_operator (u_decls u i) = false) by (unfold supports_operator; unfold kind in K; rewrite K; reflexivity).
  unfold handle_constructor. cbn zeta. rewrite (lookup_or_stored _ _ _ _ _ _ H Es).
  assert (Inv : forall s, bound_in_record u x r i a s -> fi_move (x_fn x i) = false /\ fi_deleted (x_fn x i) = false /\ x_abstract x r = false /\
    ((exists args, describes (at_function a) (fi_params (x_fn x i)) args /\ s = SInit i (map pm_type (fi_params (x_fn x i))) args (at_function a)) \/
     (at_implicit_conversion a = true /\ exists p ps, fi_params (x_fn x i) = p :: ps /\ s = SConvertible (Some (pm_type p)) r))).
  { intros s [s' _ []|s' []|l [E|E]|? ? ? [[E _]|[E _]]|args _ H1 H2 H3 H4|p ps _ H1 H2 H3 H4 H5|? E|? ? ? ? ? _ E]; try congruence.
    - eauto 8.
    - split; [exact H1|]. split; [exact H2|]. split; [exact H3|]. right. eauto. }
  destruct (fi_move (x_fn x i)) eqn:E1; cbn [orb].
  { intros [= <- <-]. apply none_bound. intros s [E _]%Inv. discriminate. }
  destruct (fi_deleted (x_fn x i)) eqn:E2; cbn [orb].
  { intros [= <- <-]. apply none_bound. intros s (_ & E & _)%Inv. discriminate. }
  destruct (x_abstract x r) eqn:E3.
  { intros [= <- <-]. apply none_bound. intros s (_ & _ & E & _)%Inv. discriminate. }
  destruct (parameters_described x i (at_function a)) as (args & rs' & -> & D & _).
  destruct (at_implicit_conversion a) eqn:Ei.
  - destruct (fi_params (x_fn x i)) as [|p ps] eqn:Ep; [discriminate|]. intros [= <- <-]. rewrite <- Ep in *. split.
    + repeat constructor; cbn; intros Hx; decompose [or] Hx; try discriminate; contradiction.
    + intros s. split.
      * intros [<-|[<-|[]]]; [eapply rec_convertible; eauto|]. change (pm_type p :: map pm_type ps) with (map pm_type (p :: ps)). rewrite <- Ep. eapply rec_init; eauto.
      * intros (_ & _ & _ & [(args' & D' & ->)|(_ & p' & ps' & E & ->)])%Inv.
        -- right. left. change (pm_type p :: map pm_type ps) with (map pm_type (p :: ps)). rewrite <- Ep. f_equal. eapply describes_unique; eassumption.
        -- left. congruence.
  - intros [= <- <-]. apply one_bound. intros s. split.
    + intros ->. eapply rec_init; eauto.
    + intros (_ & _ & _ & [(args' & D' & ->)|(E & _)])%Inv; [|discriminate]. f_equal. eapply describes_unique; eassumption.
Qed.

Lemma kind_cases u i :
  (supports_constructor (u_decls u i) = true <-> kind u i = KConstructor) /\
  (supports_field (u_decls u i) = true <-> kind u i = KVar \/ kind u i = KField).
Proof.
  unfold supports_constructor, supports_field, kind. destruct (d_kind (u_decls u i)); split; split; intros H; try discriminate; auto;
    destruct H; discriminate.
Qed.

Lemma record_part u x st r i a ps ss rs ps' : lookup_attrs st i = Some a -> handle_record u x st r i ps = Some (ss, rs, ps') ->
  NoDup ss /\ forall s, In s ss <-> bound_in_record u x r i a s.
Proof.
  intros H. unfold handle_record. cbn zeta. rewrite !(get_stored _ _ _ _ _ _ H). destruct (kind_cases u i) as [Kc Kf].
  destruct (supports_constructor (u_decls u i)) eqn:Ec.
  { pose proof (proj1 Kc eq_refl) as K. intros E. eapply constructor_part; eauto.
    destruct (handle_constructor u x st r i (at_implicit_conversion a)) as [[? ?]|]; [|discriminate]. cbn in E. injection E as <- <- <-. reflexivity. }
  assert (Nc : kind u i <> KConstructor) by (intros E; apply Kc in E; discriminate).
  destruct (supports_operator (u_decls u i)) eqn:Eo.
  { intros E. destruct (operator_part u x st r i a ss rs H Eo) as [_ R]; [|exact R].
    destruct (handle_operator u x st r i) as [[? ?]|]; [|discriminate]. cbn in E. injection E as <- <- <-. reflexivity. }
  assert (Nf : kind u i <> KFunction OtherOperator /\ kind u i <> KMethod OtherOperator).
  { unfold supports_operator in Eo. unfold kind. destruct (d_kind (u_decls u i)) as [| | | | | |[]|[]| | | | |]; split; congruence. }
  destruct Nf as [Nf1 Nf2].
  assert (Inv : forall s, bound_in_record u x r i a s -> bound_function u x i a s \/ bound_alias u x i a s \/
    (kind u i = KVar \/ kind u i = KField) /\
      ((exists l, f_manual (at_field a) = Some l /\ s = SManual l) \/
       exists static readonly n, ((kind u i = KField /\ static = false) \/ (kind u i = KVar /\ static = true)) /\ f_manual (at_field a) = None /\ called u a i [] n /\
         (readonly = true <-> x_const x i = true \/ f_readonly (at_field a) = true) /\ s = SMember static readonly n i)).
  { intros s [s' _ Hf|s' Ha|l E Hm|static readonly n Hk Hm Hn Hr|? E|? ? E|? E|? ? ? ? ? _ E]; try congruence; auto.
    - right. right. split; [exact E|]. left. eauto.
    - right. right. split; [tauto|]. right. exists static, readonly, n. auto. }
  destruct (match (if supports_method (u_decls u i) then Some (at_method a) else None) with
            | Some m => if negb (is_empty (m_getter_for m)) || negb (is_empty (m_setter_for m)) then Some m else None | None => None end) as [m|] eqn:Em.
  { destruct (supports_method (u_decls u i)) eqn:Esm; [|discriminate]. destruct (_ || _) eqn:Ep; [|discriminate]. apply property_iff in Ep.
    destruct (define_properties i m ps). intros [= <- <- <-]. apply none_bound.
    intros s [[? ? ? _ _ Hp]|[[? ? ? K]|[K _]]]%Inv.
    - exact (Hp Esm Ep).
    - unfold supports_method, is_method_decl in Esm. unfold kind in K. rewrite K in Esm. discriminate.
    - unfold supports_method, is_method_decl in Esm. unfold kind in K. destruct K as [K|K]; rewrite K in Esm; discriminate. }
  destruct (supports_field (u_decls u i)) eqn:Ef.
  - pose proof (proj1 Kf eq_refl) as K.
    assert (Ks : supports_function (u_decls u i) = false) by (unfold supports_function; unfold kind in K; destruct K as [K|K]; rewrite K; reflexivity).
    destruct (f_manual (at_field a)) as [l|] eqn:Ea.
    + destruct (f_postamble (at_field a)); [discriminate|]. intros [= <- <- <-]. apply one_bound. intros s. split.
      * intros ->. apply rec_manual; assumption.
      * intros [[]|[[]|[_ [(l' & [= <-] & ->)|(? & ? & ? & _ & E & _)]]]]%Inv; try congruence. destruct K; congruence.
    + intros [= <- <- <-]. apply one_bound. intros s. split.
      * intros ->. apply rec_member; auto.
        -- destruct K as [->| ->]; auto.
        -- apply spelling_called, H.
        -- apply orb_true_iff.
      * intros [[]|[[]|[_ [(l' & E & _)|(static & readonly & n & Hk & _ & Hn & Hr & ->)]]]]%Inv; try congruence.
        { destruct K; congruence. }
        f_equal.
        -- destruct Hk as [[-> ->]|[-> ->]]; reflexivity.
        -- apply Bool.eq_true_iff_eq. rewrite Hr. symmetry. apply orb_true_iff.
        -- eapply called_unique; [exact Hn|]. apply spelling_called, H.
  - assert (K : ~ (kind u i = KVar \/ kind u i = KField)) by (intros E; apply Kf in E; discriminate).
    destruct (handle_generic u x st i) as [[ss' rs']|] eqn:Eg; [|discriminate]. intros [= <- <- <-].
    destruct (generic_part u x st i a _ _ H Eg) as [D G]. split; [exact D|]. intros s. rewrite G. split.
    + intros [s' Hf|s' Ha|n K'|l K']; [apply rec_function|apply rec_alias| |]; auto; tauto.
    + intros [Hf|[Ha|[K' _]]]%Inv; [apply ns_function|apply ns_alias|]; tauto.
Qed.

Lemma impl_part u x st e i a ps ss rs ps' : lookup_attrs st i = Some a -> handle_impl u x st e i ps = Some (ss, rs, ps') ->
  NoDup ss /\ forall s, In s ss <-> bound u x e i a s.
Proof.
  intros H. destruct e as [|n|n|r p]; cbn [handle_impl bound].
  - destruct (handle_generic u x st i) as [[? ?]|] eqn:E; [|discriminate]. intros [= <- <- <-]. eapply generic_part; eauto.
  - destruct (handle_generic u x st i) as [[? ?]|] eqn:E; [|discriminate]. intros [= <- <- <-]. eapply generic_part; eauto.
  - unfold handle_enum. destruct (x_enumerator x i) eqn:E; intros [= <- <- <-].
    + apply one_bound. intros s. split.
      * intros ->. constructor; [exact E|]. apply spelling_called, H.
      * intros [m _ Hm]. f_equal. eapply called_unique; [exact Hm|]. apply spelling_called, H.
    + apply none_bound. intros s [m E']. congruence.
  - apply record_part; assumption.
Qed.
