From Coq Require Import Permutation.
From Verif Require Import Base ParserModel ParserSpec ParserProofs StringModel StringSpec StringProofs AnnotModel AnnotSpec AnnotProofs AnnotStore.

Definition if_annotated (d : decl) : option bool := n_visible (at_named (initial_attrs d)).

Lemma insert_processed decls i st st' ds : insert decls i st = Some (st', ds) ->
  lookup_attrs st i = None -> d_skip (decls i) = false ->
  exists a ans bad dss, lookup_attrs st' i = Some a /\ carried (d_attrs (decls i)) ans bad /\
    processed (decls i) (if_annotated (decls i)) ans a dss /\
    exists pds, ds = supports_typedef_diags (decls i) ++ pds ++ concat dss /\ badb pds = bad /\ Forall (fun e => is_error e = true) pds.
Proof.
  intros H Hl Hs. destruct (insert_spec _ _ _ _ _ H) as (_ & _ & H3 & _). destruct (H3 Hl Hs) as (a & Hc & Ha).
  destruct (compute_attrs_processed _ _ _ Hc) as (ans & bad & dss & H1 & H2 & pds & H4).
  exists a, ans, bad, dss. split; [exact Ha|]. split; [exact H1|]. split; [exact H2|]. exists pds. exact H4.
Qed.

Lemma has_error_app x y : has_error (x ++ y) <-> has_error x \/ has_error y.
Proof. rewrite <- !errs_iff. unfold errs. rewrite existsb_app, orb_true_iff. reflexivity. Qed.

Lemma if_annotated_spec d : (if_annotated d = Some true <-> d_kind d <> KNamespace /\ annotated d) /\
            (if_annotated d = None <-> d_kind d = KNamespace \/ ~ annotated d).
Proof.
  destruct (initial_visible d) as [H1 H2]. split; [exact H1|]. unfold if_annotated. rewrite H2. split.
  - intros H. destruct (is_namespace d) eqn:E; [left; apply is_namespace_iff, E|]. right. intros Ha. apply H. split; [|exact Ha].
    rewrite <- is_namespace_iff. congruence.
  - intros [H|H] [H3 H4]; contradiction.
Qed.

Lemma if_annotated_default d : default_visibility d (if_annotated d).
Proof.
  destruct (if_annotated_spec d) as [H1 H2]. unfold default_visibility. unfold if_annotated, initial_attrs in *.
  destruct (_ && _); cbn in *; [left|right]; split; try reflexivity; [apply H1|apply H2]; reflexivity.
Qed.

Lemma default_visibility_unique d v w : default_visibility d v -> default_visibility d w -> v = w.
Proof. intros [(-> & H1 & H2)|(-> & H)] [(-> & H1' & H2')|(-> & H')]; try reflexivity; exfalso; tauto. Qed.

Lemma insert_no_annotation_ignored decls i st st' ds : insert decls i st = Some (st', ds) ->
    lookup_attrs st i = None -> d_skip (decls i) = false ->
    let d := decls i in
    exists a ans bad,
      lookup_attrs st' i = Some a /\ carried (d_attrs d) ans bad /\
      (exists target parse per,
        ds = target ++ parse ++ concat per /\
        (has_error target <-> targetless_alias d) /\
        (has_error parse <-> bad = true) /\
        length per = length ans /\
        forall k an e, nth_error ans k = Some an -> nth_error per k = Some e ->
          (has_error e <-> ~ accepted d (firstn k ans) an)) /\
      (~ has_error ds -> bad = false /\ exists v, default_visibility d v /\ described d v ans a).
Proof.
  intros H Hl Hs d. destruct (insert_processed _ _ _ _ _ H Hl Hs) as (a & ans & bad & dss & Ha & Hc & P & pds & Hds & Hb & HF).
  fold d in Hc, P, Hds. exists a, ans, bad. split; [exact Ha|]. split; [exact Hc|].
  assert (Hpb : has_error pds <-> bad = true).
  { subst bad. destruct pds as [|e pds]; cbn; split; try discriminate; auto.
    - intros (x & [] & _).
    - intros _. inv HF. exists e. split; [left; reflexivity|assumption]. }
  split.
  - exists (supports_typedef_diags d), pds, dss. split; [exact Hds|]. split.
    + rewrite <- unsupported_alias_iff. unfold unsupported_alias. rewrite <- errs_iff.
      unfold supports_typedef_diags. destruct (is_typedef d), (d_target d), (has_annotations d true); cbn; reflexivity.
    + split; [exact Hpb|]. split; [apply P|]. apply P.
  - intros Hn. rewrite Hds, !has_error_app in Hn. split.
    + destruct bad; [|reflexivity]. exfalso. apply Hn. right. left. apply Hpb. reflexivity.
    + exists (if_annotated d). split; [apply if_annotated_default|]. apply P. apply no_error_concat. tauto.
Qed.

Lemma carried_unique2 texts l1 b1 l2 b2 : carried texts l1 b1 -> carried texts l2 b2 -> l1 = l2 /\ b1 = b2.
Proof. intros H1 H2. exact (carried_unique _ _ _ H1 _ _ H2). Qed.

Lemma carried_exists texts : exists l bad, carried texts l bad.
Proof.
  destruct (parse_attrs texts []) as [ans ds] eqn:E. destruct (parse_attrs_carried _ _ _ _ E) as (l & _ & H & _). eauto.
Qed.

Lemma latest_unique {A} (f : annotation -> option A) ans default v w : latest f ans default v -> latest f ans default w -> v = w.
Proof.
  intros [[-> H1]|(l1 & x & l2 & E1 & Hx & H1)] [[-> H2]|(k1 & y & k2 & E2 & Hy & H2)].
  - reflexivity.
  - exfalso. subst ans. rewrite (H1 y) in Hy; [discriminate|]. apply in_or_app. right. left. reflexivity.
  - exfalso. subst ans. rewrite (H2 x) in Hx; [discriminate|]. apply in_or_app. right. left. reflexivity.
  - rewrite E1 in E2. clear E1. revert k1 E2. induction l1 as [|z l1 IH]; intros [|z' k1] E2; cbn in E2.
    + injection E2 as -> ->. congruence.
    + injection E2 as -> ->. exfalso. rewrite (H1 y) in Hy; [discriminate|]. apply in_or_app. right. left. reflexivity.
    + injection E2 as <- <-. exfalso. rewrite (H2 x) in Hx; [discriminate|]. apply in_or_app. right. left. reflexivity.
    + injection E2 as _ E2. exact (IH k1 E2).
Qed.

Lemma bool_iff_eq (a b : bool) (P : Prop) : (a = true <-> P) -> (b = true <-> P) -> a = b.
Proof. intros H1 H2. apply eq_true_iff_eq. rewrite H1, H2. reflexivity. Qed.

Lemma map_LString_inj l1 l2 : map LString l1 = map LString l2 -> l1 = l2.
Proof.
  revert l2. induction l1 as [|x l1 IH]; intros [|y l2]; cbn; try discriminate; [reflexivity|]. intros [= -> H]. f_equal. apply IH, H.
Qed.

Lemma given_dec k ans : given k ans \/ ~ given k ans.
Proof.
  destruct (existsb (fun an => akind_eqb (a_kind an) k) ans) eqn:E.
  - left. apply existsb_exists in E as (x & Hx & Hk). apply akind_eqb_eq in Hk. exists x. auto.
  - right. intros (x & Hx & Hk). assert (existsb (fun an => akind_eqb (a_kind an) k) ans = true); [|congruence].
    apply existsb_exists. exists x. split; [exact Hx|]. apply akind_eqb_eq, Hk.
Qed.

Lemma described_determines d v ans a b : described d v ans a -> described d v ans b ->
    at_named a = at_named b /\ at_namespace a = at_namespace b /\ at_enum a = at_enum b /\
    at_typedef a = at_typedef b /\ at_field a = at_field b /\ at_implicit_conversion a = at_implicit_conversion b /\
    r_dynamic_attr (at_record a) = r_dynamic_attr (at_record b) /\ r_holder_type (at_record a) = r_holder_type (at_record b) /\
    (forall x, In x (r_hide_base (at_record a)) <-> In x (r_hide_base (at_record b))) /\
    (forall x, In x (r_inline_base (at_record a)) <-> In x (r_inline_base (at_record b))) /\
    (forall s, In s (m_getter_for (at_method a)) <-> In s (m_getter_for (at_method b))) /\
    (forall s, In s (m_setter_for (at_method a)) <-> In s (m_setter_for (at_method b))) /\
    fn_keep_alive (at_function a) = fn_keep_alive (at_function b) /\ fn_policy (at_function a) = fn_policy (at_function b) /\
    (forall x, In x (fn_noconvert (at_function a)) <-> In x (fn_noconvert (at_function b))) /\
    (forall x, In x (fn_required (at_function a)) <-> In x (fn_required (at_function b))).
Proof.
  intros A B.
  pose proof (latest_unique _ _ _ _ _ (de_visible _ _ _ _ A) (de_visible _ _ _ _ B)) as E1.
  pose proof (latest_unique _ _ _ _ _ (de_spelling _ _ _ _ A) (de_spelling _ _ _ _ B)) as E2.
  pose proof (bool_iff_eq _ _ _ (de_module _ _ _ _ A) (de_module _ _ _ _ B)) as E3.
  pose proof (eq_trans (de_only_expose_in _ _ _ _ A) (eq_sym (de_only_expose_in _ _ _ _ B))) as E4. apply map_LString_inj in E4.
  pose proof (latest_unique _ _ _ _ _ (de_arithmetic _ _ _ _ A) (de_arithmetic _ _ _ _ B)) as E5.
  pose proof (latest_unique _ _ _ _ _ (de_export_values _ _ _ _ A) (de_export_values _ _ _ _ B)) as E6.
  pose proof (bool_iff_eq _ _ _ (de_encourage _ _ _ _ A) (de_encourage _ _ _ _ B)) as E7.
  pose proof (bool_iff_eq _ _ _ (de_expose_here _ _ _ _ A) (de_expose_here _ _ _ _ B)) as E8.
  pose proof (latest_unique _ _ _ _ _ (de_readonly _ _ _ _ A) (de_readonly _ _ _ _ B)) as E9.
  pose proof (bool_iff_eq _ _ _ (de_postamble _ _ _ _ A) (de_postamble _ _ _ _ B)) as E10.
  assert (E11 : f_manual (at_field a) = f_manual (at_field b)).
  { destruct (de_manual _ _ _ _ A) as [A1 A2], (de_manual _ _ _ _ B) as [B1 B2]. destruct (given_dec Manual ans) as [G|G].
    - rewrite A1, B1 by exact G. reflexivity.
    - rewrite A2, B2 by exact G. reflexivity. }
  split; [destruct (at_named a), (at_named b); cbn in *; congruence|].
  split; [destruct (at_namespace a), (at_namespace b); cbn in *; congruence|].
  split; [destruct (at_enum a), (at_enum b); cbn in *; congruence|].
  split; [destruct (at_typedef a), (at_typedef b); cbn in *; congruence|].
  split; [destruct (at_field a), (at_field b); cbn in *; congruence|].
  split; [exact (latest_unique _ _ _ _ _ (de_implicit_conversion _ _ _ _ A) (de_implicit_conversion _ _ _ _ B))|].
  split; [exact (latest_unique _ _ _ _ _ (de_dynamic_attr _ _ _ _ A) (de_dynamic_attr _ _ _ _ B))|].
  split; [exact (latest_unique _ _ _ _ _ (de_holder_type _ _ _ _ A) (de_holder_type _ _ _ _ B))|].
  split; [intros x; rewrite (de_hide_base _ _ _ _ A), (de_hide_base _ _ _ _ B); reflexivity|].
  split; [intros x; rewrite (de_inline_base _ _ _ _ A), (de_inline_base _ _ _ _ B); reflexivity|].
  split; [intros x; rewrite (de_getter_for _ _ _ _ A), (de_getter_for _ _ _ _ B); reflexivity|].
  split; [intros x; rewrite (de_setter_for _ _ _ _ A), (de_setter_for _ _ _ _ B); reflexivity|].
  split.
  - pose proof (de_keep_alive _ _ _ _ A) as KA. pose proof (de_keep_alive _ _ _ _ B) as KB.
    revert KA KB. generalize (fn_keep_alive (at_function a)) (fn_keep_alive (at_function b)).
    induction (filter (fun an => akind_eqb (a_kind an) KeepAlive) ans) as [|an l IH]; intros la lb KA KB; inv KA; inv KB; [reflexivity|].
    f_equal; [|apply IH; assumption].
    destruct H1 as (s & t & Es & H1 & H1'), H2 as (s' & t' & Es' & H2 & H2'). rewrite Es in Es'. injection Es' as <- <-.
    destruct y as [p q], y0 as [p' q']. cbn in *. f_equal; eapply first_index_unique; eassumption.
  - split; [exact (latest_unique _ _ _ _ _ (de_return_value_policy _ _ _ _ A) (de_return_value_policy _ _ _ _ B))|].
    split; intros x.
    + rewrite (de_noconvert _ _ _ _ A), (de_noconvert _ _ _ _ B); reflexivity.
    + rewrite (de_required _ _ _ _ A), (de_required _ _ _ _ B); reflexivity.
Qed.

Lemma insert_none_iff decls i st : insert decls i st = None <->
    lookup_attrs st i = None /\ d_skip (decls i) = false /\ targetless_alias (decls i) /\
    exists ans bad an, carried (d_attrs (decls i)) ans bad /\ In an ans /\ ~ alias_kind (a_kind an).
Proof.
  rewrite <- compute_attrs_none. unfold insert, has. destruct (d_skip (decls i)); [split; [discriminate|intros (_ & E & _); discriminate]|].
  destruct (lookup_attrs st i); [split; [discriminate|intros (E & _); discriminate]|].
  destruct (compute_attrs (decls i)) as [[a ds]|]; split; try discriminate; auto. intros (_ & _ & E); discriminate.
Qed.

Lemma insert_none_example : exists decls i st, insert decls i st = None.
Proof.
  exists (fun _ => mkDecl KTypedef [lozenge ++ $"readonly"] false [] 0 false false false [] [] None true None), 0, []. vm_compute. reflexivity.
Qed.

Lemma insert_visibility decls i st st' ds : insert decls i st = Some (st', ds) ->
    lookup_attrs st i = None -> d_skip (decls i) = false ->
    exists a ans bad, lookup_attrs st' i = Some a /\ carried (d_attrs (decls i)) ans bad /\
      exists v, default_visibility (decls i) v /\ latest visibility_of ans v (n_visible (at_named a)).
Proof.
  intros H Hl Hs. destruct (insert_processed _ _ _ _ _ H Hl Hs) as (a & ans & bad & dss & Ha & Hc & P & _).
  exists a, ans, bad. split; [exact Ha|]. split; [exact Hc|]. exists (if_annotated (decls i)). split; [apply if_annotated_default|apply P].
Qed.

Lemma lexes_nonblank text ts : lexes text ts -> (forall c, In c text -> is_hspace c = true) -> ts = [].
Proof.
  intros H Hall. destruct H as [w Hw|w t r ts Hw Hl Hr]; [reflexivity|]. exfalso.
  assert (Hin : exists c, In c (stext t) /\ is_hspace c = false).
  { assert (Hst : forall c, is_ident_start c = true -> is_hspace c = false).
    { intros c Hc. apply start_not_special in Hc. tauto. }
    assert (Hdg : forall c, is_digit c = true -> is_hspace c = false).
    { intros c Hc. apply digit_not_special in Hc. tauto. }
    destruct Hl as [c s r Hc _ _|s r Hne Hf _ _|s r _|r|r|r|s r Hne Hf _ _|s _|c r Hc _ _ _]; cbn [stext].
    - exists c. split; [left; reflexivity|auto].
    - destruct s as [|c s]; [congruence|]. exists c. split; [left; reflexivity|]. cbn in Hf. apply andb_true_iff in Hf as [Hf _]. auto.
    - exists quote. split; [left; reflexivity|reflexivity].
    - eexists. split; [left; reflexivity|reflexivity].
    - eexists. split; [left; reflexivity|reflexivity].
    - eexists. split; [left; reflexivity|reflexivity].
    - destruct s as [|c s]; [congruence|]. exists c. split; [left; reflexivity|]. cbn in Hf. apply andb_true_iff in Hf as [Hf _]. auto.
    - exists quote. split; [left; reflexivity|reflexivity].
    - exists c. split; [left; reflexivity|exact Hc]. }
  destruct Hin as (c & Hc & Hx). rewrite Hall in Hx; [discriminate|]. apply in_or_app. right. apply in_or_app. left. exact Hc.
Qed.

Lemma denotes_nil_iff text l : denotes text l -> (l <> [] <-> exists c, In c text /\ ~ In (code c) [32; 9; 10; 11; 12; 13]%N).
Proof.
  intros (ts & Hl & Hg). split.
  - intros Hn. destruct (forallb is_hspace text) eqn:E.
    + exfalso. rewrite forallb_forall in E. rewrite (lexes_nonblank _ _ Hl E) in Hg. inversion Hg as [E0|t0 a0 Ha E1 E2|ts0 a0 ts1 l0 Ha Hx E1 E2].
      * subst. congruence.
      * inversion Ha.
      * symmetry in E1. destruct ts0; discriminate.
    + assert (Hx : exists c, In c text /\ is_hspace c = false).
      { clear -E. induction text as [|c text IH]; [discriminate|]. cbn in E. destruct (is_hspace c) eqn:Ec.
        - destruct (IH E) as (x & Hx & Hy). exists x. split; [right; exact Hx|exact Hy].
        - exists c. split; [left; reflexivity|exact Ec]. }
      destruct Hx as (c & Hc & Hs).
      (* a character that is no horizontal space: if all of them were line breaks there would be a bad token *)
      assert (Hb : forall ws ts l, lexes ws ts -> g_annotations ts l -> forall x, In x ws -> is_hspace x = false ->
        (forall y, In y ws -> In (code y) [32; 9; 10; 11; 12; 13]%N) -> False).
      { clear. intros ws ts l Hl Hg x Hx Hs Hall. destruct Hl as [w Hw|w t r ts Hw Ht Hr].
        - rewrite forallb_forall in Hw. rewrite Hw in Hs by exact Hx. discriminate.
        - assert (Hgood : good_token t).
          { clear -Hg. remember (t :: ts) as all eqn:E. destruct Hg as [|all a Ha|ts0 a ts1 l Ha Hx]; [discriminate| |].
            - destruct Ha; injection E as <- _; exact I.
            - destruct Ha; cbn in E; injection E as <- _; exact I. }
          assert (Hin : forall y, In y (stext t) -> In (code y) [32; 9; 10; 11; 12; 13]%N).
          { intros y Hy. apply Hall. apply in_or_app. right. apply in_or_app. left. exact Hy. }
          assert (Hsp : forall y, is_ident_start y = true \/ is_digit y = true -> ~ In (code y) [32; 9; 10; 11; 12; 13]%N).
          { intros y Hy Hc. unfold is_ident_start, is_letter, is_digit, in_range in Hy. cbn in Hc.
            destruct Hc as [Hc|[Hc|[Hc|[Hc|[Hc|[Hc|[]]]]]]]; rewrite <- Hc in Hy; cbn in Hy; destruct Hy; discriminate. }
          destruct Ht as [c s r Hc _ _|s r Hne Hf _ _|s r _|r|r|r|s r Hne Hf _ _|s _|c r Hc _ _ _]; cbn [stext] in Hin; try contradiction.
          + apply (Hsp c); [auto|]. apply Hin. left. reflexivity.
          + destruct s as [|c s]; [congruence|]. cbn in Hf. apply andb_true_iff in Hf as [Hf _]. apply (Hsp c); [auto|]. apply Hin. left. reflexivity.
          + specialize (Hin quote (or_introl eq_refl)). cbn in Hin. repeat (destruct Hin as [Hin|Hin]; try discriminate). contradiction.
          + specialize (Hin _ (or_introl eq_refl)). cbn in Hin. repeat (destruct Hin as [Hin|Hin]; try discriminate). contradiction.
          + specialize (Hin _ (or_introl eq_refl)). cbn in Hin. repeat (destruct Hin as [Hin|Hin]; try discriminate). contradiction.
          + specialize (Hin _ (or_introl eq_refl)). cbn in Hin. repeat (destruct Hin as [Hin|Hin]; try discriminate). contradiction. }
      destruct (forallb is_trim_space text) eqn:Et.
      * exfalso. rewrite forallb_forall in Et. apply (Hb _ _ _ Hl Hg c Hc Hs). intros y Hy. apply trim_space_iff, Et, Hy.
      * clear -Et. induction text as [|x text IH]; [discriminate|]. cbn in Et. destruct (is_trim_space x) eqn:Ex.
        -- destruct (IH Et) as (y & Hy & Hz). exists y. split; [right; exact Hy|exact Hz].
        -- exists x. split; [left; reflexivity|]. rewrite <- trim_space_iff. congruence.
  - intros (c & Hc & Hs) ->. inversion Hg; subst. inversion Hl; subst. apply Hs. apply trim_space_iff. unfold is_trim_space.
    rewrite forallb_forall in H. rewrite (H c Hc). reflexivity.
Qed.

Lemma annotated_iff_nonempty d ans : carried (d_attrs d) ans false -> (annotated d <-> ans <> []).
Proof.
  unfold annotated. generalize (d_attrs d). intros texts H. remember false as bad eqn:Eb.
  induction H as [|text texts ans bad Hn H IH|rest l texts ans bad Hd H IH|rest pre post l p texts ans bad Hl Hp Hv Hd H IH]; subst; try discriminate.
  - split; [intros (? & ? & [] & _)|congruence].
  - rewrite <- IH by reflexivity. split; intros (rest & c & Hin & Hx); exists rest, c; (split; [|exact Hx]).
    + destruct Hin as [Hin|Hin]; [|exact Hin]. exfalso. eapply Hn. exact Hin.
    + right. exact Hin.
  - specialize (IH eq_refl). pose proof (denotes_nil_iff _ _ Hd) as Hdn. split.
    + intros (r & c & [Hin|Hin] & Hc & Hx).
      * apply app_inv_head in Hin. subst r. assert (Hl : l <> []) by (apply Hdn; eauto). destruct l; [congruence|discriminate].
      * assert (Ha : ans <> []) by (apply IH; eauto). destruct l; [exact Ha|discriminate].
    + intros Hne. destruct l as [|x l].
      * destruct (proj2 IH Hne) as (r & c & Hin & Hx). exists r, c. split; [right; exact Hin|exact Hx].
      * destruct (proj1 Hdn) as (c & Hc & Hx); [discriminate|]. exists rest, c. split; [left; reflexivity|auto].
Qed.

Lemma empty_macro_not_visible : exists decls i st' a, marked (decls i) /\ d_kind (decls i) = KRecord /\
    insert decls i [] = Some (st', []) /\ lookup_attrs st' i = Some a /\ n_visible (at_named a) <> Some true.
Proof.
  exists (fun _ => mkDecl KRecord [lozenge ++ []] false [] 0 false false false [] [] None true (Some 0)), 0.
  exists [(0, default_attrs)], default_attrs. split; [exists []; left; reflexivity|]. split; [reflexivity|].
  split; [vm_compute; reflexivity|]. split; [reflexivity|discriminate].
Qed.

Lemma annotated_visible decls i st st' ds : insert decls i st = Some (st', ds) ->
    lookup_attrs st i = None -> d_skip (decls i) = false ->
    d_kind (decls i) <> KNamespace -> annotated (decls i) ->
    exists a ans bad, lookup_attrs st' i = Some a /\ carried (d_attrs (decls i)) ans bad /\
      ((forall an, In an ans -> visibility_of an = None) -> n_visible (at_named a) = Some true).
Proof.
  intros H Hl Hs Hn Ha. destruct (insert_visibility _ _ _ _ _ H Hl Hs) as (a & ans & bad & H1 & H2 & v & Hdv & H3).
  exists a, ans, bad. split; [exact H1|]. split; [exact H2|]. intros Hv.
  assert (E : v = Some true) by (destruct Hdv as [[-> _]|[-> [Hk|Hk]]]; [reflexivity|contradiction|contradiction]). subst v.
  destruct H3 as [[-> _]|(l1 & x & l2 & -> & Hx & _)]; [reflexivity|]. rewrite Hv in Hx; [discriminate|]. apply in_or_app. right. left. reflexivity.
Qed.

Lemma insert_spelling decls i st st' ds : insert decls i st = Some (st', ds) ->
    lookup_attrs st i = None -> d_skip (decls i) = false ->
    exists a ans bad, lookup_attrs st' i = Some a /\ carried (d_attrs (decls i)) ans bad /\
      latest (spelling_of (decls i)) ans [] (n_spelling (at_named a)) /\
      (n_spelling (at_named a) = [] \/ identifier (n_spelling (at_named a))).
Proof.
  intros H Hl Hs. destruct (insert_processed _ _ _ _ _ H Hl Hs) as (a & ans & bad & dss & Ha & Hc & P & _).
  exists a, ans, bad. split; [exact Ha|]. split; [exact Hc|]. split; [apply P|]. eapply latest_valid. apply P.
Qed.

Lemma spelling_of_iff d an s : spelling_of d an = Some s <->
    (an = mkAnnotation ExposeAs [LDefault] /\ s = []) \/
    (an = mkAnnotation ExposeAs [LString s] /\ identifier s) \/
    (an = mkAnnotation Module [LString s] /\ d_kind d = KNamespace /\ identifier s).
Proof.
  rewrite <- is_valid_identifier_iff. unfold spelling_of. split.
  - destruct an as [k args]. cbn [a_kind a_args]. destruct k; try discriminate; destruct args as [|[] [|]]; try discriminate.
    + destruct (is_valid_identifier s0) eqn:E; [|discriminate]. intros [= <-]. auto.
    + intros [= <-]. auto.
    + destruct (d_kind d); try discriminate. destruct (is_valid_identifier s0) eqn:E; [|discriminate]. intros [= <-]. auto.
  - intros [[-> ->]|[[-> H]|[-> [Hk H]]]]; cbn [a_kind a_args]; [reflexivity|rewrite H; reflexivity|rewrite Hk, H; reflexivity].
Qed.

Lemma insert_again decls i st st' ds : insert decls i st = Some (st', ds) -> d_skip (decls i) = false ->
    insert decls i st' = Some (st', []).
Proof. intros H Hs. rewrite (insert_idem _ _ _ _ _ H), Hs. reflexivity. Qed.

Lemma insert_local decls i st st' ds : insert decls i st = Some (st', ds) ->
    (forall j, j <> i -> lookup_attrs st' j = lookup_attrs st j) /\
    (forall a, lookup_attrs st i = Some a -> st' = st).
Proof.
  intros H. destruct (insert_spec _ _ _ _ _ H) as (H1 & H2 & H3 & H4 & H5). split; [exact H1|]. intros a Ha.
  destruct (d_skip (decls i)) eqn:E; [destruct (H5 eq_refl); assumption|]. destruct H4; auto. congruence.
Qed.

(** Diagnostics of a sequence of insertions: those of the distinct new ones. *)
Fixpoint fresh (st : storage) (is : list nat) (seen : list nat) : list nat :=
  match is with
  | [] => []
  | i :: is' => if has st i || existsb (Nat.eqb i) seen then fresh st is' seen else i :: fresh st is' (i :: seen)
  end.

Definition diags_of (decls : nat -> decl) (i : nat) : list diag :=
  match compute_attrs (decls i) with Some (_, ds) => ds | None => [] end.

Lemma insert_all_diags_fresh decls st0 is : forall seen st st' ds,
  (forall i, In i is -> d_skip (decls i) = false) ->
  (forall i, has st i = has st0 i || existsb (Nat.eqb i) seen) ->
  insert_all decls is st = Some (st', ds) -> ds = flat_map (diags_of decls) (fresh st0 is seen).
Proof.
  induction is as [|i is IH]; intros seen st st' ds Hs Hst; cbn [insert_all fresh].
  - intros [= _ <-]. reflexivity.
  - destruct (insert decls i st) as [[st1 ds1]|] eqn:Ei; [|discriminate].
    destruct (insert_all decls is st1) as [[st2 ds2]|] eqn:Ea; [|discriminate]. intros [= _ <-].
    assert (Hs' : forall j, In j is -> d_skip (decls j) = false) by (intros j Hj; apply Hs; right; exact Hj).
    pose proof (Hs i (or_introl eq_refl)) as Hi. destruct (insert_spec _ _ _ _ _ Ei) as (H1 & H2 & H3 & H4 & _).
    rewrite <- Hst. destruct (has st i) eqn:Eh.
    + unfold has in Eh. destruct H4 as [-> ->]; [destruct (lookup_attrs st i); congruence|exact Hi|].
      cbn [app]. eapply IH; [exact Hs'|exact Hst|exact Ea].
    + unfold has in Eh. destruct (lookup_attrs st i) eqn:El; [discriminate|]. destruct (H3 eq_refl Hi) as (a & Hc & Hl).
      cbn [flat_map]. f_equal.
      * unfold diags_of. rewrite Hc. reflexivity.
      * eapply IH; [exact Hs'| |exact Ea]. intros j. cbn [existsb]. destruct (Nat.eqb j i) eqn:E.
        -- apply Nat.eqb_eq in E. subst j. cbn. rewrite orb_true_r. unfold has. rewrite Hl. reflexivity.
        -- cbn. rewrite <- Hst. unfold has. rewrite H1 by (apply Nat.eqb_neq; exact E). reflexivity.
Qed.

Lemma fresh_spec st is : forall seen, NoDup (fresh st is seen) /\
  forall j, In j (fresh st is seen) <-> In j is /\ has st j = false /\ existsb (Nat.eqb j) seen = false.
Proof.
  induction is as [|i is IH]; intros seen; cbn [fresh].
  - split; [constructor|]. intros j. split; [intros []|intros ([] & _)].
  - destruct (has st i || existsb (Nat.eqb i) seen) eqn:E.
    + destruct (IH seen) as [N S]. split; [exact N|]. intros j. rewrite S. split.
      * intros (H1 & H2 & H3). split; [right; exact H1|auto].
      * intros ([<-|H1] & H2 & H3); [rewrite H2, H3 in E; discriminate|auto].
    + apply orb_false_iff in E as [E1 E2]. destruct (IH (i :: seen)) as [N S]. split.
      * constructor; [|exact N]. rewrite S. cbn. rewrite Nat.eqb_refl. intros (_ & _ & Hx). discriminate.
      * intros j. cbn [In]. rewrite S. cbn [existsb]. destruct (Nat.eqb j i) eqn:Ej; cbn [orb].
        -- apply Nat.eqb_eq in Ej. subst j. split; [intros _; auto|intros _; auto].
        -- apply Nat.eqb_neq in Ej. split.
           ++ intros [->|(H1 & H2 & H3)]; [congruence|auto].
           ++ intros ([->|H1] & H2 & H3); [congruence|auto].
Qed.

Lemma insert_all_diags decls is1 is2 st st1 ds1 :
    (forall i, In i is1 -> d_skip (decls i) = false) -> (forall i, In i is1 <-> In i is2) ->
    insert_all decls is1 st = Some (st1, ds1) ->
    exists st2 ds2, insert_all decls is2 st = Some (st2, ds2) /\ Permutation ds1 ds2.
Proof.
  intros Hs Hp H. destruct (insert_all_order _ _ _ _ _ _ Hp H) as (st2 & ds2 & H2 & _). exists st2, ds2. split; [exact H2|].
  rewrite (insert_all_diags_fresh decls st is1 [] st st1 ds1 Hs (fun i => eq_sym (orb_false_r _)) H).
  rewrite (insert_all_diags_fresh decls st is2 [] st st2 ds2 (fun i Hi => Hs i (proj2 (Hp i) Hi)) (fun i => eq_sym (orb_false_r _)) H2).
  apply Permutation_flat_map. destruct (fresh_spec st is1 []) as [N1 S1], (fresh_spec st is2 []) as [N2 S2].
  apply NoDup_Permutation; [exact N1|exact N2|]. intros j. rewrite S1, S2, Hp. reflexivity.
Qed.

Lemma Forall2_weaken {A B} (P Q : A -> B -> Prop) l m : (forall x y, P x y -> Q x y) -> Forall2 P l m -> Forall2 Q l m.
Proof. intros H. induction 1; constructor; auto. Qed.

Lemma keep_alive_indices decls i st st' ds : insert decls i st = Some (st', ds) ->
    lookup_attrs st i = None -> d_skip (decls i) = false -> ~ has_error ds ->
    let d := decls i in
    is_function d -> ~ In $"return" (d_params d) -> ~ In $"this" (d_params d) ->
    (forall o, d_kind d = KMethod o -> d_static d = false) ->
    exists a ans bad, lookup_attrs st' i = Some a /\ carried (d_attrs d) ans bad /\
      Forall2 (fun an p => exists n m s t, a_args an = [LString n; LString m] /\
          refers_to d n s /\ refers_to d m t /\
          binding_index d s = Some (fst p) /\ binding_index d t = Some (snd p))
        (filter (fun an => akind_eqb (a_kind an) KeepAlive) ans) (fn_keep_alive (at_function a)).
Proof.
  intros H Hl Hs He d Hf Hr Ht Hst. destruct (insert_no_annotation_ignored _ _ _ _ _ H Hl Hs) as (a & ans & bad & Ha & Hc & _ & Hd).
  exists a, ans, bad. split; [exact Ha|]. split; [exact Hc|]. destruct (Hd He) as (_ & v & _ & D).
  assert (Hix : forall n k, first_index (slots d) n k -> exists s, refers_to d n s /\ binding_index d s = Some k).
  { intros n k Hk. destruct (slot_index d n k Hr Ht Hf Hk) as (s & H1 & H2). exists s. split; [exact H1|]. rewrite H2.
    destruct (d_static d) eqn:Es; [|reflexivity]. destruct (d_kind d) eqn:Ek; try reflexivity. discriminate (Hst _ eq_refl). }
  eapply Forall2_weaken; [|apply (de_keep_alive _ _ _ _ D)]. intros an [p q] (n & m & E & H1 & H2). cbn [fst snd] in *.
  destruct (Hix _ _ H1) as (s & S1 & S2). destruct (Hix _ _ H2) as (t & T1 & T2). exists n, m, s, t. auto.
Qed.

Lemma refers_to_unique d n s t : ~ In $"return" (d_params d) -> ~ In $"this" (d_params d) ->
    refers_to d n s -> refers_to d n t -> s = t.
Proof.
  intros Hr Ht Hs Hu.
  assert (Hin : forall i, refers_to d n (Param i) -> In n (d_params d)) by (intros i [H _]; eapply nth_error_In; exact H).
  destruct s, t; cbn in Hs, Hu; try reflexivity; subst; try discriminate; try (exfalso; apply Hin in Hs; auto; fail); try (exfalso; apply Hin in Hu; auto; fail).
  f_equal. eapply first_index_unique; eassumption.
Qed.

Definition static_method (text : string) : decl :=
  mkDecl (KMethod NoOperator) [lozenge ++ $text] false [$"x"] 1 false true false [] [] None false (Some 0).

Lemma carried_one text l : parse_annotations text = ROk l -> carried [lozenge ++ text] l false.
Proof.
  intros H. rewrite <- (app_nil_r l). apply ca_good; [apply parse_ok_iff, H|constructor].
Qed.

Lemma keep_alive_static_wrong : exists decls i st' a n s j k,
    d_kind (decls i) = KMethod NoOperator /\ d_static (decls i) = true /\
    insert decls i [] = Some (st', []) /\ lookup_attrs st' i = Some a /\
    carried (d_attrs (decls i)) [mkAnnotation KeepAlive [LString $"return"; LString n]] false /\
    refers_to (decls i) n s /\ binding_index (decls i) s = Some j /\
    fn_keep_alive (at_function a) = [(0, k)] /\ k <> j.
Proof.
  exists (fun _ => static_method "keep_alive(return, x)"), 0. eexists. eexists. exists $"x", (Param 0), 1, 2.
  split; [reflexivity|]. split; [reflexivity|]. split; [vm_compute; reflexivity|]. split; [vm_compute; reflexivity|].
  split; [apply carried_one; vm_compute; reflexivity|]. split; [|split; [reflexivity|split; [reflexivity|discriminate]]].
  split; [reflexivity|]. intros j Hj. lia.
Qed.

Lemma keep_alive_static_this : exists decls i st' a, d_kind (decls i) = KMethod NoOperator /\ d_static (decls i) = true /\
    insert decls i [] = Some (st', []) /\ lookup_attrs st' i = Some a /\
    carried (d_attrs (decls i)) [mkAnnotation KeepAlive [LString $"return"; LString $"this"]] false /\
    (forall s, refers_to (decls i) $"this" s -> binding_index (decls i) s = None) /\
    fn_keep_alive (at_function a) = [(0, 1)].
Proof.
  exists (fun _ => static_method "keep_alive(return, this)"), 0. eexists. eexists.
  split; [reflexivity|]. split; [reflexivity|]. split; [vm_compute; reflexivity|]. split; [vm_compute; reflexivity|].
  split; [apply carried_one; vm_compute; reflexivity|]. split; [|reflexivity].
  intros [| |k]; cbn; [discriminate|reflexivity|]. intros [Hk _]. destruct k as [|[|k]]; discriminate.
Qed.

Lemma insert_all_example :
  let mk := fun k texts => mkDecl k (map (fun t => lozenge ++ $t) texts) false [] 0 false false false [] [] None true (Some 0) in
  let decls := fun i => match i with 0 => mk KRecord ["dynamic_attr"]%string | 1 => mk KField ["readonly(1)"]%string | _ => mk KEnum [] end in
  exists st ds st' ds', insert_all decls [0; 1; 2; 1] [] = Some (st, ds) /\ insert_all decls [2; 1; 0] [] = Some (st', ds') /\
    st <> st' /\ length st = 3 /\ length ds = 1.
Proof.
  cbv zeta. do 4 eexists. split; [vm_compute; reflexivity|]. split; [vm_compute; reflexivity|]. split; [discriminate|]. split; reflexivity.
Qed.

Lemma annotated_examples :
  annotated (mkDecl KRecord [lozenge ++ $"dynamic_attr"] false [] 0 false false false [] [] None true (Some 0)) /\
  ~ annotated (mkDecl KRecord [lozenge ++ $" "; lozenge ++ $""] false [] 0 false false false [] [] None true (Some 0)).
Proof.
  split; rewrite <- has_annotations_false; vm_compute; [reflexivity|discriminate].
Qed.
