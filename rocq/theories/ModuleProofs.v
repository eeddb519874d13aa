(** * Emission of the module: proofs *)
From Coq Require Import Sorting.Permutation.
From Verif Require Import Base ParserModel StringModel StringSpec StringProofs AnnotModel AnnotStore CollectModel CollectSpec GraphModel GraphSpec GraphProofs GraphFinal
  OrderModel OrderSpec OrderProofs InlineModel InlineSpec InlineProofs EmitModel EmitSpec EmitFold EmitFinal ModuleModel ModuleSpec ModuleChunks.

Lemma dlookup_dset {A} i (x : A) m j : dlookup (dset i x m) j = if Nat.eqb j i then Some x else dlookup m j.
Proof. reflexivity. Qed.

(** ** Blocks *)

Lemma blocks_snoc_new u seen l r c : blocks u seen l r -> (forall d, In d (seen ++ l) -> ~ same_namespace u d c) -> blocks u seen (l ++ [c]) (r ++ [c]).
Proof.
  induction 1 as [seen|seen d l r Hd B IH|seen d e l r Hd Hs B IH]; intros H; cbn [app].
  - rewrite app_nil_r in H. constructor; [exact H|constructor].
  - constructor; [exact Hd|]. apply IH. rewrite <- app_assoc. exact H.
  - eapply blocks_again; [exact Hd|exact Hs|]. apply IH. rewrite <- app_assoc. exact H.
Qed.

Lemma blocks_snoc_again u seen l r d c : blocks u seen l r -> In d (seen ++ l) -> same_namespace u d c -> blocks u seen (l ++ [c]) r.
Proof.
  induction 1 as [seen|seen e l r He B IH|seen f e l r He Hf B IH]; intros H Hs; cbn [app].
  - rewrite app_nil_r in H. eapply blocks_again; [exact H|exact Hs|constructor].
  - constructor; [exact He|]. apply IH; [|exact Hs]. rewrite <- app_assoc. exact H.
  - eapply blocks_again; [exact He|exact Hf|]. apply IH; [|exact Hs]. rewrite <- app_assoc. exact H.
Qed.

Lemma blocks_incl u seen l r : blocks u seen l r -> incl r l.
Proof.
  induction 1 as [|seen c l r H B IH|seen d c l r H Hs B IH]; intros x Hx; [destruct Hx| |right; apply IH, Hx].
  destruct Hx as [->|Hx]; [left; reflexivity|right; apply IH, Hx].
Qed.

Lemma blocks_split u seen l r : blocks u seen l r -> forall r1 c r2, r = r1 ++ c :: r2 ->
  exists l1 l2, l = l1 ++ c :: l2 /\ blocks u seen l1 r1 /\ incl r2 l2.
Proof.
  induction 1 as [seen|seen d l r H B IH|seen d e l r H Hs B IH]; intros r1 c r2 E.
  - destruct r1; discriminate.
  - destruct r1 as [|x r1]; cbn in E; injection E as E1 E2.
    + subst. exists [], l. split; [reflexivity|]. split; [constructor|]. eapply blocks_incl, B.
    + subst x. destruct (IH _ _ _ E2) as (l1 & l2 & -> & B' & I). exists (d :: l1), l2. split; [reflexivity|]. split; [|exact I]. constructor; assumption.
  - destruct (IH _ _ _ E) as (l1 & l2 & -> & B' & I). exists (e :: l1), l2. split; [reflexivity|]. split; [|exact I]. eapply blocks_again; eassumption.
Qed.

Lemma blocks_nodup u seen l r : blocks u seen l r -> NoDup l -> NoDup r.
Proof.
  induction 1 as [|seen c l r H B IH|seen d c l r H Hs B IH]; intros N; [constructor| |]; inversion N as [|x y Hx Hy]; subst; [|auto].
  constructor; [|auto]. intros Hc. apply Hx, (blocks_incl _ _ _ _ B), Hc.
Qed.

(** Contexts other than namespaces are kept. *)
Lemma blocks_keeps u seen l r : blocks u seen l r -> forall c, In c l -> kind u c <> KNamespace -> In c r.
Proof.
  induction 1 as [|seen c l r H B IH|seen d c l r H (K1 & K2 & K3) B IH]; intros x Hx Hk; [destruct Hx| |].
  - destruct Hx as [->|Hx]; [left; reflexivity|right; apply IH; assumption].
  - destruct Hx as [->|Hx]; [congruence|apply IH; assumption].
Qed.

Lemma blocks_cover u seen l r : blocks u seen l r -> forall c, In c l -> In c r \/ exists d, In d (seen ++ l) /\ same_namespace u d c.
Proof.
  induction 1 as [|seen c l r H B IH|seen d c l r H Hs B IH]; intros x Hx; [destruct Hx| |].
  - destruct Hx as [->|Hx]; [left; left; reflexivity|]. destruct (IH x Hx) as [Hr|(e & He & Hse)]; [left; right; exact Hr|].
    right. exists e. rewrite <- app_assoc in He. auto.
  - destruct Hx as [->|Hx]; [right; exists d; split; [apply in_app_iff; auto|exact Hs]|]. destruct (IH x Hx) as [Hr|(e & He & Hse)]; [left; exact Hr|].
    right. exists e. rewrite <- app_assoc in He. auto.
Qed.

(** Whatever comes before [c] and is kept comes before [c] there, too. *)
Lemma blocks_before u l r r1 c r2 a l1 l2 : blocks u [] l r -> NoDup l -> r = r1 ++ c :: r2 -> l = l1 ++ c :: l2 -> In a l1 -> In a r -> In a r1.
Proof.
  intros B N Er El Ha Hr. destruct (blocks_split _ _ _ _ B _ _ _ Er) as (m1 & m2 & El' & B' & I).
  assert (E : m1 = l1 /\ m2 = l2).
  { clear - N El El'. subst l. revert m1 El' N. induction l1 as [|x l1 IH]; intros [|y m1] E N; cbn in E.
    1: injection E as E1; auto.
    all: injection E as E1 E2.
    - subst y. exfalso. rewrite E2 in N. inversion N as [|? ? Hx _]. apply Hx. apply in_app_iff. right. left. reflexivity.
    - subst c. exfalso. inversion N as [|? ? Hx _]. apply Hx. apply in_app_iff. right. left. reflexivity.
    - subst y. inversion N as [|? ? _ N']. subst. destruct (IH _ E2 N') as [-> ->]. auto. }
  destruct E as [-> ->]. rewrite Er in Hr. apply in_app_iff in Hr as [Hr|[<-|Hr]]; [exact Hr| |]; exfalso; rewrite El in N.
  - apply NoDup_remove_2 in N. apply N, in_app_iff. auto.
  - apply I in Hr. apply NoDup_remove_1 in N. clear - N Ha Hr. induction l1 as [|x l1 IH]; [destruct Ha|].
    cbn in N. inversion N as [|? ? Hx N']. subst. destruct Ha as [->|Ha]; [apply Hx, in_app_iff; auto|auto].
Qed.

(** ** The plan *)

Section Plan.
Variables (u : unit) (w : facts) (st : storage).
Hypothesis Hacyclic : acyclic (w_hierarchy w).

Lemma create_some c : exists e, create u st (w_hierarchy w) c = Some e /\
  match kind u c with
  | KNamespace => e = XNamespace c
  | KEnum => e = XEnum c
  | KRecord => exists p, e = XRecord c p /\ create_policy u st (w_hierarchy w) c = Some p
  | _ => e = XContext
  end.
Proof.
  unfold create. destruct (kind u c); try (eexists; split; reflexivity).
  destruct (policy_general (w_hierarchy w) Hacyclic u st c) as (p & -> & _). eexists. split; [reflexivity|]. exists p. auto.
Qed.

Record plan_ok (l : list nat) (p : plan) : Prop := {
  po_blocks : blocks u [] l (map wk_context (pl_work p));
  po_ids : forall c, ~ In c l -> dlookup (pl_identifiers p) c = None;
  po_rep : forall l1 c l2, l = l1 ++ c :: l2 -> exists t, In t (pl_work p) /\ dlookup (pl_identifiers p) c = Some (wk_identifier t) /\
    (wk_context t = c \/ (same_namespace u (wk_context t) c /\ In (wk_context t) l1 /\ forall t', In t' (pl_work p) -> wk_context t' <> c));
  po_covered : forall k d, dlookup (pl_covered p) k = Some d -> kind u d = KNamespace /\ u_canonical u d = k /\
    exists t, In t (pl_work p) /\ wk_context t = d /\ dlookup (pl_identifiers p) d = Some (wk_identifier t);
  po_uncovered : forall k, dlookup (pl_covered p) k = None -> forall d, In d l -> kind u d = KNamespace -> u_canonical u d <> k;
  po_names : map wk_identifier (pl_work p) = numbered_names [] (map (context_name u w) (map wk_context (pl_work p)));
  po_used : forall x, current x (pl_used p) = N.of_nat (occurrences (map (context_name u w) (map wk_context (pl_work p))) x);
  po_create : forall t, In t (pl_work p) -> create u st (w_hierarchy w) (wk_context t) = Some (wk_exposer t)
}.

Lemma split_snoc {A} (l : list A) a l1 c l2 : l ++ [a] = l1 ++ c :: l2 -> (l = l1 /\ c = a /\ l2 = []) \/ exists l3, l2 = l3 ++ [a] /\ l = l1 ++ c :: l3.
Proof.
  intros E. destruct l2 as [|b l2] using rev_ind.
  - apply app_inj_tail in E as [-> ->]. auto.
  - right. exists l2. rewrite app_comm_cons, app_assoc in E. apply app_inj_tail in E as [-> ->]. auto.
Qed.

Lemma plan_step l c p : plan_ok l p -> ~ In c l -> exists p', plan_context u w st p c = Some p' /\ plan_ok (l ++ [c]) p'.
Proof.
  intros [B I R C U N Us Cr] Hc. unfold plan_context.
  assert (Hnone := I c Hc).
  destruct (if is_namespace_kind (kind u c) then dlookup (pl_covered p) (u_canonical u c) else None) as [d|] eqn:Ec.
  - destruct (is_namespace_kind (kind u c)) eqn:Ek; [|discriminate].
    assert (Kc : kind u c = KNamespace) by (destruct (kind u c); discriminate || reflexivity).
    destruct (C _ _ Ec) as (Kd & Hcan & t & Ht & Htd & Hid). rewrite Hid, Hnone. eexists. split; [reflexivity|].
    assert (Hs : same_namespace u (wk_context t) c) by (rewrite Htd; repeat split; assumption).
    assert (Htl : In (wk_context t) l) by (apply (blocks_incl _ _ _ _ B), in_map, Ht).
    split; cbn [pl_work pl_identifiers pl_covered pl_used].
    + eapply blocks_snoc_again; [exact B|exact Htl|exact Hs].
    + intros x Hx. rewrite in_app_iff in Hx. cbn in Hx. rewrite dlookup_dset. destruct (Nat.eqb_spec x c) as [->|E]; [tauto|]. apply I. tauto.
    + intros l1 x l2 E. apply split_snoc in E as [(-> & -> & ->)|(l3 & -> & ->)].
      * exists t. split; [exact Ht|]. rewrite dlookup_dset, Nat.eqb_refl. split; [reflexivity|]. right. split; [exact Hs|]. split; [exact Htl|].
        intros t' Ht' E. apply Hc. rewrite <- E. apply (blocks_incl _ _ _ _ B), in_map, Ht'.
      * destruct (R l1 x l3 eq_refl) as (t' & Ht' & Hl & Hr). exists t'. split; [exact Ht'|]. rewrite dlookup_dset.
        destruct (Nat.eqb_spec x c) as [->|E]; [exfalso; apply Hc, in_app_iff; right; left; reflexivity|]. auto.
    + intros k e He. destruct (C _ _ He) as (K1 & K2 & t' & Ht' & He' & Hl). split; [exact K1|]. split; [exact K2|]. exists t'.
      split; [exact Ht'|]. split; [exact He'|]. rewrite dlookup_dset. destruct (Nat.eqb_spec e c) as [->|E]; [congruence|exact Hl].
    + intros k Hk e He K. apply in_app_iff in He as [He|[<-|[]]]; [apply (U k Hk); assumption|]. intros E. rewrite E in Ec. congruence.
    + exact N.
    + exact Us.
    + exact Cr.
  - destruct (discriminated_spec (map (context_name u w) (map wk_context (pl_work p))) (context_name u w c) (pl_used p) Us) as (used & -> & Hused).
    destruct (create_some c) as (e & He & _). rewrite Hnone, He. eexists. split; [reflexivity|].
    assert (Hfresh : forall d, In d l -> ~ same_namespace u d c).
    { intros d Hd (K1 & K2 & K3). rewrite K2 in Ec. cbn in Ec. apply (U _ Ec d Hd K1 K3). }
    split; cbn [pl_work pl_identifiers pl_covered pl_used].
    + rewrite map_app. cbn [map wk_context]. apply blocks_snoc_new; [exact B|exact Hfresh].
    + intros x Hx. rewrite in_app_iff in Hx. cbn in Hx. rewrite dlookup_dset. destruct (Nat.eqb_spec x c) as [->|E]; [tauto|]. apply I. tauto.
    + intros l1 x l2 E. apply split_snoc in E as [(-> & -> & ->)|(l3 & -> & ->)].
      * eexists. split; [apply in_app_iff; right; left; reflexivity|]. cbn [wk_identifier wk_context]. rewrite dlookup_dset, Nat.eqb_refl. auto.
      * destruct (R l1 x l3 eq_refl) as (t' & Ht' & Hl & Hr). exists t'. split; [apply in_app_iff; auto|]. rewrite dlookup_dset.
        destruct (Nat.eqb_spec x c) as [->|E]; [exfalso; apply Hc, in_app_iff; right; left; reflexivity|]. split; [exact Hl|].
        destruct Hr as [Hr|(H1 & H2 & H3)]; [auto|]. right. split; [exact H1|]. split; [exact H2|]. intros t'' Ht''. apply in_app_iff in Ht'' as [Ht''|[<-|[]]]; [apply H3, Ht''|].
        cbn. congruence.
    + intros k d Hd.
      assert (Hold : dlookup (pl_covered p) k = Some d -> kind u d = KNamespace /\ u_canonical u d = k /\
        exists t, In t (pl_work p ++ [mkWork c e (numbered (context_name u w c) (N.of_nat (S (occurrences (map (context_name u w) (map wk_context (pl_work p))) (context_name u w c)))))]) /\
          wk_context t = d /\ dlookup (dset c (numbered (context_name u w c) (N.of_nat (S (occurrences (map (context_name u w) (map wk_context (pl_work p))) (context_name u w c))))) (pl_identifiers p)) d = Some (wk_identifier t)).
      { intros Hd'. destruct (C _ _ Hd') as (K1 & K2 & t' & Ht' & Hd'' & Hl). split; [exact K1|]. split; [exact K2|]. exists t'.
        split; [apply in_app_iff; auto|]. split; [exact Hd''|]. rewrite dlookup_dset. destruct (Nat.eqb_spec d c) as [->|E]; [congruence|exact Hl]. }
      destruct (is_namespace_kind (kind u c)) eqn:Ek; [|apply Hold, Hd]. rewrite dlookup_dset in Hd.
      destruct (Nat.eqb_spec k (u_canonical u c)) as [->|E]; [|apply Hold, Hd]. injection Hd as <-. split; [destruct (kind u c); discriminate || reflexivity|].
      split; [reflexivity|]. eexists. split; [apply in_app_iff; right; left; reflexivity|]. split; [reflexivity|]. rewrite dlookup_dset, Nat.eqb_refl. reflexivity.
    + intros k Hk d Hd K. destruct (is_namespace_kind (kind u c)) eqn:Ek.
      * rewrite dlookup_dset in Hk. destruct (Nat.eqb k (u_canonical u c)) eqn:E; [discriminate|]. apply Nat.eqb_neq in E.
        apply in_app_iff in Hd as [Hd|[<-|[]]]; [apply (U k Hk); assumption|congruence].
      * apply in_app_iff in Hd as [Hd|[<-|[]]]; [apply (U k Hk); assumption|]. rewrite K in Ek. discriminate.
    + rewrite !map_app. cbn [map wk_identifier wk_context]. rewrite numbered_names_app, <- N. reflexivity.
    + intros x. rewrite !map_app. cbn [map wk_context]. apply Hused.
    + intros t Ht. apply in_app_iff in Ht as [Ht|[<-|[]]]; [apply Cr, Ht|exact He].
Qed.

Lemma plan_exists order : NoDup order -> exists p, make_plan u w st order = Some p /\ plan_ok order p.
Proof.
  intros N. unfold make_plan. apply (fold_opt_inv (plan_context u w st) order plan_ok).
  - split; cbn; try discriminate; try reflexivity.
    + constructor.
    + intros [|? ?] c l2 E; discriminate.
    + intros _ _ d [].
    + intros t [].
  - intros l1 c l2 p E P. apply plan_step; [exact P|]. subst order. apply NoDup_remove_2 in N. intros H. apply N, in_app_iff. auto.
Qed.
End Plan.

(** ** Definitions *)

Section Define.
Variables (u : unit) (w : facts) (g : graph) (vis : dmap bool) (st : storage) (scopes : dmap (option nat)) (ids : dmap str).
Hypothesis L : language u w.

(** Nothing has been added for classes and enumerations. *)
Definition agree (st' : storage) : Prop := forall r, is_tag_kind (kind u r) = true -> lookup_attrs st' r = lookup_attrs st r.

Lemma agree_refl : agree st.
Proof. intros r _. reflexivity. Qed.

Definition decls_of (t : work) : list nat :=
  declarations u (w_extra w) (wk_context t) (visible_decls (w_members w) (policy_of (wk_exposer t)) (w_results w (wk_context t))).
Definition visible_by_default (t : work) : bool := match dlookup vis (wk_context t) with Some b => b | None => false end.

Lemma decls_not_tags t i : In i (flat_map (expand (w_extra w)) (decls_of t)) -> is_tag_kind (kind u i) = false.
Proof.
  intros H. apply in_flat_map in H as (d & Hd & Hi). unfold expand in Hi.
  destruct (x_specializations (w_extra w) d) as [l|] eqn:Es; [eapply la_templates; eassumption|]. destruct Hi as [->|[]].
  unfold decls_of, declarations in Hd. apply in_app_iff in Hd as [Hd|Hd].
  - apply (Permutation_in _ (Permutation_sym (sort_perm u _))), visible_iff in Hd as (f & _ & _ & _ & _ & _ & Hc & _).
    destruct (is_tag_kind (kind u i)) eqn:E; [|reflexivity]. apply (la_members u w L) in E. congruence.
  - destruct (kind u (wk_context t)); try destruct Hd. unfold associated_operators in Hd. apply filter_In in Hd as [Hd _].
    apply in_flat_map in Hd as (j & Hj & Hi). apply in_flat_map in Hj as (k & _ & Hj). unfold expand in Hi.
    destruct (x_specializations (w_extra w) j) as [l|] eqn:Ej; [eapply la_templates; eassumption|]. destruct Hi as [->|[]]. eapply la_operators; eassumption.
Qed.

Lemma define_agree t st1 st2 ss rs : agree st1 ->
  define u (w_extra w) (wk_exposer t) (visible_by_default t) (decls_of t) st1 = Some (st2, ss, rs) -> agree st2.
Proof.
  intros A D r Hr. destruct (define_spec _ _ _ _ _ _ _ _ _ D) as [_ _ Ho _ _ _ _ _ _]. rewrite Ho; [apply A, Hr|].
  intros Hin. apply decls_not_tags in Hin. congruence.
Qed.

Lemma get_record_agree st' r : agree st' -> get u st' supports_record at_record r = get u st supports_record at_record r.
Proof.
  intros A. unfold get. destruct (supports_record (u_decls u r)) eqn:E; [|reflexivity]. rewrite A; [reflexivity|].
  unfold kind. unfold supports_record in E. destruct (d_kind (u_decls u r)); try discriminate; reflexivity.
Qed.

Lemma parameter_agree st' e : agree st' -> parameter_of u w g st' e = parameter_of u w g st e.
Proof. intros A. destruct e; try reflexivity. cbn [parameter_of]. unfold class_of. rewrite get_record_agree by exact A. reflexivity. Qed.

Lemma class_some r p : exists t, class_of u w g st r p = Some t.
Proof.
  unfold class_of. destruct (class_bases_spec (w_hierarchy w) (la_acyclic u w L) p g r) as (l & -> & _). eexists. reflexivity.
Qed.

Lemma parameter_some e : exists p, parameter_of u w g st e = Some p.
Proof. destruct e; cbn [parameter_of]; try (eexists; reflexivity). destruct (class_some i p) as (t & ->). eexists. reflexivity. Qed.

Lemma introducer_some e parent : exists i, introducer_of u w g st e parent = Some i.
Proof. destruct e; cbn [introducer_of]; try (eexists; reflexivity). destruct (class_some i p) as (t & ->). eexists. reflexivity. Qed.

(** All bodies, one after the other. *)
Fixpoint run_bodies (st1 : storage) (ts : list work) : option (storage * list (list stmt) * list ereport) :=
  match ts with
  | [] => Some (st1, [], [])
  | t :: ts' =>
      match define u (w_extra w) (wk_exposer t) (visible_by_default t) (decls_of t) st1 with
      | None => None
      | Some (st2, b, rs) =>
          match run_bodies st2 ts' with
          | None => None
          | Some (st3, bs, rss) => Some (st3, b :: bs, rs ++ rss)
          end
      end
  end.

Definition param_of (t : work) : parameter := match parameter_of u w g st (wk_exposer t) with Some p => p | None => PModule end.
Definition intro_of (t : work) : introducer := match introduce u w g st scopes ids t with Some (_, i) => i | None => NAlias [] end.
Definition entry_of (t : work) (b : list stmt) : entry := mkEntry (wk_context t) (wk_identifier t) (param_of t) (intro_of t) b.
Fixpoint entries (ts : list work) (bs : list (list stmt)) : list entry :=
  match ts, bs with t :: ts', b :: bs' => entry_of t b :: entries ts' bs' | _, _ => [] end.

Definition written (j : nat) (e : entry) : list item := if Nat.eqb j 0 then [definition e] else [declaration e; definition e].

Lemma define_loop k total : 0 < k -> forall ts o, agree (o_storage o) -> length (o_streams o) = k -> o_index o + length ts <= total ->
  match run_bodies (o_storage o) ts with
  | None => fold_opt (define_step u w g vis total) ts o = None
  | Some (st', bs, rs) => exists o', fold_opt (define_step u w g vis total) ts o = Some o' /\
      o_storage o' = st' /\ agree st' /\ length bs = length ts /\ o_reports o' = o_reports o ++ rs /\ length (o_streams o') = k /\
      forall j s, nth_error (o_streams o') j = Some s <-> exists s0, nth_error (o_streams o) j = Some s0 /\
        s = s0 ++ flat_map (written j) (select (file_of k total) j (o_index o) (entries ts bs))
  end.
Proof.
  intros Hk. induction ts as [|t ts IH]; intros o A Hl Hi; cbn [run_bodies fold_opt].
  - exists o. split; [reflexivity|]. split; [reflexivity|]. split; [exact A|]. split; [reflexivity|]. split; [rewrite app_nil_r; reflexivity|]. split; [exact Hl|].
    intros j s. cbn. split; [intros E; exists s; rewrite app_nil_r; auto|intros (s0 & E & ->); rewrite app_nil_r; exact E].
  - assert (Hp : parameter_of u w g st (wk_exposer t) = Some (param_of t)).
    { unfold param_of. destruct (parameter_some (wk_exposer t)) as (p & ->). reflexivity. }
    assert (Hstep : define_step u w g vis total o t =
      match define u (w_extra w) (wk_exposer t) (visible_by_default t) (decls_of t) (o_storage o) with
      | None => None
      | Some (st1, b, rs1) =>
          match write_to (file_of k total (o_index o))
            ((if Nat.eqb (file_of k total (o_index o)) 0 then [] else [IDeclare (wk_identifier t) (param_of t)]) ++ [IDefine (wk_identifier t) (param_of t) b]) (o_streams o) with
          | None => None
          | Some streams => Some (mkOutput st1 (S (o_index o)) streams (o_reports o ++ rs1))
          end
      end).
    { unfold define_step, define_context. fold (decls_of t). fold (visible_by_default t). rewrite (parameter_agree _ _ A), Hp, Hl.
      change (o_index o * k / total) with (file_of k total (o_index o)).
      destruct (define u (w_extra w) (wk_exposer t) (visible_by_default t) (decls_of t) (o_storage o)) as [[[st1 b] rs1]|]; reflexivity. }
    rewrite Hstep. clear Hstep.
    destruct (define u (w_extra w) (wk_exposer t) (visible_by_default t) (decls_of t) (o_storage o)) as [[[st1 b] rs1]|] eqn:D; [|reflexivity].
    assert (A1 := define_agree _ _ _ _ _ A D).
    cbn [length] in Hi.
    assert (Hf : file_of k total (o_index o) < length (o_streams o)) by (rewrite Hl; apply file_of_lt; lia).
    set (items := (if Nat.eqb (file_of k total (o_index o)) 0 then [] else [IDeclare (wk_identifier t) (param_of t)]) ++ [IDefine (wk_identifier t) (param_of t) b]).
    destruct (write_to_spec items (file_of k total (o_index o)) (o_streams o) Hf) as (streams' & Hw & Hl' & Hs').
    specialize (IH (mkOutput st1 (S (o_index o)) streams' (o_reports o ++ rs1))). cbn [o_storage o_streams o_index o_reports] in IH.
    specialize (IH A1 ltac:(congruence) ltac:(lia)).
    destruct (run_bodies st1 ts) as [[[st3 bs] rss]|].
    + destruct IH as (o' & E & H1 & H2 & H3 & H4 & H5 & H6). exists o'. fold items. rewrite Hw.
      split; [exact E|]. split; [exact H1|]. split; [exact H2|]. split; [cbn; congruence|]. split; [rewrite H4, app_assoc; reflexivity|]. split; [exact H5|].
      intros j s. rewrite H6. cbn [entries select]. rewrite flat_map_app.
      assert (Hitems : flat_map (written j) (if Nat.eqb (file_of k total (o_index o)) j then [entry_of t b] else []) = if Nat.eqb j (file_of k total (o_index o)) then items else []).
      { rewrite (Nat.eqb_sym j). destruct (Nat.eqb_spec (file_of k total (o_index o)) j) as [<-|Ej]; [|reflexivity]. cbn [flat_map]. rewrite app_nil_r. unfold written, items, definition, declaration. cbn.
        destruct (Nat.eqb (file_of k total (o_index o)) 0); reflexivity. }
      rewrite Hitems. split.
      * intros (s1 & E1 & ->). apply Hs' in E1 as (s0 & E0 & ->). exists s0. split; [exact E0|]. rewrite <- app_assoc. reflexivity.
      * intros (s0 & E0 & ->). exists (s0 ++ (if Nat.eqb j (file_of k total (o_index o)) then items else [])). split; [apply Hs'; eauto|]. rewrite <- app_assoc. reflexivity.
    + fold items. rewrite Hw. exact IH.
Qed.
End Define.

(** ** The module *)

Lemma map_opt_map {A B} (f : A -> option B) (h : A -> B) l : (forall x, In x l -> f x = Some (h x)) -> map_opt f l = Some (map h l).
Proof.
  induction l as [|x l IH]; intros H; cbn [map_opt map]; [reflexivity|].
  rewrite (H x (or_introl eq_refl)), IH; [reflexivity|]. intros y Hy. apply H. right. exact Hy.
Qed.

Lemma public_bases_proper h r : acyclic h -> ~ In r (public_bases_of h r).
Proof.
  intros H Hin. unfold public_bases_of in Hin. apply in_map_iff in Hin as (s & E & Hs). apply filter_In in Hs as [Hs _]. apply H in Hs. rewrite E in Hs. lia.
Qed.

Lemma nth_error_repeat {A} (a : A) n k x : nth_error (repeat a n) k = Some x <-> k < n /\ x = a.
Proof.
  revert k. induction n as [|n IH]; intros [|k]; cbn [repeat nth_error]; try (split; [discriminate|lia]).
  - split; [intros [= <-]; split; [lia|reflexivity]|intros [_ ->]; reflexivity].
  - rewrite IH. split; intros [H ->]; split; auto; lia.
Qed.

Section Module.
Variables (u : unit) (w : facts) (g : graph) (vis : dmap bool) (st : storage) (nodes : list nat) (location : nat -> N).
Hypothesis T : tree_like g (u_root u).
Hypothesis K : kind u (u_root u) = KOther.
Hypothesis R : forall n, In n (g_nodes g) -> reachable g (u_root u) n.
Hypothesis L : language u w.
Hypothesis Q : good_queue location (w_pop w).
Hypothesis P : Permutation (g_nodes g) nodes.

Local Notation dep scopes := (depends u (public_bases_of (w_hierarchy w)) g scopes).

Lemma path_nodes l : path (edge g) (u_root u) l -> forall n, In n l -> In n (g_nodes g).
Proof.
  induction 1 as [|p c l Hp IH He]; intros n Hn.
  - destruct Hn as [<-|[]]. apply tl_root_node, T.
  - destruct Hn as [<-|Hn]; [eapply (tl_ends _ _ T), He|apply IH, Hn].
Qed.

(** Scopes are exposed, and every context but the root has one. *)
Lemma scope_exists scopes : find_enclosing_scopes u st g = Some scopes ->
  dlookup scopes (u_root u) = Some None /\
  forall c, In c (g_nodes g) -> c <> u_root u -> exists p, dlookup scopes c = Some (Some p) /\ In p (g_nodes g).
Proof.
  intros E. destruct (scope_spec u st g T K) as (m & Em & _ & Hroot & Hs). assert (m = scopes) as -> by congruence.
  split; [exact Hroot|]. intros c Hc Hn. destruct (R c Hc) as (l & Hl). destruct (Hs c l Hl Hn) as (l1 & p & l2 & -> & _ & _ & Hp).
  exists p. split; [exact Hp|]. apply (path_nodes _ Hl). right. apply in_app_iff. right. left. reflexivity.
Qed.

Section Ordered.
Variables (scopes : dmap (option nat)) (order : list nat) (p : plan).
Hypothesis Hscopes : find_enclosing_scopes u st g = Some scopes.
Hypothesis Horder : valid_order (g_nodes g) (dep scopes) order.
Hypothesis Hplan : plan_ok u w st order p.

Lemma order_nodup : NoDup order.
Proof. destruct Horder as [Hp _]. eapply Permutation_NoDup; [exact Hp|apply T]. Qed.

Lemma work_in t : In t (pl_work p) -> In (wk_context t) order.
Proof. intros H. apply (blocks_incl _ _ _ _ (po_blocks _ _ _ _ _ Hplan)), in_map, H. Qed.

Lemma node_iff c : In c order <-> In c (g_nodes g).
Proof. destruct Horder as [Hp _]. split; apply Permutation_in; [apply Permutation_sym|]; exact Hp. Qed.

(** The identifier of the parent object. *)
Lemma parent_known c : In c order -> c <> u_root u ->
  exists q t, dlookup scopes c = Some (Some q) /\ dlookup (pl_identifiers p) q = Some (wk_identifier t) /\ In t (pl_work p) /\
    (wk_context t = q \/ same_namespace u (wk_context t) q) /\
    forall l1 l2, order = l1 ++ c :: l2 -> In (wk_context t) l1.
Proof.
  intros Hc Hn. apply node_iff in Hc. destruct (scope_exists _ Hscopes) as [_ Hs]. destruct (Hs c Hc Hn) as (q & Hq & Hqn).
  assert (Hbefore : forall l1 l2, order = l1 ++ c :: l2 -> In q l1).
  { intros l1 l2 E. destruct Horder as [_ Hr]. apply (Hr l1 c l2 E). split; [exact Hc|]. split; [exact Hqn|]. auto. }
  apply node_iff in Hqn. apply in_split in Hqn as (l1 & l2 & E).
  destruct (po_rep _ _ _ _ _ Hplan l1 q l2 E) as (t & Ht & Hid & Hrep). exists q, t. split; [exact Hq|]. split; [exact Hid|]. split; [exact Ht|].
  split; [destruct Hrep as [Hrep|[Hrep _]]; auto|]. intros m1 m2 Em. assert (Hq1 := Hbefore m1 m2 Em).
  destruct Hrep as [->|(_ & Hin & _)]; [exact Hq1|].
  (* the block comes before q, which comes before c *)
  apply in_split in Hq1 as (n1 & n2 & ->). rewrite Em in E. rewrite <- app_assoc in E. cbn in E.
  assert (E' : n1 = l1). 
  { assert (N := order_nodup). rewrite Em in N. rewrite <- app_assoc in N. cbn in N. clear - E N. revert l1 E. induction n1 as [|x n1 IH]; intros [|y l1] E; cbn in E.
    - reflexivity.
    - injection E as <- E. exfalso. cbn in N. inversion N as [|? ? Hx _]. apply Hx. rewrite E. apply in_app_iff. right. left. reflexivity.
    - injection E as -> E. exfalso. cbn in N. inversion N as [|? ? Hx _]. apply Hx. apply in_app_iff. right. left. reflexivity.
    - injection E as <- E. f_equal. cbn in N. inversion N. apply IH; assumption. }
  subst n1. apply in_app_iff. auto.
Qed.

Lemma introduce_some t : In t (pl_work p) -> introduce u w g st scopes (pl_identifiers p) t = Some (wk_identifier t, intro_of u w g st scopes (pl_identifiers p) t) /\
  exists parent, introducer_of u w g st (wk_exposer t) parent = Some (intro_of u w g st scopes (pl_identifiers p) t) /\
  ((wk_context t = u_root u /\ parent = $"root") \/
   (wk_context t <> u_root u /\ exists q t', dlookup scopes (wk_context t) = Some (Some q) /\ In t' (pl_work p) /\ parent = wk_identifier t' /\
      (wk_context t' = q \/ same_namespace u (wk_context t') q) /\ forall l1 l2, order = l1 ++ wk_context t :: l2 -> In (wk_context t') l1)).
Proof.
  intros Ht. unfold intro_of. unfold introduce. destruct (Nat.eqb_spec (wk_context t) (u_root u)) as [E|E].
  - destruct (scope_exists _ Hscopes) as [Hr _]. rewrite E, Hr. cbn [negb xorb].
    destruct (introducer_some u w g st L (wk_exposer t) ($"root")) as (i & Hi). rewrite Hi. cbn [option_map]. split; [reflexivity|].
    exists ($"root"). split; [exact Hi|]. left. auto.
  - destruct (parent_known (wk_context t) (work_in t Ht) E) as (q & t' & Hq & Hid & Ht' & Hrep & Hb). rewrite Hq. cbn [negb xorb]. rewrite Hid.
    destruct (introducer_some u w g st L (wk_exposer t) (wk_identifier t')) as (i & Hi). rewrite Hi. cbn [option_map]. split; [reflexivity|].
    exists (wk_identifier t'). split; [exact Hi|]. right. split; [exact E|]. exists q, t'. auto 10.
Qed.

Lemma work_nonempty : 0 < length (pl_work p).
Proof.
  assert (H : In (u_root u) (map wk_context (pl_work p))).
  { apply (blocks_keeps _ _ _ _ (po_blocks _ _ _ _ _ Hplan)); [apply node_iff, tl_root_node, T|]. rewrite K. discriminate. }
  destruct (pl_work p); [destruct H|cbn; lia].
Qed.

Lemma entries_map ts : forall bs' : list (list stmt), length bs' = length ts ->
  let all := entries u w g st scopes (pl_identifiers p) ts bs' in
  map ex_context all = map wk_context ts /\ map ex_id all = map wk_identifier ts /\ map ex_param all = map (param_of u w g st) ts /\
  map ex_intro all = map (intro_of u w g st scopes (pl_identifiers p)) ts /\ map ex_body all = bs' /\ length all = length ts.
Proof.
  induction ts as [|t ts IH]; intros [|b bs'] Hl; try discriminate; cbn [entries map length]; [auto 10|].
  destruct (IH bs') as (H1 & H2 & H3 & H4 & H5 & H6); [cbn in Hl; congruence|]. cbn [entry_of ex_context ex_id ex_param ex_intro ex_body].
  rewrite H1, H2, H3, H4, H5, H6. auto 10.
Qed.
End Ordered.

Definition module_entries (scopes : dmap (option nat)) (p : plan) (bs : list (list stmt)) : list entry := entries u w g st scopes (pl_identifiers p) (pl_work p) bs.

Lemma emit_core n name : 0 < n ->
  exists scopes, find_enclosing_scopes u st g = Some scopes /\ exists r, sort_contexts (w_pop w) u (public_bases_of (w_hierarchy w)) nodes g scopes = Some r /\
  match r with
  | CycleAt c => cyclic (dep scopes) /\ emit_module u w g vis st nodes n name = Some (ECycle c)
  | Sorted order => valid_order (g_nodes g) (dep scopes) order /\ ~ cyclic (dep scopes) /\ exists p, make_plan u w st order = Some p /\ plan_ok u w st order p /\
      match run_bodies u w vis st (pl_work p) with
      | None => emit_module u w g vis st nodes n name = None
      | Some (st', bs, rs) => length bs = length (pl_work p) /\
          exists files chunks, emit_module u w g vis st nodes n name = Some (EWritten files rs st') /\ length files = n /\
            layout name (postamble u w st) (module_entries scopes p bs) chunks files /\
            forall c, In c chunks -> length c = length (module_entries scopes p bs) / n \/ length c = length (module_entries scopes p bs) / n + 1
      end
  end.
Proof.
  intros Hn. destruct (scope_spec u st g T K) as (scopes & Es & _). exists scopes. split; [exact Es|].
  destruct (order_spec u st g T K (public_bases_of (w_hierarchy w)) (fun r => public_bases_proper _ r (la_acyclic u w L)) scopes Es nodes P location (w_pop w) Q) as (r & Er & Hr).
  exists r. split; [exact Er|]. destruct n as [|n]; [lia|]. unfold emit_module. rewrite Es, Er. destruct r as [order|c].
  2:{ split; [apply Hr|reflexivity]. }
  destruct Hr as [Hv Hc]. split; [exact Hv|]. split; [exact Hc|].
  destruct (plan_exists u w st (la_acyclic u w L) order (order_nodup scopes order Hv)) as (p & Ep & Hp). exists p. split; [exact Ep|]. split; [exact Hp|]. rewrite Ep.
  rewrite (map_opt_map _ (fun t => IDeclare (wk_identifier t) (param_of u w g st t))).
  2:{ intros t _. unfold declare, param_of. destruct (parameter_some u w g st L (wk_exposer t)) as (q & ->). reflexivity. }
  rewrite (map_opt_map _ (fun t => (wk_identifier t, intro_of u w g st scopes (pl_identifiers p) t))).
  2:{ intros t Ht. apply (introduce_some scopes order p Es Hv Hp t Ht). }
  assert (Hpos := work_nonempty scopes order p Hv Hp).
  set (main := map _ (pl_work p) ++ [_]).
  assert (H := define_loop u w g vis st scopes (pl_identifiers p) L (S n) (length (pl_work p)) (Nat.lt_0_succ n) (pl_work p) (mkOutput st 0 (main :: repeat [] n) [])
    (agree_refl u st)). cbn [o_storage o_streams o_index o_reports length pred] in *.
  specialize (H ltac:(rewrite repeat_length; reflexivity) ltac:(lia)).
  destruct (run_bodies u w vis st (pl_work p)) as [[[st' bs] rs]|]; [|rewrite H; reflexivity].
  destruct H as (o' & -> & <- & A & Hl & Hrs & Hk & Hs). cbn [app] in Hrs. split; [exact Hl|].
  destruct (entries_map scopes p (pl_work p) bs Hl) as (M1 & M2 & M3 & M4 & M5 & M6). fold (module_entries scopes p bs) in *.
  set (all := module_entries scopes p bs) in *.
  exists (o_streams o'), (map (fun j => select (file_of (S n) (length (pl_work p))) j 0 all) (seq 0 (S n))).
  split; [cbn [option_map]; rewrite Hrs; reflexivity|]. split; [exact Hk|]. split; [split; [|split]|].
  - apply select_concat; [intros i i' Hi; apply (file_of_mono (S n) (length (pl_work p))); [lia|exact Hpos|exact Hi]|]. intros k Hk'. rewrite M6 in Hk'. split; [lia|]. apply file_of_lt; lia.
  - rewrite map_length, seq_length. symmetry. exact Hk.
  - intros k chunk file Hch Hf. apply Hs in Hf as (s0 & Hs0 & ->).
    assert (Hkn : k < S n). { rewrite <- Hk. assert (X := nth_error_Some (o_streams o') k). rewrite Hk in *. destruct (Nat.lt_ge_cases k (S n)) as [|Hge]; [assumption|].
      assert (nth_error (map (fun j => select (file_of (S n) (length (pl_work p))) j 0 all) (seq 0 (S n))) k = None) by (apply nth_error_None; rewrite map_length, seq_length; exact Hge). congruence. }
    assert (chunk = select (file_of (S n) (length (pl_work p))) k 0 all) as ->.
    { assert (E0 : nth_error (seq 0 (S n)) k = Some k).
      { rewrite (nth_error_nth' _ 0) by (rewrite seq_length; exact Hkn). rewrite seq_nth by exact Hkn. reflexivity. }
      apply (map_nth_error (fun j => select (file_of (S n) (length (pl_work p))) j 0 all)) in E0. congruence. }
    destruct k as [|k].
    + cbn [nth_error] in Hs0. injection Hs0 as <-. unfold main.
      assert (D : forall l, flat_map (written 0) l = map definition l). { induction l as [|e l IH]; [reflexivity|]. cbn [flat_map map]. rewrite IH. reflexivity. }
      rewrite D, <- app_assoc. cbn [app]. f_equal.
      * transitivity (map (fun e : str * parameter => IDeclare (fst e) (snd e)) (combine (map wk_identifier (pl_work p)) (map (param_of u w g st) (pl_work p)))).
        -- clear. induction (pl_work p) as [|t ts IH]; [reflexivity|]. cbn. f_equal. exact IH.
        -- rewrite <- M2, <- M3. clear. induction all as [|e l IH]; [reflexivity|]. cbn. f_equal. exact IH.
      * f_equal. f_equal.
        -- transitivity (combine (map wk_identifier (pl_work p)) (map (intro_of u w g st scopes (pl_identifiers p)) (pl_work p))).
           ++ clear. induction (pl_work p) as [|t ts IH]; [reflexivity|]. cbn. f_equal. exact IH.
           ++ rewrite <- M2, <- M4. clear. induction all as [|e l IH]; [reflexivity|]. cbn. f_equal. exact IH.
        -- transitivity (map (fun i => (i, i)) (map wk_identifier (pl_work p))); [rewrite map_map; reflexivity|]. rewrite <- M2, map_map. reflexivity.
    + cbn [nth_error] in Hs0. apply nth_error_repeat in Hs0 as [_ ->]. reflexivity.
  - intros c Hin. apply in_map_iff in Hin as (j & <- & Hj). apply in_seq in Hj. rewrite M6. apply chunk_size; [lia|exact Hpos|exact M6|lia].
Qed.
End Module.
