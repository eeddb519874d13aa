(** * Proofs about access to what the generated code refers to *)
From Verif Require Import Base ParserModel AnnotModel AnnotSpec CollectModel CollectSpec CollectProofs GraphModel GraphSpec GraphWalk GraphPlace GraphFinal OrderModel OrderSpec InlineModel InlineSpec InlineProofs
  EmitModel EmitSpec EmitProofs EmitFinal ModuleModel ModuleSpec ModuleChunks ModuleProofs ModuleFinal ImportSpec ImportProofs ExecSpec ExecProofs AccessSpec AccessProofs FindSpec FindProofs PublicSpec.

Lemma expand_in x i j : In i (expand x j) -> i = j \/ exists l, x_specializations x j = Some l /\ In i l.
Proof. unfold expand. destruct (x_specializations x j) as [l|]; [right; eauto|intros [<-|[]]; auto]. Qed.

Section Run.
Context (u : unit) (w : facts) (found : nat -> list nat) (implicit : nat -> bool) (iteration : list nat -> list nat) (n : nat) (name : str) (b : bstate).
Context (files : list (list item)) (rs : list ereport) (st' : storage).
Hypothesis (Se : setting u w iteration) (Hn : 0 < n) (HG : generate u w found implicit iteration n name = Some (RGraph b (EWritten files rs st'))).

Lemma referred_found i : referred files i -> exists c x j, In i (expand (w_extra w) j) /\ In j (looked_up u w c x).
Proof.
  intros (id & q & body & t & Hd & Ht & Hm). destruct (run_written _ _ _ _ _ Se _ _ _ _ _ _ Hn HG) as (g & vis & order & all & chunks & post & X & G & Ly & Hlen & _).
  assert (Hf : 0 < length files) by lia. destruct (definitions_in _ _ _ _ _ Ly Hf _ _ _ Hd) as (e & He & <-).
  destruct (ge_bodies _ _ _ _ _ _ _ _ _ _ _ G) as (rss & Fb & _). destruct (forall2_in_l _ _ _ _ Fb He) as (r & _ & x & st1 & st2 & Hc & D & _).
  destruct (mentioned_is_shown _ _ _ _ _ _ _ _ _ D t i Ht Hm) as (Hi & _). apply in_flat_map in Hi as (j & Hj & Hi). exists (ex_context e), x, j. auto.
Qed.

Lemma referred_named i : referred files i -> (exists j, (i = j \/ exists l, x_specializations (w_extra w) j = Some l /\ In i l) /\ named_publicly w j) \/
  exists j, (i = j \/ exists l, x_specializations (w_extra w) j = Some l /\ In i l) /\ used_in_expressions w j.
Proof.
  intros R. destruct (referred_found i R) as (c & x & j & Hi & Hj). apply expand_in in Hi. unfold looked_up, declarations in Hj. apply in_app_iff in Hj as [Hj|Hj].
  - left. exists j. split; [exact Hi|]. rewrite !(sort_in u) in Hj. apply visible_iff in Hj as (f & Hf & Hh & Hp & _ & De & _). exists c, f. auto.
  - right. exists j. split; [exact Hi|]. destruct (kind u c); try destruct Hj. unfold associated_operators in Hj. apply filter_In in Hj as [Hj _].
    apply in_flat_map in Hj as (k & Hk & Hj). apply in_flat_map in Hk as (kk & _ & Hk). exists c, kk, k. split; [exact Hk|]. apply expand_in in Hj. exact Hj.
Qed.

Lemma referred_public i : same_access w -> modest_usings w -> referred files i ->
  is_public w i \/ exists j, (i = j \/ exists l, x_specializations (w_extra w) j = Some l /\ In i l) /\ used_in_expressions w j.
Proof.
  intros Sa Mo R. destruct (referred_named i R) as [(j & Hi & c & f & Hf & _ & Hp & De)|H]; [left|right; exact H].
  assert (Pj : is_public w j).
  { unfold denotes in De. destruct (mb_shadow (w_members w (fd_decl f))) as [t|] eqn:E; subst j; [eapply Mo; eassumption|exact Hp]. }
  destruct Hi as [->|(l & El & Hi)]; [exact Pj|]. eapply Sa; eassumption.
Qed.

Lemma introduced_context c : introduced files c -> exists g vis, exposed u found implicit name g vis b /\ In c (g_nodes g) /\ tag u c.
Proof.
  intros (nm & intros & calls & post' & id & i & Hm & Hi & Hc). destruct (run_written _ _ _ _ _ Se _ _ _ _ _ _ Hn HG) as (g & vis & order & all & chunks & post & X & G & Ly & Hlen & _).
  assert (Hf : 0 < length files) by lia. destruct (layout_definitions _ _ _ _ _ Ly Hf) as [_ Hmod].
  assert (H : In (IModule nm intros calls post') (filter is_module (concat files))) by (apply filter_In; auto). rewrite Hmod in H. destruct H as [H|[]].
  injection H as _ <- _ _. apply in_map_iff in Hi as (e & Ee & He). injection Ee as _ Ei. destruct (ge_introduces _ _ _ _ _ _ _ _ _ _ _ G e He) as [In_ _]. rewrite Ei in In_.
  exists g, vis. split; [exact X|]. assert (Hin : In (ex_context e) (g_nodes g)) by (eapply entry_context_node; eassumption).
  assert (E : ex_context e = c /\ tag u c).
  { unfold introduces in In_. unfold tag. destruct (kind u (ex_context e)) eqn:K;
      solve [destruct In_ as (t & p & m & d & -> & _ & Hr & _); rewrite Hr in Hc; subst c; auto
            |destruct In_ as (p & m & d & -> & _); subst c; auto
            |destruct i; contradiction
            |destruct In_ as (p & ->); contradiction]. }
  destruct E as [<- T]. auto.
Qed.

(** Protected and private classes have to be made visible explicitly. *)
Lemma introduced_public c : introduced files c -> tag u c /\ exists l, path (place u) (u_root u) (c :: l) /\
  forall m, In m (c :: l) -> tag u m -> u_hidden_access u m = true -> stated u m (Some true).
Proof.
  intros H. destruct (introduced_context c H) as (g & vis & X & Hin & T). split; [exact T|].
  assert (P := se_placed _ _ _ Se). apply (found_iff u P _ _ _ _ _ _ X c T) in Hin as (_ & l & Hl & Hv & _). exists l. split; [exact Hl|].
  intros m Hm Tm Ha. apply in_split in Hm as (l1 & l2 & E). specialize (Hv l1 m l2 E Tm).
  destruct X as (contexts & warned & X). assert (S := process_spec u P found implicit name). rewrite X in S. destruct S as (vis0 & contexts0 & Hb & _).
  destruct (collect u) as [s|] eqn:C; [|unfold build_graph in Hb; rewrite C in Hb; discriminate].
  destruct (stated_total u s b P C Hb m) as (v & St).
  assert (D : exists v, decides u m v /\ (v = true -> stated u m (Some true))).
  { destruct v as [v|]; [exists v; split; [left; exact St|intros ->; exact St]|]. exists false. split; [right; auto|discriminate]. }
  destruct D as (d & D & Dt).
  destruct Hv as [(k1 & n' & k2 & E' & D' & N)|[Hf _]]; [|discriminate]. destruct k1 as [|y k1]; cbn in E'; injection E' as -> E'.
  - destruct D' as [D'|(_ & _ & D')]; [exact D'|discriminate].
  - destruct (N y d (or_introl eq_refl) D).
Qed.
End Run.
