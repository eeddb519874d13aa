(** * Proofs about what hiding a single declaration changes in the outputs of the program *)
From Coq Require Import Lia.
From Verif Require Import Base ParserModel StringModel AnnotModel AnnotSpec CollectModel CollectSpec GraphModel GraphSpec OrderModel InlineModel EmitModel EmitSpec ModuleModel ModuleSpec
  ToolModel ToolSpec ToolProofs LocalSpec LocalProofs HideSpec HideProofs WithdrawSpec.

Definition withdrawn_output (i : nat) (x : str * contents) : str * contents := (fst x, withdrawn i (snd x)).

Lemma opened env l opened : open_outputs env l = (opened, false) -> opened = l.
Proof.
  revert opened. induction l as [|p l IH]; intros o E; cbn [open_outputs] in E; [injection E as <-; reflexivity|].
  destruct (can_open env p); [|discriminate E]. destruct (open_outputs env l) as [l' e]. injection E as <- ->. f_equal. exact (IH _ eq_refl).
Qed.

Lemma combine_withdrawn i text l : forall parts, map (withdrawn_output i) (combine l (map (New text) parts)) = combine l (map (New text) (map (map (unbound_item i)) parts)).
Proof. induction l as [|p l IH]; intros [|part parts]; cbn [map combine]; [reflexivity..|]. f_equal. apply IH. Qed.

Lemma handled_withdrawn i env outputs name includes j j' l : hidden_job i j j' -> handle_unit env outputs name includes j = Some (l, false) ->
  map fst l = outputs /\ handle_unit env outputs name includes j' = Some (map (withdrawn_output i) l, false).
Proof.
  intros (texts & a & a' & P & L & N & V & V' & Hh & M & Ha & Hac & ->). unfold handle_unit. cbn [j_unit j_facts j_found j_implicit j_iteration j_main].
  pose proof (process_sim (j_unit j) i texts L N P a a' V V' Hh Ha (j_found j) (j_implicit j) name Hac) as Q.
  destruct (process (j_unit j) (j_found j) (j_implicit j) name) as [[rs|cs|g contexts vis warned b]| |],
    (process (reannotated (j_unit j) i texts) (j_found j) (j_implicit j) name) as [[rs'|cs'|g' contexts' vis' warned' b']| |]; cbn [rel_out same_processed] in Q; try contradiction; try discriminate.
  destruct Q as (<- & <- & <- & <- & [B1 _ _ B4]). destruct (open_outputs env outputs) as [o [|]] eqn:O; [discriminate|]. apply opened in O. subst o.
  pose proof (emit_sim (j_unit j) i texts L a a' V V' Hh M (j_facts j) g vis _ _ (j_iteration j (g_nodes g)) (length outputs) name B1) as E.
  destruct (emit_module (j_unit j) (j_facts j) g vis (bs_annotations b) (j_iteration j (g_nodes g)) (length outputs) name) as [e|] eqn:Em; [|discriminate].
  destruct (E e eq_refl) as (e' & -> & E'). destruct e as [c|files rs st], e' as [c'|files' rs' st']; cbn in E'; try contradiction; [discriminate|].
  destruct E' as [-> ->]. intros [= <- Er]. apply Bool.orb_false_iff in Er. destruct Er as [E1 E2]. split.
  - apply map_fst_combine. rewrite map_length. exact (emit_length _ _ _ _ _ _ _ _ _ _ _ Em).
  - rewrite combine_withdrawn, B4, E1. cbn [orb]. repeat f_equal. apply no_error_iff. intros r Hr. apply filter_In in Hr. exact (proj1 (no_error_iff rs) E2 r (proj1 Hr)).
Qed.

Lemma cleared_withdrawn i env : forall l fs fs0 out fs1 out1 (W : str -> Prop), clear_outputs env false l fs out = (fs1, out1, false) ->
  (forall p, W p -> fs0 p = option_map (withdrawn i) (fs p)) -> (forall p, ~ W p -> fs0 p = fs p) ->
  exists fs2, clear_outputs env false (map (withdrawn_output i) l) fs0 (map (withdrawn i) out) = (fs2, map (withdrawn i) out1, false) /\
    (forall p, W p \/ (In p (map fst l) /\ p <> $"-") -> fs2 p = option_map (withdrawn i) (fs1 p)) /\
    (forall p, ~ (W p \/ (In p (map fst l) /\ p <> $"-")) -> fs2 p = fs1 p).
Proof.
  induction l as [|[q c] l IH]; intros fs fs0 out fs1 out1 W E H1 H2.
  - injection E as <- <-. exists fs0. split; [reflexivity|]. split; [intros p [Hp|[[] _]]; auto|intros p Hp; apply H2; tauto].
  - cbn [clear_outputs map withdrawn_output fst snd] in E |- *. destruct (str_eqb q ($"-")) eqn:Q.
    + apply str_eqb_eq in Q. subst q. destruct (IH _ fs0 _ _ _ W E H1 H2) as (fs2 & R & R1 & R2). rewrite map_app in R. exists fs2. split; [exact R|].
      split; intros p Hp; [apply R1|apply R2; intros K; apply Hp]; cbn in *; intuition congruence.
    + assert (Nq : q <> $"-") by (intros ->; rewrite str_eqb_refl in Q; discriminate Q).
      destruct (can_rename env q); [|destruct (clear_outputs env false l fs out) as [[? ?] ?]; discriminate E].
      destruct (IH _ (set_file q (Some (withdrawn i c)) fs0) _ _ _ (fun p => W p \/ p = q) E) as (fs2 & R & R1 & R2).
      * intros p Hp. unfold set_file. destruct (str_eqb q p) eqn:K; [reflexivity|]. destruct Hp as [Hp| ->]; [exact (H1 p Hp)|]. rewrite str_eqb_refl in K. discriminate K.
      * intros p Hp. unfold set_file. destruct (str_eqb q p) eqn:K; [apply str_eqb_eq in K; subst; tauto|]. apply H2. tauto.
      * exists fs2. split; [exact R|]. split; intros p Hp; [apply R1|apply R2; intros K; apply Hp]; cbn in *; intuition (subst; auto).
Qed.

Lemma main_withdrawn i env outputs keep name j j' fs fs1 out1 : hidden_job i j j' ->
  main env outputs keep false name [j] fs = Some (fs1, out1, 0%N) ->
  exists fs2, main env outputs keep false name [j'] fs = Some (fs2, map (withdrawn i) out1, 0%N) /\
    (forall p, In p outputs -> p <> $"-" -> fs2 p = option_map (withdrawn i) (fs1 p)) /\
    (forall p, ~ In p outputs \/ p = $"-" -> fs2 p = fs1 p).
Proof.
  intros C. pose proof C as (texts & a & a' & _ & _ & _ & _ & _ & _ & _ & _ & _ & E). assert (J : j_main j' = j_main j /\ j_pragmas j' = j_pragmas j /\ j_errors j' = j_errors j) by (rewrite E; auto). clear E.
  destruct J as (J1 & J2 & J3). unfold main, parse_options. destruct (map_opt parse_output outputs) as [l0|] eqn:Po; [|discriminate]. apply parse_outputs_spec in Po. destruct Po as [-> _].
  unfold run_jobs. cbn [fold_opt op_xfail op_module]. unfold run_job. cbn [op_outputs op_keep wd_module wd_files wd_stdout wd_failed]. rewrite J1, J2, J3.
  destruct (handle_pragmas (j_pragmas j) []) as [includes pe].
  destruct (handle_unit env (effective outputs) (default_name name (j_main j)) includes j) as [[l e]|] eqn:H; unfold effective in H; rewrite H; [|discriminate].
  destruct (clear_outputs env _ l fs []) as [[fs' out'] e'] eqn:Cl. cbn [wd_failed wd_files wd_stdout orb].
  destruct (j_errors j || pe || e) eqn:Er; [discriminate|]. destruct e'; [discriminate|]. cbn [orb]. intros [= <- <-].
  apply Bool.orb_false_iff in Er. destruct Er as [Er ->]. destruct (handled_withdrawn _ _ _ _ _ _ _ _ C H) as [F Hw]. rewrite Hw. rewrite Er.
  rewrite Bool.andb_false_r in Cl. cbn [orb]. rewrite Bool.andb_false_r.
  destruct (cleared_withdrawn i env l fs fs [] _ _ (fun _ => False) Cl) as (fs2 & R & R1 & R2); [intros p []|reflexivity|]. cbn [map] in R. rewrite R. cbn [wd_failed wd_files wd_stdout].
  exists fs2. split; [reflexivity|]. rewrite F in R1, R2. split.
  - intros p Hp Np. apply R1. right. split; [|exact Np]. destruct outputs; [destruct Hp|exact Hp].
  - intros p Hp. apply R2. intros [[]|[K Np]]. destruct Hp as [Hp|Hp]; [|exact (Np Hp)]. destruct outputs; [destruct K as [<-|[]]; exact (Np eq_refl)|exact (Hp K)].
Qed.
