(** * Proofs about runs with several compile commands *)
From Verif Require Import Base ParserModel StringModel StringSpec StringProofs AnnotModel CollectModel GraphModel OrderModel InlineModel EmitModel ModuleModel ToolModel ToolSpec ToolProofs RunsSpec.

Lemma clear_shift env erase : forall l fs out, clear_outputs env erase l fs out =
  let '(fs', out', e) := clear_outputs env erase l fs [] in (fs', out ++ out', e).
Proof.
  induction l as [|[p c] l IH]; intros fs out; cbn [clear_outputs]; [rewrite app_nil_r; reflexivity|].
  destruct (str_eqb p ($"-")).
  - rewrite (IH fs (out ++ [c])), (IH fs ([] ++ [c])). destruct (clear_outputs env erase l fs []) as [[fs' out'] e]. rewrite <- app_assoc. reflexivity.
  - destruct erase; [apply IH|]. destruct (can_rename env p); [apply IH|]. rewrite (IH fs out). destruct (clear_outputs env false l fs []) as [[fs' out'] e]. reflexivity.
Qed.

Definition after (out : list contents) (f : bool) (w : world) : world := mkWorld (wd_files w) (out ++ wd_stdout w) (wd_module w) (f || wd_failed w).

Lemma job_shift env o j fs out m f : run_job env o (mkWorld fs out m f) j = option_map (after out f) (run_job env o (mkWorld fs [] m false) j).
Proof.
  unfold run_job. cbn [wd_module wd_files wd_stdout wd_failed]. destruct (handle_pragmas (j_pragmas j) []) as [includes pe]. destruct (handle_unit _ _ _ _ _) as [[l e]|]; [|reflexivity].
  rewrite clear_shift. destruct (clear_outputs _ _ _ _ _) as [[fs' out'] e']. unfold after. cbn. f_equal. f_equal. rewrite !orb_assoc. reflexivity.
Qed.

Lemma after_after out f out' f' w : after out f (after out' f' w) = after (out ++ out') (f || f') w.
Proof. unfold after. cbn. rewrite app_assoc, orb_assoc. reflexivity. Qed.

Lemma jobs_shift env o : forall jobs fs out m f, fold_opt (run_job env o) jobs (mkWorld fs out m f) = option_map (after out f) (fold_opt (run_job env o) jobs (mkWorld fs [] m false)).
Proof.
  induction jobs as [|j jobs IH]; intros fs out m f; cbn [fold_opt].
  - unfold after. cbn. rewrite app_nil_r, orb_false_r. reflexivity.
  - rewrite job_shift. destruct (run_job env o (mkWorld fs [] m false) j) as [[fs1 out1 m1 f1]|]; [|reflexivity]. cbn [option_map]. unfold after at 1. cbn [wd_files wd_stdout wd_module wd_failed].
    rewrite IH, (IH fs1 out1 m1 f1). destruct (fold_opt _ _ _) as [w|]; [|reflexivity]. cbn [option_map]. rewrite after_after. reflexivity.
Qed.

Lemma job_module env o w j w' : run_job env o w j = Some w' -> wd_module w' = default_name (wd_module w) (j_main j).
Proof. intros H. apply (run_job_failed _ _ _ _ _ H). Qed.

Lemma one_after_another env outputs keep xfail name j jobs fs : jobs <> [] ->
  main env outputs keep xfail name (j :: jobs) fs =
  followed_by xfail (main env outputs keep xfail name [j] fs) (main env outputs keep xfail (default_name name (j_main j)) jobs).
Proof.
  intros Hj. unfold main, followed_by, parse_options. destruct (map_opt parse_output outputs) as [l|]; [|destruct xfail; reflexivity].
  cbn [op_module op_xfail]. set (o := mkOptions _ keep xfail name). set (o' := mkOptions _ keep xfail (default_name name (j_main j))).
  unfold run_jobs. cbn [fold_opt]. destruct (run_job env o (mkWorld fs [] name false) j) as [[fs1 out1 m1 f1]|] eqn:E; [|reflexivity].
  assert (Em := job_module _ _ _ _ _ E). cbn [wd_module] in Em. subst m1. cbn [wd_files wd_stdout wd_failed]. change (run_job env o') with (run_job env o). rewrite (jobs_shift env o jobs fs1 out1 _ f1).
  destruct (fold_opt _ _ _) as [w|]; [|reflexivity]. cbn [option_map]. unfold after. cbn [wd_files wd_stdout wd_failed]. f_equal. f_equal. f_equal.
  destruct jobs as [|j' jobs]; [congruence|]. unfold combined_status. destruct xfail, f1, (wd_failed w); reflexivity.
Qed.

(** The last command. *)
Lemma last_command env outputs keep xfail : forall jobs name j fs fs' out code ns n, main env outputs keep xfail name (jobs ++ [j]) fs = Some (fs', out, code) ->
  names name (jobs ++ [j]) (ns ++ [n]) -> exists name1 fs1 out1 out2 code2, n = default_name name1 (j_main j) /\
    main env outputs keep xfail name1 [j] fs1 = Some (fs', out2, code2) /\ out = out1 ++ out2.
Proof.
  induction jobs as [|j0 jobs IH]; intros name j fs fs' out code ns n H Hn.
  - cbn [app] in *. inversion Hn as [|m j1 js n1 ns1 N1 N2 Hr]; subst. inversion Hr; subst. assert (ns = [] /\ n = n1) as [-> ->].
    { destruct ns as [|x [|y ns]]; cbn in *; try discriminate; match goal with E : _ = _ |- _ => injection E as E'; subst; auto end. }
    exists name, fs, [], out, code. split; [|split; [exact H|reflexivity]]. destruct name; [apply N2; reflexivity|apply N1; discriminate].
  - cbn [app] in H, Hn. rewrite one_after_another in H by (destruct jobs; discriminate). unfold followed_by in H.
    destruct (main env outputs keep xfail name [j0] fs) as [[[fs1 out1] c1]|]; [|discriminate H].
    destruct (main env outputs keep xfail (default_name name (j_main j0)) (jobs ++ [j]) fs1) as [[[fs2 out2] c2]|] eqn:E2; [|discriminate H]. injection H as <- <- <-.
    inversion Hn as [|m j1 js n1 ns1 N1 N2 Hr E0 E1 E3]; subst. destruct ns as [|x ns].
    { cbn in E3. injection E3 as -> ->. inversion Hr as [X Y Z|]; destruct jobs; discriminate. }
    cbn in E3. injection E3 as -> ->. assert (En : x = default_name name (j_main j0)) by (destruct name; [apply N2; reflexivity|apply N1; discriminate]). subst x.
    destruct (IH _ _ _ _ _ _ _ _ E2 Hr) as (name1 & fs3 & o1 & o2 & c3 & A & B & ->). exists name1, fs3, (out1 ++ o1), o2, c3. rewrite app_assoc. auto.
Qed.

(** Files that are not outputs. *)
Lemma others_kept env outputs keep xfail : forall jobs name fs fs' out code, main env outputs keep xfail name jobs fs = Some (fs', out, code) ->
  forall p, p = $"-" \/ ~ In p outputs -> fs' p = fs p.
Proof.
  assert (One : forall name j fs fs' out code, main env outputs keep xfail name [j] fs = Some (fs', out, code) -> forall p, p = $"-" \/ ~ In p outputs -> fs' p = fs p).
  { intros name j fs fs' out code H p Hp. destruct (parse_options outputs keep xfail name) as [o|] eqn:Eo.
    2:{ unfold main in H. rewrite Eo in H. injection H as <- _ _. reflexivity. }
    assert (Ha : acceptable outputs).
    { unfold parse_options in Eo. destruct (map_opt parse_output outputs) as [l|] eqn:El; [|discriminate Eo].
      intros q Hq. destruct (str_eqb q ($"-")) eqn:Eq; [left; apply str_eqb_eq, Eq|right]. destruct (is_absolute q) eqn:Ea; [reflexivity|].
      assert (C : map_opt parse_output outputs = None) by (apply parse_outputs_none; exists q; split; [exact Hq|]; split; [apply str_eqb_neq, Eq|exact Ea]). congruence. }
    destruct (single_run _ _ _ _ _ _ _ _ _ _ H Ha) as (l & e & e' & Hu & Hc).
    assert (Hl : forall q, In q (map fst l) -> In q (effective outputs)).
    { destruct (handle_unit_spec _ _ _ _ _ _ _ Hu) as [(Ho & parts & reports & Hg & -> & _)|(_ & _ & opened & more & Eo' & <- & _)]; intros q Hq.
      - rewrite map_fst_combine in Hq by (rewrite map_length; exact (generates_length _ _ _ _ _ Hg)). exact Hq.
      - rewrite Eo'. apply in_app_iff. left. exact Hq. }
    assert (Hp' : p = $"-" \/ ~ In p (map fst l)).
    { destruct (str_eqb p ($"-")) eqn:Ep; [left; apply str_eqb_eq, Ep|right]. apply str_eqb_neq in Ep. intros C. apply Hl in C. destruct Hp as [Hp|Hp]; [congruence|].
      destruct outputs as [|q outputs]; [|exact (Hp C)]. destruct C as [C|[]]. congruence. }
    destruct (negb keep && _) in Hc; [apply (erase_spec _ _ _ _ _ _ _ Hc), Hp'|]. destruct (keep_spec _ _ _ _ _ _ _ Hc) as (_ & _ & K & _). apply K, Hp'. }
  induction jobs as [|j jobs IH]; intros name fs fs' out code H p Hp.
  - unfold main in H. destruct (parse_options _ _ _ _); injection H as <- _ _; reflexivity.
  - destruct jobs as [|j' jobs]; [exact (One _ _ _ _ _ _ H p Hp)|]. rewrite one_after_another in H by discriminate. unfold followed_by in H.
    destruct (main env outputs keep xfail name [j] fs) as [[[fs1 out1] c1]|] eqn:E1; [|discriminate H].
    destruct (main env outputs keep xfail _ (j' :: jobs) fs1) as [[[fs2 out2] c2]|] eqn:E2; [|discriminate H]. injection H as <- _ _.
    rewrite (IH _ _ _ _ _ E2 p Hp). exact (One _ _ _ _ _ _ E1 p Hp).
Qed.

Lemma keep_last env : forall l fs out fs' out' e, clear_outputs env false l fs out = (fs', out', e) ->
  (forall p, In p (map fst l) -> p <> $"-" -> can_rename env p = true) ->
  forall l1 p c l2, l = l1 ++ (p, c) :: l2 -> p <> $"-" -> ~ In p (map fst l2) -> fs' p = Some c.
Proof.
  induction l as [|[q d] l IH]; intros fs out fs' out' e H A l1 p c l2 El Hp Hn; [destruct l1; discriminate El|]. cbn [clear_outputs] in H. destruct l1 as [|x l1].
  - cbn in El. injection El as -> -> ->. apply str_eqb_neq in Hp as E. rewrite E in H. rewrite (A p (or_introl eq_refl) Hp) in H.
    destruct (keep_spec _ _ _ _ _ _ _ H) as (_ & _ & K & _). rewrite K by (right; exact Hn). apply set_file_same.
  - cbn in El. injection El as _ ->.
    destruct (str_eqb q ($"-")) eqn:E; [refine (IH _ _ _ _ _ H _ l1 p c l2 eq_refl Hp Hn); intros r Hr; apply A; right; exact Hr|]. apply str_eqb_neq in E.
    rewrite (A q (or_introl eq_refl) E) in H. refine (IH _ _ _ _ _ H _ l1 p c l2 eq_refl Hp Hn). intros r Hr. apply A. right. exact Hr.
Qed.

Lemma combine_split {A B} : forall (l1 : list A) p l2 (parts : list B), length parts = length (l1 ++ p :: l2) ->
  exists q1 part q2, parts = q1 ++ part :: q2 /\ length q1 = length l1 /\ combine (l1 ++ p :: l2) parts = combine l1 q1 ++ (p, part) :: combine l2 q2 /\ length q2 = length l2.
Proof.
  induction l1 as [|x l1 IH]; intros p l2 parts H; destruct parts as [|y parts]; try discriminate H.
  - exists [], y, parts. cbn in *. injection H as H. auto.
  - cbn in H. injection H as H. destruct (IH p l2 parts H) as (q1 & part & q2 & -> & L1 & E & L2). exists (y :: q1), part, q2. cbn. rewrite L1, E. auto.
Qed.

Lemma single_holds env outputs keep xfail name j fs fs' out code parts reports : main env outputs keep xfail name [j] fs = Some (fs', out, code) -> acceptable outputs ->
  generates (effective outputs) (default_name name (j_main j)) j parts reports ->
  (forall p, In p (effective outputs) -> can_open env p = true /\ (p <> $"-" -> can_rename env p = true)) ->
  keep = true \/ succeeds env (effective outputs) (default_name name (j_main j)) j parts ->
  let text := preamble (j_main j) (fst (handle_pragmas (j_pragmas j) [])) in
  holds_last fs' text (effective outputs) parts /\ out = printed text (effective outputs) parts.
Proof.
  intros H Ha Hg Ho Hk text. destruct (single_run _ _ _ _ _ _ _ _ _ _ H Ha) as (l & e & e' & Hu & Hc).
  destruct (handle_unit_spec _ _ _ _ _ _ _ Hu) as [(_ & parts' & reports' & Hg' & -> & ->)|(_ & C & _)]; [|exfalso; apply (C _ _ Hg); intros p Hp; apply Ho, Hp].
  destruct (generates_unique _ _ _ _ _ _ _ Hg Hg') as [-> ->]. fold text in Hc.
  assert (Hl : length parts = length (effective outputs)) by exact (generates_length _ _ _ _ _ Hg).
  assert (He : negb keep && (j_errors j || snd (handle_pragmas (j_pragmas j) []) || existsb is_error_ereport reports) = false).
  { destruct Hk as [->|[Sj Sp _ _ (rs & Hg2 & Hn)]]; [reflexivity|]. destruct (generates_unique _ _ _ _ _ _ _ Hg Hg2) as [_ ->]. apply no_error_iff in Hn. rewrite Sj, Sp, Hn. apply andb_false_r. }
  rewrite He in Hc. destruct (keep_spec _ _ _ _ _ _ _ Hc) as (-> & _). split; [|apply printed_spec].
  split; [exact Hl|]. intros l1 p l2 El Hp Hn.
  destruct (combine_split l1 p l2 (map (New text) parts)) as (q1 & part & q2 & Ep & L1 & Ec & L2); [rewrite map_length, Hl, El; reflexivity|].
  rewrite El, Ec in Hc. assert (Hf := keep_last _ _ _ _ _ _ _ Hc). 
  assert (En : nth_error (map (New text) parts) (length l1) = Some part) by (rewrite Ep, nth_error_app2 by lia; rewrite L1, Nat.sub_diag; reflexivity).
  rewrite nth_error_map in En. destruct (nth_error parts (length l1)) as [part'|]; [|discriminate En]. cbn in En. injection En as <-. exists part'. split; [reflexivity|].
  refine (Hf _ _ _ _ _ eq_refl Hp _).
  - intros r Hr Hd. rewrite <- Ec, map_fst_combine in Hr by (rewrite map_length, Hl, El; reflexivity). rewrite <- El in Hr. apply (Ho r Hr), Hd.
  - rewrite map_fst_combine by exact L2. exact Hn.
Qed.

Lemma last_holds env outputs keep xfail jobs name j fs fs' out code ns n parts reports : main env outputs keep xfail name (jobs ++ [j]) fs = Some (fs', out, code) ->
  acceptable outputs -> names name (jobs ++ [j]) (ns ++ [n]) -> generates (effective outputs) n j parts reports ->
  (forall p, In p (effective outputs) -> can_open env p = true /\ (p <> $"-" -> can_rename env p = true)) ->
  keep = true \/ succeeds env (effective outputs) n j parts ->
  let text := preamble (j_main j) (fst (handle_pragmas (j_pragmas j) [])) in
  holds_last fs' text (effective outputs) parts /\ exists earlier, out = earlier ++ printed text (effective outputs) parts.
Proof.
  intros H Ha Hn Hg Ho Hk text. destruct (last_command _ _ _ _ _ _ _ _ _ _ _ _ _ H Hn) as (name1 & fs1 & out1 & out2 & code2 & -> & H1 & ->).
  destruct (single_holds _ _ _ _ _ _ _ _ _ _ _ _ H1 Ha Hg Ho Hk) as [A ->]. split; [exact A|]. exists out1. reflexivity.
Qed.

Lemma last_erased env outputs xfail jobs name j fs fs' out code ns n b e : main env outputs false xfail name (jobs ++ [j]) fs = Some (fs', out, code) ->
  acceptable outputs -> names name (jobs ++ [j]) (ns ++ [n]) -> ~ (exists parts, succeeds env (effective outputs) n j parts) ->
  (forall p, In p (effective outputs) -> can_open env p = true /\ (p <> $"-" -> can_rename env p = true)) ->
  generate (j_unit j) (j_facts j) (j_found j) (j_implicit j) (j_iteration j) (length (effective outputs)) n = Some (RGraph b e) ->
  forall p, In p outputs -> p <> $"-" -> fs' p = None.
Proof.
  intros H Ha Hn Hf Ho Hg p Hp Hd. destruct (last_command _ _ _ _ _ _ _ _ _ _ _ _ _ H Hn) as (name1 & fs1 & out1 & out2 & code2 & -> & H1 & _).
  refine (proj2 (failing_run _ _ _ _ _ _ _ _ _ H1 Ha _ Hf p) Hp Hd _ _).
  - intros q Hq. apply Ho, Hq.
  - intros q Hq. apply Ho. destruct outputs; [destruct Hq|exact Hq].
  - exists b, e. exact Hg.
Qed.
