(** * Proofs about command lines *)
From Verif Require Import Base ParserModel CommandModel CommandSpec.

(** ** Strings *)

Lemma strip_prefix_iff p : forall s r, strip_prefix p s = Some r <-> s = p ++ r.
Proof.
  induction p as [|c p IH]; intros s r; cbn; [split; congruence|]. destruct s as [|d s]; [split; discriminate|].
  destruct (ascii_dec c d) as [->|N]; [rewrite IH; split; congruence|split; congruence].
Qed.

Lemma strip_prefix_app p r : strip_prefix p (p ++ r) = Some r.
Proof. apply strip_prefix_iff. reflexivity. Qed.

Lemma strip_prefix_none p s : strip_prefix p s = None <-> forall r, s <> p ++ r.
Proof.
  destruct (strip_prefix p s) as [r|] eqn:E; split.
  - discriminate.
  - intros H. apply strip_prefix_iff in E. destruct (H r E).
  - intros _ r Hr. apply strip_prefix_iff in Hr. congruence.
  - reflexivity.
Qed.

Lemma starts_with_iff p s : starts_with p s = true <-> exists r, s = p ++ r.
Proof.
  unfold starts_with. destruct (strip_prefix p s) as [r|] eqn:E.
  - split; [intros _; exists r; apply strip_prefix_iff, E|reflexivity].
  - split; [discriminate|]. intros (r & Hr). apply strip_prefix_iff in Hr. congruence.
Qed.

(** At the first occurrence. *)
Lemma split_spec sep : forall s, 
  (exists a b, split sep s = (a, b) /\ s = a ++ sep ++ b /\ forall a' b', s = a' ++ sep ++ b' -> length a <= length a') \/
  (split sep s = (s, []) /\ forall a b, s <> a ++ sep ++ b).
Proof.
  induction s as [|c s IH].
  - cbn. destruct (strip_prefix sep []) as [r|] eqn:E.
    + left. exists [], r. apply strip_prefix_iff in E. split; [reflexivity|]. split; [exact E|]. intros; cbn; lia.
    + right. split; [reflexivity|]. intros a b H. rewrite strip_prefix_none in E. destruct a as [|x a]; [apply (E b), H|discriminate].
  - cbn [split]. destruct (strip_prefix sep (c :: s)) as [r|] eqn:E.
    + left. exists [], r. apply strip_prefix_iff in E. split; [reflexivity|]. split; [exact E|]. intros; cbn; lia.
    + rewrite strip_prefix_none in E. destruct IH as [(a & b & -> & Hs & Hm)|(-> & Hm)].
      * left. exists (c :: a), b. split; [reflexivity|]. split; [rewrite Hs at 1; reflexivity|]. intros a' b' H'. destruct a' as [|x a']; [destruct (E _ H')|].
        injection H' as _ H'. apply Hm in H'. cbn. lia.
      * right. split; [reflexivity|]. intros a b H. destruct a as [|x a]; [apply (E _ H)|]. injection H as _ H. apply (Hm _ _ H).
Qed.

(** ** Readings *)

Lemma reads_total : forall n args, length args <= n -> exists os r, reads args os r.
Proof.
  induction n as [|n IH]; intros args Hn; (destruct args as [|a args]; [exists [], []; constructor|]); cbn in Hn; [lia|].
  destruct (str_eqb a ($"--")) eqn:E; [apply str_eqb_eq in E; subst; eexists; eexists; apply reads_separator|]. apply str_eqb_neq in E.
  destruct (strip_prefix ($"-x") a) as [[|c v]|] eqn:Ex.
  - apply strip_prefix_iff in Ex. change ($"-x" ++ []) with ($"-x") in Ex. subst a. destruct args as [|v args]; [exists [Incomplete], []; constructor|]. cbn in Hn.
    destruct (IH args) as (os & r & H); [lia|]. exists (Language v :: os), r. apply reads_language_next, H.
  - apply strip_prefix_iff in Ex. subst a. destruct (IH args) as (os & r & H); [lia|]. exists (Language (c :: v) :: os), r. apply reads_language; [discriminate|exact H].
  - destruct (IH args) as (os & r & H); [lia|]. destruct (strip_prefix ($"-std=") a) as [v|] eqn:Es.
    + apply strip_prefix_iff in Es. subst a. exists (Standard v :: os), r. apply reads_standard, H.
    + exists (Other a :: os), r. apply reads_other; [exact E|apply strip_prefix_none, Ex|apply strip_prefix_none, Es|exact H].
Qed.

Lemma reads_unique args os r : reads args os r -> forall os' r', reads args os' r' -> os' = os /\ r' = r.
Proof.
  induction 1 as [|l|v l os r Hv H IH|v l os r H IH| |v l os r H IH|a l os r H1 H2 H3 H IH]; intros os' r' Hb; inversion Hb; subst; try (split; reflexivity); try congruence;
    try (match goal with H : reads _ _ _ |- _ => destruct (IH _ _ H) as [-> ->]; split; reflexivity end).
  all: exfalso; match goal with
    | H : ?a <> ?b |- _ => exact (H eq_refl)
    | H : forall x, _ <> _ |- _ => exact (H [] eq_refl)
    | H : forall x, _ <> _, w : list ascii |- _ => exact (H w eq_refl)
    end.
Qed.

Lemma reads_rest args os r : reads args os r -> reads r [] r.
Proof. induction 1; auto; constructor. Qed.

(** Options that are kept, and their arguments. *)
Definition later (v : str) : bool := starts_with ($"2") (snd (split ($"++") v)).
Definition kept (o : opt) : bool := match o with Language _ | Incomplete => false | Standard v => later v | Other _ => true end.
Definition render (o : opt) : str := match o with Language v => $"-x" ++ v | Standard v => $"-std=" ++ v | Other a => a | Incomplete => $"-x" end.

Lemma in_effect_cons v l : in_effect (v :: l) = match in_effect l with Some w => Some w | None => Some v end.
Proof. unfold in_effect. cbn. destruct (rev l) eqn:E; reflexivity. Qed.

Lemma in_effect_app l l' : in_effect (l ++ l') = match in_effect l' with Some w => Some w | None => in_effect l end.
Proof. unfold in_effect. rewrite rev_app_distr. destruct (rev l'); reflexivity. Qed.

Definition after (os : list opt) (s : scan) : bool * str :=
  match in_effect (standards os) with Some v => (later v, fst (split ($"++") v)) | None => (sc_later s, sc_prefix s) end.

Lemma std_is_not_language v : strip_prefix ($"-x") ($"-std=" ++ v) = None.
Proof. reflexivity. Qed.

Lemma scan_reads args os r : reads args os r -> forall s,
  scan_args args s = (mkScan (sc_result s ++ map render (filter kept os)) (fst (after os s)) (snd (after os s)), r).
Proof.
  induction 1 as [|l|v l os r Hv H IH|v l os r H IH| |v l os r H IH|a l os r H1 H2 H3 H IH]; intros s.
  - cbn. rewrite app_nil_r. destruct s; reflexivity.
  - cbn. rewrite app_nil_r. destruct s; reflexivity.
  - cbn [scan_args]. destruct (str_eqb ($"-x" ++ v) separator) eqn:E; [apply str_eqb_eq in E; discriminate|].
    rewrite strip_prefix_app. destruct v as [|c v]; [congruence|]. rewrite IH. reflexivity.
  - cbn [scan_args]. rewrite IH. reflexivity.
  - cbn. rewrite app_nil_r. destruct s; reflexivity.
  - cbn [scan_args]. destruct (str_eqb ($"-std=" ++ v) separator) eqn:E; [apply str_eqb_eq in E; discriminate|].
    rewrite std_is_not_language, strip_prefix_app.
    destruct (split ($"++") v) as [first second] eqn:Ev. rewrite IH.
    assert (El : starts_with ($"2") second = later v) by (unfold later; rewrite Ev; reflexivity). rewrite El.
    cbn [filter kept]. unfold after. cbn [standards flat_map app sc_later sc_prefix]. rewrite in_effect_cons. fold (standards os).
    destruct (in_effect (standards os)); cbn [fst snd]; rewrite ?Ev; cbn [fst]; destruct (later v); cbn [map render sc_result]; rewrite <- ?app_assoc; reflexivity.
  - cbn [scan_args]. destruct (str_eqb a separator) eqn:E; [apply str_eqb_eq in E; destruct (H1 E)|].
    rewrite <- strip_prefix_none in H2, H3. rewrite H2, H3, IH. unfold after. cbn [standards flat_map app sc_later sc_prefix filter kept map render sc_result]. rewrite <- app_assoc. reflexivity.
Qed.

(** Kept options are read again. *)
Lemma reads_kept args os r : reads args os r -> forall tail ot, reads tail ot r -> reads (map render (filter kept os) ++ tail) (filter kept os ++ ot) r.
Proof.
  induction 1 as [|l|v l os r Hv H IH|v l os r H IH| |v l os r H IH|a l os r H1 H2 H3 H IH]; intros tail ot Ht; cbn [filter kept map app]; auto.
  - destruct (later v); cbn [map app render]; auto. apply reads_standard. auto.
  - cbn [render]. apply reads_other; auto.
Qed.

Lemma others_app a b : others (a ++ b) = others a ++ others b.
Proof. apply flat_map_app. Qed.
Lemma standards_app a b : standards (a ++ b) = standards a ++ standards b.
Proof. apply flat_map_app. Qed.

Lemma others_kept os : others (filter kept os) = others os.
Proof. induction os as [|[v|v|a|] os IH]; cbn; auto; [destruct (later v); cbn; auto|f_equal; exact IH]. Qed.
Lemma languages_kept os : languages (filter kept os) = [].
Proof. induction os as [|[v|v|a|] os IH]; cbn; auto. destruct (later v); cbn; auto. Qed.

Lemma standards_kept os : match in_effect (standards os) with Some v => later v = true -> in_effect (standards (filter kept os)) = Some v | None => True end.
Proof.
  induction os as [|[v|v|a|] os IH]; cbn [standards flat_map app filter kept]; [exact I|exact IH| |exact IH|exact IH]. fold (standards os). rewrite in_effect_cons.
  destruct (in_effect (standards os)) as [w|] eqn:E.
  - intros Hw. destruct (later v); [|auto]. cbn [standards flat_map app]. rewrite in_effect_cons. fold (standards (filter kept os)). rewrite IH by exact Hw. reflexivity.
  - intros ->. cbn [standards flat_map app]. rewrite in_effect_cons. fold (standards (filter kept os)).
    assert (Hn : standards (filter kept os) = []).
    { clear - E. unfold in_effect in E. destruct (rev (standards os)) eqn:Er; [|discriminate]. apply (f_equal (@rev _)) in Er. rewrite rev_involutive in Er. cbn in Er.
      induction os as [|[v|v|a|] os IH]; cbn in *; auto. discriminate. }
    rewrite Hn. reflexivity.
Qed.

(** The resulting standard. *)
Definition adjusted (os : list opt) : str :=
  match in_effect (standards os) with
  | Some v => if later v then v else fst (split ($"++") v) ++ $"++17"
  | None => $"c++17"
  end.

Definition added (os : list opt) : list opt :=
  if fst (after os (mkScan [] false ($"c"))) then [] else [Standard (adjusted os)].

Lemma cpp17_reads program args os r : reads args os r ->
  exists args', cpp17_or_later (program :: args) = Some (program :: args') /\
    args' = ($"-x" ++ $"c++") :: map render (filter kept os ++ added os) ++ r /\ reads args' (Language ($"c++") :: filter kept os ++ added os) r.
Proof.
  intros H. unfold cpp17_or_later. rewrite (scan_reads args os r H). cbn [sc_result sc_later sc_prefix].
  change (after os (mkScan [program; $"-xc++"] false ($"c"))) with (after os (mkScan [] false ($"c"))).
  assert (E : (if fst (after os (mkScan [] false ($"c"))) then [] else [$"-std=" ++ snd (after os (mkScan [] false ($"c"))) ++ $"++17"]) = map render (added os)).
  { unfold added, adjusted, after. cbn [sc_later sc_prefix]. destruct (in_effect (standards os)) as [v|]; cbn [fst snd]; [destruct (later v); reflexivity|reflexivity]. }
  rewrite E. exists (($"-x" ++ $"c++") :: map render (filter kept os ++ added os) ++ r). split; [|split; [reflexivity|]].
  - rewrite map_app, <- !app_assoc. reflexivity.
  - apply reads_language; [discriminate|]. rewrite map_app, <- app_assoc. apply (reads_kept args os r H). unfold added. destruct (fst _); cbn [map app]; [apply (reads_rest args os), H|].
    apply reads_standard. apply (reads_rest args os), H.
Qed.

Lemma added_standard os : in_effect (standards (filter kept os ++ added os)) = Some (adjusted os).
Proof.
  rewrite standards_app, in_effect_app. pose proof (standards_kept os) as H. unfold added, adjusted, after in *. cbn [sc_later sc_prefix].
  destruct (in_effect (standards os)) as [v|]; cbn [fst snd]; [|reflexivity]. destruct (later v); [cbn; auto|reflexivity].
Qed.

Lemma languages_app a b : languages (a ++ b) = languages a ++ languages b.
Proof. apply flat_map_app. Qed.

Lemma added_others os : others (added os) = [] /\ languages (added os) = [].
Proof. unfold added. destruct (fst _); split; reflexivity. Qed.

(** What the standard in effect is. *)
Lemma adjust_spec program args os r : reads args os r ->
  exists args' os', cpp17_or_later (program :: args) = Some (program :: args') /\ reads args' (Language ($"c++") :: os') r /\
    languages os' = [] /\ others os' = others os /\ in_effect (standards os') = Some (adjusted os).
Proof.
  intros H. destruct (cpp17_reads program args os r H) as (args' & H1 & _ & H3). exists args', (filter kept os ++ added os). split; [exact H1|]. split; [exact H3|].
  destruct (added_others os) as [Ho Hl]. split; [rewrite languages_app, languages_kept, Hl; reflexivity|]. split; [rewrite others_app, others_kept, Ho, app_nil_r; reflexivity|apply added_standard].
Qed.

Lemma cpp_standard_adjusted v f year : cpp_standard v f year ->
  later v = (2017 <? year)%N /\ fst (split ($"++") v) = flavour_name f.
Proof.
  intros (s & Hs & ->). unfold editions in Hs. cbn [In] in Hs.
  repeat (destruct Hs as [Hs|Hs]; [injection Hs as <- <-; destruct f; split; reflexivity|]). destruct Hs.
Qed.

Lemma cpp17_command program args os r : reads args os r ->
  exists args' os' v', cpp17_or_later (program :: args) = Some (program :: args') /\ reads args' (Language ($"c++") :: os') r /\
    languages os' = [] /\ others os' = others os /\ in_effect (standards os') = Some v' /\
    brought_up os v'.
Proof.
  intros H. destruct (adjust_spec program args os r H) as (args' & os' & H1 & H2 & H3 & H4 & H5). exists args', os', (adjusted os).
  do 5 (split; [assumption|]). unfold brought_up, adjusted. split.
  - intros ->. exists "17"%string. split; [cbn; auto 20|reflexivity].
  - intros v f year -> Hv. destruct (cpp_standard_adjusted v f year Hv) as [El Ef]. rewrite El, Ef. destruct (N.ltb_spec 2017 year).
    + split; [rewrite N.max_r by lia; exact Hv|reflexivity].
    + split; [|lia]. rewrite N.max_l by lia. exists "17"%string. split; [cbn; auto 20|reflexivity].
Qed.

(** ** Applying it twice *)

Lemma filter_idem (os : list opt) : filter kept (filter kept os) = filter kept os.
Proof. induction os as [|o os IH]; cbn; [reflexivity|]. destruct (kept o) eqn:E; cbn; [rewrite E, IH; reflexivity|exact IH]. Qed.

Lemma split_first v w : (exists a b, v = a ++ $"++" ++ b) \/ (forall a, v <> a ++ $"+") ->
  split ($"++") (fst (split ($"++") v) ++ $"++" ++ w) = (fst (split ($"++") v), w).
Proof.
  intros Hv. set (a := fst (split ($"++") v)).
  assert (Hno : forall b, a <> b ++ $"+").
  { intros b Hb. destruct (split_spec ($"++") v) as [(a1 & b1 & E & Hs & Hm)|(E & Hm)]; unfold a in Hb; rewrite E in Hb; cbn [fst] in Hb.
    - subst a1. specialize (Hm b ($"+" ++ b1)). rewrite <- app_assoc in Hs. apply Hm in Hs. rewrite app_length in Hs. cbn in Hs. lia.
    - destruct Hv as [(x & y & ->)|Hv]; [exact (Hm x y eq_refl)|exact (Hv b Hb)]. }
  assert (Hin : forall x y, a <> x ++ $"++" ++ y).
  { intros x y Hxy. destruct (split_spec ($"++") v) as [(a1 & b1 & E & Hs & Hm)|(E & Hm)]; unfold a in Hxy; rewrite E in Hxy; cbn [fst] in Hxy.
    - subst a1. specialize (Hm x (y ++ $"++" ++ b1)). rewrite <- !app_assoc in Hs. cbn [app] in Hs, Hm. apply Hm in Hs. rewrite !app_length in Hs. cbn in Hs. lia.
    - exact (Hm x y Hxy). }
  clearbody a. clear v Hv. induction a as [|c a IH].
  - reflexivity.
  - cbn [app split]. destruct (strip_prefix ($"++") (c :: a ++ $"++" ++ w)) as [r|] eqn:E.
    + exfalso. apply strip_prefix_iff in E. cbn in E. injection E as -> E. destruct a as [|d a]; [apply (Hno []); reflexivity|].
      cbn in E. injection E as -> _. apply (Hin [] a). reflexivity.
    + rewrite IH; [reflexivity| |].
      * intros b Hb. apply (Hno (c :: b)). rewrite Hb. reflexivity.
      * intros x y Hxy. apply (Hin (c :: x) y). rewrite Hxy. reflexivity.
Qed.

Lemma cpp17_idempotent program args os r : reads args os r ->
  (forall v, in_effect (standards os) = Some v -> (exists a b, v = a ++ $"++" ++ b) \/ (forall a, v <> a ++ $"+")) ->
  forall args', cpp17_or_later (program :: args) = Some args' -> cpp17_or_later args' = Some args'.
Proof.
  intros H Hv args' E. destruct (cpp17_reads program args os r H) as (args1 & E1 & Ea & H1). rewrite E1 in E. injection E as <-.
  destruct (cpp17_reads program args1 _ r H1) as (args2 & E2 & Ea2 & _). rewrite E2. do 2 f_equal. rewrite Ea, Ea2. f_equal. f_equal. f_equal.
  cbn [filter kept]. rewrite filter_app, filter_idem, <- app_assoc. f_equal.
  set (os1 := Language ($"c++") :: filter kept os ++ added os).
  assert (Hs : in_effect (standards os1) = Some (adjusted os)) by (exact (added_standard os)).
  assert (Hl : later (adjusted os) = fst (after os (mkScan [] false ($"c"))) /\ (later (adjusted os) = false -> fst (split ($"++") (adjusted os)) ++ $"++17" = adjusted os)).
  { unfold adjusted, after. cbn [sc_later sc_prefix]. destruct (in_effect (standards os)) as [v|] eqn:Ev; cbn [fst snd]; [|split; reflexivity].
    destruct (later v) eqn:El; [split; [exact El|congruence]|]. change ($"++17") with ($"++" ++ $"17"). unfold later at 1 2. rewrite (split_first v ($"17") (Hv v eq_refl)). split; reflexivity. }
  destruct Hl as [Hl Hw]. unfold added at 2. unfold after at 1. rewrite Hs. cbn [fst].
  assert (Ea1 : adjusted os1 = adjusted os). { unfold adjusted at 1. rewrite Hs. destruct (later (adjusted os)); [reflexivity|apply Hw; reflexivity]. }
  rewrite Ea1. destruct (later (adjusted os)) eqn:El.
  - rewrite app_nil_r. unfold added. rewrite <- Hl. reflexivity.
  - unfold added. rewrite <- Hl. cbn [filter kept]. rewrite El. reflexivity.
Qed.

(** ** Insertions *)

Lemma insert_reads x : x <> $"--" -> (forall v, x <> $"-x" ++ v) -> (forall v, x <> $"-std=" ++ v) ->
  forall args os r, reads args os r -> ~ In (Language ($"--")) os -> ~ In Incomplete os -> reads (insert_at_end [x] args) (os ++ [Other x]) r.
Proof.
  intros Hx1 Hx2 Hx3 args os r H. induction H as [|l|v l os r Hv H IH|v l os r H IH| |v l os r H IH|a l os r H1 H2 H3 H IH]; intros Hl Hi; cbn [insert_at_end app].
  - apply reads_other; auto. constructor.
  - destruct (str_eqb ($"--") separator) eqn:E; [|apply str_eqb_neq in E; destruct (E eq_refl)]. cbn [app]. apply reads_other; auto. constructor.
  - destruct (str_eqb ($"-x" ++ v) separator) eqn:E; [apply str_eqb_eq in E; discriminate|]. apply reads_language; [exact Hv|]. apply IH; intros C; [apply Hl|apply Hi]; right; exact C.
  - destruct (str_eqb ($"-x") separator) eqn:E; [apply str_eqb_eq in E; discriminate|]. destruct (str_eqb v separator) eqn:E2; [apply str_eqb_eq in E2; destruct Hl; left; subst; reflexivity|].
    apply reads_language_next. apply IH; intros C; [apply Hl|apply Hi]; right; exact C.
  - destruct Hi. left. reflexivity.
  - destruct (str_eqb ($"-std=" ++ v) separator) eqn:E; [apply str_eqb_eq in E; discriminate|]. apply reads_standard. apply IH; intros C; [apply Hl|apply Hi]; right; exact C.
  - destruct (str_eqb a separator) eqn:E; [apply str_eqb_eq in E; destruct (H1 E)|]. apply reads_other; auto. apply IH; intros C; [apply Hl|apply Hi]; right; exact C.
Qed.

Lemma names_resource_dir_iff a : names_resource_dir a = true <-> a = $"-resource-dir" \/ exists v, a = $"-resource-dir=" ++ v.
Proof.
  unfold names_resource_dir. destruct (strip_prefix ($"-resource-dir") a) as [[|c r]|] eqn:E.
  - apply strip_prefix_iff in E. rewrite app_nil_r in E. split; [intros _; left; exact E|reflexivity].
  - apply strip_prefix_iff in E. split.
    + intros Hc. apply N.eqb_eq in Hc. right. exists r. rewrite E. assert (Hc' : c = "="%char) by (rewrite <- (ascii_N_embedding c); unfold code in Hc; rewrite Hc; reflexivity). rewrite Hc'. reflexivity.
    + intros [H|(v & H)]; rewrite E in H; [discriminate|]. injection H as -> _. reflexivity.
  - rewrite strip_prefix_none in E. split; [discriminate|]. intros [H|(v & H)]; exfalso; [apply (E []); rewrite H; reflexivity|apply (E ($"=" ++ v)); rewrite H; reflexivity].
Qed.

Lemma given_iff args : existsb names_resource_dir args = true <-> resource_dir_given args.
Proof.
  rewrite existsb_exists. unfold resource_dir_given. split; intros (a & Ha & H); exists a; (split; [exact Ha|]); apply names_resource_dir_iff; exact H.
Qed.

Lemma insert_nothing args : insert_at_end [] args = args.
Proof. induction args as [|a args IH]; cbn [insert_at_end app]; [reflexivity|]. destruct (str_eqb a separator); [reflexivity|rewrite IH; reflexivity]. Qed.

Lemma insert_program x program args : program <> $"--" -> insert_at_end x (program :: args) = program :: insert_at_end x args.
Proof. intros H. cbn [insert_at_end]. destruct (str_eqb program separator) eqn:E; [apply str_eqb_eq in E; destruct (H E)|reflexivity]. Qed.

(** Adding an option that is not looked at. *)
Lemma brought_up_other os x v : brought_up (os ++ [Other x]) v <-> brought_up os v.
Proof. unfold brought_up. rewrite !standards_app. cbn [standards flat_map app]. rewrite app_nil_r. reflexivity. Qed.

Lemma default_reads rd program args os r : reads args os r -> program <> $"--" -> ~ In (Language ($"--")) os -> ~ In Incomplete os ->
  exists args1 os1 extra, default_resource_dir rd (program :: args) = program :: args1 /\ reads args1 os1 r /\ others os1 = others os ++ extra /\
    standards os1 = standards os /\ languages os1 = languages os /\
    (resource_dir_given (program :: args) -> extra = []) /\ (rd = [] -> extra = []) /\
    (~ resource_dir_given (program :: args) -> rd <> [] -> extra = [$"-resource-dir=" ++ rd]).
Proof.
  intros H Hp Hl Hi. unfold default_resource_dir. destruct (existsb names_resource_dir (program :: args)) eqn:E.
  - apply given_iff in E. exists args, os, []. rewrite app_nil_r. do 7 (split; [auto|]). intros C. destruct (C E).
  - assert (N : ~ resource_dir_given (program :: args)). { intros C. apply given_iff in C. congruence. }
    rewrite insert_program by exact Hp. destruct rd as [|c rd].
    + rewrite insert_nothing. exists args, os, []. rewrite app_nil_r. do 7 (split; [auto|]). intros _ C. destruct (C eq_refl).
    + set (x := $"-resource-dir=" ++ c :: rd). exists (insert_at_end [x] args), (os ++ [Other x]), [x]. split; [reflexivity|]. split.
      { apply insert_reads; auto; unfold x; discriminate. }
      rewrite others_app, standards_app, languages_app. cbn [others standards languages flat_map app]. rewrite !app_nil_r. do 3 (split; [reflexivity|]).
      split; [intros C; destruct (N C)|]. split; [discriminate|]. reflexivity.
Qed.

Lemma adjust_reads rd program args os r : reads args os r -> program <> $"--" -> ~ In (Language ($"--")) os -> ~ In Incomplete os ->
  exists args' os' v' extra, adjust rd (program :: args) = Some (program :: args') /\ reads args' (Language ($"c++") :: os') r /\
    languages os' = [] /\ in_effect (standards os') = Some v' /\ brought_up os v' /\
    others os' = others os ++ extra ++ [$"-Wno-everything"; $"-D__GENPYBIND__"] /\
    (resource_dir_given (program :: args) -> extra = []) /\ (rd = [] -> extra = []) /\
    (~ resource_dir_given (program :: args) -> rd <> [] -> extra = [$"-resource-dir=" ++ rd]).
Proof.
  intros H Hp Hl Hi. destruct (default_reads rd program args os r H Hp Hl Hi) as (args1 & os1 & extra & E1 & H1 & Ho & Hs & Hg & Hx).
  destruct (cpp17_reads program args1 os1 r H1) as (args2 & E2 & _ & H2). destruct (cpp17_command program args1 os1 r H1) as (args2' & os2 & v' & E2' & H2' & Hl2 & Ho2 & Hs2 & Hb).
  rewrite E2 in E2'. injection E2' as <-. clear H2. rename H2' into H2.
  assert (Hl' : forall z, ~ In (Language ($"--")) (Language ($"c++") :: os2 ++ map Other z)).
  { intros z [C|C]; [discriminate|]. apply in_app_iff in C. destruct C as [C|C].
    - assert (In ($"--") (languages os2)); [|rewrite Hl2 in *; contradiction]. apply in_flat_map. exists (Language ($"--")). split; [exact C|left; reflexivity].
    - apply in_map_iff in C. destruct C as (y & C & _). discriminate. }
  assert (Hi2 : forall z, ~ In Incomplete (Language ($"c++") :: os2 ++ map Other z)).
  { intros z [C|C]; [discriminate|]. apply in_app_iff in C. destruct C as [C|C].
    - revert C. clear - H2 E2 H1. destruct (cpp17_reads program args1 os1 r H1) as (args2' & E2' & _ & H2'). rewrite E2 in E2'. injection E2' as <-.
      pose proof (reads_unique _ _ _ H2 _ _ H2') as [E _]. injection E as <-. intros C. apply in_app_iff in C. destruct C as [C|C]; [apply filter_In in C; destruct C; discriminate|].
      unfold added in C. destruct (fst _); [destruct C|destruct C as [C|[]]; discriminate].
    - apply in_map_iff in C. destruct C as (y & C & _). discriminate. }
  pose proof (insert_reads ($"-Wno-everything") ltac:(discriminate) ltac:(discriminate) ltac:(discriminate) _ _ _ H2) as H3. 
  specialize (H3 ltac:(intros C; apply (Hl' []); rewrite app_nil_r; exact C) ltac:(intros C; apply (Hi2 []); rewrite app_nil_r; exact C)).
  pose proof (insert_reads ($"-D__GENPYBIND__") ltac:(discriminate) ltac:(discriminate) ltac:(discriminate) _ _ _ H3 (Hl' [$"-Wno-everything"]) (Hi2 [$"-Wno-everything"])) as H4.
  exists (insert_at_end [$"-D__GENPYBIND__"] (insert_at_end [$"-Wno-everything"] args2)), ((os2 ++ [Other ($"-Wno-everything")]) ++ [Other ($"-D__GENPYBIND__")]), v', extra.
  split.
  { unfold adjust. rewrite E1. match type of E2 with ?l = _ => match goal with |- context [cpp17_or_later ?x] => change (cpp17_or_later x) with l end end. rewrite E2. rewrite !insert_program by exact Hp. reflexivity. }
  split; [exact H4|].
  rewrite !languages_app, !standards_app, !others_app, Hl2, Ho2, Ho. cbn [languages standards others flat_map app]. rewrite !app_nil_r, <- !app_assoc.
  split; [reflexivity|]. split; [exact Hs2|]. split; [unfold brought_up in *; rewrite Hs in Hb; exact Hb|]. split; [reflexivity|]. exact Hx.
Qed.

(** ** Quoting *)

Definition decode (s : str) : option (ascii * str) :=
  match s with
  | a :: s1 =>
      if (code a =? 92)%N then
        match s1 with
        | b :: s2 =>
            if (code b =? 92)%N then Some (b, s2) else if (code b =? 34)%N then Some (b, s2)
            else if (code b =? 116)%N then Some (ascii_of_N 9, s2) else if (code b =? 110)%N then Some (ascii_of_N 10, s2)
            else match s2 with
                 | c :: d :: s3 => Some (ascii_of_N ((code b - 48) * 64 + (code c - 48) * 8 + (code d - 48)), s3)
                 | _ => None
                 end
        | [] => None
        end
      else if (code a =? 34)%N then None else Some (a, s1)
  | [] => None
  end.

Lemma decode_escape c s : decode (escape_char c ++ s) = Some (c, s).
Proof. destruct c as [[|] [|] [|] [|] [|] [|] [|] [|]]; vm_compute; reflexivity. Qed.

Lemma decode_quote s : decode (quote :: s) = None.
Proof. reflexivity. Qed.

Lemma escaped_injective : forall s t x y, write_escaped s ++ quote :: x = write_escaped t ++ quote :: y -> s = t /\ x = y.
Proof.
  unfold write_escaped. induction s as [|c s IH]; intros [|d t] x y H; cbn [flat_map app] in H.
  - injection H as ->. split; reflexivity.
  - exfalso. pose proof (f_equal decode H) as D. rewrite <- app_assoc, decode_escape, decode_quote in D. discriminate.
  - exfalso. pose proof (f_equal decode H) as D. rewrite <- app_assoc, decode_escape, decode_quote in D. discriminate.
  - pose proof (f_equal decode H) as D. rewrite <- !app_assoc, !decode_escape in D. injection D as -> D. destruct (IH t x y D) as [-> ->]. split; reflexivity.
Qed.

(** What follows an argument. *)
Definition follows (s : str) : Prop := s = [] \/ exists s', s = space :: s'.

Lemma spaces_iff a : existsb (fun c => if ascii_dec c space then true else false) a = true <-> In space a.
Proof.
  rewrite existsb_exists. split.
  - intros (c & Hc & E). destruct (ascii_dec c space); [subst; exact Hc|discriminate].
  - intros H. exists space. split; [exact H|]. destruct (ascii_dec space space); congruence.
Qed.

Lemma word_injective : forall a b x y, ~ In space a -> ~ In space b -> follows x -> follows y -> a ++ x = b ++ y -> a = b /\ x = y.
Proof.
  induction a as [|c a IH]; intros [|d b] x y Ha Hb Hx Hy E; cbn [app] in E.
  - split; [reflexivity|exact E].
  - exfalso. subst x. destruct Hx as [Hx|(s & Hx)]; [discriminate|]. injection Hx as -> _. apply Hb. left. reflexivity.
  - exfalso. subst y. destruct Hy as [Hy|(s & Hy)]; [discriminate|]. injection Hy as -> _. apply Ha. left. reflexivity.
  - injection E as -> E. destruct (IH b x y) as [-> ->]; auto; [intros C; apply Ha; right; exact C|intros C; apply Hb; right; exact C].
Qed.

Lemma quoted_injective a b x y : plain_argument a -> plain_argument b -> follows x -> follows y -> quoted a ++ x = quoted b ++ y -> a = b /\ x = y.
Proof.
  intros [Na Ha] [Nb Hb] Hx Hy E. unfold quoted in E. fold space in Ha, Hb.
  destruct (existsb _ a) eqn:Ea; destruct (existsb _ b) eqn:Eb.
  - injection E as E. rewrite <- !app_assoc in E. apply escaped_injective in E. exact E.
  - exfalso. destruct Hb as [Hb|Hb]; [apply spaces_iff in Hb; congruence|]. destruct b as [|d b]; [congruence|]. injection E as E _. apply (Hb b). rewrite <- E. reflexivity.
  - exfalso. destruct Ha as [Ha|Ha]; [apply spaces_iff in Ha; congruence|]. destruct a as [|d a]; [congruence|]. injection E as E _. apply (Ha a). rewrite E. reflexivity.
  - apply word_injective; auto; intros C; apply spaces_iff in C; congruence.
Qed.

Definition rest_of (args : list str) : str := match args with [] => [] | _ => space :: emit_quoted_arguments args end.

Lemma emit_cons a args : emit_quoted_arguments (a :: args) = quoted a ++ rest_of args.
Proof. destruct args; cbn; [rewrite app_nil_r|]; reflexivity. Qed.

Lemma rest_follows args : follows (rest_of args).
Proof. destruct args; [left; reflexivity|right; eexists; reflexivity]. Qed.

Lemma quoted_nonempty a : plain_argument a -> quoted a <> [].
Proof. intros [Na _]. unfold quoted. destruct (existsb _ a); [discriminate|exact Na]. Qed.

Lemma emit_injective : forall args args', Forall plain_argument args -> Forall plain_argument args' -> emit_quoted_arguments args = emit_quoted_arguments args' -> args = args'.
Proof.
  induction args as [|a args IH]; intros [|b args'] H H' E; [reflexivity| | |].
  - exfalso. rewrite emit_cons in E. apply (quoted_nonempty b); [inversion H'; assumption|]. symmetry in E. apply app_eq_nil in E. tauto.
  - exfalso. rewrite emit_cons in E. apply (quoted_nonempty a); [inversion H; assumption|]. apply app_eq_nil in E. tauto.
  - rewrite !emit_cons in E. inversion H as [|? ? Ha Hr]; inversion H' as [|? ? Hb Hr']; subst. apply quoted_injective in E; auto using rest_follows. destruct E as [-> E]. f_equal.
    apply IH; auto. destruct args, args'; cbn [rest_of] in E; try discriminate; [reflexivity|]. injection E as E. exact E.
Qed.
