(** * Proofs about macros given on the command line *)
From Verif Require Import Base ParserModel ParserSpec AnnotModel AnnotSpec ModuleModel MacroModel MacroSpec MacroProofs CommandModel ActiveSpec.

Lemma scan_grows : forall n args s, length args <= n -> exists l, sc_result (fst (scan_args args s)) = sc_result s ++ l.
Proof.
  induction n as [|n IH]; intros [|a args] s H; cbn in H; try lia; try (exists []; cbn; now rewrite app_nil_r).
  cbn [scan_args]. destruct (str_eqb a separator); [exists []; cbn; now rewrite app_nil_r|].
  destruct (strip_prefix ($"-x") a) as [[|c v]|].
  - destruct args as [|b args]; [exists []; cbn; now rewrite app_nil_r|]. apply IH. cbn in H. lia.
  - apply IH. lia.
  - destruct (strip_prefix ($"-std=") a) as [v|].
    + destruct (split ($"++") v) as [x y].
      match goal with |- context [scan_args args ?t] => destruct (IH args t ltac:(lia)) as (l & E) end.
      cbn [sc_result] in E. destruct (starts_with ($"2") y); rewrite E; [exists (a :: l); now rewrite <- app_assoc|exists l; reflexivity].
    + match goal with |- context [scan_args args ?t] => destruct (IH args t ltac:(lia)) as (l & E) end.
      cbn [sc_result] in E. rewrite E. exists (a :: l). now rewrite <- app_assoc.
Qed.

Lemma insert_twice x y : forall l, x <> $"--" -> exists p r, insert_at_end [y] (insert_at_end [x] l) = p ++ x :: y :: r /\ ~ In ($"--") p /\ (r = [] \/ exists r', r = $"--" :: r').
Proof.
  intros l Hx. induction l as [|a l (p & r & E & N & R)].
  - exists [], []. cbn [app insert_at_end]. destruct (str_eqb x separator) eqn:Ex; [apply str_eqb_eq in Ex; contradiction|].
    split; [reflexivity|]. split; [intros []|left; reflexivity].
  - cbn [insert_at_end]. destruct (str_eqb a separator) eqn:Ea.
    + apply str_eqb_eq in Ea. subst a. exists [], (separator :: l). cbn [app insert_at_end]. destruct (str_eqb x separator) eqn:Ex; [apply str_eqb_eq in Ex; contradiction|].
      split; [reflexivity|]. split; [intros []|]. right. eexists. reflexivity.
    + exists (a :: p), r. cbn [insert_at_end]. rewrite Ea, E. split; [reflexivity|]. split; [|exact R].
      intros [K|K]; [|exact (N K)]. apply str_eqb_neq in Ea. exact (Ea K).
Qed.

Lemma adjust_shape rd program args args' : program <> $"--" -> adjust rd (program :: args) = Some args' ->
  exists p r, args' = program :: p ++ $"-Wno-everything" :: $"-D__GENPYBIND__" :: r /\ ~ In ($"--") p /\ (r = [] \/ exists r', r = $"--" :: r').
Proof.
  intros Hp. unfold adjust. assert (D : exists l, default_resource_dir rd (program :: args) = program :: l).
  { unfold default_resource_dir. destruct (existsb _ _); [eexists; reflexivity|]. cbn [insert_at_end]. destruct (str_eqb program separator) eqn:E; [apply str_eqb_eq in E; contradiction|eexists; reflexivity]. }
  destruct D as (l & ->). cbn [cpp17_or_later]. destruct (scan_args l _) as [s rest] eqn:S.
  match type of S with scan_args _ ?t = _ => destruct (scan_grows _ l t (le_n _)) as (k & G) end. rewrite S in G. cbn [fst sc_result] in G. rewrite G.
  intros [= <-]. cbn [app insert_at_end]. destruct (str_eqb program separator) eqn:E; [apply str_eqb_eq in E; contradiction|]. cbn [insert_at_end]. rewrite E.
  destruct (insert_twice ($"-Wno-everything") ($"-D__GENPYBIND__") ($"-xc++" :: k ++ (if sc_later s then [] else [$"-std=" ++ sc_prefix s ++ $"++17"]) ++ rest) ltac:(discriminate)) as (p & r & F & N & R).
  exists p, r. split; [|split; assumption]. exact (f_equal (cons program) F).
Qed.

Lemma inv_reading arity a l os : a <> $"--" -> reading arity (a :: l) os ->
  (exists vs l' os', l = vs ++ l' /\ length vs = arity a /\ os = (a, vs) :: os' /\ reading arity l' os') \/ (length l < arity a /\ os = [(a, l)]).
Proof.
  intros Ha H. remember (a :: l) as k eqn:E. destruct H as [|k|b vs l' os' Hb Hl Hr|b vs Hb Hl]; [discriminate E| | |].
  - exfalso. apply Ha. injection E as E _. symmetry. exact E.
  - injection E as -> <-. left. exists vs, l', os'. auto.
  - injection E as -> ->. right. auto.
Qed.

Lemma read_end arity r os : (r = [] \/ exists r', r = $"--" :: r') -> reading arity r os -> os = [].
Proof.
  intros R H. destruct H as [|l|a vs l os Hn Hl Hr|a vs Hn Hl]; try reflexivity; exfalso; destruct R as [R|(r' & R)]; try discriminate R; injection R as R _; exact (Hn R).
Qed.

Lemma read_last arity r W D : (forall a, arity a <= 1) -> arity W = 0 -> arity D = 0 -> W <> $"--" -> D <> $"--" -> (r = [] \/ exists r', r = $"--" :: r') ->
  forall n p os, length p <= n -> ~ In ($"--") p -> reading arity (p ++ W :: D :: r) os -> exists os', os = os' ++ [(D, [])].
Proof.
  intros A1 A2 A3 Nw Nd R.
  assert (L : forall os, reading arity (D :: r) os -> os = [(D, [])]).
  { intros os H. destruct (inv_reading _ _ _ _ Nd H) as [(vs & l' & os' & -> & Hl & -> & Hr)|[Hl _]]; [|lia]. rewrite A3 in Hl. destruct vs; [|discriminate Hl]. f_equal. exact (read_end _ _ _ R Hr). }
  assert (B : forall os, reading arity (W :: D :: r) os -> exists os', os = os' ++ [(D, [])]).
  { intros os H. destruct (inv_reading _ _ _ _ Nw H) as [(vs & l' & os' & El & Hl & -> & Hr)|[Hl _]]; [|lia]. rewrite A2 in Hl. destruct vs; [|discriminate Hl]. cbn [app] in El. subst l'.
    rewrite (L _ Hr). exists [(W, [])]. reflexivity. }
  induction n as [|n IH]; intros [|a p] os Hp N H; cbn [length] in Hp; try lia; [exact (B _ H)|exact (B _ H)|].
  cbn [app] in H. assert (Na : a <> $"--") by (intros K; apply N; left; exact K). pose proof (A1 a) as Ha.
  destruct (inv_reading _ _ _ _ Na H) as [(vs & l' & os' & El & Hl & -> & Hr)|[Hl _]]; [|rewrite app_length in Hl; cbn [length] in Hl; lia].
  destruct vs as [|v [|w vs]]; cbn [length] in Hl; [| |lia].
  - cbn [app] in El. subst l'. destruct (IH p os' ltac:(lia) ltac:(intros K; apply N; right; exact K) Hr) as (o & ->). eexists (_ :: o). reflexivity.
  - destruct p as [|b p]; cbn [app] in El; injection El as <- <-.
    + rewrite (L _ Hr). eexists [_]. reflexivity.
    + cbn [length] in Hp. destruct (IH p os' ltac:(lia) ltac:(intros K; apply N; right; right; exact K) Hr) as (o & ->). eexists (_ :: o). reflexivity.
Qed.

Lemma active arity rd program args args' os : arity_of_clang arity -> program <> $"--" -> adjust rd (program :: args) = Some args' -> reading arity (tl args') os ->
  macro_defined header_guard os.
Proof.
  intros A P E H. destruct (adjust_shape _ _ _ _ P E) as (p & r & -> & N & R). cbn [tl] in H.
  destruct A as (A1 & A2 & A3).
  destruct (read_last arity r _ _ A1 A2 A3 ltac:(discriminate) ltac:(discriminate) R _ p os (le_n _) N H) as (os' & ->). exists os', ($"-D__GENPYBIND__", []), []. split; [reflexivity|]. split; [|constructor].
  exists header_guard. split; left; reflexivity.
Qed.

Lemma active_text arity rd program args args' os on : arity_of_clang arity -> program <> $"--" -> adjust rd (program :: args) = Some args' -> reading arity (tl args') os ->
  (on = true <-> macro_defined header_guard os) ->
  forall defs src ts l rest items o, written ts src -> g_annotations ts l -> (forall n, In (SIdent n) ts -> no_macro defs n) ->
    pp_lex rest = Some items -> preprocess_items on defs items = Some o ->
    exists text, preprocess_text on defs ($"GENPYBIND(" ++ src ++ $")" ++ rest) = Some (OAnnotate (lozenge ++ text) :: o) /\ denotes text l.
Proof.
  intros A P E H Hon. rewrite (proj2 Hon (active _ _ _ _ _ _ A P E H)). exact annotations_as_written_lemma.
Qed.
