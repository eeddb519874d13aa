(** * Proofs about the search for clang *)
From Verif Require Import Base ParserModel StringModel StringSpec ModuleModel MacroModel CommandModel CommandSpec CommandProofs ClangModel ClangSpec.

Definition unexpanded : str := $"clang-CLANG_VERSION_MAJOR".

(** The operator # takes the argument as it is written. *)
Lemma names_tried defs l : names defs = Some l -> l = [unexpanded; $"clang"].
Proof.
  unfold names, invoke. destruct (expand_all defs [(false, PIdent $"CLANG_VERSION_MAJOR")]) as [e|]; [|discriminate].
  unfold expand_all, version_specific_path. cbn [flat_map app expand]. intros H. vm_compute in H. injection H as <-. reflexivity.
Qed.

Lemma expand_number defs name k : find_macro defs name = Some [(false, PNum k)] -> existsb (str_eqb name) genpybind_macros = false ->
  expand_all defs [(false, PIdent name)] = Some [(false, PNum k)].
Proof.
  intros H G. unfold expand_all. destruct defs as [|d defs]; [discriminate H|]. set (m := d :: defs) in *. cbn [length m expand]. fold m. rewrite G, H. reflexivity.
Qed.

Lemma names_valid defs v : version_defined defs v -> names defs = Some [unexpanded; $"clang"].
Proof.
  intros H. destruct (names defs) as [l|] eqn:E; [rewrite (names_tried _ _ E); reflexivity|]. exfalso.
  unfold names, invoke in E. assert (X : exists e, expand_all defs [(false, PIdent $"CLANG_VERSION_MAJOR")] = Some e).
  { eexists. apply expand_number; [exact H|vm_compute; reflexivity]. }
  destruct X as (e & X). rewrite X in E. unfold expand_all, version_specific_path in E. vm_compute in E. discriminate E.
Qed.

Section Installation.
Context (program : str -> option str) (real_path : str -> option str) (resources : str -> str).

Lemma inserted extra args : exists before after, args = before ++ after /\ ~ In ($"--") before /\ (after = [] \/ exists r, after = $"--" :: r) /\ insert_at_end extra args = before ++ extra ++ after.
Proof.
  induction args as [|a args (before & after & -> & Hn & Ha & E)]; [exists [], []; cbn; rewrite app_nil_r; auto|]. cbn [insert_at_end].
  destruct (str_eqb a separator) eqn:Es.
  - apply str_eqb_eq in Es. subst a. exists [], (separator :: before ++ after). split; [reflexivity|]. split; [auto|]. split; [right; exists (before ++ after); reflexivity|reflexivity].
  - exists (a :: before), after. split; [reflexivity|]. split; [|split; [exact Ha|rewrite E; reflexivity]].
    intros [->|H]; [|exact (Hn H)]. assert (str_eqb ($"--") separator = true) by reflexivity. congruence.
Qed.

Lemma resource_dir_used path args : (path <> [] -> resources path <> []) ->
  uses_resources resources path args (default_resource_dir (match path with [] => [] | c :: r => resources (c :: r) end) args).
Proof.
  intros Hr. unfold default_resource_dir. destruct (existsb names_resource_dir args) eqn:E.
  - apply given_iff in E. split; [auto|]. split; [auto|]. intros N. contradiction.
  - assert (N : ~ resource_dir_given args) by (intros G; apply given_iff in G; congruence). split; [contradiction|].
    assert (Nil : insert_at_end [] args = args) by (destruct (inserted [] args) as (b & a & E1 & _ & _ & E2); rewrite E2, E1; reflexivity).
    destruct path as [|c path]; [split; [intros _; exact Nil|congruence]|]. split; [discriminate|]. intros _ _.
    destruct (resources (c :: path)) as [|r rs] eqn:Er; [destruct (Hr ltac:(discriminate) eq_refl)|]. rewrite <- Er.
    destruct (inserted [$"-resource-dir=" ++ resources (c :: path)] args) as (b & a & E1 & E2 & E3 & E4). exists b, a. auto.
Qed.

Theorem general_clang defs v args : version_defined defs v -> program ($"clang-" ++ decimal v) = None -> program ($"clang-CLANG_VERSION_MAJOR") = None ->
  (forall p, p <> [] -> resources p <> []) ->
  exists path result, suits_version program real_path v path /\ with_resource_dir program real_path resources defs args = Some result /\ uses_resources resources path args result.
Proof.
  intros V Hv Hu Hr. unfold with_resource_dir. rewrite (names_valid _ _ V). cbn [option_map]. unfold find_resource_dir, find_executable. unfold unexpanded. rewrite Hu.
  destruct (program ($"clang")) as [p|] eqn:Ep.
  - exists (match real_path p with Some r => r | None => p end). eexists. split; [|split; [reflexivity|apply resource_dir_used, Hr]].
    apply any_version with p; [exact Hv|exact Ep|]. unfold resolves. destruct (real_path p); auto.
  - exists []. eexists. split; [apply no_clang; assumption|]. split; [reflexivity|]. apply (resource_dir_used [] args). congruence.
Qed.

End Installation.

Theorem version_ignored defs program program' real_path resources args : program ($"clang") = program' ($"clang") -> program ($"clang-CLANG_VERSION_MAJOR") = program' ($"clang-CLANG_VERSION_MAJOR") ->
  with_resource_dir program real_path resources defs args = with_resource_dir program' real_path resources defs args.
Proof.
  intros E1 E2. unfold with_resource_dir. destruct (names defs) as [l|] eqn:E; [|reflexivity]. apply names_tried in E. subst l. cbn [option_map].
  unfold find_resource_dir, find_executable, unexpanded. rewrite E1, E2. reflexivity.
Qed.
