(** * The clang whose headers are used *)
From Verif Require Import Base ParserModel StringModel StringSpec ModuleModel MacroModel CommandModel CommandSpec ClangModel ClangSpec ClangProofs.

(** ** C86 *)

(** The resource directory is that of the clang found, unless there are programs
    for specific versions.  Missing: programs for specific versions, see below. *)
Theorem resources_are_those_of_clang_partial : forall program real_path resources defs v args, version_defined defs v ->
  program ($"clang-" ++ decimal v) = None -> program ($"clang-CLANG_VERSION_MAJOR") = None -> (forall p, p <> [] -> resources p <> []) ->
  exists path result, suits_version program real_path v path /\ with_resource_dir program real_path resources defs args = Some result /\ uses_resources resources path args result.
Proof. exact general_clang. Qed.
Print Assumptions resources_are_those_of_clang_partial.

(** The version does not matter, nor do any other programs: the macro is not expanded
    because it is an operand of #. *)
Theorem version_of_clang_is_ignored : forall defs program program' real_path resources args,
  program ($"clang") = program' ($"clang") -> program ($"clang-CLANG_VERSION_MAJOR") = program' ($"clang-CLANG_VERSION_MAJOR") ->
  with_resource_dir program real_path resources defs args = with_resource_dir program' real_path resources defs args.
Proof. exact version_ignored. Qed.
Print Assumptions version_of_clang_is_ignored.

(** ** Examples *)

Definition built_for (v : N) : macros := [($"CLANG_VERSION_MAJOR", [(false, PNum (decimal v))])].
Definition installed (l : list (string * string)) (name : str) : option str := option_map (fun p => $(snd p)) (find (fun p => str_eqb ($(fst p)) name) l).
Definition beside (path : str) : str := path ++ $"/../../lib/clang".

Example resources_are_those_of_clang_example :
  version_defined (built_for 17) 17 /\ (forall p, p <> [] -> beside p <> []) /\
  (let l := installed [("clang", "/usr/bin/clang")]%string in
   l ($"clang-" ++ decimal 17) = None /\ l ($"clang-CLANG_VERSION_MAJOR") = None /\ suits_version l (installed [("/usr/bin/clang", "/opt/bin/clang")]%string) 17 ($"/opt/bin/clang") /\
   with_resource_dir l (installed [("/usr/bin/clang", "/opt/bin/clang")]%string) beside (built_for 17) [$"clang"; $"-c"; $"--"; $"a.h"] =
     Some [$"clang"; $"-c"; $"-resource-dir=/opt/bin/clang/../../lib/clang"; $"--"; $"a.h"]) /\
  with_resource_dir (installed []) (fun _ => None) beside (built_for 17) [$"clang"; $"a.h"] = Some [$"clang"; $"a.h"].
Proof.
  split; [reflexivity|]. split; [intros [|c p] H; [congruence|discriminate]|]. split; [|vm_compute; reflexivity].
  split; [vm_compute; reflexivity|]. split; [vm_compute; reflexivity|]. split; [|vm_compute; reflexivity].
  apply any_version with ($"/usr/bin/clang"); [vm_compute; reflexivity|vm_compute; reflexivity|left; vm_compute; reflexivity].
Qed.

(** With clang-17 and an older default, the headers of the latter are used though the
    tool is built for version 17. *)
Theorem resources_are_those_of_the_version_refuted : exists program real_path resources defs v args path result,
  version_defined defs v /\ (forall p, p <> [] -> resources p <> []) /\ ~ resource_dir_given args /\
  suits_version program real_path v path /\ with_resource_dir program real_path resources defs args = Some result /\ ~ uses_resources resources path args result.
Proof.
  exists (installed [("clang", "/usr/bin/clang"); ("clang-17", "/usr/bin/clang-17")]%string), (fun _ => None), beside, (built_for 17), 17%N, [$"clang"; $"a.h"], ($"/usr/bin/clang-17"),
    [$"clang"; $"a.h"; $"-resource-dir=/usr/bin/clang/../../lib/clang"].
  assert (N : ~ resource_dir_given [$"clang"; $"a.h"]). { intros G. apply CommandProofs.given_iff in G. vm_compute in G. discriminate G. }
  split; [reflexivity|]. split; [intros [|c p] H; [congruence|discriminate]|]. split; [exact N|].
  split; [apply has_version with ($"/usr/bin/clang-17"); [vm_compute; reflexivity|right; auto]|]. split; [vm_compute; reflexivity|].
  intros (_ & _ & U). destruct (U N ltac:(discriminate)) as (before & after & E & Hn & Ha & R).
  assert (L : after = []).
  { destruct Ha as [Ha|(r & ->)]; [exact Ha|exfalso]. destruct before as [|x [|y [|z before]]]; cbn in E; discriminate E. }
  subst after. rewrite app_nil_r in E. subst before. vm_compute in R. discriminate R.
Qed.
Print Assumptions resources_are_those_of_the_version_refuted.
