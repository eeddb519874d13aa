(** * Properties of runs that find the outputs of previous ones *)
From Verif Require Import Base ParserModel StringModel StringSpec AnnotModel AnnotSpec CollectModel CollectSpec GraphModel GraphSpec GraphProps
  OrderModel OrderProps InlineModel EmitModel EmitProps ModuleModel ModuleSpec ModuleProps ToolModel ToolSpec ToolProofs ToolProps RerunProofs.

(** C114: what is in the file system does not matter: exit status, what is
    printed and the contents of all files that are changed are the same. *)
Theorem previous_files_do_not_matter : forall fs1 fs2 env outputs keep xfail name jobs fs1' out code,
  main env outputs keep xfail name jobs fs1 = Some (fs1', out, code) ->
  exists fs2', main env outputs keep xfail name jobs fs2 = Some (fs2', out, code) /\ forall p, fs2' p = fs1' p \/ (fs1' p = fs1 p /\ fs2' p = fs2 p).
Proof. exact agree_main. Qed.
Print Assumptions previous_files_do_not_matter.

(** Running the program once more changes nothing. *)
Theorem running_again_changes_nothing : forall env outputs keep xfail name jobs fs fs' out code,
  main env outputs keep xfail name jobs fs = Some (fs', out, code) ->
  exists fs'', main env outputs keep xfail name jobs fs' = Some (fs'', out, code) /\ forall p, fs'' p = fs' p.
Proof. exact main_again. Qed.
Print Assumptions running_again_changes_nothing.

(** A run that replaces a file, and one that fails and removes it. *)
Example previous_files_do_not_matter_example :
  let fs := set_file ($"/a") (Some (Old ($"x"))) no_files in
  observe (main anything [$"/a"; $"/b"] false false [] [good []] fs) [$"/a"; $"/b"] = Some ([Generated 10; Generated 6], 0, 0%N) /\
  observe (main anything [$"/a"; $"/b"] false false [] [good []] no_files) [$"/a"; $"/b"] = Some ([Generated 10; Generated 6], 0, 0%N) /\
  observe (main anything [$"/a"; $"/b"] false false [] [bad] fs) [$"/a"; $"/b"] = Some ([Absent; Absent], 0, 1%N).
Proof. cbv zeta. split; [|split]; vm_compute; reflexivity. Qed.
