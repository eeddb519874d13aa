(** * Properties of the options for failing runs *)
From Verif Require Import Base ParserModel StringModel StringSpec AnnotModel AnnotSpec CollectModel CollectSpec GraphModel GraphSpec GraphProps
  OrderModel OrderProps InlineModel EmitModel EmitProps ModuleModel ModuleSpec ModuleProps ToolModel ToolSpec ToolProofs ToolProps RunsProofs SwitchProofs.

(** C115: --keep-output-files only has the effect that files are not erased: exit
    status and what is printed are the same, and successful runs do not differ. *)
Theorem keeping_outputs_matters_after_failures_only : forall env outputs xfail name jobs fs fs' out code,
  main env outputs false xfail name jobs fs = Some (fs', out, code) ->
  exists fs2, main env outputs true xfail name jobs fs = Some (fs2, out, code) /\ (forall p, fs2 p = fs' p \/ (In p outputs /\ fs' p = None)) /\
    (code = 0%N -> xfail = false -> forall p, fs2 p = fs' p).
Proof. exact main_keep. Qed.
Print Assumptions keeping_outputs_matters_after_failures_only.

(** --xfail only exchanges success and failure. *)
Theorem expecting_failure_exchanges_exit_status : forall env outputs keep name jobs fs, acceptable outputs ->
  main env outputs keep true name jobs fs =
  match main env outputs keep false name jobs fs with
  | Some (fs', out, code) => Some (fs', out, if (code =? 0)%N then 1%N else 0%N)
  | None => None
  end.
Proof. exact main_xfail. Qed.
Print Assumptions expecting_failure_exchanges_exit_status.

(** C59: the name derived from the (first) header can as well be given by
    --module-name. *)
Theorem default_module_name_can_be_given : forall env outputs keep xfail j jobs fs,
  main env outputs keep xfail (default_name [] (j_main j)) (j :: jobs) fs = main env outputs keep xfail [] (j :: jobs) fs.
Proof. exact main_default_name. Qed.
Print Assumptions default_module_name_can_be_given.

Example default_module_name_can_be_given_example :
  default_name [] (j_main (good [])) = $"shapes" /\ observe (main anything [$"/a"; $"/b"] false false ($"shapes") [good []; good []] no_files) [$"/a"; $"/b"] = Some ([Generated 10; Generated 6], 0, 0%N).
Proof. split; vm_compute; reflexivity. Qed.

(** A failing run, with and without the options. *)
Example keeping_outputs_matters_after_failures_only_example :
  acceptable [$"/a"; $"/b"] /\
  observe (main anything [$"/a"; $"/b"] false false [] [bad] no_files) [$"/a"; $"/b"] = Some ([Absent; Absent], 0, 1%N) /\
  observe (main anything [$"/a"; $"/b"] true false [] [bad] no_files) [$"/a"; $"/b"] = Some ([Generated 10; Generated 6], 0, 1%N) /\
  observe (main anything [$"/a"; $"/b"] true true [] [bad] no_files) [$"/a"; $"/b"] = Some ([Generated 10; Generated 6], 0, 0%N) /\
  observe (main anything [$"/a"; $"/b"] true false [] [good []] no_files) [$"/a"; $"/b"] = Some ([Generated 10; Generated 6], 0, 0%N).
Proof. split; [intros p [<-|[<-|[]]]; right; reflexivity|]. split; [|split; [|split]]; vm_compute; reflexivity. Qed.
