(** * Properties of the Python entry point *)
From Coq Require Import ZArith.
From Verif Require Import Base ToolModel ToolSpec ToolProofs ToolProps WrapModel WrapProofs.

(** ** C79 *)

(** The entry point passes on all arguments and ends with status zero exactly if
    the tool does; otherwise the tool has failed, crashed or could not be started.
    The status of a tool that has not crashed is passed on. *)
Theorem entry_point_passes_on_arguments_and_status : forall run parent name args,
  (forall path l c, run path l = Exited c -> (c < 256)%N) -> (forall path l s, run path l = Killed s -> (0 < s < 128)%N) ->
  let ended := run (parent ++ $"/bin/genpybind-tool") args in
  (entry_point run parent (name :: args) = 0%N <-> ended = Exited 0) /\
  (forall c, ended = Exited c -> entry_point run parent (name :: args) = c) /\
  (forall c, (c < 128)%N -> c <> 1%N -> (entry_point run parent (name :: args) = c <-> ended = Exited c)).
Proof. exact entry_point_status. Qed.
Print Assumptions entry_point_passes_on_arguments_and_status.

(** So its status tells whether bindings have been generated, see C42. *)
Theorem entry_point_tells_success : forall run parent program args env outputs keep xfail name jobs fs fs' out code ns,
  (forall path l c, run path l = Exited c -> (c < 256)%N) -> (forall path l s, run path l = Killed s -> (0 < s < 128)%N) ->
  main env outputs keep xfail name jobs fs = Some (fs', out, code) -> run (parent ++ $"/bin/genpybind-tool") args = Exited code ->
  acceptable outputs -> names name jobs ns ->
  (entry_point run parent (program :: args) = 0%N <->
   (xfail = false <-> jobs <> [] /\ Forall2 (fun n j => exists parts, succeeds env (effective outputs) n j parts) ns jobs)).
Proof. exact entry_point_success. Qed.
Print Assumptions entry_point_tells_success.

(** ** Examples *)

(** A tool that crashes without arguments and otherwise generates bindings. *)
Definition some_tool (path : str) (args : list str) : ending :=
  match args with
  | [] => Killed 6
  | _ => match main anything [$"/a"] false false [] [good []] no_files with Some (_, _, code) => Exited code | None => Killed 6 end
  end.
Example entry_point_passes_on_arguments_and_status_example :
  entry_point some_tool ($"/site") [$"genpybind-tool"; $"/src/shapes.h"] = 0%N /\ entry_point some_tool ($"/site") [$"genpybind-tool"] = 250%N /\
  (forall path l c, some_tool path l = Exited c -> (c < 256)%N) /\ (forall path l s, some_tool path l = Killed s -> (0 < s < 128)%N).
Proof.
  split; [vm_compute; reflexivity|]. split; [vm_compute; reflexivity|].
  destruct (observe_inv (main anything [$"/a"] false false [] [good []] no_files) [] ([], 0, 0%N)) as (fs & out & code & E & _ & _ & Hc); [vm_compute; reflexivity|]. cbn [snd] in Hc. subst code.
  unfold some_tool. rewrite E. split; intros path [|a l] c H; inversion H; subst; lia.
Qed.
