(** * Proofs about the Python entry point *)
From Coq Require Import ZArith.
From Verif Require Import Base ToolModel ToolSpec ToolProofs WrapModel.

Lemma entry_point_status run parent name args :
  (forall path l c, run path l = Exited c -> (c < 256)%N) -> (forall path l s, run path l = Killed s -> (0 < s < 128)%N) ->
  let ended := run (parent ++ $"/bin/genpybind-tool") args in
  (entry_point run parent (name :: args) = 0%N <-> ended = Exited 0) /\
  (forall c, ended = Exited c -> entry_point run parent (name :: args) = c) /\
  (forall c, (c < 128)%N -> c <> 1%N -> (entry_point run parent (name :: args) = c <-> ended = Exited c)).
Proof.
  intros He Hk ended. unfold entry_point, subprocess_call, exit_status_of. cbn [tl]. fold ended. destruct ended as [|c|s] eqn:E.
  - split; [split; discriminate|]. split; [discriminate|]. intros c _ Hc. split; [congruence|discriminate].
  - specialize (He _ _ _ E). assert (Ez : Z.to_N (Z.of_N c mod 256) = c) by (rewrite Z.mod_small by lia; apply N2Z.id). rewrite Ez.
    split; [split; congruence|]. split; [congruence|]. intros d _ _. split; congruence.
  - specialize (Hk _ _ _ E). assert (Ez : (- Z.of_N s mod 256 = 256 - Z.of_N s)%Z).
    { rewrite <- (Z_mod_plus_full _ 1), Z.mod_small; lia. }
    rewrite Ez. split; [split; [lia|discriminate]|]. split; [discriminate|]. intros d Hd _. split; [lia|discriminate].
Qed.

Lemma entry_point_success run parent program args env outputs keep xfail name jobs fs fs' out code ns :
  (forall path l c, run path l = Exited c -> (c < 256)%N) -> (forall path l s, run path l = Killed s -> (0 < s < 128)%N) ->
  main env outputs keep xfail name jobs fs = Some (fs', out, code) -> run (parent ++ $"/bin/genpybind-tool") args = Exited code ->
  acceptable outputs -> names name jobs ns ->
  (entry_point run parent (program :: args) = 0%N <->
   (xfail = false <-> jobs <> [] /\ Forall2 (fun n j => exists parts, succeeds env (effective outputs) n j parts) ns jobs)).
Proof.
  intros He Hk Hm Hr Ha Hn. rewrite <- (exit_status _ _ _ _ _ _ _ _ _ _ _ Hm Ha Hn). rewrite (proj1 (proj2 (entry_point_status run parent program args He Hk)) _ Hr). reflexivity.
Qed.
