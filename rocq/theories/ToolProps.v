(** * Properties of the command line tool *)
From Verif Require Import Base ParserModel StringModel StringSpec AnnotModel AnnotSpec CollectModel CollectSpec GraphModel GraphSpec GraphProps
  OrderModel OrderProps InlineModel EmitModel EmitProps ModuleModel ModuleSpec ModuleProps ToolModel ToolSpec ToolProofs.

(** ** Examples *)

Definition job_of (errors : bool) (pragmas : list pragma) (u : unit) (w : facts) : job :=
  mkJob ($"/src/shapes.h") errors pragmas u w (fun _ => []) (fun _ => false) (@rev nat).

Definition good (pragmas : list pragma) : job := job_of false pragmas shapes shapes_facts.
Definition bad : job := job_of true [] shapes shapes_facts.
Definition cycle : job := job_of false [] cyclic shapes_facts.

Definition anything : environment := mkEnvironment (fun _ => true) (fun _ => true).
Definition no_files : files := fun _ => None.

(** What can be observed after a run: kind of some files, amount of output, status. *)
Inductive seen := Absent | Unchanged (bytes : str) | Generated (n : nat).
Definition see (c : option contents) : seen := match c with None => Absent | Some (Old b) => Unchanged b | Some (New _ items) => Generated (length items) end.
Definition observe (r : option (files * list contents * N)) (paths : list str) : option (list seen * nat * N) :=
  match r with None => None | Some (fs, out, code) => Some (map (fun p => see (fs p)) paths, length out, code) end.

Lemma observe_inv r paths a : observe r paths = Some a -> exists fs out code, r = Some (fs, out, code) /\ map (fun p => see (fs p)) paths = fst (fst a) /\ length out = snd (fst a) /\ code = snd a.
Proof. destruct r as [[[fs out] code]|]; [|discriminate]. cbn. intros H. injection H as <-. exists fs, out, code. repeat split; reflexivity. Qed.

(** ** C48 *)

(** No error is reported exactly if every pragma asks for a header and nothing
    else; then these are the headers recorded.  Missing: a pragma at the very end of
    a file without line break. *)
Theorem include_pragmas_are_recorded_partial : forall ps, Forall terminated ps ->
  (forall hs, Forall2 (fun p h => pg_accepted p = true /\ include_pragma p h) ps hs -> handle_pragmas ps [] = (hs, false)) /\
  (snd (handle_pragmas ps []) = false -> exists hs, Forall2 (fun p h => pg_accepted p = true /\ include_pragma p h) ps hs).
Proof. exact (fun ps => handle_pragmas_spec ps []). Qed.
Print Assumptions include_pragmas_are_recorded_partial.

(** Nothing else is ever recorded. *)
Theorem only_requested_headers_are_recorded : forall ps h, In h (fst (handle_pragmas ps [])) ->
  exists p ts, In p ps /\ pg_accepted p = true /\ pg_tokens p = Ident ($"include") :: Header h :: ts.
Proof. exact recorded_headers. Qed.
Print Assumptions only_requested_headers_are_recorded.

(** Text of the outputs (see C57): the header itself, two fixed headers and the
    ones recorded, in this order and nothing else. *)
Theorem headers_are_included_verbatim : forall main_file includes, ~ In newline main_file -> (forall h, In h includes -> ~ In newline h) ->
  lines (preamble main_file includes) ([$"#include " ++ quote :: main_file ++ [quote]; $"#include <genpybind/binding-helpers.h>"; $"#include <pybind11/pybind11.h>"] ++
    map (fun h => $"#include " ++ h) includes ++ [[]]).
Proof. exact preamble_lines. Qed.
Print Assumptions headers_are_included_verbatim.

Definition two_pragmas : list pragma :=
  [mkPragma true false [Ident ($"include"); Header ($"<a.h>")]; mkPragma true true [Ident ($"include"); Header ($"<b.h>")]].

Example C48_example :
  Forall terminated two_pragmas /\ Forall2 (fun p h => pg_accepted p = true /\ include_pragma p h) two_pragmas [$"<a.h>"; $"<b.h>"] /\
  handle_pragmas two_pragmas [] = ([$"<a.h>"; $"<b.h>"], false) /\
  handle_pragmas (mkPragma true false [Ident ($"define"); Ident ($"X")] :: two_pragmas) [] = ([$"<a.h>"; $"<b.h>"], true) /\
  handle_pragmas [mkPragma true false []] [] = ([], true) /\
  preamble ($"/a.h") [$"<b.h>"] =
    $"#include " ++ quote :: $"/a.h" ++ quote :: newline :: $"#include <genpybind/binding-helpers.h>" ++ newline :: $"#include <pybind11/pybind11.h>" ++ newline ::
    $"#include <b.h>" ++ [newline; newline].
Proof.
  split; [apply Forall_cons; [right; discriminate|]; apply Forall_cons; [right; discriminate|]; constructor|]. split; [repeat constructor; discriminate|]. repeat split; reflexivity.
Qed.

(** Trailing tokens are accepted at the end of a file, and a header can be
    recorded although an error is reported. *)
Theorem malformed_pragmas_are_rejected_refuted :
  (exists p h, (forall h', ~ include_pragma p h') /\ handle_pragmas [p] [] = ([h], false)) /\
  (exists p h, handle_pragmas [p] [] = ([h], true)).
Proof.
  split.
  - exists (mkPragma true true [Ident ($"include"); Header ($"<a.h>"); Ident ($"x")]), ($"<a.h>"). split; [intros h' [E _]; discriminate|reflexivity].
  - exists (mkPragma true false [Ident ($"include"); Header ($"<a.h>"); Ident ($"x")]), ($"<a.h>"). reflexivity.
Qed.
Print Assumptions malformed_pragmas_are_rejected_refuted.

(** ** C42 *)

(** The exit status is zero exactly if the run succeeded, or the other way round
    if failure is expected. *)
Theorem exit_status_tells_success : forall env outputs keep xfail name jobs fs fs' out code ns,
  main env outputs keep xfail name jobs fs = Some (fs', out, code) -> acceptable outputs -> names name jobs ns ->
  (code = 0%N <-> (xfail = false <-> jobs <> [] /\ Forall2 (fun n j => exists parts, succeeds env (effective outputs) n j parts) ns jobs)).
Proof. exact exit_status. Qed.
Print Assumptions exit_status_tells_success.

(** After a failing run each file is unchanged or gone, and all outputs are gone
    if they have been opened at all.  Missing: several compile commands, files
    that cannot be renamed, and outputs present before. *)
Theorem failing_runs_leave_no_bindings_partial : forall env outputs xfail name j fs fs' out code,
  main env outputs false xfail name [j] fs = Some (fs', out, code) -> acceptable outputs ->
  (forall p, In p (effective outputs) -> p <> $"-" -> can_rename env p = true) ->
  ~ (exists parts, succeeds env (effective outputs) (default_name name (j_main j)) j parts) ->
  forall p, (fs' p = fs p \/ (In p outputs /\ fs' p = None)) /\
    (In p outputs -> p <> $"-" -> (forall q, In q outputs -> can_open env q = true) ->
     (exists b e, generate (j_unit j) (j_facts j) (j_found j) (j_implicit j) (j_iteration j) (length (effective outputs)) (default_name name (j_main j)) = Some (RGraph b e)) -> fs' p = None).
Proof. exact failing_run. Qed.
Print Assumptions failing_runs_leave_no_bindings_partial.

Example C42_example :
  observe (main anything [$"/a"; $"/b"] false false [] [good []] no_files) [$"/a"; $"/b"; $"/c"] = Some ([Generated 10; Generated 6; Absent], 0, 0%N) /\
  observe (main anything [$"/a"; $"/b"] false false [] [bad] (set_file ($"/a") (Some (Old ($"x"))) no_files)) [$"/a"; $"/b"] = Some ([Absent; Absent], 0, 1%N) /\
  observe (main anything [$"/a"; $"/b"] false true [] [bad] no_files) [$"/a"; $"/b"] = Some ([Absent; Absent], 0, 0%N) /\
  observe (main anything [$"/a"; $"/b"] true false [] [bad] no_files) [$"/a"; $"/b"] = Some ([Generated 10; Generated 6], 0, 1%N) /\
  observe (main anything [] false false [] [good []] no_files) [] = Some ([], 1, 0%N) /\
  observe (main anything [] false false [] [] no_files) [] = Some ([], 0, 2%N) /\
  acceptable [$"/a"; $"/b"] /\ ~ (exists parts, succeeds anything [$"/a"; $"/b"] ($"shapes") bad parts).
Proof.
  do 6 (split; [vm_compute; reflexivity|]). split; [intros p [<-|[<-|[]]]; right; reflexivity|]. intros (parts & H). destruct H as [C _ _ _ _]. discriminate.
Qed.

(** Outputs of an earlier run stay if processing ends early. *)
Theorem outdated_outputs_are_erased_refuted : exists env outputs j fs fs' out code p,
  main env outputs false false [] [j] fs = Some (fs', out, code) /\ acceptable outputs /\ In p outputs /\ code <> 0%N /\ fs p <> None /\ fs' p = fs p.
Proof.
  destruct (observe_inv (main anything [$"/a"] false false [] [cycle] (set_file ($"/a") (Some (Old ($"x"))) no_files)) [$"/a"] ([Unchanged ($"x")], 0, 1%N) ltac:(vm_compute; reflexivity))
    as (fs' & out & code & H & Hp & _ & Hc). cbn in Hp, Hc.
  exists anything, [$"/a"], cycle, (set_file ($"/a") (Some (Old ($"x"))) no_files), fs', out, code, ($"/a"). split; [exact H|]. split; [intros p [<-|[]]; right; reflexivity|]. split; [left; reflexivity|].
  split; [rewrite Hc; discriminate|]. split; [discriminate|]. destruct (fs' ["/"%char; "a"%char]) as [[b|t l]|] eqn:E; try discriminate Hp. cbn in Hp. injection Hp as ->. exact E.
Qed.
Print Assumptions outdated_outputs_are_erased_refuted.

(** Standard output keeps what has been written. *)
Theorem standard_output_is_erased_refuted : exists env j fs' out code,
  main env [] false false [] [j] no_files = Some (fs', out, code) /\ code <> 0%N /\ exists text part, In (New text part) out /\ part <> [].
Proof.
  destruct (observe_inv (main anything [] false false [] [bad] no_files) [] ([], 1, 1%N) ltac:(vm_compute; reflexivity)) as (fs' & out & code & H & _ & Ho & Hc).
  exists anything, bad, fs', out, code. split; [exact H|]. split; [rewrite Hc; discriminate|].
  assert (X : forall c, In c (match main anything [] false false [] [bad] no_files with Some (_, out, _) => out | None => [] end) -> see (Some c) = Generated 13).
  { vm_compute. intros c [<-|[]]. reflexivity. }
  rewrite H in X. destruct out as [|c out]; [discriminate Ho|]. specialize (X c (or_introl eq_refl)). destruct c as [b|text part]; [discriminate X|]. exists text, part. split; [left; reflexivity|]. intros ->. discriminate X.
Qed.
Print Assumptions standard_output_is_erased_refuted.

(** If there are several compile commands the outputs can be those of one that
    succeeded, although the run as a whole fails. *)
Theorem failing_commands_erase_outputs_refuted : exists env outputs jobs fs' out code p text part,
  main env outputs false false [] jobs no_files = Some (fs', out, code) /\ acceptable outputs /\ code <> 0%N /\ In p outputs /\ fs' p = Some (New text part).
Proof.
  destruct (observe_inv (main anything [$"/a"] false false [] [bad; good []] no_files) [$"/a"] ([Generated 13], 0, 1%N) ltac:(vm_compute; reflexivity)) as (fs' & out & code & H & Hp & _ & Hc). cbn in Hp, Hc.
  destruct (fs' ["/"%char; "a"%char]) as [[b|text part]|] eqn:E; try discriminate Hp.
  exists anything, [$"/a"], [bad; good []], fs', out, code, ($"/a"), text, part. split; [exact H|]. split; [intros p [<-|[]]; right; reflexivity|]. split; [rewrite Hc; discriminate|]. split; [left; reflexivity|exact E].
Qed.
Print Assumptions failing_commands_erase_outputs_refuted.

(** An output that cannot be replaced makes the run fail, the others stay. *)
Theorem failed_renames_erase_outputs_refuted : exists env outputs j fs' out code p text part,
  main env outputs false false [] [j] no_files = Some (fs', out, code) /\ acceptable outputs /\ code <> 0%N /\ In p outputs /\ fs' p = Some (New text part).
Proof.
  destruct (observe_inv (main (mkEnvironment (fun _ => true) (fun p => str_eqb p ($"/a"))) [$"/a"; $"/b"] false false [] [good []] no_files) [$"/a"; $"/b"] ([Generated 10; Absent], 0, 1%N) ltac:(vm_compute; reflexivity))
    as (fs' & out & code & H & Hp & _ & Hc). cbn in Hp, Hc.
  destruct (fs' ["/"%char; "a"%char]) as [[b|text part]|] eqn:E; try discriminate Hp.
  exists (mkEnvironment (fun _ => true) (fun p => str_eqb p ($"/a"))), [$"/a"; $"/b"], (good []), fs', out, code, ($"/a"), text, part. split; [exact H|].
  split; [intros p [<-|[<-|[]]]; right; reflexivity|]. split; [rewrite Hc; discriminate|]. split; [left; reflexivity|exact E].
Qed.
Print Assumptions failed_renames_erase_outputs_refuted.

(** Rejected options fail even if failure is expected. *)
Theorem expected_failures_succeed_refuted : exists outputs jobs, main anything outputs false true [] jobs no_files = Some (no_files, [], 1%N).
Proof. exists [$"a"], [good []]. reflexivity. Qed.
Print Assumptions expected_failures_succeed_refuted.

(** ** C57 *)

(** Each output receives its part of the module, other files are not touched.
    Missing: the same output given twice. *)
Theorem outputs_receive_their_parts_partial : forall env outputs keep xfail name j fs fs' out code parts reports,
  main env outputs keep xfail name [j] fs = Some (fs', out, code) -> acceptable outputs ->
  generates (effective outputs) (default_name name (j_main j)) j parts reports ->
  (forall p, In p (effective outputs) -> can_open env p = true /\ (p <> $"-" -> can_rename env p = true)) ->
  keep = true \/ succeeds env (effective outputs) (default_name name (j_main j)) j parts ->
  NoDup (filter (fun p => negb (str_eqb p ($"-"))) outputs) ->
  let text := preamble (j_main j) (fst (handle_pragmas (j_pragmas j) [])) in
  holds fs' text (effective outputs) parts /\ out = printed text (effective outputs) parts /\ (forall p, p = $"-" \/ ~ In p outputs -> fs' p = fs p).
Proof. exact written_run. Qed.
Print Assumptions outputs_receive_their_parts_partial.

Example C57_example : exists parts reports fs' out code,
  main anything [$"/a"; $"-"; $"/b"] false false [] [good two_pragmas] no_files = Some (fs', out, code) /\
  generates [$"/a"; $"-"; $"/b"] ($"shapes") (good two_pragmas) parts reports /\ succeeds anything [$"/a"; $"-"; $"/b"] ($"shapes") (good two_pragmas) parts /\
  map (@length _) parts = [9; 4; 4] /\ code = 0%N /\ map (fun p => see (fs' p)) [$"/a"; $"/b"] = [Generated 9; Generated 4].
Proof.
  destruct (observe_inv (main anything [$"/a"; $"-"; $"/b"] false false [] [good two_pragmas] no_files) [$"/a"; $"/b"] ([Generated 9; Generated 4], 1, 0%N) ltac:(vm_compute; reflexivity))
    as (fs' & out & code & H & Hp & _ & Hc).
  destruct (written (generate shapes shapes_facts (fun _ => []) (fun _ => false) (@rev nat) 3 ($"shapes"))) as [parts|] eqn:E; [|vm_compute in E; discriminate E].
  assert (Hl : option_map (map (@length _)) (written (generate shapes shapes_facts (fun _ => []) (fun _ => false) (@rev nat) 3 ($"shapes"))) = Some [9; 4; 4]) by (vm_compute; reflexivity).
  rewrite E in Hl. injection Hl as Hl. destruct (written_inv _ _ E) as (b & st & Hg & _).
  exists parts, [], fs', out, code. split; [exact H|]. assert (G : generates [$"/a"; $"-"; $"/b"] ($"shapes") (good two_pragmas) parts []) by (exists b, st; exact Hg).
  split; [exact G|]. split; [|split; [exact Hl|split; [exact Hc|exact Hp]]].
  constructor; try reflexivity. exists []. split; [exact G|intros r []].
Qed.

(** A part is lost. *)
Theorem repeated_outputs_receive_their_parts_refuted : exists outputs fs' out code parts part,
  main anything outputs false false [] [good []] no_files = Some (fs', out, code) /\ acceptable outputs /\ code = 0%N /\
  generates outputs ($"shapes") (good []) parts [] /\ In part parts /\ out = [] /\ forall p text, fs' p <> Some (New text part).
Proof.
  destruct (observe_inv (main anything [$"/a"; $"/a"] false false [] [good []] no_files) [$"/a"] ([Generated 6], 0, 0%N) ltac:(vm_compute; reflexivity)) as (fs' & out & code & H & Hp & Ho & Hc). cbn in Hp, Ho, Hc.
  destruct (written (generate shapes shapes_facts (fun _ => []) (fun _ => false) (@rev nat) 2 ($"shapes"))) as [parts|] eqn:E; [|vm_compute in E; discriminate E].
  assert (Hl : option_map (map (@length _)) (written (generate shapes shapes_facts (fun _ => []) (fun _ => false) (@rev nat) 2 ($"shapes"))) = Some [10; 6]) by (vm_compute; reflexivity).
  rewrite E in Hl. injection Hl as Hl. destruct (written_inv _ _ E) as (b & st & Hg & _). destruct parts as [|part parts]; [discriminate Hl|]. cbn in Hl. injection Hl as Hl _.
  exists [$"/a"; $"/a"], fs', out, code, (part :: parts), part. split; [exact H|]. split; [intros p [<-|[<-|[]]]; right; reflexivity|]. split; [exact Hc|]. split; [exists b, st; exact Hg|]. split; [left; reflexivity|].
  split; [destruct out; [reflexivity|discriminate Ho]|]. intros p text Hn.
  assert (Ha : acceptable [$"/a"; $"/a"]) by (intros q [<-|[<-|[]]]; right; reflexivity).
  destruct (single_run _ _ _ _ _ _ _ _ _ _ H Ha) as (l & e & e' & Hu & Hcl).
  destruct (str_eqb p ($"/a")) eqn:Ep.
  - apply str_eqb_eq in Ep. subst p. change ($"/a") with ["/"%char; "a"%char] in Hn. rewrite Hn in Hp. cbn in Hp. injection Hp as Hp. rewrite Hl in Hp. discriminate Hp.
  - apply str_eqb_neq in Ep. pose proof (handle_unit_spec _ _ _ _ _ _ _ Hu) as Hs. cbv zeta in Hs.
    assert (Hf : map fst l = [$"/a"; $"/a"]).
    { destruct Hs as [(_ & parts' & reports & Hg' & -> & _)|(_ & C & _)]; [|exfalso; apply (C (part :: parts) []); [exists b, st; exact Hg|reflexivity]].
      apply map_fst_combine. rewrite map_length. exact (generates_length _ _ _ _ _ Hg'). }
    assert (Hk : fs' p = no_files p).
    { destruct (negb false && _) in Hcl; [apply (erase_spec _ _ _ _ _ _ _ Hcl)|apply (keep_spec _ _ _ _ _ _ _ Hcl)]; right; rewrite Hf; intros [C|[C|[]]]; congruence. }
    rewrite Hk in Hn. discriminate Hn.
Qed.
Print Assumptions repeated_outputs_receive_their_parts_refuted.

(** ** C58 *)

(** Outputs do not depend on the working directory: other paths are rejected
    before anything is done. *)
Theorem relative_outputs_are_rejected : forall env outputs keep xfail name jobs fs,
  (acceptable outputs -> forall p, In p outputs -> p = $"-" \/ rooted p) /\
  ((forall p, In p outputs -> p = $"-" \/ (rooted p /\ forall c r, p = $"//" ++ c :: r -> c = "/"%char \/ In "/"%char r)) -> acceptable outputs) /\
  (~ acceptable outputs -> main env outputs keep xfail name jobs fs = Some (fs, [], 1%N)).
Proof.
  exact (fun env outputs keep xfail name jobs fs =>
    conj (fun H p Hp => match H p Hp with or_introl E => or_introl E | or_intror E => or_intror (is_absolute_rooted p E) end)
   (conj (fun H p Hp => match H p Hp with or_introl E => or_introl E | or_intror (conj R N) => or_intror (absolute_spec p R N) end)
         (rejected_run env outputs keep xfail name jobs fs))).
Qed.
Print Assumptions relative_outputs_are_rejected.

Example C58_example : acceptable [$"-"; $"/tmp/a.cpp"] /\ ~ acceptable [$"/tmp/a.cpp"; $"b.cpp"] /\
  main anything [$"/tmp/a.cpp"; $"b.cpp"] false false [] [good []] no_files = Some (no_files, [], 1%N).
Proof.
  split; [intros p [<-|[<-|[]]]; [left|right]; reflexivity|]. split; [|reflexivity].
  intros H. destruct (H ($"b.cpp") (or_intror (or_introl eq_refl))) as [C|C]; discriminate.
Qed.

(** A path like [//a] is rejected as well. *)
Theorem rooted_outputs_are_accepted_refuted : exists p, rooted p /\ ~ acceptable [p].
Proof. exists ($"//a"). split; [exists ($"/a"); reflexivity|]. intros H. destruct (H ($"//a") (or_introl eq_refl)) as [C|C]; discriminate. Qed.
Print Assumptions rooted_outputs_are_accepted_refuted.

(** ** C59 *)

(** The default name of the module.  Missing: names that consist of an
    extension only. *)
Theorem default_module_name_is_derived_from_the_header_partial : forall main_file base, has_stem main_file base -> base <> [] -> base <> $"." ->
  converted base (default_name [] main_file) /\ identifier (default_name [] main_file).
Proof. exact default_name_spec. Qed.
Print Assumptions default_module_name_is_derived_from_the_header_partial.

Example C59_example : has_stem ($"/src/my-lib.v2.h") ($"my-lib.v2") /\ default_name [] ($"/src/my-lib.v2.h") = $"my_lib_v2" /\ default_name ($"m") ($"/src/my-lib.v2.h") = $"m".
Proof.
  split; [|split; vm_compute; reflexivity]. exists ($"my-lib.v2.h"). split; [right; exists ($"/src"); reflexivity|].
  split; [intros C; cbn in C; repeat (destruct C as [C|C]; [discriminate|]); exact C|]. right. exists ($"h"). split; [reflexivity|]. intros [C|[]]. discriminate.
Qed.

Theorem default_module_name_is_an_identifier_refuted : exists main_file, rooted main_file /\ default_name [] main_file = [].
Proof. exists ($"/src/.h"). split; [exists ($"src/.h"); reflexivity|vm_compute; reflexivity]. Qed.
Print Assumptions default_module_name_is_an_identifier_refuted.
