(** * Properties of macros given on the command line *)
From Verif Require Import Base ParserModel ParserSpec AnnotModel AnnotSpec ModuleModel MacroModel MacroSpec MacroProofs CommandModel ActiveSpec ActiveProofs.

(** ** C117 *)

(** Whatever the compile command is, the macro that switches on annotations is
    defined when the program processes a file ... *)
Theorem annotations_are_switched_on : forall arity resource_dir program args args' os, arity_of_clang arity -> program <> $"--" ->
  adjust resource_dir (program :: args) = Some args' -> reading arity (tl args') os -> macro_defined header_guard os.
Proof. exact active. Qed.
Print Assumptions annotations_are_switched_on.

(** ... so that annotations are those written in the file. *)
Theorem annotations_are_never_skipped : forall arity resource_dir program args args' os on, arity_of_clang arity -> program <> $"--" ->
  adjust resource_dir (program :: args) = Some args' -> reading arity (tl args') os -> (on = true <-> macro_defined header_guard os) ->
  forall defs src ts l rest items o, written ts src -> g_annotations ts l -> (forall n, In (SIdent n) ts -> no_macro defs n) ->
    pp_lex rest = Some items -> preprocess_items on defs items = Some o ->
    exists text, preprocess_text on defs ($"GENPYBIND(" ++ src ++ $")" ++ rest) = Some (OAnnotate (lozenge ++ text) :: o) /\ denotes text l.
Proof. exact active_text. Qed.
Print Assumptions annotations_are_never_skipped.

(** ** Examples *)

Definition some_arity (a : str) : nat := if existsb (str_eqb a) [$"-D"; $"-U"; $"-I"] then 1 else 0.

Lemma some_arity_of_clang : arity_of_clang some_arity.
Proof. split; [intros a; unfold some_arity; destruct (existsb _ _); lia|]. split; reflexivity. Qed.

Ltac read := repeat first
  [apply reading_end | apply (reading_option some_arity _ []); [discriminate|reflexivity|] | eapply (reading_option some_arity _ [_]); [discriminate|reflexivity|]
  | apply (reading_missing some_arity _ []); [discriminate|cbn; lia]].

(** clang -D__GENPYBIND__=1 -U __GENPYBIND__ a.h -I: the macro is not defined by the
    command as given, and -I is left without a value, but takes another one. *)
Definition command : list str := [$"clang"; $"-D__GENPYBIND__=1"; $"-U"; $"__GENPYBIND__"; $"a.h"; $"-I"].

Example annotations_are_switched_on_example : exists os args' os',
  reading some_arity (tl command) os /\ ~ macro_defined header_guard os /\
  adjust [] command = Some args' /\ reading some_arity (tl args') os' /\ In ($"-I", [$"-std=c++17"]) os' /\ macro_defined header_guard os'.
Proof.
  assert (A : exists os', adjust [] command = Some [$"clang"; $"-xc++"; $"-D__GENPYBIND__=1"; $"-U"; $"__GENPYBIND__"; $"a.h"; $"-I"; $"-std=c++17"; $"-Wno-everything"; $"-D__GENPYBIND__"] /\
    reading some_arity [$"-xc++"; $"-D__GENPYBIND__=1"; $"-U"; $"__GENPYBIND__"; $"a.h"; $"-I"; $"-std=c++17"; $"-Wno-everything"; $"-D__GENPYBIND__"] os' /\ In ($"-I", [$"-std=c++17"]) os').
  { eexists. split; [vm_compute; reflexivity|]. split; [read|]. cbn. auto 10. }
  destruct A as (os' & E & R & I).
  exists [($"-D__GENPYBIND__=1", []); ($"-U", [$"__GENPYBIND__"]); ($"a.h", []); ($"-I", [])]. eexists. exists os'.
  split; [unfold command; cbn [tl]; read|]. split; [|split; [exact E|split; [exact R|split; [exact I|exact (annotations_are_switched_on some_arity [] ($"clang") (tl command) _ os' some_arity_of_clang ltac:(discriminate) E R)]]]].
  intros (b & o & a & Eo & (m & Hm & Hn) & F).
  destruct b as [|x b]; [|destruct b as [|y b]; [|destruct b as [|z b]; [|destruct b as [|t b]; [|exfalso; apply (f_equal (@length _)) in Eo; rewrite app_length in Eo; cbn [length] in Eo; lia]]]]; injection Eo; intros; subst.
  - inversion F as [|? ? N1 F1]; subst. inversion F1 as [|? ? N2 F2]; subst. apply N1. exists header_guard. split; [right; reflexivity|left; reflexivity].
  - destruct Hm as [Hm|Hm]; discriminate Hm.
  - destruct Hm as [Hm|Hm]; discriminate Hm.
  - destruct Hm as [Hm|Hm]; discriminate Hm.
Qed.
