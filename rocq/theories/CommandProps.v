(** * Properties of command lines *)
From Verif Require Import Base ParserModel CommandModel CommandSpec CommandProofs.

(** Every command line can be read in exactly one way. *)
Theorem command_lines_have_one_reading : forall args,
  exists os r, reads args os r /\ forall os' r', reads args os' r' -> os' = os /\ r' = r.
Proof. exact (fun args => match reads_total (length args) args (le_n _) with ex_intro _ os (ex_intro _ r H) => ex_intro _ os (ex_intro _ r (conj H (reads_unique args os r H))) end). Qed.
Print Assumptions command_lines_have_one_reading.

(** ** C41 *)

(** The input is read as C++ by a standard that is C++17 or later; all other
    options, the separator and what follows are kept.  Missing: requests for
    something other than a C++ standard. *)
Theorem compile_command_uses_cpp17_or_later_partial : forall program args os r, reads args os r ->
  exists args' os' v', cpp17_or_later (program :: args) = Some (program :: args') /\ reads args' (Language ($"c++") :: os') r /\
    languages os' = [] /\ others os' = others os /\ in_effect (standards os') = Some v' /\ brought_up os v'.
Proof. exact cpp17_command. Qed.
Print Assumptions compile_command_uses_cpp17_or_later_partial.

Definition a_command : list str := [$"-I"; $"include"; $"-std=c++20"; $"-x"; $"c"; $"-std=gnu++14"; $"-Wall"; $"--"; $"-x.h"].

Example C41_example :
  reads a_command [Other ($"-I"); Other ($"include"); Standard ($"c++20"); Language ($"c"); Standard ($"gnu++14"); Other ($"-Wall")] [$"--"; $"-x.h"] /\
  cpp_standard ($"gnu++14") GNU 2014 /\
  cpp17_or_later ($"clang" :: a_command) =
    Some [$"clang"; $"-xc++"; $"-I"; $"include"; $"-std=c++20"; $"-Wall"; $"-std=gnu++17"; $"--"; $"-x.h"].
Proof.
  split; [|split; [exists "14"%string; split; [cbn; auto 20|reflexivity]|reflexivity]]. unfold a_command.
  apply reads_other; try discriminate. apply reads_other; try discriminate. apply (reads_standard ($"c++20")). apply reads_language_next.
  apply (reads_standard ($"gnu++14")). apply reads_other; try discriminate. apply reads_separator.
Qed.

(** A request for a standard of another language is turned into something that
    is not a standard at all. *)
Theorem other_standards_are_replaced_refuted : exists program args os r args' os' v',
  reads args os r /\ in_effect (standards os) = Some ($"c11") /\ cpp17_or_later (program :: args) = Some (program :: args') /\
  reads args' os' r /\ in_effect (standards os') = Some v' /\ forall f year, ~ cpp_standard v' f year.
Proof.
  exists ($"clang"), [$"-std=c11"], [Standard ($"c11")], [], [$"-xc++"; $"-std=c11++17"], [Language ($"c++"); Standard ($"c11++17")], ($"c11++17").
  split; [apply (reads_standard ($"c11")), reads_end|]. split; [reflexivity|]. split; [reflexivity|].
  split; [apply (reads_language ($"c++")); [discriminate|]; apply (reads_standard ($"c11++17")), reads_end|]. split; [reflexivity|].
  intros f year (s & Hs & E). unfold editions in Hs. cbn [In] in Hs.
  repeat (destruct Hs as [Hs|Hs]; [injection Hs as <- <-; destruct f; discriminate|]). destruct Hs.
Qed.
Print Assumptions other_standards_are_replaced_refuted.

(** Adjusting twice.  Missing: standards without "++" that end in "+". *)
Theorem adjusting_twice_is_adjusting_once_partial : forall program args os r, reads args os r ->
  (forall v, in_effect (standards os) = Some v -> (exists a b, v = a ++ $"++" ++ b) \/ (forall a, v <> a ++ $"+")) ->
  forall args', cpp17_or_later (program :: args) = Some args' -> cpp17_or_later args' = Some args'.
Proof. exact cpp17_idempotent. Qed.
Print Assumptions adjusting_twice_is_adjusting_once_partial.

Theorem adjusting_twice_is_adjusting_once_refuted : exists args args', cpp17_or_later args = Some args' /\ cpp17_or_later args' <> Some args'.
Proof. exists [$"clang"; $"-std=c+"], [$"clang"; $"-xc++"; $"-std=c+++17"]. split; [reflexivity|discriminate]. Qed.
Print Assumptions adjusting_twice_is_adjusting_once_refuted.

(** ** C56 *)

(** Arguments that are added by the tool end up before the separator. *)
Theorem added_arguments_precede_the_separator : forall resource_dir program args os r, reads args os r ->
  program <> $"--" -> ~ In (Language ($"--")) os -> ~ In Incomplete os ->
  exists args' os' v' extra, adjust resource_dir (program :: args) = Some (program :: args') /\ reads args' (Language ($"c++") :: os') r /\
    languages os' = [] /\ in_effect (standards os') = Some v' /\ brought_up os v' /\
    others os' = others os ++ extra ++ [$"-Wno-everything"; $"-D__GENPYBIND__"] /\
    (resource_dir_given (program :: args) -> extra = []) /\ (resource_dir = [] -> extra = []) /\
    (~ resource_dir_given (program :: args) -> resource_dir <> [] -> extra = [$"-resource-dir=" ++ resource_dir]).
Proof. exact adjust_reads. Qed.
Print Assumptions added_arguments_precede_the_separator.

Example C56_example :
  adjust ($"/lib/clang") [$"clang"; $"-DA"; $"--"; $"a.h"] =
    Some [$"clang"; $"-xc++"; $"-DA"; $"-resource-dir=/lib/clang"; $"-std=c++17"; $"-Wno-everything"; $"-D__GENPYBIND__"; $"--"; $"a.h"] /\
  adjust ($"/lib/clang") [$"clang"; $"-resource-dir"; $"/x"; $"a.h"] =
    Some [$"clang"; $"-xc++"; $"-resource-dir"; $"/x"; $"a.h"; $"-std=c++17"; $"-Wno-everything"; $"-D__GENPYBIND__"] /\
  reads [$"-DA"; $"--"; $"a.h"] [Other ($"-DA")] [$"--"; $"a.h"] /\ ~ resource_dir_given [$"clang"; $"-DA"; $"--"; $"a.h"].
Proof.
  split; [reflexivity|]. split; [reflexivity|]. split; [apply reads_other; try discriminate; apply reads_separator|].
  intros (a & Ha & H). cbn [In] in Ha. destruct Ha as [<-|[<-|[<-|[<-|[]]]]]; destruct H as [H|(v & H)]; discriminate.
Qed.

(** Without the side condition the value of a language option is taken for the
    separator. *)
Theorem separator_may_be_a_value_refuted : exists resource_dir program args os r args' os' r',
  reads args os r /\ adjust resource_dir (program :: args) = Some (program :: args') /\ reads args' os' r' /\ r' <> r.
Proof.
  exists ($"/l"), ($"clang"), [$"-x"; $"--"; $"a.h"], [Language ($"--"); Other ($"a.h")], [],
    [$"-xc++"; $"-std=c++17"; $"-Wno-everything"; $"-D__GENPYBIND__"; $"--"; $"a.h"],
    [Language ($"c++"); Standard ($"c++17"); Other ($"-Wno-everything"); Other ($"-D__GENPYBIND__")], [$"--"; $"a.h"].
  split; [apply reads_language_next; apply reads_other; try discriminate; apply reads_end|]. split; [reflexivity|]. split; [|discriminate].
  apply (reads_language ($"c++")); [discriminate|]. apply (reads_standard ($"c++17")). do 2 (apply reads_other; try discriminate). apply reads_separator.
Qed.
Print Assumptions separator_may_be_a_value_refuted.

(** ** C49 *)

(** What is printed determines the arguments.  Missing: empty arguments and
    those that start with a quote without containing a space. *)
Theorem printed_arguments_can_be_read_back_partial : forall args args', Forall plain_argument args -> Forall plain_argument args' ->
  emit_quoted_arguments args = emit_quoted_arguments args' -> args = args'.
Proof. exact emit_injective. Qed.
Print Assumptions printed_arguments_can_be_read_back_partial.

Definition tricky : list str := [$"clang"; $"a b"; ascii_of_N 34 :: $" \"; $"a\b"; $"c" ++ [ascii_of_N 34]].

Example C49_example : Forall plain_argument tricky /\ emit_quoted_arguments [$"a b"; $"c\d"] = ascii_of_N 34 :: $"a b" ++ ascii_of_N 34 :: $" c\d".
Proof.
  split; [|reflexivity]. repeat constructor; try discriminate; try (left; cbn; auto 10; fail); right; intros s H; discriminate.
Qed.

Theorem printed_arguments_can_be_read_back_refuted :
  (exists args args', emit_quoted_arguments args = emit_quoted_arguments args' /\ args <> args' /\ ~ In [] args /\ ~ In [] args') /\
  (exists args args', emit_quoted_arguments args = emit_quoted_arguments args' /\ args <> args' /\ length args <> length args' /\ In [] args).
Proof.
  split.
  - exists [ascii_of_N 34 :: $"a"; $"b" ++ [ascii_of_N 34]], [$"a b"]. split; [reflexivity|]. split; [discriminate|]. split; intros H; repeat destruct H as [H|H]; try discriminate; exact H.
  - exists [[]], []. split; [reflexivity|]. split; [discriminate|]. split; [discriminate|left; reflexivity].
Qed.
Print Assumptions printed_arguments_can_be_read_back_refuted.
