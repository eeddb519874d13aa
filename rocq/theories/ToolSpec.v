(** * Specification of the command line tool *)
From Verif Require Import Base AnnotModel CollectModel GraphModel EmitModel ModuleModel ToolModel.

(** ** Pragmas *)

(** [#pragma genpybind include <h>] with nothing else on the line. *)
Definition include_pragma (p : pragma) (h : str) : Prop := pg_tokens p = [Ident ($"include"); Header h] /\ h <> [].

(** The line ends properly (or there are not exactly three tokens on it). *)
Definition terminated (p : pragma) : Prop := pg_cut p = false \/ length (pg_tokens p) <> 3.

(** ** Paths *)

(** The same file whatever the working directory is. *)
Definition rooted (p : str) : Prop := exists r, p = $"/" ++ r.

(** [name] is the last component of [path] and has the given stem. *)
Definition has_stem (path base : str) : Prop :=
  exists name, (path = name \/ exists dir, path = dir ++ $"/" ++ name) /\ ~ In "/"%char name /\
    ((name = base /\ ~ In "."%char name) \/ exists ext, name = base ++ $"." ++ ext /\ ~ In "."%char ext).

(** ** Lines of a text *)

Inductive lines : str -> list str -> Prop :=
| lines_nil : lines [] []
| lines_cons l t ls : ~ In (ascii_of_N 10) l -> lines t ls -> lines (l ++ ascii_of_N 10 :: t) (l :: ls).

(** ** Outcomes *)

(** Names of the module while processing several commands. *)
Inductive names : str -> list job -> list str -> Prop :=
| names_nil m : names m [] []
| names_cons m j js n ns : (m <> [] -> n = m) -> (m = [] -> n = default_name [] (j_main j)) -> names n js ns -> names m (j :: js) (n :: ns).

(** Generation results in the given parts. *)
Definition generates (outputs : list str) (name : str) (j : job) (parts : list (list item)) (reports : list ereport) : Prop :=
  exists b st, generate (j_unit j) (j_facts j) (j_found j) (j_implicit j) (j_iteration j) (length outputs) name = Some (RGraph b (EWritten parts reports st)).

(** No error of any kind. *)
Record succeeds (env : environment) (outputs : list str) (name : str) (j : job) (parts : list (list item)) : Prop := {
  su_compiles : j_errors j = false;
  su_pragmas : snd (handle_pragmas (j_pragmas j) []) = false;
  su_opens : forall p, In p outputs -> can_open env p = true;
  su_renames : forall p, In p outputs -> p <> $"-" -> can_rename env p = true;
  su_generates : exists reports, generates outputs name j parts reports /\ forall r, In r reports -> is_error_ereport r = false }.

(** Contents of the output files: one part each. *)
Definition holds (fs' : files) (text : str) (outputs : list str) (parts : list (list item)) : Prop :=
  length parts = length outputs /\
  forall i p part, nth_error outputs i = Some p -> nth_error parts i = Some part -> p <> $"-" -> fs' p = Some (New text part).

(** What is printed: the parts for [-], in order. *)
Fixpoint printed (text : str) (outputs : list str) (parts : list (list item)) : list contents :=
  match outputs, parts with
  | p :: outputs', part :: parts' => if str_eqb p ($"-") then New text part :: printed text outputs' parts' else printed text outputs' parts'
  | _, _ => []
  end.

(** Standard output by default. *)
Definition effective (outputs : list str) : list str := match outputs with [] => [$"-"] | _ => outputs end.

(** Every output is [-] or is recognised as an absolute path. *)
Definition acceptable (outputs : list str) : Prop := forall p, In p outputs -> p = $"-" \/ is_absolute p = true.
