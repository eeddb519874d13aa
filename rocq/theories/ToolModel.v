(** * The command line tool: model of src/pragmas.cpp and of src/tool.cpp
    L100-114, L193-306 and L440-518. *)
From Verif Require Import Base ParserModel StringModel AnnotModel CollectModel GraphModel OrderModel InlineModel EmitModel ModuleModel CommandModel.

(** ** Pragmas: pragmas.cpp L26-96 *)

(** Tokens after the name of the handler, up to the end of the line.  Raw
    identifiers include keywords.  [Header]: header names and string literals,
    with their spelling. *)
Inductive token := Ident (s : str) | Header (s : str) | OtherToken.

(** [LexFromRawLexer]: the next token ([None]: end of directive) and whether
    the end of the buffer has been reached.  [cut]: the last token is directly
    followed by the end of the buffer. *)
Definition lex (cut : bool) (tokens : list token) : option token * list token * bool :=
  match tokens with
  | [] => (None, [], cut)
  | [t] => (Some t, [], cut)
  | t :: tokens' => (Some t, tokens', false)
  end.

(** [accepted]: [HandleDirective] (L40) reports no error.  The result is the
    list of includes and whether an error has been reported. *)
Definition handle_pragma (accepted cut : bool) (tokens : list token) (includes : list str) : list str * bool :=
  if negb accepted then (includes, true)
  else
    match tokens with
    | [] => (includes, true)                                (* L62: possibly at the end of the buffer *)
    | _ =>
        match lex cut tokens with
        | (Some (Ident s), tokens1, false) =>
            if str_eqb s ($"include") then
              match lex cut tokens1 with
              | (Some (Header (c :: h)), tokens2, _) =>
                  let includes' := includes ++ [c :: h] in
                  match lex cut tokens2 with
                  | (_, _, true) => (includes', false)                       (* L89-90 *)
                  | (None, _, false) => (includes', false)
                  | (Some _, _, false) => (includes', true)
                  end
              | _ => (includes, true)
              end
            else (includes, true)
        | _ => (includes, true)
        end
    end.

Record pragma := mkPragma { pg_accepted : bool; pg_cut : bool; pg_tokens : list token }.

(** All pragmas of a translation unit: includes recorded and whether an error
    has been reported. *)
Fixpoint handle_pragmas (ps : list pragma) (includes : list str) : list str * bool :=
  match ps with
  | [] => (includes, false)
  | p :: ps' =>
      let '(includes', e) := handle_pragma (pg_accepted p) (pg_cut p) (pg_tokens p) includes in
      let '(includes'', e') := handle_pragmas ps' includes' in
      (includes'', e || e')
  end.

(** ** Options *)

Definition slash : ascii := ascii_of_N 47.
Definition is_slash (c : ascii) : bool := (code c =? 47)%N.

(** [llvm::sys::path::is_absolute] (POSIX): there is a root directory; [//host]
    is a root name, not a root directory. *)
Definition is_absolute (p : str) : bool :=
  match p with
  | a :: b :: c :: p' =>
      if is_slash a then if is_slash b && negb (is_slash c) then existsb is_slash p' else true else false
  | a :: _ => is_slash a
  | [] => false
  end.

(** tool.cpp L100-114 [OutputFilenameParser::parse]; [None]: error. *)
Definition parse_output (arg : str) : option str := if str_eqb arg ($"-") || is_absolute arg then Some arg else None.

Record options := mkOptions { op_outputs : list str; op_keep : bool; op_xfail : bool; op_module : str }.

(** L459-471: options as given on the command line. *)
Definition parse_options (outputs : list str) (keep xfail : bool) (module_name : str) : option options :=
  match map_opt parse_output outputs with
  | None => None
  | Some l => Some (mkOptions (match l with [] => [$"-"] | _ => l end) keep xfail module_name)
  end.

(** ** Default module name: L205-209 *)

(** [llvm::sys::path::filename] for a path that does not end in a separator. *)
Fixpoint filename (p : str) : str :=
  match p with
  | [] => []
  | c :: p' => if existsb is_slash p' then filename p' else if is_slash c then p' else p
  end.

(** The part before the last dot, or everything if there is none. *)
Fixpoint before_last_dot (p : str) : option str :=
  match p with
  | [] => None
  | c :: p' =>
      match before_last_dot p' with
      | Some q => Some (c :: q)
      | None => if (code c =? 46)%N then Some [] else None
      end
  end.

(** [llvm::sys::path::stem]. *)
Definition stem (p : str) : str :=
  let name := filename p in
  if str_eqb name ($".") || str_eqb name ($"..") then name
  else match before_last_dot name with Some q => q | None => name end.

Definition default_name (module_name main_file : str) : str :=
  match module_name with [] => make_valid_identifier (stem main_file) | _ => module_name end.

(** ** Generated text: L262-274 *)

Definition newline : ascii := ascii_of_N 10.

Definition preamble (main_file : str) (includes : list str) : str :=
  $"#include " ++ quote :: main_file ++ quote :: newline ::
  $"#include <genpybind/binding-helpers.h>" ++ newline ::
  $"#include <pybind11/pybind11.h>" ++ newline ::
  flat_map (fun include => $"#include " ++ include ++ [newline]) includes ++ [newline].

(** Files: what was there before, or generated text followed by the items
    emitted ([ModuleModel.item]). *)
Inductive contents := Old (bytes : str) | New (text : str) (items : list item).

Definition files := str -> option contents.
Definition set_file (p : str) (c : option contents) (fs : files) : files := fun q => if str_eqb p q then c else fs q.

(** ** One compile command *)

(** What the compiler provides: errors reported before
    [HandleTranslationUnit] is called, pragmas, and the inputs of
    [ModuleModel.generate]. *)
Record job := mkJob {
  j_main : str; j_errors : bool; j_pragmas : list pragma;
  j_unit : unit; j_facts : facts; j_found : nat -> list nat; j_implicit : nat -> bool; j_iteration : list nat -> list nat }.

(** Environment: whether [createOutputFile] succeeds and whether the
    temporary file can be renamed. *)
Record environment := mkEnvironment { can_open : str -> bool; can_rename : str -> bool }.

(** Opened files with the text written to them, and whether an error has been
    reported. *)
Definition written_files := (list (str * contents) * bool)%type.

(** The outputs before the first that cannot be opened; and whether there is one. *)
Fixpoint open_outputs (env : environment) (outputs : list str) : list str * bool :=
  match outputs with
  | [] => ([], false)
  | p :: outputs' =>
      if can_open env p then let '(l, e) := open_outputs env outputs' in (p :: l, e)
      else ([], true)
  end.

(** L193-282 [HandleTranslationUnit].  [None]: failing assertion or undefined
    behaviour. *)
Definition handle_unit (env : environment) (outputs : list str) (module_name : str) (includes : list str) (j : job) : option written_files :=
  match process (j_unit j) (j_found j) (j_implicit j) module_name with
  | Done (Pruned g _ vis _ b) =>
      match open_outputs env outputs with
      | (l, true) => Some (map (fun p => (p, New [] [])) l, true)
      | (l, false) =>
          let text := preamble (j_main j) includes in
          match emit_module (j_unit j) (j_facts j) g vis (bs_annotations b) (j_iteration j (g_nodes g)) (length l) module_name with
          | None => None
          | Some (ECycle _) => Some (map (fun p => (p, New text [])) l, true)
          | Some (EWritten streams reports _) =>
              Some (combine l (map (New text) streams), errors_occurred (bs_reports b) || existsb is_error_ereport reports)
          end
      end
  | Done _ => Some ([], true)
  | _ => None
  end.

(** [CompilerInstance::clearOutputFiles]: removal of the files, or renaming of
    the temporary ones (an error if it fails).  Text for [-] has been written
    to standard output already. *)
Fixpoint clear_outputs (env : environment) (erase : bool) (l : list (str * contents)) (fs : files) (out : list contents)
    : files * list contents * bool :=
  match l with
  | [] => (fs, out, false)
  | (p, c) :: l' =>
      if str_eqb p ($"-") then clear_outputs env erase l' fs (out ++ [c])
      else if erase then clear_outputs env erase l' (set_file p None fs) out
      else if can_rename env p then clear_outputs env erase l' (set_file p (Some c) fs) out
      else let '(fs', out', _) := clear_outputs env erase l' fs out in (fs', out', true)
  end.

Record world := mkWorld { wd_files : files; wd_stdout : list contents; wd_module : str; wd_failed : bool }.

(** L284-306 [GenpybindAction], run on one command. *)
Definition run_job (env : environment) (o : options) (w : world) (j : job) : option world :=
  let name := default_name (wd_module w) (j_main j) in
  let '(includes, pragma_errors) := handle_pragmas (j_pragmas j) [] in
  match handle_unit env (op_outputs o) name includes j with
  | None => None
  | Some (l, e) =>
      let errors := j_errors j || pragma_errors || e in
      let '(fs, out, e') := clear_outputs env (negb (op_keep o) && errors) l (wd_files w) (wd_stdout w) in
      Some (mkWorld fs out name (wd_failed w || errors || e'))
  end.

(** [ClangTool::run]; [jobs]: the compile commands of the only source file. *)
Definition run_jobs (env : environment) (o : options) (jobs : list job) (w : world) : option (world * N) :=
  match fold_opt (run_job env o) jobs w with
  | None => None
  | Some w' => Some (w', if wd_failed w' then 1 else match jobs with [] => 2 | _ => 0 end)%N
  end.

(** L440-518 [main]: files, standard output and exit status. *)
Definition main (env : environment) (outputs : list str) (keep xfail : bool) (module_name : str) (jobs : list job) (fs : files)
    : option (files * list contents * N) :=
  match parse_options outputs keep xfail module_name with
  | None => Some (fs, [], 1%N)
  | Some o =>
      match run_jobs env o jobs (mkWorld fs [] (op_module o) false) with
      | None => None
      | Some (w, code) => Some (wd_files w, wd_stdout w, if op_xfail o then (if (code =? 0)%N then 1 else 0)%N else code)
      end
  end.
