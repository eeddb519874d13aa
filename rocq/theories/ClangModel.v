(** * Model of the search for clang in tool.cpp (L322-352), with the macro in it

    The preprocessor as in MacroModel.v, here with a function-like macro of one
    parameter.  Searching programs, resolving paths and clang's rule for the
    place of the resource directory are inputs. *)
From Verif Require Import Base ParserModel StringModel StringSpec ModuleModel MacroModel CommandModel.

(** Replacement lists of macros with one parameter. *)
Inductive part := Text (t : pptok) | Param | Stringized.

(** Arguments are only expanded if they are not operands of #; the result is
    rescanned. *)
Definition invoke (defs : macros) (body : list part) (argument : list item) : option (list item) :=
  match expand_all defs argument with
  | None => None
  | Some expanded =>
      expand_all defs (flat_map (fun p => match p with Text t => [(true, t)] | Param => expanded | Stringized => [(true, PLit (stringize argument))] end) body)
  end.

(** Translation phases 5 and 6: adjacent string literals are joined. *)
Fixpoint joined (l : list item) : option str :=
  match l with
  | [] => Some []
  | (_, PLit s) :: r =>
      match read_cpp_literal s, joined r with
      | Some (bytes, []), Some rest => Some (bytes ++ rest)
      | _, _ => None
      end
  | _ => None
  end.

(** L323 THE_VERSION_SPECIFIC_PATH(version). *)
Definition version_specific_path : list part := [Text (PLit (quote :: $"clang-" ++ [quote])); Stringized].

(** L324-325: names in the list that is iterated over; [None]: not valid. *)
Definition names (defs : macros) : option (list str) :=
  match invoke defs version_specific_path [(false, PIdent $"CLANG_VERSION_MAJOR")] with
  | None => None
  | Some l => option_map (fun n => [n; $"clang"]) (joined l)
  end.

Section Installation.
(** llvm::sys::findProgramByName, llvm::sys::fs::real_path, Driver::GetResourcesPath. *)
Context (program : str -> option str) (real_path : str -> option str) (resources : str -> str).

(** L324-336 [findClangExecutable]. *)
Fixpoint find_executable (names : list str) : str :=
  match names with
  | [] => []
  | n :: r =>
      match program n with
      | Some path => match real_path path with Some resolved => resolved | None => path end
      | None => find_executable r
      end
  end.

(** L338-352 [findResourceDir]. *)
Definition find_resource_dir (names : list str) : str :=
  match find_executable names with [] => [] | path => resources path end.

(** L354-374: arguments with the resource directory. *)
Definition with_resource_dir (defs : macros) (arguments : list str) : option (list str) :=
  option_map (fun l => default_resource_dir (find_resource_dir l) arguments) (names defs).
End Installation.
