(** * Command lines: model of src/tool.cpp L159-176 and L354-432, and of the
    arguments inserted by [main] (L505-506). *)
From Verif Require Import Base ParserModel.

(** [llvm::StringRef::consume_front]: the rest if [p] is a prefix. *)
Fixpoint strip_prefix (p s : str) : option str :=
  match p, s with
  | [], _ => Some s
  | c :: p', d :: s' => if ascii_dec c d then strip_prefix p' s' else None
  | _ :: _, [] => None
  end.

Definition starts_with (p s : str) : bool := match strip_prefix p s with Some _ => true | None => false end.

(** [llvm::StringRef::split]: at the first occurrence; [(s, "")] if there is none. *)
Fixpoint split (sep s : str) : str * str :=
  match strip_prefix sep s with
  | Some r => ([], r)
  | None =>
      match s with
      | [] => ([], [])
      | c :: s' => let '(a, b) := split sep s' in (c :: a, b)
      end
  end.

Definition separator : str := $"--".

(** ** L377-432 [getCpp17OrLaterAdjuster] *)

(** State of the loop: result so far, [uses_later_standard] and
    [language_standard_prefix]. *)
Record scan := mkScan { sc_result : list str; sc_later : bool; sc_prefix : str }.

(** L393-420; returns the arguments not looked at. *)
Fixpoint scan_args (args : list str) (s : scan) : scan * list str :=
  match args with
  | [] => (s, [])
  | arg :: args' =>
      if str_eqb arg separator then (s, args)
      else
        match strip_prefix ($"-x") arg with
        | Some [] => match args' with [] => (s, []) | _ :: args'' => scan_args args'' s end
        | Some (_ :: _) => scan_args args' s
        | None =>
            match strip_prefix ($"-std=") arg with
            | Some value =>
                let '(first, second) := split ($"++") value in
                let later := starts_with ($"2") second in
                scan_args args' (mkScan (if later then sc_result s ++ [arg] else sc_result s) later first)
            | None => scan_args args' (mkScan (sc_result s ++ [arg]) (sc_later s) (sc_prefix s))
            end
        end
  end.

(** [None]: failing assertion (no program name). *)
Definition cpp17_or_later (arguments : list str) : option (list str) :=
  match arguments with
  | [] => None
  | program :: args =>
      let '(s, rest) := scan_args args (mkScan [program; $"-xc++"] false ($"c")) in
      Some (sc_result s ++ (if sc_later s then [] else [$"-std=" ++ sc_prefix s ++ $"++17"]) ++ rest)
  end.

(** ** Insertion before the separator *)

(** [clang::tooling::getInsertArgumentAdjuster] (position [END]) and L366-371. *)
Fixpoint insert_at_end (extra : list str) (arguments : list str) : list str :=
  match arguments with
  | [] => extra
  | arg :: args => if str_eqb arg separator then extra ++ arguments else arg :: insert_at_end extra args
  end.

(** ** L354-373 [getDefaultResourceDirAdjuster] *)

(** L359-362. *)
Definition names_resource_dir (arg : str) : bool :=
  match strip_prefix ($"-resource-dir") arg with
  | Some [] => true
  | Some (c :: _) => (code c =? 61)%N
  | None => false
  end.

(** [resource_dir]: result of [findResourceDir], empty if there is none. *)
Definition default_resource_dir (resource_dir : str) (arguments : list str) : list str :=
  if existsb names_resource_dir arguments then arguments
  else insert_at_end (match resource_dir with [] => [] | _ => [$"-resource-dir=" ++ resource_dir] end) arguments.

(** L503-506; adjusters provided by clang have been applied before. *)
Definition adjust (resource_dir : str) (arguments : list str) : option (list str) :=
  match cpp17_or_later (default_resource_dir resource_dir arguments) with
  | None => None
  | Some args => Some (insert_at_end [$"-D__GENPYBIND__"] (insert_at_end [$"-Wno-everything"] args))
  end.

(** ** L159-176 [emitQuotedArguments] *)

Definition space : ascii := ascii_of_N 32.

(** L168-174. *)
Definition quoted (arg : str) : str :=
  if existsb (fun c => if ascii_dec c space then true else false) arg then quote :: write_escaped arg ++ [quote] else arg.

Fixpoint emit_quoted_arguments (args : list str) : str :=
  match args with
  | [] => []
  | [arg] => quoted arg
  | arg :: args' => quoted arg ++ space :: emit_quoted_arguments args'
  end.
