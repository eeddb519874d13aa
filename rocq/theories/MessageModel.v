(** * Texts of diagnostics *)
From Verif Require Import Base ParserModel AnnotModel.

(** ** clang/lib/Basic/Diagnostic.cpp [FormatDiagnostic], in part *)

Inductive value := VString (s : str) | VNumber (n : nat).

(** Alternatives of [%select{a|b}]. *)
Fixpoint alternatives (s : str) (current : str) : list str :=
  match s with
  | [] => [current]
  | c :: r => if Ascii.eqb c "|" then current :: alternatives r [] else alternatives r (current ++ [c])
  end.

Definition digit_value (c : ascii) : nat := N.to_nat (code c - 48).
Definition is_modifier (c : ascii) : bool := in_range 97 122 c || Ascii.eqb c "-".

(** [None]: a placeholder without or with the wrong kind of argument, or not
    well formed.  Arguments are inserted as they are. *)
Fixpoint format_fuel (fuel : nat) (s : str) (args : list value) : option str :=
  match fuel with
  | O => None
  | S fuel' =>
      match s with
      | [] => Some []
      | c :: r =>
          if Ascii.eqb c "%" then
            match r with
            | [] => None
            | d :: r' =>
                if is_digit d then
                  match nth_error args (digit_value d), format_fuel fuel' r' args with
                  | Some (VString t), Some rest => Some (t ++ rest)
                  | _, _ => None
                  end
                else if Ascii.eqb d "%" then option_map (cons d) (format_fuel fuel' r' args)
                else
                  if str_eqb (take_while is_modifier r) ($"select") then
                    match drop_while is_modifier r with
                    | o :: body =>
                        if Ascii.eqb o "{" then
                          match drop_while (fun x => negb (Ascii.eqb x "}")) body with
                          | _ :: n :: rest =>
                              match nth_error args (digit_value n), format_fuel fuel' rest args with
                              | Some (VNumber k), Some t =>
                                  match nth_error (alternatives (take_while (fun x => negb (Ascii.eqb x "}")) body) []) k with
                                  | Some a => Some (a ++ t)
                                  | None => None
                                  end
                              | _, _ => None
                              end
                          | _ => None
                          end
                        else None
                    | [] => None
                    end
                  else None
            end
          else option_map (cons c) (format_fuel fuel' r args)
      end
  end.
Definition format (s : string) (args : list value) : option str := format_fuel (S (String.length s)) ($s) args.

(** ** diagnostics.cpp L30-106, parser.cpp L234-263 *)

Inductive problem :=
| PAnnotation (d : decl) (x : diag)
| PAlreadyExposed (name : str)
| PPrevious (name : str)                          (* note *)
| PMismatch
| PCycle
| PQualifiers
| PNoGetter (name : str)
| PAlreadyDefined (name : str) (setter : bool)
| PTrailing
| PUnreachable (name : str).

Definition message (p : problem) : option str :=
  match p with
  | PAnnotation d x =>
      match x with
      (* parser.cpp L237-252, L262 *)
      | DParser e =>
          format (match pe_kind e with
                  | InvalidToken => "Invalid token in genpybind annotation: %0"
                  | MissingClosingParen => "Invalid token in genpybind annotation while looking for ')': %0"
                  | InvalidAnnotation => "Invalid genpybind annotation: %0"
                  end) [VString (pe_token e)]
      (* annotated_decl.cpp L118-119 *)
      | DWrongArgumentType k v => format "Wrong type of argument for '%0' annotation: %1" [VString (kind_spelling k); VString (print_lit v)]
      (* L124-126 *)
      | DWrongNumberOfArguments k => format "Wrong number of arguments for '%0' annotation" [VString (kind_spelling k)]
      (* L131-133, L799-801 *)
      | DInvalidForDeclKind what a => format "Invalid annotation for %0: %1" [VString what; VString (print_annotation a)]
      (* L290-292, L304-306, L725-727 *)
      | DInvalidSpelling k text => format "Invalid spelling in '%0' annotation: '%1'" [VString (kind_spelling k); VString text]
      (* L609-611 *)
      | DInvalidArgumentSpecifier k arg => format "Invalid argument specifier in '%0' annotation: '%1'" [VString (kind_spelling k); VString arg]
      (* L717-719 *)
      | DIncompatibleSignature k => format "Signature of %0 is incompatible with '%1' annotation" [VString (friendly_name d); VString (kind_spelling k)]
      (* L870-872 *)
      | DOnlyGlobalScope k => format "'%0' can only be used in global scope" [VString (kind_spelling k)]
      (* L512-514 *)
      | DConflicting => format "'%0' and '%1' cannot be used at the same time" [VString (kind_spelling Encourage); VString (kind_spelling ExposeHere)]
      (* L499 *)
      | DUnsupportedAliasTarget => format "Annotated alias has unsupported target kind" []
      (* L445-448, L483-486 *)
      | DUnknownBase k => format "Unknown base type in '%0' annotation" [VString (kind_spelling k)]
      (* L890-891 *)
      | DInvalidAssumption => format "Invalid assumption in genpybind (please report this): %0" [VString ($"annotations are only parsed during initial pass")]
      end
  (* decl_context_graph_builder.cpp L36-40 *)
  | PAlreadyExposed name => format "'%0' has already been exposed elsewhere" [VString name]
  | PPrevious name => format "Previously exposed here" [VString name]
  (* lookup_context_collector.cpp L33-34 *)
  | PMismatch => format "Annotations need to match those of the first declaration" []
  (* decl_context_graph_processing.cpp L163, expose.cpp L657-658 *)
  | PCycle => format "'expose_here' annotations form a cycle" []
  (* lookup_context_collector.cpp L20-21 *)
  | PQualifiers => format "Ignoring qualifiers on alias" []
  (* expose.cpp L1089-1091 *)
  | PNoGetter name => format "No getter for the '%0' property" [VString name]
  (* expose.cpp L1340-1342, L1350-1352 *)
  | PAlreadyDefined name setter => format "%select{getter|setter}1 already defined for '%0'" [VString name; VNumber (if setter then 1 else 0)]
  (* expose.cpp L347-348 *)
  | PTrailing => format "cannot be followed by other parameters" []
  (* decl_context_graph_processing.cpp L374-375 *)
  | PUnreachable name => format "Declaration context '%0' contains 'visible' declarations but is not exposed" [VString name]
  end.
