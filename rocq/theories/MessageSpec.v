(** * Specification of the texts of diagnostics *)
From Verif Require Import Base ParserModel StringSpec AnnotModel AnnotSpec MessageModel.

Definition in_quotes (s : str) : str := $"'" ++ s ++ $"'".

(** What a message has to show: the annotation in question, and the texts at fault. *)
Definition shown (p : problem) : list str :=
  match p with
  | PAnnotation d x =>
      match x with
      | DParser e => [pe_token e]
      | DWrongArgumentType k v => [in_quotes (kind_spelling k); print_lit v]
      | DWrongNumberOfArguments k | DOnlyGlobalScope k | DUnknownBase k => [in_quotes (kind_spelling k)]
      | DIncompatibleSignature k => [in_quotes (kind_spelling k); friendly_name d]
      | DInvalidForDeclKind what a => [what; print_annotation a]
      | DInvalidSpelling k t | DInvalidArgumentSpecifier k t => [in_quotes (kind_spelling k); in_quotes t]
      | DConflicting => [$"'encourage'"; $"'expose_here'"]
      | DUnsupportedAliasTarget | DInvalidAssumption => []
      end
  | PAlreadyExposed name | PNoGetter name | PUnreachable name => [in_quotes name]
  | PAlreadyDefined name setter => [if setter then $"setter" else $"getter"; in_quotes name]
  | PCycle => [$"'expose_here'"]
  | _ => []
  end.

(** Kinds of problems that readers have to tell apart. *)
Definition sort (p : problem) : nat :=
  match p with
  | PAnnotation _ x =>
      match x with
      | DParser (mkError InvalidToken _) => 0 | DParser (mkError MissingClosingParen _) => 1 | DParser (mkError InvalidAnnotation _) => 2
      | DWrongArgumentType _ _ => 3 | DWrongNumberOfArguments _ => 4 | DInvalidForDeclKind _ _ => 5 | DInvalidSpelling _ _ => 6 | DInvalidArgumentSpecifier _ _ => 7
      | DIncompatibleSignature _ => 8 | DOnlyGlobalScope _ => 9 | DConflicting => 10 | DUnsupportedAliasTarget => 11 | DUnknownBase _ => 12 | DInvalidAssumption => 13
      end
  | PAlreadyExposed _ => 14 | PPrevious _ => 15 | PMismatch => 16 | PCycle => 17 | PQualifiers => 18 | PNoGetter _ => 19 | PAlreadyDefined _ _ => 20 | PTrailing => 21 | PUnreachable _ => 22
  end.

(** Kinds of declarations are named by words. *)
Definition wording (p : problem) : Prop :=
  match p with PAnnotation _ (DInvalidForDeclKind what _) => ~ In ":"%char what | _ => True end.

(** ** What can be wrong with an annotation *)

(** Numbers of arguments, README.md. *)
Definition number_fits (k : akind) (n : nat) : Prop :=
  match k with
  | Hidden | Manual | Postamble | Encourage | ExposeHere => n = 0
  | Visible | Module | Arithmetic | ExportValues | DynamicAttr | ImplicitConversion | Readonly => n <= 1
  | ExposeAs | HolderType | ReturnValuePolicy => n = 1
  | KeepAlive => n = 2
  | OnlyExposeIn | GetterFor | SetterFor | Noconvert | Required => n <> 0
  | HideBase | InlineBase => True
  end.

(** Types of arguments. *)
Definition type_fits (k : akind) (v : lit) : Prop :=
  match v with
  | LBool _ => In k [Visible; Arithmetic; ExportValues; DynamicAttr; ImplicitConversion; Readonly]
  | LDefault => In k [Visible; ExposeAs]
  | LString _ => In k [ExposeAs; Module; OnlyExposeIn; GetterFor; SetterFor; HideBase; HolderType; InlineBase; KeepAlive; Noconvert; Required; ReturnValuePolicy]
  | _ => False
  end.

(** Declarations that can have such an annotation. *)
Definition kind_fits (d : decl) (k : akind) : Prop :=
  match k with
  | Hidden | Visible | ExposeAs => True
  | Module | OnlyExposeIn => d_kind d = KNamespace
  | Arithmetic | ExportValues => d_kind d = KEnum
  | DynamicAttr | HideBase | InlineBase | HolderType => d_kind d = KRecord
  | ImplicitConversion => d_kind d = KConstructor
  | GetterFor | SetterFor => is_ordinary_method d
  | KeepAlive | Noconvert | Required | ReturnValuePolicy => is_function d
  | Readonly => d_kind d = KField \/ d_kind d = KVar
  | Manual | Postamble => d_kind d = KVar /\ d_lambda d <> None
  | Encourage | ExposeHere => d_kind d = KTypedef
  end.

Definition signature_fits (d : decl) (k : akind) : Prop :=
  match k with
  | GetterFor => d_min_required d = 0 /\ d_returns_void d = false
  | SetterFor => d_params d <> [] /\ d_min_required d <= 1
  | _ => True
  end.

(** Without arguments all bases are meant. *)
Definition no_base_named (bases : list base) (args : list lit) : Prop :=
  (args = [] -> bases = []) /\ forall b n, In b bases -> In (LString n) args -> ~ In n (b_names b).

Inductive fault (d : decl) : annotation -> diag -> Prop :=
| fa_kind k args : ~ kind_fits d k -> fault d (mkAnnotation k args) (DInvalidForDeclKind (friendly_name d) (mkAnnotation k args))
| fa_converting args : d_kind d = KConstructor -> ~ (length (d_params d) = 1 /\ d_converting d = true) ->
    fault d (mkAnnotation ImplicitConversion args) (DInvalidForDeclKind $"non-converting constructor" (mkAnnotation ImplicitConversion args))
| fa_number k args : kind_fits d k -> ~ number_fits k (length args) -> fault d (mkAnnotation k args) (DWrongNumberOfArguments k)
| fa_type k args v : kind_fits d k -> In v args -> ~ type_fits k v -> fault d (mkAnnotation k args) (DWrongArgumentType k v)
| fa_spelling k args t : kind_fits d k -> In k [ExposeAs; Module; GetterFor; SetterFor] -> In (LString t) args -> ~ identifier t ->
    fault d (mkAnnotation k args) (DInvalidSpelling k t)
| fa_parameter k args t : kind_fits d k -> In k [Noconvert; Required] -> In (LString t) args -> ~ In t (d_params d) ->
    fault d (mkAnnotation k args) (DInvalidArgumentSpecifier k t)
| fa_slot args t : kind_fits d KeepAlive -> In (LString t) args -> ~ call_slot d t ->
    fault d (mkAnnotation KeepAlive args) (DInvalidArgumentSpecifier KeepAlive t)
| fa_signature k args : kind_fits d k -> ~ signature_fits d k -> fault d (mkAnnotation k args) (DIncompatibleSignature k)
| fa_scope args : kind_fits d Postamble -> d_global d = false -> fault d (mkAnnotation Postamble args) (DOnlyGlobalScope Postamble)
| fa_hide_base args : kind_fits d HideBase -> no_base_named (d_bases d) args -> fault d (mkAnnotation HideBase args) (DUnknownBase HideBase)
| fa_inline_base args : kind_fits d InlineBase -> no_base_named (d_all_bases d) args -> fault d (mkAnnotation InlineBase args) (DUnknownBase InlineBase).

(** Annotations of a declaration, up to the first error of each attribute. *)
Definition written (d : decl) (an : annotation) : Prop := In an (fst (parse_attrs (d_attrs d) [])).

(** Diagnostics that are justified by what is written on a declaration. *)
Inductive justified (d : decl) : diag -> Prop :=
| ju_fault an x : written d an -> fault d an x -> justified d x
| ju_parser rest acc acc' e : In (lozenge ++ rest) (d_attrs d) -> parse_annotations_into rest acc = (RErr e, acc') -> justified d (DParser e)
| ju_conflict : d_kind d = KTypedef -> written d (mkAnnotation Encourage []) -> written d (mkAnnotation ExposeHere []) -> justified d DConflicting
| ju_target : targetless_alias d -> justified d DUnsupportedAliasTarget.

Definition contains (m s : str) : Prop := exists before after, m = before ++ s ++ after.
