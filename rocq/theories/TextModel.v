(** * Text of the generated code: model of what src/expose.cpp writes to the
    output streams (L260-418, L722-838, L877-1106, L1175-1258, L1271-1375) for the items and
    statements of ModuleModel.v and EmitModel.v. *)
From Verif Require Import Base ParserModel StringModel AnnotModel CollectModel GraphModel InlineModel EmitModel ModuleModel.

(** Texts provided by clang. *)
Record texts := mkTexts {
  tx_type : type -> str;             (* [TypeName::getFullyQualifiedName] of a type *)
  tx_original : nat -> list str;     (* the same for the original types of all parameters of a function *)
  tx_name : nat -> str;              (* [printQualifiedName] *)
  tx_args : nat -> option str;       (* [printTemplateArgumentList], for specialisations of function templates *)
  tx_simple : nat -> str;            (* [getName] *)
  tx_brief : nat -> str;             (* [RawComment::getBriefText], empty without comment *)
  tx_primary : nat -> option nat;    (* [getPrimaryTemplate] *)
  tx_lambda : nat -> option str * str  (* manual bindings: name of the parameter, if it is used, and body *)
}.

(** [raw_ostream::operator<<(unsigned)]. *)
Definition number (n : nat) : str := decimal (N.of_nat n).

(** clang/Basic/OperatorKinds.def: spelling. *)
Definition operator_spelling (k : opkind) : str :=
  match k with
  | ONew => $"new" | ODelete => $"delete" | OArrayNew => $"new[]" | OArrayDelete => $"delete[]"
  | OPlus => $"+" | OMinus => $"-" | OStar => $"*" | OSlash => $"/" | OPercent => $"%" | OCaret => $"^" | OAmp => $"&" | OPipe => $"|"
  | OTilde => $"~" | OExclaim => $"!" | OEqual => $"=" | OLess => $"<" | OGreater => $">"
  | OPlusEqual => $"+=" | OMinusEqual => $"-=" | OStarEqual => $"*=" | OSlashEqual => $"/=" | OPercentEqual => $"%="
  | OCaretEqual => $"^=" | OAmpEqual => $"&=" | OPipeEqual => $"|="
  | OLessLess => $"<<" | OGreaterGreater => $">>" | OLessLessEqual => $"<<=" | OGreaterGreaterEqual => $">>="
  | OEqualEqual => $"==" | OExclaimEqual => $"!=" | OLessEqual => $"<=" | OGreaterEqual => $">=" | OSpaceship => $"<=>"
  | OAmpAmp => $"&&" | OPipePipe => $"||" | OPlusPlus => $"++" | OMinusMinus => $"--" | OComma => $"," | OArrowStar => $"->*" | OArrow => $"->"
  | OCall => $"()" | OSubscript => $"[]" | OConditional => $"?" | OCoawait => $"co_await"
  end.

Definition end_line : str := [ascii_of_N 10].

(** The loops with [comma]. *)
Fixpoint commas (l : list str) : str :=
  match l with [] => [] | [s] => s | s :: l' => s ++ $", " ++ commas l' end.

Section Text.
Context (tx : texts) (w : facts).

(** L631-637 [getFullyQualifiedName]. *)
Definition tag (i : nat) : str := w_qualified w i.

(** L283-290 [getDocstring]. *)
Definition docstring (f : nat) : str :=
  match tx_brief tx f with
  | [] => match tx_primary tx f with Some p => tx_brief tx p | None => [] end
  | s => s
  end.

(** L351-362 [emitParameters]. *)
Definition arg_text (a : arg) : str :=
  $", ::pybind11::arg(" ++ emit_string_literal (ar_name a) ++ $")" ++
  (if ar_noconvert a then $".noconvert()" else []) ++ (if ar_required a then $".none(false)" else []) ++
  match ar_default a with Some e => $" = " ++ e | None => [] end.

(** L367-375 [emitPolicies]. *)
Definition policies_text (a : function_attrs) : str :=
  (match fn_policy a with [] => [] | p => $", pybind11::return_value_policy::" ++ p end) ++
  flat_map (fun k => $", pybind11::keep_alive<" ++ number (fst k) ++ $", " ++ number (snd k) ++ $">()") (fn_keep_alive a).

(** L377-393 [emitFunctionPointer]. *)
Definition pointer_text (f : nat) : str :=
  $"::pybind11::overload_cast<" ++ commas (tx_original tx f) ++ $">(&::" ++ tx_name tx f ++
  match tx_args tx f with Some l => l | None => [] end ++
  (if fi_const (x_fn (w_extra w) f) then $", ::pybind11::const_" else []) ++ $")".

(** L395-418 [emitManualBindings]; the body ends with a line break. *)
Definition manual_text (l : nat) : str :=
  match tx_lambda tx l with
  | (Some p, body) => $"[](auto &" ++ p ++ $") " ++ body ++ $"(context);" ++ end_line
  | (None, body) => body
  end.

(** L1188-1226 [emitOperatorDefinition]. *)
Definition name_text (n : name) : str := match n with Lhs => $"lhs" | Rhs => $"rhs" end.
Fixpoint lambda_parameters (names : list name) (ts : list type) : list str :=
  match names, ts with n :: names', t :: ts' => (tx_type tx t ++ $" " ++ name_text n) :: lambda_parameters names' ts' | _, _ => [] end.
Definition lambda_text (l : lambda) : str :=
  $"[](" ++ commas (lambda_parameters [Lhs; Rhs] (la_types l)) ++ $") -> " ++ tx_type tx (la_result l) ++ $" { return " ++
  match la_operands l with
  | [n] => operator_spelling (la_operator l) ++ name_text n
  | n :: m :: _ => name_text n ++ $" " ++ operator_spelling (la_operator l) ++ $" " ++ name_text m
  | [] => []
  end ++ $"; }".

(** L275-281, L1007-1010, L1037-1040, L1067-1070: docstrings of enumerations,
    enumerators and classes. *)
Definition brief_text (i : nat) : str := match tx_brief tx i with [] => [] | s => $", " ++ emit_string_literal s end.

(** Statements within the definition of a function with parameter [p]. *)
Definition stmt_text (p : parameter) (s : stmt) : str :=
  match s with
  | SAlias sp target =>                                                     (* L920-923 *)
      $"context.attr(" ++ emit_string_literal sp ++ $") = ::genpybind::getObjectForType<" ++ tag target ++ $">();" ++ end_line
  | SVariable sp i =>                                                       (* L937-941 *)
      $"context.attr(" ++ emit_string_literal sp ++ $") = ::" ++ tx_name tx i ++ $";" ++ end_line
  | SManual l => manual_text l
  | SFunction static sp f args a =>                                         (* L959-969 *)
      (if static then $"context.def_static(" else $"context.def(") ++ emit_string_literal sp ++ $", " ++ pointer_text f ++ $", " ++
      emit_string_literal (docstring f) ++ flat_map arg_text args ++ policies_text a ++ $");" ++ end_line
  | SConvertible from r =>                                                  (* L1271-1283 *)
      $"::pybind11::implicitly_convertible<" ++ match from with Some t => tx_type tx t | None => [] end ++ $", " ++ tag r ++ $">();" ++ end_line
  | SInit f _ args a =>                                                     (* L1285-1292 *)
      $"context.def(::pybind11::init<" ++ commas (tx_original tx f) ++ $">(), " ++ emit_string_literal (docstring f) ++
      flat_map arg_text args ++ policies_text a ++ $");" ++ end_line
  | SOperator sp f l =>                                                     (* L1175-1185 *)
      $"context.def(" ++ emit_string_literal sp ++ $", " ++ lambda_text l ++ $", " ++ emit_string_literal (docstring f) ++
      $", ::pybind11::is_operator());" ++ end_line
  | SPrint sp r =>                                                          (* L1317-1320 *)
      $"context.def(" ++ emit_string_literal sp ++ $", ::genpybind::string_from_lshift<" ++ tag r ++ $">);" ++ end_line
  | SProperty sp g s =>                                                     (* L1094-1104 *)
      (match s with Some _ => $"context.def_property(" | None => $"context.def_property_readonly(" end) ++ emit_string_literal sp ++ $", " ++
      pointer_text g ++ match s with Some f => $", " ++ pointer_text f | None => [] end ++ $");" ++ end_line
  | SMember static readonly sp i =>                                         (* L1368-1373 *)
      (if readonly then $"context.def_readonly" else $"context.def_readwrite") ++ (if static then $"_static(" else $"(") ++
      emit_string_literal sp ++ $", &::" ++ tx_name tx i ++ $");" ++ end_line
  | SValue sp i =>                                                          (* L1033-1041 *)
      $"context.value(" ++ emit_string_literal sp ++ $", " ++ match p with PEnum e => tag e | _ => [] end ++ $"::" ++ tx_simple tx i ++
      brief_text i ++ $");" ++ end_line
  | SExportValues => $"context.export_values();" ++ end_line                (* L1022 *)
  | SUnused => $"(void)context;" ++ end_line                                (* L974 *)
  end.

(** L1026-1028, L1228-1258 [emitType]. *)
Definition enum_text (i : nat) : str := $"::pybind11::enum_<" ++ tag i ++ $">".
Definition class_text (t : pyclass) : str :=
  $"::pybind11::class_<" ++ tag (ct_record t) ++ flat_map (fun b => $", " ++ tag b) (ct_bases t) ++
  (match ct_holder t with [] => [] | h => $", " ++ h end) ++ $">".

(** L877-879, L997-1000, L1056-1059 [emitParameter]. *)
Definition parameter_text (p : parameter) : str :=
  match p with
  | PModule => $"::pybind11::module& context"
  | PEnum i => enum_text i ++ $"& context"
  | PClass t => class_text t ++ $"& context"
  end.

(** L881-884, L981-991, L1002-1016, L1061-1076 [emitIntroducer]. *)
Definition introducer_text (n : introducer) : str :=
  match n with
  | NAlias parent => parent
  | NSubmodule parent sp => parent ++ $".def_submodule(" ++ emit_string_literal sp ++ $")"
  | NEnum i parent sp arithmetic =>
      enum_text i ++ $"(" ++ parent ++ $", " ++ emit_string_literal sp ++ brief_text i ++
      (if arithmetic then $", ::pybind11::arithmetic()" else []) ++ $")"
  | NClass t parent sp dynamic_attr =>
      class_text t ++ $"(" ++ parent ++ $", " ++ emit_string_literal sp ++ brief_text (ct_record t) ++
      (if dynamic_attr then $", ::pybind11::dynamic_attr()" else []) ++ $")"
  end.

(** L722-727: the lambda [emit_expose_declarator]. *)
Definition declarator_text (id : str) (p : parameter) : str := $"void expose_" ++ id ++ $"(" ++ parameter_text p ++ $")".

(** L731-780, L784-838. *)
Definition item_text (i : item) : str :=
  match i with
  | IDeclare id p => declarator_text id p ++ $";" ++ end_line
  | IModule name introductions calls postamble =>
      end_line ++ $"PYBIND11_MODULE(" ++ name ++ $", root) {" ++ end_line ++
      flat_map (fun e => $"auto " ++ fst e ++ $" = " ++ introducer_text (snd e) ++ $";" ++ end_line) introductions ++ end_line ++
      flat_map (fun c => $"expose_" ++ fst c ++ $"(" ++ snd c ++ $");" ++ end_line) calls ++
      flat_map (fun l => end_line ++ manual_text l) postamble ++ $"}" ++ end_line ++ end_line
  | IDefine id p body =>
      declarator_text id p ++ $" {" ++ end_line ++ flat_map (stmt_text p) body ++ $"}" ++ end_line ++ end_line
  end.

Definition stream_text (items : list item) : str := flat_map item_text items.
End Text.
