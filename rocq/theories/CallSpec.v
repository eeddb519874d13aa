(** * Specification of the generated text: calls of pybind11 and their arguments *)
From Verif Require Import Base ParserModel StringModel AnnotModel GraphModel EmitModel ModuleModel TextModel TextSpec.

(** ** Notation of C++ *)

Definition join (l : list str) : str := match l with [] => [] | s :: r => s ++ flat_map (fun t => $", " ++ t) r end.
Definition call (callee : str) (arguments : list str) : str := callee ++ $"(" ++ join arguments ++ $")".
Definition of_types (template : str) (arguments : list str) : str := template ++ $"<" ++ join arguments ++ $">".
(** Method call on the object that is the parameter of the function. *)
Definition member (name : str) (arguments : list str) : str := call ($"context." ++ name) arguments.
Definition literal : str -> str := emit_string_literal.
Definition statement (s : str) : str := s ++ $";" ++ end_line.

(** Operators by their spelling. *)
Definition operator_of (s : str) : option opkind :=
  let is := fun t : string => str_eqb s ($t) in
  if is "+"%string then Some OPlus else if is "-"%string then Some OMinus else if is "*"%string then Some OStar else if is "/"%string then Some OSlash
  else if is "%"%string then Some OPercent else if is "^"%string then Some OCaret else if is "&"%string then Some OAmp else if is "|"%string then Some OPipe
  else if is "~"%string then Some OTilde else if is "!"%string then Some OExclaim else if is "<"%string then Some OLess else if is ">"%string then Some OGreater
  else if is "+="%string then Some OPlusEqual else if is "-="%string then Some OMinusEqual else if is "*="%string then Some OStarEqual
  else if is "/="%string then Some OSlashEqual else if is "%="%string then Some OPercentEqual else if is "^="%string then Some OCaretEqual
  else if is "&="%string then Some OAmpEqual else if is "|="%string then Some OPipeEqual else if is "<<"%string then Some OLessLess
  else if is ">>"%string then Some OGreaterGreater else if is "<<="%string then Some OLessLessEqual else if is ">>="%string then Some OGreaterGreaterEqual
  else if is "=="%string then Some OEqualEqual else if is "!="%string then Some OExclaimEqual else if is "<="%string then Some OLessEqual
  else if is ">="%string then Some OGreaterEqual else None.

(** Operators that are written between or before their operands and are exposed. *)
Definition symbolic (k : opkind) : bool := negb (never_emitted k) && match k with OConditional | OCoawait => false | _ => true end.

Section Calls.
Context (tx : texts) (w : facts).

(** ** Arguments *)

(** Pointer to function [f], selected among overloads. *)
Definition pointer (f : nat) : str :=
  call (of_types ($"::pybind11::overload_cast") (tx_original tx f))
    (($"&::" ++ tx_name tx f ++ match tx_args tx f with Some l => l | None => [] end) ::
     if fi_const (x_fn (w_extra w) f) then [$"::pybind11::const_"] else []).

(** Argument with name, restrictions and default argument. *)
Inductive keyword (a : arg) : str -> Prop :=
| keyword_intro modifiers default :
    NoDup modifiers ->
    (forall m, In m modifiers <-> (m = $".noconvert()" /\ ar_noconvert a = true) \/ (m = $".none(false)" /\ ar_required a = true)) ->
    (forall e, ar_default a = Some e -> default = $" = " ++ e) -> (ar_default a = None -> default = []) ->
    keyword a (call ($"::pybind11::arg") [literal (ar_name a)] ++ concat modifiers ++ default).

Definition keeps_alive (k : nat * nat) (s : str) : Prop :=
  s = call (of_types ($"pybind11::keep_alive") [decimal (N.of_nat (fst k)); decimal (N.of_nat (snd k))]) [].

(** Arguments of [def] after function and docstring. *)
Definition extras (args : list arg) (a : function_attrs) (l : list str) : Prop :=
  exists keywords policy alive, l = keywords ++ policy ++ alive /\
    Forall2 keyword args keywords /\ policy = map (fun p => $"pybind11::return_value_policy::" ++ p) (shown (fn_policy a)) /\
    Forall2 keeps_alive (fn_keep_alive a) alive.

(** A function of one or two parameters that applies an operator to them. *)
Inductive applies (l : lambda) : str -> Prop :=
| applies_unary t op : la_types l = [t] -> la_operands l = [Lhs] -> operator_of op = Some (la_operator l) ->
    applies l (call ($"[]") [tx_type tx t ++ $" lhs"] ++ $" -> " ++ tx_type tx (la_result l) ++ $" { return " ++ op ++ $"lhs; }")
| applies_same t1 t2 op : la_types l = [t1; t2] -> la_operands l = [Lhs; Rhs] -> operator_of op = Some (la_operator l) ->
    applies l (call ($"[]") [tx_type tx t1 ++ $" lhs"; tx_type tx t2 ++ $" rhs"] ++ $" -> " ++ tx_type tx (la_result l) ++ $" { return lhs " ++ op ++ $" rhs; }")
| applies_reversed t1 t2 op : la_types l = [t1; t2] -> la_operands l = [Rhs; Lhs] -> operator_of op = Some (la_operator l) ->
    applies l (call ($"[]") [tx_type tx t1 ++ $" lhs"; tx_type tx t2 ++ $" rhs"] ++ $" -> " ++ tx_type tx (la_result l) ++ $" { return rhs " ++ op ++ $" lhs; }").

(** Docstrings of classes, enumerations and enumerators, if any. *)
Definition documented (i : nat) : list str := map literal (shown (tx_brief tx i)).
Definition flag (b : bool) (s : str) : list str := if b then [s] else [].

(** ** Statements *)

Definition assigned (name value : str) : str := statement (member ($"attr") [literal name] ++ $" = " ++ value).

Definition manual_says (l : nat) (s : str) : Prop :=
  match tx_lambda tx l with
  | (Some p, body) => s = statement (call (call ($"[]") [$"auto &" ++ p] ++ $" " ++ body) [$"context"])
  | (None, body) => s = body
  end.

Definition stmt_says (p : parameter) (st : stmt) (s : str) : Prop :=
  match st with
  | SAlias n t => s = assigned n (call (of_types ($"::genpybind::getObjectForType") [w_qualified w t]) [])
  | SVariable n i => s = assigned n ($"::" ++ tx_name tx i)
  | SManual l => manual_says l s
  | SFunction static n f args a =>
      exists l, extras args a l /\ s = statement (member (if static then $"def_static" else $"def") (literal n :: pointer f :: literal (doc_of tx f) :: l))
  | SConvertible from r =>
      exists t, from = Some t /\ s = statement (call (of_types ($"::pybind11::implicitly_convertible") [tx_type tx t; w_qualified w r]) [])
  | SInit f _ args a =>
      exists l, extras args a l /\ s = statement (member ($"def") (call (of_types ($"::pybind11::init") (tx_original tx f)) [] :: literal (doc_of tx f) :: l))
  | SOperator n f l =>
      symbolic (la_operator l) = true ->
      exists e, applies l e /\ s = statement (member ($"def") [literal n; e; literal (doc_of tx f); call ($"::pybind11::is_operator") []])
  | SPrint n r => s = statement (member ($"def") [literal n; of_types ($"::genpybind::string_from_lshift") [w_qualified w r]])
  | SProperty n g (Some f) => s = statement (member ($"def_property") [literal n; pointer g; pointer f])
  | SProperty n g None => s = statement (member ($"def_property_readonly") [literal n; pointer g])
  | SMember static readonly n i =>
      s = statement (member ($"def_" ++ (if readonly then $"readonly" else $"readwrite") ++ (if static then $"_static" else [])) [literal n; $"&::" ++ tx_name tx i])
  | SValue n i => exists e, p = PEnum e /\ s = statement (member ($"value") (literal n :: (w_qualified w e ++ $"::" ++ tx_simple tx i) :: documented i))
  | SExportValues => s = statement (member ($"export_values") [])
  | SUnused => s = statement ($"(void)context")
  end.

(** ** Items *)

Definition enum_type (i : nat) : str := of_types ($"::pybind11::enum_") [w_qualified w i].
Definition class_type (t : pyclass) : str :=
  of_types ($"::pybind11::class_") (w_qualified w (ct_record t) :: map (w_qualified w) (ct_bases t) ++ shown (ct_holder t)).
Definition parameter_type (p : parameter) : str :=
  match p with PModule => $"::pybind11::module" | PEnum i => enum_type i | PClass t => class_type t end.

(** Objects are passed by reference. *)
Definition function_head (id : str) (p : parameter) : str := $"void " ++ call ($"expose_" ++ id) [parameter_type p ++ $"& context"].

Definition object (n : introducer) : str :=
  match n with
  | NAlias parent => parent
  | NSubmodule parent sp => call (parent ++ $".def_submodule") [literal sp]
  | NEnum i parent sp arithmetic => call (enum_type i) (parent :: literal sp :: documented i ++ flag arithmetic (call ($"::pybind11::arithmetic") []))
  | NClass t parent sp dynamic => call (class_type t) (parent :: literal sp :: documented (ct_record t) ++ flag dynamic (call ($"::pybind11::dynamic_attr") []))
  end.

Definition block (head : str) (content : str) : str := head ++ $" {" ++ end_line ++ content ++ $"}" ++ end_line ++ end_line.

Definition item_says (i : item) (s : str) : Prop :=
  match i with
  | IDeclare id p => s = statement (function_head id p)
  | IDefine id p body => exists parts, Forall2 (stmt_says p) body parts /\ s = block (function_head id p) (concat parts)
  | IModule name introductions calls postamble =>
      exists parts, Forall2 manual_says postamble parts /\
        s = block (end_line ++ call ($"PYBIND11_MODULE") [name; $"root"])
              (flat_map (fun e => statement ($"auto " ++ fst e ++ $" = " ++ object (snd e))) introductions ++ end_line ++
               flat_map (fun c => statement (call ($"expose_" ++ fst c) [snd c])) calls ++ flat_map (app end_line) parts)
  end.
End Calls.
