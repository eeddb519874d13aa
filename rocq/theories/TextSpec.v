(** * Specification of the generated text: tokens of C++ as far as literals and
    brackets are concerned. *)
From Verif Require Import Base ParserModel StringSpec AnnotModel AnnotSpec CollectModel GraphModel EmitModel ModuleModel TextModel.

(** ** Tokens *)

(** Characters, apart from those in literals.  Strings: encoding prefix and the
    bytes denoted. *)
Inductive token := Sym (c : ascii) | Lit (prefix bytes : str) | Chr (body : str).

(** What has to be known about the preceding characters: the identifier or
    number that may be continued, and a possible start of a comment or digraph. *)
Inductive pending := PNone | PSlash | PLess | PLessColon | PLessColons | PColon | PPercent.
Record lexer := mkLexer { lx_word : str; lx_pending : pending }.
Definition fresh : lexer := mkLexer [] PNone.

Definition ch (n : N) (c : ascii) : bool := (code c =? n)%N.

Definition after (st : lexer) (c : ascii) : lexer :=
  if is_ident_continue c then mkLexer (lx_word st ++ [c]) PNone
  else mkLexer [] (if ch 47 c then PSlash else if ch 60 c then PLess else if ch 58 c then PColon else if ch 37 c then PPercent else PNone).

(** One character.  Not accepted: comments, digraphs, directives and spliced
    lines; quotes start literals, see below.  After a less-than sign two colons
    are not part of a digraph, unless followed by a third one or a
    greater-than sign. *)
Definition step (st : lexer) (c : ascii) : option lexer :=
  if ch 34 c || ch 39 c || ch 92 c || ch 35 c then None
  else
    match lx_pending st with
    | PNone => Some (after st c)
    | PSlash => if ch 47 c || ch 42 c then None else Some (after st c)
    | PLess => if ch 37 c then None else if ch 58 c then Some (mkLexer [] PLessColon) else Some (after st c)
    | PLessColon => if ch 58 c then Some (mkLexer [] PLessColons) else None
    | PLessColons => if ch 58 c || ch 62 c then None else Some (after st c)
    | PColon => if ch 62 c then None else Some (after st c)
    | PPercent => if ch 62 c || ch 58 c then None else Some (after st c)
    end.

(** Prefixes of raw strings, which are not accepted. *)
Definition raw_prefix (w : str) : bool :=
  existsb (str_eqb w) [$"R"; $"LR"; $"uR"; $"UR"; $"u8R"].

(** Body of a character literal. *)
Fixpoint char_body (s : str) : option (str * str) :=
  match s with
  | [] => None
  | c :: r =>
      if ch 39 c then Some ([], r)
      else if ch 10 c || ch 13 c then None
      else if ch 92 c then
        match r with
        | [] => None
        | e :: r' => if ch 10 e || ch 13 e then None else option_map (fun x => (c :: e :: fst x, snd x)) (char_body r')
        end
      else option_map (fun x => (c :: fst x, snd x)) (char_body r)
  end.

Definition starts_with_digit (w : str) : bool := match w with c :: _ => is_digit c | [] => false end.

(** Tokens of a text, from one state to another. *)
Inductive scans : lexer -> str -> lexer -> list token -> Prop :=
| sc_end st : scans st [] st []
| sc_sym st c s st1 st2 ts : step st c = Some st1 -> scans st1 s st2 ts -> scans st (c :: s) st2 (Sym c :: ts)
| sc_lit st s bytes rest st2 ts :
    raw_prefix (lx_word st) = false -> lx_pending st <> PLessColon ->
    read_cpp_literal s = Some (bytes, rest) -> scans fresh rest st2 ts -> scans st s st2 (Lit (lx_word st) bytes :: ts)
| sc_chr st c s body rest st2 ts :
    ch 39 c = true -> starts_with_digit (lx_word st) = false -> lx_pending st <> PLessColon -> body <> [] ->
    char_body s = Some (body, rest) -> scans fresh rest st2 ts -> scans st (c :: s) st2 (Chr body :: ts).

(** ** Structure *)

Inductive pair : ascii -> ascii -> Prop :=
| pair_round : pair "("%char ")"%char
| pair_square : pair "["%char "]"%char
| pair_curly : pair "{"%char "}"%char.

Definition is_bracket (t : token) : bool :=
  match t with Sym c => ch 40 c || ch 41 c || ch 91 c || ch 93 c || ch 123 c || ch 125 c | _ => false end.

Definition semicolon : token := Sym ";"%char.
Definition line : token := Sym (ascii_of_N 10).

(** Brackets match. *)
Inductive nested : list token -> Prop :=
| ne_nil : nested []
| ne_token t ts : is_bracket t = false -> nested ts -> nested (t :: ts)
| ne_group o c ts ts' : pair o c -> nested ts -> nested ts' -> nested (Sym o :: ts ++ Sym c :: ts').

(** In addition there are no semicolons outside of brackets. *)
Inductive closed : list token -> Prop :=
| cl_nil : closed []
| cl_token t ts : is_bracket t = false -> t <> semicolon -> closed ts -> closed (t :: ts)
| cl_group o c ts ts' : pair o c -> nested ts -> closed ts' -> closed (Sym o :: ts ++ Sym c :: ts').

(** A statement ended by a semicolon, and a block. *)
Definition is_statement (ts : list token) : Prop := exists h, closed h /\ ts = h ++ [semicolon; line].
Definition is_block (ts : list token) : Prop := exists b, nested b /\ ts = Sym "{"%char :: b ++ [Sym "}"%char; line].

(** Strings denoted by ordinary literals; others are given with their prefix. *)
Definition strings (ts : list token) : list (str * str) := flat_map (fun t => match t with Lit p b => [(p, b)] | _ => [] end) ts.
Definition ordinary (s : str) : str * str := ([], s).

(** ** Pieces provided by clang or by annotations *)

(** First characters: anything that can follow [<] or [::], in particular
    identifiers, and [::] followed by an identifier. *)
Definition begins (p : str) : Prop :=
  match p with
  | c :: r => ch 58 c = false /\ ch 37 c = false /\ ch 62 c = false \/
              (exists d r', p = $"::" ++ d :: r' /\ is_ident_start d = true)
  | [] => False
  end.

(** Text of a type, a name, or an expression: closed.  [loose]: it is followed by a
    separator and may end with an operator. *)
Definition piece (loose : bool) (p : str) (ls : list (str * str)) : Prop :=
  begins p /\ exists st ts, scans fresh p st ts /\ closed ts /\ strings ts = ls /\
    match lx_pending st with PNone => True | PSlash | PLess | PPercent => loose = true | _ => False end.

(** Template arguments. *)
Definition template_args (p : str) : Prop :=
  exists r st ts, p = "<"%char :: r /\ scans fresh p st ts /\ lx_pending st = PNone /\ closed ts /\ strings ts = [].

(** Body of a lambda. *)
Definition lambda_body (p : str) (ls : list (str * str)) : Prop :=
  exists st ts, scans fresh p st ts /\ is_block ts /\ strings ts = ls.

Definition word (p : str) : Prop := p <> [] /\ Forall (fun c => is_ident_continue c = true) p.

(** [of_expr], [of_body]: strings in default arguments and in manual bindings. *)
Record fine_texts (tx : texts) (w : facts) (of_body : nat -> list (str * str)) : Prop := {
  ft_type : forall t, piece false (tx_type tx t) [];
  ft_original : forall f, Forall (fun p => piece false p []) (tx_original tx f);
  ft_tag : forall i, piece false (w_qualified w i) [];
  ft_name : forall i, piece true (tx_name tx i) [];
  ft_args : forall i l, tx_args tx i = Some l -> template_args l;
  ft_simple : forall i, word (tx_simple tx i);
  ft_lambda : forall i, lambda_body (snd (tx_lambda tx i)) (of_body i) /\ match fst (tx_lambda tx i) with Some p => word p | None => True end
}.

Definition fine_policy (p : str) : Prop := p = [] \/ piece true p [].
Definition fine_arg (of_expr : str -> list (str * str)) (a : arg) : Prop :=
  match ar_default a with Some e => piece true e (of_expr e) | None => True end.
Definition fine_holder (h : str) : Prop := h = [] \/ piece false h [].
Definition fine_class (t : pyclass) : Prop := fine_holder (ct_holder t).
Definition fine_parameter (p : parameter) : Prop := match p with PClass t => fine_class t | _ => True end.

Definition fine_stmt (of_expr : str -> list (str * str)) (p : parameter) (s : stmt) : Prop :=
  match s with
  | SFunction _ _ _ args a | SInit _ _ args a => Forall (fine_arg of_expr) args /\ fine_policy (fn_policy a)
  | SConvertible from _ => from <> None
  | SValue _ _ => match p with PEnum _ => True | _ => False end
  | _ => True
  end.

Definition fine_introducer (n : introducer) : Prop :=
  match n with
  | NAlias parent | NSubmodule parent _ | NEnum _ parent _ _ => word parent
  | NClass t parent _ _ => word parent /\ fine_class t
  end.

Definition fine_item (of_expr : str -> list (str * str)) (i : item) : Prop :=
  match i with
  | IDeclare id p => word id /\ fine_parameter p
  | IModule name introductions calls _ =>
      piece true name [] /\ Forall (fun e => word (fst e) /\ fine_introducer (snd e)) introductions /\
      Forall (fun c => word (fst c) /\ word (snd c)) calls
  | IDefine id p body => word id /\ fine_parameter p /\ Forall (fine_stmt of_expr p) body
  end.

(** Texts given in annotations, and default arguments. *)
Definition fine_annotations (u : unit) : Prop :=
  forall i ans bad an s, carried (d_attrs (u_decls u i)) ans bad -> In an ans ->
    (string_of ReturnValuePolicy an = Some s -> fine_policy s) /\ (string_of HolderType an = Some s -> fine_holder s).
Definition fine_defaults (w : facts) (of_expr : str -> list (str * str)) : Prop :=
  forall f p e, In p (fi_params (x_fn (w_extra w) f)) -> pm_default p = Some e -> piece true e (of_expr e).

(** ** Strings that are to be found in the text *)

Definition shown (s : str) : list str := match s with [] => [] | _ => [s] end.

Definition doc_of (tx : texts) (f : nat) : str :=
  match tx_brief tx f, tx_primary tx f with [], Some p => tx_brief tx p | s, _ => s end.

Definition arg_strings (of_expr : str -> list (str * str)) (a : arg) : list (str * str) :=
  ordinary (ar_name a) :: match ar_default a with Some e => of_expr e | None => [] end.

Definition stmt_strings (tx : texts) (of_expr : str -> list (str * str)) (of_body : nat -> list (str * str)) (s : stmt) : list (str * str) :=
  match s with
  | SAlias sp _ | SVariable sp _ | SPrint sp _ | SProperty sp _ _ | SMember _ _ sp _ => [ordinary sp]
  | SManual l => of_body l
  | SFunction _ sp f args _ => ordinary sp :: ordinary (doc_of tx f) :: flat_map (arg_strings of_expr) args
  | SInit f _ args _ => ordinary (doc_of tx f) :: flat_map (arg_strings of_expr) args
  | SOperator sp f _ => [ordinary sp; ordinary (doc_of tx f)]
  | SValue sp i => ordinary sp :: map ordinary (shown (tx_brief tx i))
  | SConvertible _ _ | SExportValues | SUnused => []
  end.

Definition introducer_strings (tx : texts) (n : introducer) : list (str * str) :=
  match n with
  | NAlias _ => []
  | NSubmodule _ sp => [ordinary sp]
  | NEnum i _ sp _ => ordinary sp :: map ordinary (shown (tx_brief tx i))
  | NClass t _ sp _ => ordinary sp :: map ordinary (shown (tx_brief tx (ct_record t)))
  end.

(** ** Shape of statements and items *)

Definition starts (s : str) (ts : list token) : Prop := exists r, ts = map Sym s ++ r.

(** Start of a statement: the function of pybind11 that is used. *)
Definition use_of (s : stmt) : str :=
  match s with
  | SAlias _ _ | SVariable _ _ => $"context.attr("
  | SManual _ => []
  | SFunction true _ _ _ _ => $"context.def_static("
  | SFunction false _ _ _ _ | SOperator _ _ _ | SPrint _ _ => $"context.def("
  | SConvertible _ _ => $"::pybind11::implicitly_convertible<"
  | SInit _ _ _ _ => $"context.def(::pybind11::init<"
  | SProperty _ _ (Some _) => $"context.def_property("
  | SProperty _ _ None => $"context.def_property_readonly("
  | SMember false false _ _ => $"context.def_readwrite("
  | SMember false true _ _ => $"context.def_readonly("
  | SMember true false _ _ => $"context.def_readwrite_static("
  | SMember true true _ _ => $"context.def_readonly_static("
  | SValue _ _ => $"context.value("
  | SExportValues => $"context.export_values()"
  | SUnused => $"(void)context"
  end.

Definition introduced_by (n : introducer) : str :=
  match n with
  | NAlias parent => parent
  | NSubmodule parent _ => parent ++ $".def_submodule("
  | NEnum _ _ _ _ => $"::pybind11::enum_<"
  | NClass _ _ _ _ => $"::pybind11::class_<"
  end.

Definition stmt_shape (tx : texts) (of_expr : str -> list (str * str)) (of_body : nat -> list (str * str)) (s : stmt) (ts : list token) : Prop :=
  strings ts = stmt_strings tx of_expr of_body s /\ starts (use_of s) ts /\
  match s with
  | SManual l => match fst (tx_lambda tx l) with None => is_block ts | Some _ => is_statement ts end
  | _ => is_statement ts
  end.

Definition introduction_shape (tx : texts) (e : str * introducer) (ts : list token) : Prop :=
  strings ts = introducer_strings tx (snd e) /\ starts ($"auto " ++ fst e ++ $" = " ++ introduced_by (snd e)) ts /\ is_statement ts.

Definition call_shape (c : str * str) (ts : list token) : Prop :=
  ts = map Sym ($"expose_" ++ fst c ++ $"(" ++ snd c ++ $");") ++ [line] /\ is_statement ts.

(** Block after a head that starts in a given way, with the given content. *)
Definition is_definition (head : str) (content : list token) (ts : list token) : Prop :=
  exists h, closed h /\ strings h = [] /\ starts head h /\ ts = h ++ Sym "{"%char :: line :: content ++ [Sym "}"%char; line; line].

Definition item_shape (tx : texts) (of_expr : str -> list (str * str)) (of_body : nat -> list (str * str)) (i : item) (ts : list token) : Prop :=
  match i with
  | IDeclare id _ => strings ts = [] /\ starts ($"void expose_" ++ id ++ $"(") ts /\ is_statement ts
  | IModule _ introductions calls postamble =>
      exists a b c, Forall2 (introduction_shape tx) introductions a /\ Forall2 call_shape calls b /\
        Forall2 (fun l => stmt_shape tx of_expr of_body (SManual l)) postamble c /\
        is_definition (end_line ++ $"PYBIND11_MODULE(") (concat a ++ line :: concat b ++ flat_map (cons line) c) ts
  | IDefine id _ body => exists b, Forall2 (stmt_shape tx of_expr of_body) body b /\ is_definition ($"void expose_" ++ id ++ $"(") (concat b) ts
  end.
