(** * Printing of default arguments: model of
    [AttemptFullQualificationPrinter] (src/expose.cpp L78-258) together with the
    parts of clang's [StmtPrinter] it relies on. *)
From Verif Require Import Base.

(** ** Expressions *)

(** Declarations enclosing a declaration that is referred to, named
    declarations only.  [Class]: name including template arguments; unnamed
    classes are given by the keyword. *)
Inductive scope :=
| Namespace (n : str) | UnnamedNamespace
| Class (n : str) | UnnamedClass (keyword : str)
| Enumeration (n : str) (scoped : bool).

(** What is referred to.  [en_local]: declared inside of a function.
    [en_scopes]: the innermost comes first.  [en_field]: is a field for an
    anonymous structure or union.  [en_keyword]: the name is preceded by
    [template]; [en_args]: explicit template arguments (empty: none). *)
Record entity := mkEntity { en_local : bool; en_scopes : list scope; en_name : str; en_field : bool; en_keyword : bool; en_args : str }.

(** Types, as given by [TypeName::getFullyQualifiedName]. *)
Record ty := mkTy { t_text : str; t_array : bool }.

(** Kinds of list initialisation: none, of parameters in order, or via [std::initializer_list]. *)
Inductive form := Parenthesised | Braced | BracedStd.

Inductive expr :=
| Leaf (text : str)                               (* literals *)
| Wrapped (e : expr)                              (* implicit nodes, e.g. ImplicitCastExpr, MaterializeTemporaryExpr, CXXStdInitializerListExpr *)
| Paren (e : expr)
| Prefix (op : str) (e : expr)                    (* with trailing space, if any *)
| Postfix (e : expr) (op : str)
| Binary (l : expr) (op : str) (r : expr)
| Conditional (c l r : expr)
| Subscript (e i : expr)
| Call (f : expr) (args : list expr)
| DefaultArg                                      (* CXXDefaultArgExpr *)
| InitList (t : ty) (es : list expr)              (* InitListExpr; the syntactic form if there is one *)
| Construct (t : ty) (l : form) (args : list expr)     (* CXXConstructExpr *)
| Temporary (t : ty) (l : form) (args : list expr)     (* CXXTemporaryObjectExpr *)
| CStyleCast (t : ty) (e : expr)
| NamedCast (keyword : str) (t : ty) (e : expr)
| FunctionalCast (t : ty) (parens : bool) (e : expr)
| Ref (en : entity)                               (* DeclRefExpr *)
| Member (base : expr) (arrow : bool) (en : entity)    (* MemberExpr *)
| Lambda (head : str) (e : expr).                  (* LambdaExpr that only returns a value; head: up to the body *)

(** ** Names *)

Definition colons : str := $"::".

(** [NamedDecl::printNestedNameSpecifier]: nothing inside of functions; what is
    enclosed by unscoped enumerations is a member of the surrounding scope. *)
Definition scope_text (s : scope) : str :=
  match s with
  | Namespace n | Class n => n ++ colons
  | UnnamedNamespace => $"(anonymous namespace)" ++ colons
  | UnnamedClass k => $"(anonymous " ++ k ++ $")" ++ colons
  | Enumeration n scoped => if scoped then n ++ colons else []
  end.
Definition nested_specifier (en : entity) : str := if en_local en then [] else flat_map scope_text (rev (en_scopes en)).

Definition template_keyword (en : entity) : str := if en_keyword en then $"template " else [].

(** ** Expressions: expose.cpp L93-256 and [StmtPrinter] *)

(** L105-116, apart from [within_braced_initializer]. *)
Definition prepended (e : expr) : option ty :=
  match e with
  | InitList t _ => Some t
  | Construct t (Braced | BracedStd) _ => Some t
  | _ => None
  end.

Definition opening (l : form) : str := match l with Parenthesised => $"(" | Braced => $"{" | BracedStd => [] end.
Definition closing (l : form) : str := match l with Parenthesised => $")" | Braced => $"}" | BracedStd => [] end.

(** L235-241. *)
Definition anonymous_field (e : expr) : bool := match e with Member _ _ en => en_field en | _ => false end.

(** [Expr::isDefaultArgument] (used in L214) looks through implicit nodes and parentheses. *)
Fixpoint is_default_argument (e : expr) : bool :=
  match e with DefaultArg => true | Wrapped e' | Paren e' => is_default_argument e' | _ => false end.

(** [isa<CXXDefaultArgExpr>]. *)
Definition is_default_expr (e : expr) : bool := match e with DefaultArg => true | _ => false end.

(** Loops over arguments, up to the first one that is a default argument
    (L212-219, [StmtPrinter::PrintCallArgs], [VisitCXXConstructExpr],
    [VisitInitListExpr]). *)
Section Arguments.
  Variables (is_default : expr -> bool) (printed : expr -> str).
  Fixpoint arguments (comma : bool) (es : list expr) : str :=
    match es with
    | [] => []
    | e :: es' => if is_default e then [] else (if comma then $", " else []) ++ printed e ++ arguments true es'
    end.
End Arguments.

(** [StmtPrinter::PrintRawCompoundStmt] for a single return statement. *)
Definition newline : str := [ascii_of_N 10].
Definition body_open : str := $" {" ++ newline ++ $"    return ".
Definition body_close : str := $";" ++ newline ++ $"}".

(** [within]: [within_braced_initializer]; it is reset to [false] only where it
    has been set, i.e. to its previous value. *)
Fixpoint print (within : bool) (e : expr) {struct e} : str :=
  let outermost := negb within && match prepended e with Some _ => true | None => false end in
  let within' := within || outermost in
  (if outermost then match prepended e with Some t => t_text t | None => [] end else []) ++
  match e with
  | Leaf s => s
  | Wrapped e => print within' e
  | Paren e => $"(" ++ print within' e ++ $")"
  | Prefix op e => op ++ print within' e
  | Postfix e op => print within' e ++ op
  | Binary l op r => print within' l ++ $" " ++ op ++ $" " ++ print within' r
  | Conditional c l r => print within' c ++ $" ? " ++ print within' l ++ $" : " ++ print within' r
  | Subscript e i => print within' e ++ $"[" ++ print within' i ++ $"]"
  | Call f es => print within' f ++ $"(" ++ arguments is_default_expr (print within') false es ++ $")"
  | DefaultArg => []
  | InitList _ es => $"{" ++ arguments (fun _ => false) (print within') false es ++ $"}"
  | Construct _ l es => (match l with Braced => $"{" | _ => [] end) ++ arguments is_default_expr (print within') false es ++ (match l with Braced => $"}" | _ => [] end)
  | Temporary t l es => t_text t ++ opening l ++ arguments is_default_argument (print within') false es ++ closing l
  | CStyleCast t e => $"(" ++ t_text t ++ $")" ++ print within' e
  | NamedCast k t e => k ++ $"<" ++ t_text t ++ $">(" ++ print within' e ++ $")"
  | FunctionalCast t parens e => t_text t ++ (if parens then $"(" else []) ++ print within' e ++ (if parens then $")" else [])
  | Ref en => colons ++ nested_specifier en ++ template_keyword en ++ en_name en ++ en_args en
  | Member base arrow en =>
      print within' base ++ (if anonymous_field base then [] else if arrow then $"->" else $".") ++
      colons ++ nested_specifier en ++ template_keyword en ++ en_name en ++ en_args en
  | Lambda head e => head ++ body_open ++ print within' e ++ body_close
  end.

(** L358-362: what follows the equals sign. *)
Definition print_default (e : expr) : str := print false e.
