(** * Specification of printed default arguments: which text denotes an
    expression if it is placed at global scope. *)
From Verif Require Import Base PrinterModel.

(** ** Names *)

(** Path through scopes, outermost first: those without a name that can be
    written are left out if the language makes their members visible outside. *)
Inductive scope_path : list scope -> str -> Prop :=
| sp_nil : scope_path [] []
| sp_namespace n l x : scope_path l x -> scope_path (Namespace n :: l) (n ++ $"::" ++ x)
| sp_class n l x : scope_path l x -> scope_path (Class n :: l) (n ++ $"::" ++ x)
| sp_enumeration n scoped l x : scope_path l x -> scope_path (Enumeration n scoped :: l) (n ++ $"::" ++ x)
| sp_unnamed l x : scope_path l x -> scope_path (UnnamedNamespace :: l) x
| sp_unscoped n l x : scope_path l x -> scope_path (Enumeration n false :: l) x.

Definition final_name (en : entity) : str := (if en_keyword en then $"template " else []) ++ en_name en ++ en_args en.

(** Name starting from global scope. *)
Inductive global_name (en : entity) : str -> Prop :=
| global_name_path x : scope_path (rev (en_scopes en)) x -> global_name en ($"::" ++ x ++ final_name en).

Definition refers (en : entity) (x : str) : Prop :=
  if en_local en then x = final_name en else global_name en x.

(** After [.] or [->]. *)
Definition selector (en : entity) (x : str) : Prop := x = final_name en \/ (en_local en = false /\ global_name en x).

(** ** Expressions *)

(** Arguments that have been written. *)
Inductive written_args : list expr -> list expr -> Prop :=
| written_all es : ~ In DefaultArg es -> written_args es es
| written_some es es' : ~ In DefaultArg es -> written_args (es ++ DefaultArg :: es') es.

Definition line_end : str := [ascii_of_N 10].

(** [denotes]: expressions.  [bare]: braced lists without type, which need to be
    told their type by the context.  [fits]: initializer clauses and arguments.
    [listed]: several of them. *)
Inductive denotes : expr -> str -> Prop :=
| de_leaf s : denotes (Leaf s) s
| de_wrapped e x : denotes e x -> denotes (Wrapped e) x
| de_paren e x : denotes e x -> denotes (Paren e) ($"(" ++ x ++ $")")
| de_prefix op e x : denotes e x -> denotes (Prefix op e) (op ++ x)
| de_postfix e op x : denotes e x -> denotes (Postfix e op) (x ++ op)
| de_binary l op r x y : denotes l x -> denotes r y -> denotes (Binary l op r) (x ++ $" " ++ op ++ $" " ++ y)
| de_conditional c l r x y z : denotes c x -> denotes l y -> denotes r z -> denotes (Conditional c l r) (x ++ $" ? " ++ y ++ $" : " ++ z)
| de_subscript e i x y : denotes e x -> denotes i y -> denotes (Subscript e i) (x ++ $"[" ++ y ++ $"]")
| de_call f args es x y : denotes f x -> written_args args es -> listed es y -> denotes (Call f args) (x ++ $"(" ++ y ++ $")")
(* a braced list with its type; arrays cannot be initialised like this *)
| de_list t es x : bare (InitList t es) x -> t_array t = false -> denotes (InitList t es) (t_text t ++ x)
| de_construct_list t l args x : bare (Construct t l args) x -> denotes (Construct t l args) (t_text t ++ x)
(* conversion *)
| de_construct t args e x : written_args args [e] -> denotes e x -> denotes (Construct t Parenthesised args) x
| de_temporary_parens t args es y : written_args args es -> listed es y -> denotes (Temporary t Parenthesised args) (t_text t ++ $"(" ++ y ++ $")")
| de_temporary_braces t args es y : written_args args es -> listed es y -> denotes (Temporary t Braced args) (t_text t ++ $"{" ++ y ++ $"}")
| de_temporary_std t args e y : written_args args [e] -> bare e y -> denotes (Temporary t BracedStd args) (t_text t ++ y)
| de_cast t e x : denotes e x -> denotes (CStyleCast t e) ($"(" ++ t_text t ++ $")" ++ x)
| de_named_cast k t e x : denotes e x -> denotes (NamedCast k t e) (k ++ $"<" ++ t_text t ++ $">(" ++ x ++ $")")
| de_functional t e x : denotes e x -> denotes (FunctionalCast t true e) (t_text t ++ $"(" ++ x ++ $")")
| de_functional_list t e x : bare e x -> denotes (FunctionalCast t false e) (t_text t ++ x)
| de_ref en x : refers en x -> denotes (Ref en) x
| de_member base arrow en x y : selects base arrow x -> selector en y -> denotes (Member base arrow en) (x ++ y)
| de_lambda head e x : denotes e x -> denotes (Lambda head e) (head ++ $" {" ++ line_end ++ $"    return " ++ x ++ $";" ++ line_end ++ $"}")
with bare : expr -> str -> Prop :=
| ba_list t es x : listed es x -> bare (InitList t es) ($"{" ++ x ++ $"}")
| ba_construct t args es x : written_args args es -> listed es x -> bare (Construct t Braced args) ($"{" ++ x ++ $"}")
| ba_construct_std t args e x : written_args args [e] -> bare e x -> bare (Construct t BracedStd args) x
| ba_wrapped e x : bare e x -> bare (Wrapped e) x
with fits : expr -> str -> Prop :=
| fi_expr e x : denotes e x -> fits e x
| fi_bare e x : bare e x -> fits e x
with listed : list expr -> str -> Prop :=
| li_nil : listed [] []
| li_one e x : fits e x -> listed [e] x
| li_more e e' es x y : fits e x -> listed (e' :: es) y -> listed (e :: e' :: es) (x ++ $", " ++ y)
(* object, with the operator; members of anonymous structures and unions are
   members of the surrounding object *)
with selects : expr -> bool -> str -> Prop :=
| se_object base arrow x : anonymous_field base = false -> denotes base x -> selects base arrow (x ++ if arrow then $"->" else $".")
| se_anonymous base arrow en arrow' x : en_field en = true -> selects base arrow x -> selects (Member base arrow en) arrow' x.

(** ** Expressions as they come from source code *)

(** Braced lists. *)
Fixpoint braces (e : expr) : bool :=
  match e with
  | InitList _ _ => true
  | Construct _ Braced _ | Construct _ BracedStd _ => true
  | Wrapped e' => braces e'
  | _ => false
  end.

Definition operands (e : expr) : list expr :=
  match e with
  | Paren e | Prefix _ e | Postfix e _ | CStyleCast _ e | NamedCast _ _ e | FunctionalCast _ true e | Lambda _ e => [e]
  | Binary l _ r => [l; r]
  | Conditional c l r => [c; l; r]
  | Subscript e i => [e; i]
  | Call f _ => [f]
  | Member base _ _ => [base]
  | Construct _ Parenthesised args => args
  | _ => []
  end.

Definition clauses (e : expr) : list expr :=
  match e with
  | Call _ args | InitList _ args | Construct _ Braced args | Construct _ BracedStd args | Temporary _ _ args => args
  | Wrapped e | FunctionalCast _ false e => [e]
  | _ => []
  end.

(** Default arguments occur last in argument lists only, braced lists only as
    initializers or arguments; conversions take one argument. *)
Inductive from_source : expr -> Prop :=
| fs_node e :
    e <> DefaultArg ->
    (forall o, In o (operands e) -> braces o = false) ->
    (forall o, In o (operands e ++ clauses e) -> o <> DefaultArg -> from_source o) ->
    (match e with
     | Construct _ Parenthesised args => exists o, written_args args [o]
     | Construct _ BracedStd args | Temporary _ BracedStd args => exists o, written_args args [o] /\ braces o = true
     | Call f _ => f <> DefaultArg
     | Construct _ Braced _ | Temporary _ _ _ => True
     | FunctionalCast _ false o => braces o = true
     | InitList _ es => ~ In DefaultArg es
     | _ => ~ In DefaultArg (operands e ++ clauses e)
     end) -> from_source e.

(** ** Problems *)

(** Parts of an expression, and whether they are inside of braced lists (not
    counting those that come with their type in the source code). *)
Inductive part_of : bool -> expr -> bool -> expr -> Prop :=
| po_self w e : part_of w e w e
| po_part w e o w' e' : In o (operands e ++ clauses e) -> part_of (w || match prepended e with Some _ => true | None => false end) o w' e' -> part_of w e w' e'.

(** Scopes that cannot be named. *)
Definition unnameable (s : scope) : bool := match s with UnnamedNamespace | UnnamedClass _ => true | _ => false end.

Definition problem (inside : bool) (e : expr) : Prop :=
  match e with
  | InitList t _ => inside = false /\ t_array t = true
  | FunctionalCast _ false _ => inside = false
  | Temporary _ BracedStd _ => inside = false
  | Ref en => en_local en = true \/ existsb unnameable (en_scopes en) = true
  | Member base _ en => en_local en = true \/ existsb unnameable (en_scopes en) = true \/ anonymous_field base = true
  | _ => False
  end.

Definition unproblematic (e : expr) : Prop := forall w e', part_of false e w e' -> ~ problem w e'.
