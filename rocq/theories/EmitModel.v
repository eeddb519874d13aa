(** * Emission of the bindings of one context: model of the exposers in
    src/expose.cpp.  Output is a list of statements; docstrings, the printing
    of types and of default arguments are not modelled. *)
From Verif Require Import Base ParserModel StringModel AnnotModel CollectModel GraphModel InlineModel.

(** ** Facts about declarations provided by clang *)

(** clang/Basic/OperatorKinds.def. *)
Inductive opkind :=
| ONew | ODelete | OArrayNew | OArrayDelete
| OPlus | OMinus | OStar | OSlash | OPercent | OCaret | OAmp | OPipe | OTilde | OExclaim | OEqual | OLess | OGreater
| OPlusEqual | OMinusEqual | OStarEqual | OSlashEqual | OPercentEqual | OCaretEqual | OAmpEqual | OPipeEqual
| OLessLess | OGreaterGreater | OLessLessEqual | OGreaterGreaterEqual
| OEqualEqual | OExclaimEqual | OLessEqual | OGreaterEqual | OSpaceship
| OAmpAmp | OPipePipe | OPlusPlus | OMinusMinus | OComma | OArrowStar | OArrow | OCall | OSubscript | OConditional | OCoawait.

(** Canonical types: unqualified type (of the referenced object), [const], reference. *)
Inductive core := CRecord (i : nat) | COther (n : nat).
Record type := mkType { ty_core : core; ty_const : bool; ty_ref : bool }.

Definition core_eqb (a b : core) : bool :=
  match a, b with CRecord i, CRecord j | COther i, COther j => Nat.eqb i j | _, _ => false end.

(** [getPybind11ArgsType], expose.cpp L316-326. *)
Inductive variadic_kind := Args | Kwargs.

Record param := mkParam { pm_name : str; pm_type : type; pm_variadic : option variadic_kind; pm_default : option str }.

(** The class referred to by the first parameter of a free operator, if any:
    its name, if it has one, is the one of [std::basic_ostream] or not. *)
Inductive pointee := NoClass | Unnamed | Named (ostream : bool).

Record fn := mkFn {
  fi_params : list param;
  fi_operator : option opkind;   (* [getOverloadedOperator], none for [OO_None] *)
  fi_deleted : bool;
  fi_const : bool;               (* const member function *)
  fi_move : bool;                (* move constructor *)
  fi_pointee : pointee;
  fi_result : type }.

Record extra := mkExtra {
  x_fn : nat -> fn;
  x_const : nat -> bool;                      (* type is const qualified *)
  x_tag : nat -> option nat;                  (* [getAsTagDecl] of the aliased type *)
  x_enumerator : nat -> bool;                 (* is an [EnumConstantDecl] *)
  x_scoped : nat -> bool;                     (* scoped enumeration *)
  x_abstract : nat -> bool;                   (* abstract class *)
  x_specializations : nat -> option (list nat);  (* for function templates *)
  x_adl : nat -> opkind -> list nat           (* [Sema::ArgumentDependentLookup] for a class *)
}.

(** ** Statements *)

Record arg := mkArg { ar_name : str; ar_noconvert : bool; ar_required : bool; ar_default : option str }.

(** The lambda of L1188-1226: types of the parameters [lhs] and [rhs] and the
    parameters that are the operands. *)
Inductive name := Lhs | Rhs.
Record lambda := mkLambda { la_types : list type; la_result : type; la_operator : opkind; la_operands : list name }.

Inductive stmt :=
| SAlias (spelling : str) (target : nat)                  (* context.attr(..) = getObjectForType<..>() *)
| SVariable (spelling : str) (i : nat)                    (* context.attr(..) = .. *)
| SManual (lambda : nat)
| SFunction (static : bool) (spelling : str) (f : nat) (args : list arg) (a : function_attrs)
| SConvertible (from : option type) (r : nat)             (* implicitly_convertible *)
| SInit (f : nat) (types : list type) (args : list arg) (a : function_attrs)
| SOperator (spelling : str) (f : nat) (l : lambda)
| SPrint (spelling : str) (r : nat)                       (* string_from_lshift *)
| SProperty (spelling : str) (getter : nat) (setter : option nat)
| SMember (static readonly : bool) (spelling : str) (i : nat)
| SValue (spelling : str) (i : nat)
| SExportValues
| SUnused.                                                (* (void)context; *)

(** Reports during emission. *)
Inductive ereport :=
| EAnnotation (i : nat) (d : diag)
| ETrailingParameters (f p : nat)              (* at parameter number [p] *)
| ENoGetter (setter : nat) (name : str)
| EAlreadyDefined (m : nat) (name : str) (setter : bool) (previous : nat).

Definition is_error_ereport (e : ereport) : bool := match e with EAnnotation _ d => is_error d | _ => true end.

(** ** Helpers *)

Definition is_empty {A} (l : list A) : bool := match l with [] => true | _ => false end.

(** annotated_decl.h L236-243 [lookup<T>]. *)
Definition lookup_or {A} (u : unit) (st : storage) (supports : decl -> bool) (proj : attrs -> A) (i : nat) : A :=
  match get u st supports proj i with Some a => a | None => proj default_attrs end.

(** L266-273 [emitSpelling]. *)
Definition spelling (u : unit) (st : storage) (i : nat) (fallback : str) : str :=
  let s := n_spelling (lookup_or u st (fun _ => true) at_named i) in
  if negb (is_empty s) then s else if negb (is_empty fallback) then fallback else u_name u i.

(** L328-365 [emitParameters]: [pos] counts all parameters, [index] those described. *)
Fixpoint emit_parameters (f : nat) (a : function_attrs) (index pos : nat) (last_kwargs : option nat) (ps : list param) : list arg * list ereport :=
  match ps with
  | [] => ([], [])
  | p :: ps' =>
      match pm_variadic p with
      | Some Kwargs => emit_parameters f a index (S pos) (Some pos) ps'
      | Some Args => emit_parameters f a index (S pos) last_kwargs ps'
      | None =>
          match last_kwargs with
          | Some k => ([], [ETrailingParameters f k])
          | None =>
              let '(args, rs) := emit_parameters f a (S index) (S pos) last_kwargs ps' in
              (mkArg (pm_name p) (mem index (fn_noconvert a)) (mem index (fn_required a)) (pm_default p) :: args, rs)
          end
      end
  end.

Definition parameters (x : extra) (f : nat) (a : function_attrs) : list arg * list ereport :=
  emit_parameters f a 0 0 None (fi_params (x_fn x f)).

(** ** Operators *)

(** L503-515. *)
Definition unary_name (k : opkind) : str :=
  match k with OPlus => $"__pos__" | OMinus => $"__neg__" | OTilde => $"__invert__" | _ => [] end.

(** L517-613. *)
Definition binary_name (k : opkind) (reverse : bool) : str :=
  if reverse then
    match k with
    | OPlus => $"__radd__" | OMinus => $"__rsub__" | OStar => $"__rmul__" | OSlash => $"__rtruediv__" | OPercent => $"__rmod__"
    | OCaret => $"__rxor__" | OAmp => $"__rand__" | OPipe => $"__ror__" | OLess => $"__gt__" | OGreater => $"__lt__"
    | OLessLess => $"__rlshift__" | OGreaterGreater => $"__rrshift__" | OEqualEqual => $"__eq__" | OExclaimEqual => $"__ne__"
    | OLessEqual => $"__ge__" | OGreaterEqual => $"__le__" | _ => []
    end
  else
    match k with
    | OPlus => $"__add__" | OMinus => $"__sub__" | OStar => $"__mul__" | OSlash => $"__truediv__" | OPercent => $"__mod__"
    | OCaret => $"__xor__" | OAmp => $"__and__" | OPipe => $"__or__" | OLess => $"__lt__" | OGreater => $"__gt__"
    | OPlusEqual => $"__iadd__" | OMinusEqual => $"__isub__" | OStarEqual => $"__imul__" | OSlashEqual => $"__itruediv__"
    | OPercentEqual => $"__imod__" | OCaretEqual => $"__ixor__" | OAmpEqual => $"__iand__" | OPipeEqual => $"__ior__"
    | OLessLess => $"__lshift__" | OGreaterGreater => $"__rshift__" | OLessLessEqual => $"__ilshift__"
    | OGreaterGreaterEqual => $"__irshift__" | OEqualEqual => $"__eq__" | OExclaimEqual => $"__ne__"
    | OLessEqual => $"__le__" | OGreaterEqual => $"__ge__" | _ => []
    end.

(** L1115-1133. *)
Definition never_emitted (k : opkind) : bool :=
  match k with
  | ONew | ODelete | OArrayNew | OArrayDelete | OEqual | OSpaceship | OAmpAmp | OPipePipe | OPlusPlus | OMinusMinus
  | OComma | OArrowStar | OArrow | OCall | OSubscript => true
  | _ => false
  end.

(** L1188-1226 [emitOperatorDefinition]; [None]: the assertion fails. *)
Definition operator_lambda (k : opkind) (types : list type) (result : type) (reverse : bool) : option lambda :=
  match types with
  | [_] => Some (mkLambda (if reverse then rev types else types) result k [Lhs])
  | [_; _] => Some (mkLambda (if reverse then rev types else types) result k (if reverse then [Rhs; Lhs] else [Lhs; Rhs]))
  | _ => None
  end.

Definition is_method (u : unit) (i : nat) : bool :=
  match kind u i with KMethod _ | KConstructor | KDestructor | KConversion => true | _ => false end.

(** L1145-1154. *)
Definition operand_types (u : unit) (x : extra) (r i : nat) : list type :=
  (if is_method u i then [mkType (CRecord r) (fi_const (x_fn x i)) true] else []) ++ map pm_type (fi_params (x_fn x i)).

(** L1108-1186 [emitOperator]. *)
Definition emit_operator (u : unit) (x : extra) (r i : nat) (k : opkind) : option (list stmt) :=
  if never_emitted k then Some []
  else
    let types := operand_types u x r i in
    let unary := Nat.eqb (length types) 1 in
    if unary && (match k with OStar | OAmp => true | _ => false end) then Some []
    else
      match types with
      | [] => None
      | lhs :: _ =>
          let reverse := negb (core_eqb (ty_core lhs) (CRecord r)) in
          let name := if unary then unary_name k else binary_name k reverse in
          option_map (fun l => [SOperator name i l]) (operator_lambda k types (fi_result (x_fn x i)) reverse)
      end.

(** L615-629 [isOstreamOperator]; [None]: null pointer dereference. *)
Definition is_ostream_operator (u : unit) (x : extra) (i : nat) (k : opkind) : option bool :=
  if is_method u i || negb (match k with OLessLess => true | _ => false end) then Some false
  else match fi_pointee (x_fn x i) with
       | NoClass => Some false
       | Unnamed => None
       | Named b => Some b
       end.

(** L455-486: operators looked up. *)
Definition adl_kinds : list opkind :=
  [OPlus; OMinus; OStar; OSlash; OPercent; OCaret; OAmp; OPipe; OTilde; OLess; OGreater; OPlusEqual; OMinusEqual; OStarEqual; OSlashEqual;
   OPercentEqual; OCaretEqual; OAmpEqual; OPipeEqual; OLessLess; OGreaterGreater; OLessLessEqual; OGreaterGreaterEqual; OEqualEqual;
   OExclaimEqual; OLessEqual; OGreaterEqual; OSpaceship].

Definition expand (x : extra) (i : nat) : list nat := match x_specializations x i with Some l => l | None => [i] end.

(** L420-501 [collectOperatorDeclsViaArgumentDependentLookup]. *)
Definition has_type_of_record (r : nat) (p : param) : bool := core_eqb (ty_core (pm_type p)) (CRecord r).
Definition associated_operators (x : extra) (r : nat) : list nat :=
  filter (fun i => existsb (has_type_of_record r) (fi_params (x_fn x i))) (flat_map (expand x) (flat_map (x_adl x r) adl_kinds)).

(** ** Properties: [std::map<std::string, Property>] *)

(** [std::string::compare]. *)
Fixpoint str_compare (a b : str) : comparison :=
  match a, b with
  | [], [] => Eq
  | [], _ => Lt
  | _, [] => Gt
  | c :: a', d :: b' => match N.compare (code c) (code d) with Eq => str_compare a' b' | o => o end
  end.

Record property := mkProperty { pr_getter : option nat; pr_setter : option nat }.
Definition properties := list (str * property).

(** [properties[name]] followed by an update; also yields the previous value. *)
Fixpoint update (name : str) (f : property -> property) (ps : properties) : properties * property :=
  match ps with
  | [] => ([(name, f (mkProperty None None))], mkProperty None None)
  | (n, p) :: ps' =>
      match str_compare name n with
      | Eq => ((n, f p) :: ps', p)
      | Lt => ((name, f (mkProperty None None)) :: (n, p) :: ps', mkProperty None None)
      | Gt => let '(ps'', old) := update name f ps' in ((n, p) :: ps'', old)
      end
  end.

(** L1336-1355: one iteration of the loops. *)
Definition define_property (m : nat) (setter : bool) (acc : properties * list ereport) (name : str) : properties * list ereport :=
  let '(ps, rs) := acc in
  let '(ps', old) := update name (fun p => if setter then mkProperty (pr_getter p) (Some m) else mkProperty (Some m) (pr_setter p)) ps in
  let previous := if setter then pr_setter old else pr_getter old in
  (ps', rs ++ match previous with Some q => [EAlreadyDefined m name setter q] | None => [] end).

(** Iteration over [llvm::SmallSet<std::string, 1>]: sorted if there are several elements. *)
Fixpoint insert_str (s : str) (l : list str) : list str :=
  match l with [] => [s] | t :: l' => match str_compare s t with Gt => t :: insert_str s l' | Eq => l | Lt => s :: l end end.
Definition in_order (l : list str) : list str := fold_right insert_str [] l.

Definition define_properties (m : nat) (a : method_attrs) (ps : properties) : properties * list ereport :=
  fold_left (define_property m true) (in_order (m_setter_for a)) (fold_left (define_property m false) (in_order (m_getter_for a)) (ps, [])).

(** L1082-1106 [emitProperties]. *)
Definition emit_property (e : str * property) : list stmt * list ereport :=
  match pr_getter (snd e), pr_setter (snd e) with
  | None, None => ([], [])
  | None, Some s => ([], [ENoGetter s (fst e)])
  | Some g, s => ([SProperty (fst e) g s], [])
  end.
Definition emit_properties (ps : properties) : list stmt * list ereport :=
  (flat_map (fun e => fst (emit_property e)) ps, flat_map (fun e => snd (emit_property e)) ps).

(** ** Exposers *)

Inductive exposer := XContext | XNamespace (i : nat) | XEnum (i : nat) | XRecord (i : nat) (p : policy).

(** L844-871 [DeclContextExposer::create]; [None]: out of fuel. *)
Definition create (u : unit) (st : storage) (h : hierarchy) (c : nat) : option exposer :=
  match kind u c with
  | KNamespace => Some (XNamespace c)
  | KEnum => Some (XEnum c)
  | KRecord => option_map (XRecord c) (create_policy u st h c)
  | _ => Some XContext
  end.

Definition policy_of (e : exposer) : option policy := match e with XRecord _ p => Some p | _ => None end.

(** Result of handling one declaration; [None]: failing assertion, unreachable
    code or null pointer dereference. *)
Definition handled := option (list stmt * list ereport).
Definition nothing : handled := Some ([], []).
Definition says (s : stmt) : handled := Some ([s], []).

(** L898-971 [DeclContextExposer::handleDeclImpl]. *)
Definition handle_generic (u : unit) (x : extra) (st : storage) (i : nat) : handled :=
  if supports_constructor (u_decls u i) && has st i then None
  else
    match get_typedef u st i with
    | Some t =>
        match n_visible (lookup_or u st (fun _ => true) at_named i) with
        | None => nothing
        | Some _ =>
            if t_expose_here t then nothing
            else match x_tag x i with
                 | None => nothing
                 | Some target => says (SAlias (spelling u st i []) target)
                 end
        end
    | None =>
        match get u st supports_field at_field i with
        | Some v =>
            match f_manual v with
            | Some l => if f_postamble v then nothing else says (SManual l)
            | None => match kind u i with KField => None | _ => says (SVariable (spelling u st i []) i) end
            end
        | None =>
            if match get u st supports_method at_method i with
               | Some m => negb (is_empty (m_getter_for m)) || negb (is_empty (m_setter_for m))
               | None => false
               end
            then nothing
            else
              match get u st supports_function at_function i with
              | None => nothing
              | Some a =>
                  if fi_deleted (x_fn x i) then nothing
                  else
                    let call := match fi_operator (x_fn x i) with Some OCall => true | _ => false end in
                    let '(args, rs) := parameters x i a in
                    Some ([SFunction (is_method u i && d_static (u_decls u i)) (spelling u st i (if call then $"__call__" else [])) i args a], rs)
              end
        end
    end.

(** L1030-1043 [EnumExposer::handleDeclImpl]. *)
Definition handle_enum (u : unit) (x : extra) (st : storage) (i : nat) : handled :=
  if x_enumerator x i then says (SValue (spelling u st i []) i) else nothing.

(** L1265-1294: constructors. *)
Definition handle_constructor (u : unit) (x : extra) (st : storage) (r i : nat) (implicit : bool) : handled :=
  let f := x_fn x i in
  if fi_move f || fi_deleted f || x_abstract x r then nothing
  else
    let a := lookup_or u st supports_function at_function i in
    let '(args, rs) := parameters x i a in
    let init := SInit i (map pm_type (fi_params f)) args a in
    if implicit then
      match fi_params f with
      | [] => None
      | p :: _ => Some ([SConvertible (Some (pm_type p)) r; init], rs)
      end
    else Some ([init], rs).

(** L1298-1329: operators. *)
Definition handle_operator (u : unit) (x : extra) (st : storage) (r i : nat) : handled :=
  let f := x_fn x i in
  if fi_deleted f then nothing
  else
    match fi_operator f with
    | None | Some OCall => None
    | Some k =>
        match is_ostream_operator u x i k with
        | None => None
        | Some true =>
            match get_named u st i with
            | Some n => if is_empty (n_spelling n) then nothing else says (SPrint (n_spelling n) r)
            | None => nothing
            end
        | Some false => option_map (fun ss => (ss, [])) (emit_operator u x r i k)
        end
    end.

(** L1260-1379 [RecordExposer::handleDeclImpl]. *)
Definition handle_record (u : unit) (x : extra) (st : storage) (r i : nat) (ps : properties) : option (list stmt * list ereport * properties) :=
  let keep (h : handled) := option_map (fun sr => (sr, ps)) h in
  match get u st supports_constructor at_implicit_conversion i with
  | Some implicit => keep (handle_constructor u x st r i implicit)
  | None =>
      if supports_operator (u_decls u i) then keep (handle_operator u x st r i)
      else
        match (match get u st supports_method at_method i with
               | Some m => if negb (is_empty (m_getter_for m)) || negb (is_empty (m_setter_for m)) then Some m else None
               | None => None
               end) with
        | Some m => let '(ps', rs) := define_properties i m ps in Some ([], rs, ps')
        | None =>
            match get u st supports_field at_field i with
            | Some v =>
                keep (match f_manual v with
                      | Some l => if f_postamble v then None else says (SManual l)
                      | None =>
                          says (SMember (match kind u i with KVar => true | _ => false end) (x_const x i || f_readonly v) (spelling u st i []) i)
                      end)
            | None => keep (handle_generic u x st i)
            end
        end
  end.

Definition handle_impl (u : unit) (x : extra) (st : storage) (e : exposer) (i : nat) (ps : properties) : option (list stmt * list ereport * properties) :=
  let keep (h : handled) := option_map (fun sr => (sr, ps)) h in
  match e with
  | XContext | XNamespace _ => keep (handle_generic u x st i)
  | XEnum _ => keep (handle_enum u x st i)
  | XRecord r _ => handle_record u x st r i ps
  end.

(** L886-896 [handleDecl]. *)
Definition is_visible (u : unit) (st : storage) (default_visibility : bool) (i : nat) : bool :=
  match get_named u st i with
  | Some n => match n_visible n with Some v => v | None => default_visibility end
  | None => false
  end.

(** L973-975, L1018-1024, L1078-1080 [finalizeDefinition]. *)
Definition finalize (u : unit) (x : extra) (st : storage) (e : exposer) (ps : properties) : list stmt * list ereport :=
  match e with
  | XContext | XNamespace _ => ([SUnused], [])
  | XEnum i =>
      match get u st supports_enum at_enum i with
      | Some a => if match e_export_values a with Some b => b | None => negb (x_scoped x i) end then ([SExportValues], []) else ([], [])
      | None => ([], [])
      end
  | XRecord _ _ => emit_properties ps
  end.

Record state := mkState { em_storage : storage; em_stmts : list stmt; em_reports : list ereport; em_properties : properties }.

(** L804-807: the lambda [handle_decl]. *)
Definition handle_decl (u : unit) (x : extra) (e : exposer) (default_visibility : bool) (s : state) (i : nat) : option state :=
  match insert (u_decls u) i (em_storage s) with
  | None => None
  | Some (st, ds) =>
      let rs := em_reports s ++ map (EAnnotation i) ds in
      if is_visible u st default_visibility i then
        match handle_impl u x st e i (em_properties s) with
        | None => None
        | Some (ss, rs', ps) => Some (mkState st (em_stmts s ++ ss) (rs ++ rs') ps)
        end
      else Some (mkState st (em_stmts s) rs (em_properties s))
  end.

(** L796-838: the body of one definition, for the declarations [decls] found. *)
Definition define (u : unit) (x : extra) (e : exposer) (default_visibility : bool) (decls : list nat) (st : storage) : option (storage * list stmt * list ereport) :=
  match fold_opt (handle_decl u x e default_visibility) (flat_map (expand x) decls) (mkState st [] [] []) with
  | None => None
  | Some s =>
      let '(ss, rs) := finalize u x (em_storage s) e (em_properties s) in
      Some (em_storage s, em_stmts s ++ ss, em_reports s ++ rs)
  end.

(** L809-822: sorted by location, operators found by argument dependent lookup last. *)
Definition declarations (u : unit) (x : extra) (c : nat) (visible : list nat) : list nat :=
  sort_by_location u visible ++ match kind u c with KRecord => associated_operators x c | _ => [] end.
