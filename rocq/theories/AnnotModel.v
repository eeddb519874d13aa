(** * Annotations of declarations: model of src/annotated_decl.cpp and
    include/genpybind/annotated_decl.h. *)
From Verif Require Import Base ParserModel StringModel.

(** ** Declarations, as far as looked at by the annotation handlers *)

(** [FunctionDecl::getOverloadedOperator]. *)
Inductive oper := NoOperator | CallOperator | OtherOperator.

(** Classes of clang declarations distinguished by the [supports] functions.
    [KOther]: all other named declarations (enumerators, templates, using
    declarations, ...). *)
Inductive dkind :=
| KNamespace | KEnum | KRecord | KTypedef | KField | KVar
| KFunction (o : oper) | KMethod (o : oper) | KConstructor | KDestructor
| KConversion | KDeductionGuide | KOther.

(** A base class: identity of its definition and the spellings under which
    [ast_matchers::internal::HasNameMatcher] recognises it (clang's matcher is
    not modelled, it is given by this list). *)
Record base := mkBase { b_decl : nat; b_names : list str }.

Record decl := mkDecl {
  d_kind : dkind;
  d_attrs : list str;            (* texts of the [AnnotateAttr]s, in order *)
  d_skip : bool;                 (* [LookupContextCollector::shouldSkip] *)
  d_params : list str;           (* parameter names, empty if unnamed *)
  d_min_required : nat;          (* [getMinRequiredArguments] *)
  d_returns_void : bool;
  d_static : bool;               (* static member function *)
  d_converting : bool;           (* [isConvertingConstructor(true)] *)
  d_bases : list base;           (* direct bases, [bases()] *)
  d_all_bases : list base;       (* as visited by [forallBases] *)
  d_lambda : option nat;         (* [manual_bindings_expr], L826-847 *)
  d_global : bool;               (* the declaration context is the translation unit *)
  d_target : option nat          (* [aliasTarget], L568-574 *)
}.

(** ** Diagnostics (src/diagnostics.cpp, parser.cpp L259-263) *)
Inductive diag :=
| DParser (e : perror)
| DWrongArgumentType (k : akind) (v : lit)
| DWrongNumberOfArguments (k : akind)
| DInvalidForDeclKind (what : str) (a : annotation)
| DInvalidSpelling (k : akind) (text : str)
| DInvalidArgumentSpecifier (k : akind) (arg : str)
| DIncompatibleSignature (k : akind)
| DOnlyGlobalScope (k : akind)
| DConflicting
| DUnsupportedAliasTarget
| DUnknownBase (k : akind)           (* warning *)
| DInvalidAssumption.                (* warning *)

Definition is_error (d : diag) : bool :=
  match d with DUnknownBase _ | DInvalidAssumption => false | _ => true end.

(** ** Stored attributes (annotated_decl.h L49-205) *)
Record named_attrs := mkNamed { n_spelling : str; n_visible : option bool }.
Record namespace_attrs := mkNamespace { ns_module : bool; ns_only_expose_in : list str }.
Record enum_attrs := mkEnum { e_arithmetic : bool; e_export_values : option bool }.
Record record_attrs := mkRecord {
  r_dynamic_attr : bool; r_hide_base : list nat; r_inline_base : list nat; r_holder_type : str }.
Record typedef_attrs := mkTypedef { t_encourage : bool; t_expose_here : bool }.
Record field_attrs := mkField { f_readonly : bool; f_manual : option nat; f_postamble : bool }.
Record method_attrs := mkMethod { m_getter_for : list str; m_setter_for : list str }.
Record function_attrs := mkFunction {
  fn_keep_alive : list (nat * nat); fn_noconvert : list nat; fn_required : list nat; fn_policy : str }.

(** All attributes of one declaration.  The tuple of maps of
    annotated_decl.h L205-222 has an entry for a declaration in exactly the
    maps whose attribute type [supports] it; components of other types keep
    their defaults here and are not looked at. *)
Record attrs := mkAttrs {
  at_named : named_attrs; at_namespace : namespace_attrs; at_enum : enum_attrs; at_record : record_attrs;
  at_typedef : typedef_attrs; at_field : field_attrs; at_method : method_attrs;
  at_implicit_conversion : bool; at_function : function_attrs }.

(** Default member initialisers. *)
Definition default_attrs : attrs :=
  mkAttrs (mkNamed [] None) (mkNamespace false []) (mkEnum false None) (mkRecord false [] [] [])
          (mkTypedef false false) (mkField false None false) (mkMethod [] []) false (mkFunction [] [] [] []).

Definition set_named (f : named_attrs -> named_attrs) (a : attrs) : attrs :=
  mkAttrs (f (at_named a)) (at_namespace a) (at_enum a) (at_record a) (at_typedef a) (at_field a) (at_method a) (at_implicit_conversion a) (at_function a).
Definition set_namespace (f : namespace_attrs -> namespace_attrs) (a : attrs) : attrs :=
  mkAttrs (at_named a) (f (at_namespace a)) (at_enum a) (at_record a) (at_typedef a) (at_field a) (at_method a) (at_implicit_conversion a) (at_function a).
Definition set_enum (f : enum_attrs -> enum_attrs) (a : attrs) : attrs :=
  mkAttrs (at_named a) (at_namespace a) (f (at_enum a)) (at_record a) (at_typedef a) (at_field a) (at_method a) (at_implicit_conversion a) (at_function a).
Definition set_record (f : record_attrs -> record_attrs) (a : attrs) : attrs :=
  mkAttrs (at_named a) (at_namespace a) (at_enum a) (f (at_record a)) (at_typedef a) (at_field a) (at_method a) (at_implicit_conversion a) (at_function a).
Definition set_typedef (f : typedef_attrs -> typedef_attrs) (a : attrs) : attrs :=
  mkAttrs (at_named a) (at_namespace a) (at_enum a) (at_record a) (f (at_typedef a)) (at_field a) (at_method a) (at_implicit_conversion a) (at_function a).
Definition set_field (f : field_attrs -> field_attrs) (a : attrs) : attrs :=
  mkAttrs (at_named a) (at_namespace a) (at_enum a) (at_record a) (at_typedef a) (f (at_field a)) (at_method a) (at_implicit_conversion a) (at_function a).
Definition set_method (f : method_attrs -> method_attrs) (a : attrs) : attrs :=
  mkAttrs (at_named a) (at_namespace a) (at_enum a) (at_record a) (at_typedef a) (at_field a) (f (at_method a)) (at_implicit_conversion a) (at_function a).
Definition set_implicit_conversion (b : bool) (a : attrs) : attrs :=
  mkAttrs (at_named a) (at_namespace a) (at_enum a) (at_record a) (at_typedef a) (at_field a) (at_method a) b (at_function a).
Definition set_function (f : function_attrs -> function_attrs) (a : attrs) : attrs :=
  mkAttrs (at_named a) (at_namespace a) (at_enum a) (at_record a) (at_typedef a) (at_field a) (at_method a) (at_implicit_conversion a) (f (at_function a)).

Definition set_visible (v : option bool) : attrs -> attrs := set_named (fun n => mkNamed (n_spelling n) v).
Definition set_spelling (s : str) : attrs -> attrs := set_named (fun n => mkNamed s (n_visible n)).

(** [SmallSet::insert], [SmallPtrSet::insert]. *)
Definition add_nat (x : nat) (s : list nat) : list nat := if existsb (Nat.eqb x) s then s else s ++ [x].
Definition add_str (x : str) (s : list str) : list str := if existsb (str_eqb x) s then s else s ++ [x].

(** ** [ArgumentsDispatcher], L140-250 *)

Inductive vkind := VString | VUnsigned | VBoolean | VDefault.
Definition isa (k : vkind) (v : lit) : bool :=
  match k, v with
  | VString, LString _ | VUnsigned, LUnsigned _ | VBoolean, LBool _ | VDefault, LDefault => true
  | _, _ => false
  end.

(** [getString], [getBoolean]; only applied to values of the right kind. *)
Definition get_string (v : lit) : str := match v with LString s => s | _ => [] end.
Definition get_boolean (v : lit) : bool := match v with LBool b => b | _ => false end.

Inductive dstate := Unmatched | Matched | Invalid.

(** Processing functions may change the attributes and report diagnostics. *)
Definition action := attrs -> attrs * list diag.
Definition change (f : attrs -> attrs) : action := fun a => (f a, []).
Definition complain (d : diag) : action := fun a => (a, [d]).

Record dispatcher := mkDispatcher {
  ds_state : dstate; ds_mismatch : option lit; ds_attrs : attrs; ds_diags : list diag }.

Definition dispatch (a : attrs) : dispatcher := mkDispatcher Unmatched None a [].

Definition unmatched (s : dispatcher) : bool := match ds_state s with Unmatched => true | _ => false end.

Definition perform (f : action) (s : dispatcher) : dispatcher :=
  let '(a, ds) := f (ds_attrs s) in mkDispatcher (ds_state s) (ds_mismatch s) a (ds_diags s ++ ds).
Definition matched (s : dispatcher) : dispatcher := mkDispatcher Matched (ds_mismatch s) (ds_attrs s) (ds_diags s).
Definition invalid (s : dispatcher) : dispatcher := mkDispatcher Invalid (ds_mismatch s) (ds_attrs s) (ds_diags s).
Definition mismatch (v : lit) (s : dispatcher) : dispatcher := mkDispatcher (ds_state s) (Some v) (ds_attrs s) (ds_diags s).

(** L147-155 [checkArgKinds]: first argument of another kind. *)
Definition wrong_kind (k : vkind) (args : list lit) : option lit := find (fun v => negb (isa k v)) args.

(** L189-195. *)
Definition nullary (args : list lit) (f : action) (s : dispatcher) : dispatcher :=
  if unmatched s then match args with [] => matched (perform f s) | _ => s end else s.

(** L198-206. *)
Definition unary (args : list lit) (k : vkind) (f : lit -> action) (s : dispatcher) : dispatcher :=
  if unmatched s then
    match args with
    | [v] => match wrong_kind k args with Some w => mismatch w s | None => matched (perform (f v) s) end
    | _ => s
    end
  else s.

(** L209-218. *)
Definition binary (args : list lit) (k : vkind) (f : lit -> lit -> action) (s : dispatcher) : dispatcher :=
  if unmatched s then
    match args with
    | [v; w] => match wrong_kind k args with Some x => mismatch x s | None => matched (perform (f v w) s) end
    | _ => s
    end
  else s.

Fixpoint perform_all (f : lit -> action) (args : list lit) (s : dispatcher) : dispatcher :=
  match args with [] => s | v :: args' => perform_all f args' (perform (f v) s) end.

(** L221-230. *)
Definition variadic (args : list lit) (k : vkind) (f : lit -> action) (s : dispatcher) : dispatcher :=
  if unmatched s then
    match args with
    | [] => s
    | _ => match wrong_kind k args with Some w => mismatch w s | None => matched (perform_all f args s) end
    end
  else s.

(** L236-249; [transform] may report diagnostics, [process] returns whether the
    number of arguments is right. *)
Definition variadic_collect (args : list lit) (k : vkind) (transform : lit -> str * list diag)
    (process : list str -> attrs -> bool * attrs * list diag) (s : dispatcher) : dispatcher :=
  if unmatched s then
    match wrong_kind k args with
    | Some w => mismatch w s
    | None =>
        let results := map (fun v => fst (transform v)) args in
        let s1 := perform (fun a => (a, flat_map (fun v => snd (transform v)) args)) s in
        let '(ok, a, ds) := process results (ds_attrs s1) in
        let s2 := mkDispatcher (ds_state s1) (ds_mismatch s1) a (ds_diags s1 ++ ds) in
        if ok then matched s2 else s2
    end
  else s.

(** L182-186 [ensure]; the condition may report. *)
Definition ensure (cond : bool * list diag) (s : dispatcher) : dispatcher :=
  match ds_state s with
  | Invalid => s
  | _ =>
      let s1 := perform (fun a => (a, snd cond)) s in
      if fst cond then s1 else invalid s1
  end.

(** L175-180 [onMatch]. *)
Definition on_match (f : action) (s : dispatcher) : dispatcher :=
  match ds_state s with Matched => perform f s | _ => s end.

(** L163-173 [checkMatch]; result of a handler: handled?, attributes, diagnostics. *)
Definition check_match (k : akind) (s : dispatcher) : bool * attrs * list diag :=
  match ds_state s with
  | Unmatched =>
      (false, ds_attrs s,
       ds_diags s ++ [match ds_mismatch s with Some v => DWrongArgumentType k v | None => DWrongNumberOfArguments k end])
  | Matched => (true, ds_attrs s, ds_diags s)
  | Invalid => (false, ds_attrs s, ds_diags s)
  end.

Definition not_mine (a : attrs) : bool * attrs * list diag := (false, a, []).
(** Without [checkMatch], returning false. *)
Definition no_check (s : dispatcher) : bool * attrs * list diag := (false, ds_attrs s, ds_diags s).

(** ** Handlers *)

Definition is_namespace (d : decl) : bool := match d_kind d with KNamespace => true | _ => false end.
Definition is_typedef (d : decl) : bool := match d_kind d with KTypedef => true | _ => false end.

Definition store_spelling (k : akind) (v : lit) : action :=
  let text := get_string v in
  if is_valid_identifier text then change (set_spelling text) else complain (DInvalidSpelling k text).

(** L258-314. *)
Definition process_named (d : decl) (an : annotation) (a : attrs) : bool * attrs * list diag :=
  let k := a_kind an in let args := a_args an in
  match k with
  | Hidden => check_match k (nullary args (change (set_visible (Some false))) (dispatch a))
  | Visible =>
      check_match k
        (unary args VBoolean (fun v => change (set_visible (Some (get_boolean v))))
          (unary args VDefault (fun _ => change (set_visible None))
            (nullary args (change (set_visible (Some true))) (dispatch a))))
  | ExposeAs =>
      check_match k
        (unary args VString (store_spelling k)
          (unary args VDefault (fun _ => change (set_spelling [])) (dispatch a)))
  | Module =>
      no_check (unary args VString (store_spelling k) (ensure (is_namespace d, []) (dispatch a)))
  | _ => not_mine a
  end.

(** L344-368. *)
Definition process_namespace (d : decl) (an : annotation) (a : attrs) : bool * attrs * list diag :=
  let k := a_kind an in let args := a_args an in
  let set_module := set_namespace (fun n => mkNamespace true (ns_only_expose_in n)) in
  match k with
  | Module =>
      check_match k (unary args VString (fun _ => change set_module) (nullary args (change set_module) (dispatch a)))
  | OnlyExposeIn =>
      check_match k
        (variadic args VString
          (fun v => change (set_namespace (fun n => mkNamespace (ns_module n) (ns_only_expose_in n ++ [get_string v]))))
          (dispatch a))
  | _ => not_mine a
  end.

(** The pattern [nullary(flag = true).unary(Boolean, flag = value)]. *)
Definition flag (args : list lit) (set : bool -> attrs -> attrs) (s : dispatcher) : dispatcher :=
  unary args VBoolean (fun v => change (set (get_boolean v))) (nullary args (change (set true)) s).

(** L374-399. *)
Definition process_enum (d : decl) (an : annotation) (a : attrs) : bool * attrs * list diag :=
  let k := a_kind an in let args := a_args an in
  match k with
  | Arithmetic =>
      check_match k (flag args (fun b => set_enum (fun e => mkEnum b (e_export_values e))) (dispatch a))
  | ExportValues =>
      check_match k (flag args (fun b => set_enum (fun e => mkEnum (e_arithmetic e) (Some b))) (dispatch a))
  | _ => not_mine a
  end.

(** [HasNameMatcher(names).matchesNode(base)]: any of the names. *)
Definition matches (names : list str) (b : base) : bool :=
  existsb (fun n => existsb (str_eqb n) (b_names b)) names.

(** L431-451, L469-489: the bases selected and whether there is a warning. *)
Definition select_bases (k : akind) (bases : list base) (insert : nat -> attrs -> attrs)
    (names : list str) (a : attrs) : bool * attrs * list diag :=
  let sel := filter (fun b => match names with [] => true | _ => matches names b end) bases in
  let a' := fold_left (fun a b => insert (b_decl b) a) sel a in
  (true, a', match sel with [] => [DUnknownBase k] | _ => [] end).

Definition plain_string (v : lit) : str * list diag := (get_string v, []).

(** L405-492. *)
Definition process_record (d : decl) (an : annotation) (a : attrs) : bool * attrs * list diag :=
  let k := a_kind an in let args := a_args an in
  match k with
  | DynamicAttr =>
      check_match k (flag args (fun b => set_record (fun r => mkRecord b (r_hide_base r) (r_inline_base r) (r_holder_type r))) (dispatch a))
  | HideBase =>
      check_match k
        (variadic_collect args VString plain_string
          (select_bases k (d_bases d)
            (fun x => set_record (fun r => mkRecord (r_dynamic_attr r) (add_nat x (r_hide_base r)) (r_inline_base r) (r_holder_type r))))
          (dispatch a))
  | HolderType =>
      check_match k
        (unary args VString
          (fun v => change (set_record (fun r => mkRecord (r_dynamic_attr r) (r_hide_base r) (r_inline_base r) (get_string v))))
          (dispatch a))
  | InlineBase =>
      check_match k
        (variadic_collect args VString plain_string
          (select_bases k (d_all_bases d)
            (fun x => set_record (fun r => mkRecord (r_dynamic_attr r) (r_hide_base r) (add_nat x (r_inline_base r)) (r_holder_type r))))
          (dispatch a))
  | _ => not_mine a
  end.

(** L505-531. *)
Definition check_for_conflict : action :=
  fun a => (a, if t_encourage (at_typedef a) && t_expose_here (at_typedef a) then [DConflicting] else []).

Definition process_typedef (d : decl) (an : annotation) (a : attrs) : bool * attrs * list diag :=
  let k := a_kind an in let args := a_args an in
  match k with
  | Encourage =>
      check_match k (on_match check_for_conflict
        (nullary args (change (set_typedef (fun t => mkTypedef true (t_expose_here t)))) (dispatch a)))
  | ExposeHere =>
      check_match k (on_match check_for_conflict
        (nullary args (change (set_typedef (fun t => mkTypedef (t_encourage t) true))) (dispatch a)))
  | _ => not_mine a
  end.

(** L589-606 [make_parameter_indices_lookup]: index of the first occurrence
    (the cast of the distance to [unsigned] is not modelled). *)
Fixpoint index_of (name : str) (names : list str) : option nat :=
  match names with
  | [] => None
  | n :: names' => if str_eqb n name then Some 0 else option_map S (index_of name names')
  end.

Definition parameter_names (add_return add_this : bool) (d : decl) : list str :=
  (if add_return then [$"return"] else []) ++ (if add_this then [$"this"] else []) ++ d_params d.

(** [llvm::isa<clang::CXXMethodDecl>]: includes constructors, destructors and
    conversion functions, static or not. *)
Definition is_method_decl (d : decl) : bool :=
  match d_kind d with KMethod _ | KConstructor | KDestructor | KConversion => true | _ => false end.

(** L582-675. *)
Definition process_function (d : decl) (an : annotation) (a : attrs) : bool * attrs * list diag :=
  let k := a_kind an in let args := a_args an in
  let lookup := fun v => index_of (get_string v) (parameter_names false false d) in
  match k with
  | ReturnValuePolicy =>
      check_match k
        (unary args VString
          (fun v => change (set_function (fun f => mkFunction (fn_keep_alive f) (fn_noconvert f) (fn_required f) (get_string v))))
          (dispatch a))
  | KeepAlive =>
      let lookup := fun v => index_of (get_string v) (parameter_names true (is_method_decl d) d) in
      check_match k
        (binary args VString
          (fun v w =>
             match lookup v with
             | None => complain (DInvalidArgumentSpecifier k (get_string v))
             | Some i =>
                 match lookup w with
                 | None => complain (DInvalidArgumentSpecifier k (get_string w))
                 | Some j => change (set_function (fun f => mkFunction (fn_keep_alive f ++ [(i, j)]) (fn_noconvert f) (fn_required f) (fn_policy f)))
                 end
             end)
          (dispatch a))
  | Noconvert =>
      check_match k
        (variadic args VString
          (fun v => match lookup v with
                    | None => complain (DInvalidArgumentSpecifier k (get_string v))
                    | Some i => change (set_function (fun f => mkFunction (fn_keep_alive f) (add_nat i (fn_noconvert f)) (fn_required f) (fn_policy f)))
                    end)
          (dispatch a))
  | Required =>
      check_match k
        (variadic args VString
          (fun v => match lookup v with
                    | None => complain (DInvalidArgumentSpecifier k (get_string v))
                    | Some i => change (set_function (fun f => mkFunction (fn_keep_alive f) (fn_noconvert f) (add_nat i (fn_required f)) (fn_policy f)))
                    end)
          (dispatch a))
  | _ => not_mine a
  end.

(** L685-699: operators and conversion functions have no annotations of their own. *)
Definition process_operator (d : decl) (an : annotation) (a : attrs) : bool * attrs * list diag := not_mine a.
Definition process_conversion (d : decl) (an : annotation) (a : attrs) : bool * attrs * list diag := not_mine a.

(** L722-731. *)
Definition collect_identifier (k : akind) (v : lit) : str * list diag :=
  let text := get_string v in
  if is_valid_identifier text then (text, []) else ([], [DInvalidSpelling k text]).

Definition signature_ok (k : akind) (ok : bool) : bool * list diag :=
  (ok, if ok then [] else [DIncompatibleSignature k]).

(** L748-754, L768-774. *)
Definition add_properties (insert : str -> attrs -> attrs) (names : list str) (a : attrs) : bool * attrs * list diag :=
  match names with
  | [] => (false, a, [])
  | _ => (true, fold_left (fun a n => insert n a) names a, [])
  end.

(** L709-777. *)
Definition process_method (d : decl) (an : annotation) (a : attrs) : bool * attrs * list diag :=
  let k := a_kind an in let args := a_args an in
  match k with
  | GetterFor =>
      check_match k
        (variadic_collect args VString (collect_identifier k)
          (add_properties (fun n => set_method (fun m => mkMethod (add_str n (m_getter_for m)) (m_setter_for m))))
          (ensure (signature_ok k (negb (negb (Nat.eqb (d_min_required d) 0) || d_returns_void d))) (dispatch a)))
  | SetterFor =>
      check_match k
        (variadic_collect args VString (collect_identifier k)
          (add_properties (fun n => set_method (fun m => mkMethod (m_getter_for m) (add_str n (m_setter_for m)))))
          (ensure (signature_ok k (negb (Nat.ltb (length (d_params d)) 1 || Nat.ltb 1 (d_min_required d)))) (dispatch a)))
  | _ => not_mine a
  end.

(** L783-813. *)
Definition process_constructor (d : decl) (an : annotation) (a : attrs) : bool * attrs * list diag :=
  let k := a_kind an in let args := a_args an in
  match k with
  | ImplicitConversion =>
      let ok := negb (negb (Nat.eqb (length (d_params d)) 1) || negb (d_converting d)) in
      check_match k
        (flag args set_implicit_conversion
          (ensure (ok, if ok then [] else [DInvalidForDeclKind $"non-converting constructor" an]) (dispatch a)))
  | _ => not_mine a
  end.

(** L826-847: only variables have a suitable initialiser. *)
Definition manual_bindings_expr (d : decl) : option nat :=
  match d_kind d with KVar => d_lambda d | _ => None end.

(** L819-885. *)
Definition process_field (d : decl) (an : annotation) (a : attrs) : bool * attrs * list diag :=
  let k := a_kind an in let args := a_args an in
  match k with
  | Readonly =>
      check_match k (flag args (fun b => set_field (fun f => mkField b (f_manual f) (f_postamble f))) (dispatch a))
  | Postamble =>
      check_match k
        (nullary args (change (set_field (fun f => mkField (f_readonly f) (f_manual f) true)))
          (ensure (match manual_bindings_expr d with
                   | None => (false, [])
                   | Some _ => if d_global d then (true, []) else (false, [DOnlyGlobalScope k])
                   end) (dispatch a)))
  | Manual =>
      check_match k
        (nullary args (change (set_field (fun f => mkField (f_readonly f) (manual_bindings_expr d) (f_postamble f))))
          (ensure (match manual_bindings_expr d with None => false | Some _ => true end, []) (dispatch a)))
  | _ => not_mine a
  end.

(** ** [AnnotationStorage::insert], L887-930 *)

(** The [supports] functions (L254, L340, L370, L401, L494, L576-580,
    L677-683, L691, L701-707, L779, L815); the diagnostics reported by the one
    for type aliases are in [supports_typedef_diags]. *)
Definition supports_operator (d : decl) : bool :=
  match d_kind d with KFunction OtherOperator | KMethod OtherOperator => true | _ => false end.
Definition supports_conversion (d : decl) : bool := match d_kind d with KConversion => true | _ => false end.
Definition supports_function (d : decl) : bool :=
  match d_kind d with KFunction _ | KMethod _ | KConstructor | KConversion => true | _ => false end.
Definition supports_constructor (d : decl) : bool := match d_kind d with KConstructor => true | _ => false end.
Definition supports_method (d : decl) : bool :=
  is_method_decl d && supports_function d && negb (supports_constructor d) &&
  negb (supports_operator d) && negb (supports_conversion d).
Definition supports_enum (d : decl) : bool := match d_kind d with KEnum => true | _ => false end.
Definition supports_record (d : decl) : bool := match d_kind d with KRecord => true | _ => false end.
Definition supports_field (d : decl) : bool := match d_kind d with KField | KVar => true | _ => false end.

(** UTF-8 encoding of the lozenge, L56. *)
Definition lozenge : str := [ascii_of_N 226; ascii_of_N 151; ascii_of_N 138].

Fixpoint consume_front (prefix text : str) : option str :=
  match prefix, text with
  | [], _ => Some text
  | p :: ps, c :: cs => if ascii_dec p c then consume_front ps cs else None
  | _, [] => None
  end.

(** [StringRef::ltrim]: space, \t, \n, \v, \f, \r. *)
Definition is_trim_space (c : ascii) : bool := is_hspace c || (code c =? 10)%N || (code c =? 13)%N.

(** L58-68. *)
Definition has_annotations (d : decl) (allow_empty : bool) : bool :=
  existsb (fun text =>
    match consume_front lozenge text with
    | None => false
    | Some rest =>
        if allow_empty then true else match drop_while is_trim_space rest with [] => false | _ => true end
    end) (d_attrs d).

(** L494-503: diagnostics of each call of [TypedefNameDeclAttrs::supports]. *)
Definition supports_typedef_diags (d : decl) : list diag :=
  if is_typedef d then
    match d_target d with
    | None => if has_annotations d true then [DUnsupportedAliasTarget] else []
    | Some _ => []
    end
  else [].

(** L70-88. Parser errors are reported, annotations parsed before the error
    are kept. *)
Fixpoint parse_attrs (texts : list str) (acc : list annotation) : list annotation * list diag :=
  match texts with
  | [] => (acc, [])
  | text :: texts' =>
      match consume_front lozenge text with
      | None => parse_attrs texts' acc
      | Some rest =>
          let '(r, acc') := parse_annotations_into rest acc in
          let ds := match r with RErr e => [DParser e] | _ => [] end in
          let '(acc'', ds') := parse_attrs texts' acc' in
          (acc'', ds ++ ds')
      end
  end.

(** L90-113. *)
Definition friendly_name (d : decl) : str :=
  match d_kind d with
  | KNamespace => $"namespace" | KEnum => $"enum" | KRecord => $"class" | KTypedef => $"type alias"
  | KField | KVar => $"variable"
  | _ =>
      if supports_operator d then $"operator"
      else if supports_conversion d then $"conversion function"
      else if supports_method d then $"method"
      else if supports_constructor d then $"constructor"
      else if supports_function d then $"free function"
      else $"named declaration"
  end.

Definition handler := annotation -> attrs -> bool * attrs * list diag.

(** L899-910: the supported attribute types in the order of the tuple
    (annotated_decl.h L208-212). *)
Definition handlers (d : decl) : list handler :=
  [process_named d] ++
  (if is_namespace d then [process_namespace d] else []) ++
  (if supports_enum d then [process_enum d] else []) ++
  (if supports_record d then [process_record d] else []) ++
  (if is_typedef d then [process_typedef d] else []) ++
  (if supports_field d then [process_field d] else []) ++
  (if supports_operator d then [process_operator d] else []) ++
  (if supports_conversion d then [process_conversion d] else []) ++
  (if supports_method d then [process_method d] else []) ++
  (if supports_constructor d then [process_constructor d] else []) ++
  (if supports_function d then [process_function d] else []).

(** L924-925: [llvm::any_of]. *)
Fixpoint any_of (hs : list handler) (an : annotation) (a : attrs) : bool * attrs * list diag :=
  match hs with
  | [] => (false, a, [])
  | h :: hs' =>
      let '(ok, a1, ds1) := h an a in
      if ok then (true, a1, ds1)
      else let '(ok', a2, ds2) := any_of hs' an a1 in (ok', a2, ds1 ++ ds2)
  end.

(** L922-929: one annotation.  [None]: a diagnostic is reported while another
    one is being built.  L131-133 evaluates [friendlyName], which calls
    [TypedefNameDeclAttrs::supports], after having obtained the builder for the
    first diagnostic; clang's [DiagnosticsEngine::Report] forbids this
    (assertion; undefined behaviour without assertions). *)
Definition process_annotation (d : decl) (an : annotation) (a : attrs) : option (attrs * list diag) :=
  let '(ok, a', ds) := any_of (handlers d) an a in
  if existsb is_error ds || ok then Some (a', ds)
  else match supports_typedef_diags d with
       | [] => Some (a', ds ++ [DInvalidForDeclKind (friendly_name d) an])
       | _ => None
       end.

(** The loop L922-929; diagnostics are kept per annotation. *)
Fixpoint process_annotations (d : decl) (ans : list annotation) (a : attrs) : option (attrs * list (list diag)) :=
  match ans with
  | [] => Some (a, [])
  | an :: ans' =>
      match process_annotation d an a with
      | None => None
      | Some (a1, ds) =>
          match process_annotations d ans' a1 with
          | None => None
          | Some (a2, dss) => Some (a2, ds :: dss)
          end
      end
  end.

(** L912-918. *)
Definition initial_attrs (d : decl) : attrs :=
  if negb (is_namespace d) && has_annotations d false then set_visible (Some true) default_attrs else default_attrs.

(** L899-929 for a declaration that is not stored yet. *)
Definition compute_attrs (d : decl) : option (attrs * list diag) :=
  let '(ans, parse_ds) := parse_attrs (d_attrs d) [] in
  match process_annotations d ans (initial_attrs d) with
  | None => None
  | Some (a, dss) => Some (a, supports_typedef_diags d ++ parse_ds ++ concat dss)
  end.

(** ** Storage (annotated_decl.h L199-263): declarations are numbers *)

Definition storage := list (nat * attrs).

Fixpoint lookup_attrs (st : storage) (i : nat) : option attrs :=
  match st with
  | [] => None
  | (j, a) :: st' => if Nat.eqb i j then Some a else lookup_attrs st' i
  end.

Definition has (st : storage) (i : nat) : bool := match lookup_attrs st i with Some _ => true | None => false end.

(** L887-930. *)
Definition insert (decls : nat -> decl) (i : nat) (st : storage) : option (storage * list diag) :=
  if d_skip (decls i) then Some (st, [DInvalidAssumption])
  else if has st i then Some (st, [])
  else match compute_attrs (decls i) with
       | None => None
       | Some (a, ds) => Some (st ++ [(i, a)], ds)
       end.

Fixpoint insert_all (decls : nat -> decl) (is : list nat) (st : storage) : option (storage * list diag) :=
  match is with
  | [] => Some (st, [])
  | i :: is' =>
      match insert decls i st with
      | None => None
      | Some (st1, ds1) =>
          match insert_all decls is' st1 with
          | None => None
          | Some (st2, ds2) => Some (st2, ds1 ++ ds2)
          end
      end
  end.
