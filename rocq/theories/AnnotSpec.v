(** * Specification of the annotations of declarations: which annotations are
    accepted where, and what they mean (README.md, annotations.def). *)
From Verif Require Import Base ParserModel ParserSpec StringSpec AnnotModel.

Definition is_function (d : decl) : Prop :=
  match d_kind d with KFunction _ | KMethod _ | KConstructor | KConversion => True | _ => False end.
(** Member functions other than constructors, conversions, destructors and
    operators (a call operator counts as ordinary). *)
Definition is_ordinary_method (d : decl) : Prop := d_kind d = KMethod NoOperator \/ d_kind d = KMethod CallOperator.
Definition is_member_function (d : decl) : Prop :=
  match d_kind d with KMethod _ | KConstructor | KConversion | KDestructor => True | _ => False end.

(** Names usable in keep_alive. *)
Definition call_slot (d : decl) (n : str) : Prop :=
  n = $"return" \/ (is_member_function d /\ n = $"this") \/ In n (d_params d).

Definition flag_args (args : list lit) : Prop := args = [] \/ exists b, args = [LBool b].

(** Annotations that are valid for a declaration: the kind has to fit the
    declaration, and the arguments have to have one of the listed forms. *)
Inductive well_formed (d : decl) : annotation -> Prop :=
| wf_hidden : well_formed d (mkAnnotation Hidden [])
| wf_visible args : flag_args args -> well_formed d (mkAnnotation Visible args)
| wf_visible_default : well_formed d (mkAnnotation Visible [LDefault])
| wf_expose_as s : identifier s -> well_formed d (mkAnnotation ExposeAs [LString s])
| wf_expose_as_default : well_formed d (mkAnnotation ExposeAs [LDefault])
| wf_module : d_kind d = KNamespace -> well_formed d (mkAnnotation Module [])
| wf_module_as s : d_kind d = KNamespace -> identifier s -> well_formed d (mkAnnotation Module [LString s])
| wf_only_expose_in ss : d_kind d = KNamespace -> ss <> [] -> well_formed d (mkAnnotation OnlyExposeIn (map LString ss))
| wf_arithmetic args : d_kind d = KEnum -> flag_args args -> well_formed d (mkAnnotation Arithmetic args)
| wf_export_values args : d_kind d = KEnum -> flag_args args -> well_formed d (mkAnnotation ExportValues args)
| wf_dynamic_attr args : d_kind d = KRecord -> flag_args args -> well_formed d (mkAnnotation DynamicAttr args)
| wf_hide_base ss : d_kind d = KRecord -> well_formed d (mkAnnotation HideBase (map LString ss))
| wf_inline_base ss : d_kind d = KRecord -> well_formed d (mkAnnotation InlineBase (map LString ss))
| wf_holder_type s : d_kind d = KRecord -> well_formed d (mkAnnotation HolderType [LString s])
| wf_implicit_conversion args : d_kind d = KConstructor -> length (d_params d) = 1 -> d_converting d = true ->
    flag_args args -> well_formed d (mkAnnotation ImplicitConversion args)
| wf_getter_for ss : is_ordinary_method d -> d_min_required d = 0 -> d_returns_void d = false ->
    ss <> [] -> Forall identifier ss -> well_formed d (mkAnnotation GetterFor (map LString ss))
| wf_setter_for ss : is_ordinary_method d -> d_params d <> [] -> d_min_required d <= 1 ->
    ss <> [] -> Forall identifier ss -> well_formed d (mkAnnotation SetterFor (map LString ss))
| wf_keep_alive s t : is_function d -> call_slot d s -> call_slot d t ->
    well_formed d (mkAnnotation KeepAlive [LString s; LString t])
| wf_noconvert ss : is_function d -> ss <> [] -> Forall (fun s => In s (d_params d)) ss ->
    well_formed d (mkAnnotation Noconvert (map LString ss))
| wf_required ss : is_function d -> ss <> [] -> Forall (fun s => In s (d_params d)) ss ->
    well_formed d (mkAnnotation Required (map LString ss))
| wf_return_value_policy s : is_function d -> well_formed d (mkAnnotation ReturnValuePolicy [LString s])
| wf_manual e : d_kind d = KVar -> d_lambda d = Some e -> well_formed d (mkAnnotation Manual [])
| wf_postamble e : d_kind d = KVar -> d_lambda d = Some e -> d_global d = true -> well_formed d (mkAnnotation Postamble [])
| wf_expose_here : d_kind d = KTypedef -> well_formed d (mkAnnotation ExposeHere [])
| wf_encourage : d_kind d = KTypedef -> well_formed d (mkAnnotation Encourage [])
| wf_readonly args : d_kind d = KField \/ d_kind d = KVar -> flag_args args -> well_formed d (mkAnnotation Readonly args).

(** expose_here and encourage exclude each other. *)
Definition conflict (before : list annotation) (an : annotation) : Prop :=
  (an = mkAnnotation ExposeHere [] \/ an = mkAnnotation Encourage []) /\
  In (mkAnnotation ExposeHere []) (before ++ [an]) /\ In (mkAnnotation Encourage []) (before ++ [an]).

Definition accepted (d : decl) (before : list annotation) (an : annotation) : Prop :=
  well_formed d an /\ ~ conflict before an.

Definition has_error (ds : list diag) : Prop := exists e, In e ds /\ is_error e = true.

(** An alias that has annotations although its target is not a class or
    enumeration. *)
Definition targetless_alias (d : decl) : Prop :=
  d_kind d = KTypedef /\ d_target d = None /\ exists rest, In (lozenge ++ rest) (d_attrs d).

(** Kinds that have a meaning for type aliases. *)
Definition alias_kind (k : akind) : Prop := In k [ExposeAs; Hidden; Visible; ExposeHere; Encourage].

(** ** Meaning of a list of annotations *)

(** [v] is the value given by the last annotation that has one. *)
Definition latest {A} (f : annotation -> option A) (ans : list annotation) (default v : A) : Prop :=
  (v = default /\ forall an, In an ans -> f an = None) \/
  exists l1 an l2, ans = l1 ++ an :: l2 /\ f an = Some v /\ forall an', In an' l2 -> f an' = None.

Definition akind_eqb (a b : akind) : bool := if (ltac:(decide equality) : {a = b} + {a <> b}) then true else false.

Definition visibility_of (an : annotation) : option (option bool) :=
  match a_kind an, a_args an with
  | Hidden, [] => Some (Some false)
  | Visible, [] => Some (Some true)
  | Visible, [LBool b] => Some (Some b)
  | Visible, [LDefault] => Some None
  | _, _ => None
  end.

(** [expose_as(default)] resets the spelling, which is the empty string. *)
Definition spelling_of (d : decl) (an : annotation) : option str :=
  match a_kind an, a_args an with
  | ExposeAs, [LDefault] => Some []
  | ExposeAs, [LString s] => if StringModel.is_valid_identifier s then Some s else None
  | Module, [LString s] =>
      match d_kind d with KNamespace => if StringModel.is_valid_identifier s then Some s else None | _ => None end
  | _, _ => None
  end.

Definition flag_of (k : akind) (an : annotation) : option bool :=
  if akind_eqb (a_kind an) k then
    match a_args an with [] => Some true | [LBool b] => Some b | _ => None end
  else None.

Definition string_of (k : akind) (an : annotation) : option str :=
  if akind_eqb (a_kind an) k then match a_args an with [LString s] => Some s | _ => None end else None.

Definition given (k : akind) (ans : list annotation) : Prop := exists an, In an ans /\ a_kind an = k.
(** [s] is an argument of an annotation of kind [k]. *)
Definition named_by (k : akind) (ans : list annotation) (s : str) : Prop :=
  exists an, In an ans /\ a_kind an = k /\ In (LString s) (a_args an).

(** Base [b] is selected by the arguments: all bases without arguments. *)
Definition selects (args : list lit) (b : base) : Prop :=
  args = [] \/ exists s, In (LString s) args /\ In s (b_names b).

Definition first_index (l : list str) (s : str) (i : nat) : Prop :=
  nth_error l i = Some s /\ forall j, j < i -> nth_error l j <> Some s.

(** Slots of a call as counted in the stored indices. *)
Definition slots (d : decl) : list str :=
  $"return" :: (match d_kind d with KMethod _ | KConstructor | KConversion | KDestructor => [$"this"] | _ => [] end) ++ d_params d.

Record described (d : decl) (initial : option bool) (ans : list annotation) (a : attrs) : Prop := {
  de_visible : latest visibility_of ans initial (n_visible (at_named a));
  de_spelling : latest (spelling_of d) ans [] (n_spelling (at_named a));
  de_module : ns_module (at_namespace a) = true <-> given Module ans;
  de_only_expose_in : map LString (ns_only_expose_in (at_namespace a)) =
    flat_map a_args (filter (fun an => akind_eqb (a_kind an) OnlyExposeIn) ans);
  de_arithmetic : latest (flag_of Arithmetic) ans false (e_arithmetic (at_enum a));
  de_export_values : latest (fun an => option_map Some (flag_of ExportValues an)) ans None (e_export_values (at_enum a));
  de_dynamic_attr : latest (flag_of DynamicAttr) ans false (r_dynamic_attr (at_record a));
  de_holder_type : latest (string_of HolderType) ans [] (r_holder_type (at_record a));
  de_hide_base : forall x, In x (r_hide_base (at_record a)) <->
    exists an b, In an ans /\ a_kind an = HideBase /\ In b (d_bases d) /\ selects (a_args an) b /\ b_decl b = x;
  de_inline_base : forall x, In x (r_inline_base (at_record a)) <->
    exists an b, In an ans /\ a_kind an = InlineBase /\ In b (d_all_bases d) /\ selects (a_args an) b /\ b_decl b = x;
  de_encourage : t_encourage (at_typedef a) = true <-> given Encourage ans;
  de_expose_here : t_expose_here (at_typedef a) = true <-> given ExposeHere ans;
  de_readonly : latest (flag_of Readonly) ans false (f_readonly (at_field a));
  de_manual : (given Manual ans -> f_manual (at_field a) = d_lambda d) /\ (~ given Manual ans -> f_manual (at_field a) = None);
  de_postamble : f_postamble (at_field a) = true <-> given Postamble ans;
  de_getter_for : forall s, In s (m_getter_for (at_method a)) <-> named_by GetterFor ans s;
  de_setter_for : forall s, In s (m_setter_for (at_method a)) <-> named_by SetterFor ans s;
  de_implicit_conversion : latest (flag_of ImplicitConversion) ans false (at_implicit_conversion a);
  de_keep_alive : Forall2 (fun an p => exists s t, a_args an = [LString s; LString t] /\
      first_index (slots d) s (fst p) /\ first_index (slots d) t (snd p))
    (filter (fun an => akind_eqb (a_kind an) KeepAlive) ans) (fn_keep_alive (at_function a));
  de_noconvert : forall i, In i (fn_noconvert (at_function a)) <->
    exists s, named_by Noconvert ans s /\ first_index (d_params d) s i;
  de_required : forall i, In i (fn_required (at_function a)) <->
    exists s, named_by Required ans s /\ first_index (d_params d) s i;
  de_return_value_policy : latest (string_of ReturnValuePolicy) ans [] (fn_policy (at_function a))
}.

(** ** Numbering of call slots in the binding library

    pybind11, "Keep alive": 0 is the return value, 1 the implicit object for
    methods (also of constructors), arguments follow; without implicit object
    the arguments start at 1. *)
Inductive slot := Return | This | Param (i : nat).

Definition has_object (d : decl) : bool :=
  match d_kind d with
  | KMethod _ => negb (d_static d)
  | KConstructor | KConversion => true
  | _ => false
  end.

Definition binding_index (d : decl) (s : slot) : option nat :=
  match s with
  | Return => Some 0
  | This => if has_object d then Some 1 else None
  | Param i => if Nat.ltb i (length (d_params d)) then Some (if has_object d then 2 + i else 1 + i) else None
  end.

(** What a name in keep_alive refers to (parameters are never called return
    or this, these are keywords of the language). *)
Definition refers_to (d : decl) (n : str) (s : slot) : Prop :=
  match s with
  | Return => n = $"return"
  | This => n = $"this"
  | Param i => first_index (d_params d) n i
  end.

(** ** Annotations carried by the attributes of a declaration

    Attributes of other tools are skipped.  A text that does not denote
    annotations contributes those that are complete before its first dead end
    (see ParserSpec.v); the flag tells whether there was such a text. *)
Inductive carried : list str -> list annotation -> bool -> Prop :=
| ca_nil : carried [] [] false
| ca_other text texts ans bad : (forall rest, text <> lozenge ++ rest) -> carried texts ans bad -> carried (text :: texts) ans bad
| ca_good rest l texts ans bad : denotes rest l -> carried texts ans bad -> carried ((lozenge ++ rest) :: texts) (l ++ ans) bad
| ca_bad rest pre post l p texts ans bad :
    lexes rest (pre ++ post) -> at_position pre l p -> viable pre -> dead_end pre post ->
    carried texts ans bad -> carried ((lozenge ++ rest) :: texts) (l ++ ans) true.

(** The macro has been used with something in its parentheses. *)
Definition annotated (d : decl) : Prop :=
  exists rest c, In (lozenge ++ rest) (d_attrs d) /\ In c rest /\ ~ In (code c) [32; 9; 10; 11; 12; 13]%N.

(** The macro has been used, possibly without arguments. *)
Definition marked (d : decl) : Prop := exists rest, In (lozenge ++ rest) (d_attrs d).

(** Visibility without visibility annotations: namespaces and declarations
    without annotations are unspecified. *)
Definition default_visibility (d : decl) (v : option bool) : Prop :=
  (v = Some true /\ d_kind d <> KNamespace /\ annotated d) \/
  (v = None /\ (d_kind d = KNamespace \/ ~ annotated d)).
