(** * Properties of stored annotations *)
From Coq Require Import Permutation.
From Verif Require Import Base ParserModel ParserSpec StringModel StringSpec AnnotModel AnnotSpec AnnotStore AnnotFinal.

(** Example declarations. *)
Definition plain (k : dkind) (texts : list string) : decl :=
  mkDecl k (map (fun t => lozenge ++ $t) texts) false [] 0 false false false [] [] None true (Some 0).
Definition callable (k : dkind) (static : bool) (params : list string) (texts : list string) : decl :=
  mkDecl k (map (fun t => lozenge ++ $t) texts) false (map (fun p => $p) params) (length params) false static false [] [] None true (Some 0).

(** C13: the annotations of a declaration are those carried by its attributes
    (uniquely); for each of them, separately and in order, an error is reported
    exactly if it is not acceptable; texts that are no annotations and aliases
    without supported target are reported; and if there is no error at all, the
    stored attributes are the ones described by the annotations. *)
Theorem no_annotation_is_ignored :
  forall decls i st st' ds, insert decls i st = Some (st', ds) ->
    lookup_attrs st i = None -> d_skip (decls i) = false ->
    let d := decls i in
    exists a ans bad,
      lookup_attrs st' i = Some a /\ carried (d_attrs d) ans bad /\
      (exists target parse per,
        ds = target ++ parse ++ concat per /\
        (has_error target <-> targetless_alias d) /\
        (has_error parse <-> bad = true) /\
        length per = length ans /\
        forall k an e, nth_error ans k = Some an -> nth_error per k = Some e ->
          (has_error e <-> ~ accepted d (firstn k ans) an)) /\
      (~ has_error ds -> bad = false /\ exists v, default_visibility d v /\ described d v ans a).
Proof. exact insert_no_annotation_ignored. Qed.
Print Assumptions no_annotation_is_ignored.

Theorem carried_annotations_are_unique :
  forall texts l1 b1 l2 b2, carried texts l1 b1 -> carried texts l2 b2 -> l1 = l2 /\ b1 = b2.
Proof. exact carried_unique2. Qed.
Print Assumptions carried_annotations_are_unique.

Theorem annotations_are_always_determined :
  forall texts, exists l bad, carried texts l bad.
Proof. exact carried_exists. Qed.
Print Assumptions annotations_are_always_determined.

(** The attributes described are determined by the annotations, up to the order of sets. *)
Theorem description_determines_attributes :
  forall d v ans a b, described d v ans a -> described d v ans b ->
    at_named a = at_named b /\ at_namespace a = at_namespace b /\ at_enum a = at_enum b /\
    at_typedef a = at_typedef b /\ at_field a = at_field b /\ at_implicit_conversion a = at_implicit_conversion b /\
    r_dynamic_attr (at_record a) = r_dynamic_attr (at_record b) /\ r_holder_type (at_record a) = r_holder_type (at_record b) /\
    (forall x, In x (r_hide_base (at_record a)) <-> In x (r_hide_base (at_record b))) /\
    (forall x, In x (r_inline_base (at_record a)) <-> In x (r_inline_base (at_record b))) /\
    (forall s, In s (m_getter_for (at_method a)) <-> In s (m_getter_for (at_method b))) /\
    (forall s, In s (m_setter_for (at_method a)) <-> In s (m_setter_for (at_method b))) /\
    fn_keep_alive (at_function a) = fn_keep_alive (at_function b) /\ fn_policy (at_function a) = fn_policy (at_function b) /\
    (forall x, In x (fn_noconvert (at_function a)) <-> In x (fn_noconvert (at_function b))) /\
    (forall x, In x (fn_required (at_function a)) <-> In x (fn_required (at_function b))).
Proof. exact described_determines. Qed.
Print Assumptions description_determines_attributes.

Example C13_example :
  insert (fun _ => callable (KMethod NoOperator) false ["x"; "y"]%string
            ["noconvert(y), keep_alive(this, x)"; "return_value_policy(copy)"]%string) 7 [] =
  Some ([(7, mkAttrs (mkNamed [] (Some true)) (mkNamespace false []) (mkEnum false None) (mkRecord false [] [] [])
        (mkTypedef false false) (mkField false None false) (mkMethod [] []) false
        (mkFunction [(1, 2)] [1] [] $"copy"))], []).
Proof. vm_compute. reflexivity. Qed.

Example C13_example_errors :
  insert (fun _ => plain KTypedef ["expose_here, encourage"; "arithmetic"; "visible(7)"; "expose_as(x"]%string) 0 [] =
  Some ([(0, mkAttrs (mkNamed [] (Some true)) (mkNamespace false []) (mkEnum false None) (mkRecord false [] [] [])
        (mkTypedef true true) (mkField false None false) (mkMethod [] []) false (mkFunction [] [] [] []))],
      [DParser (mkError MissingClosingParen []); DConflicting;
       DInvalidForDeclKind $"type alias" (mkAnnotation Arithmetic []); DWrongArgumentType Visible (LUnsigned 7)]).
Proof. vm_compute. reflexivity. Qed.

(** C13/C51: storing annotations is defined except that reporting an annotation
    that has no meaning for aliases, on an alias whose target is not a class or
    enumeration, reports while another report is in progress. *)
Theorem storing_goes_wrong_only_for_unsupported_alias_targets :
  forall decls i st, insert decls i st = None <->
    lookup_attrs st i = None /\ d_skip (decls i) = false /\ targetless_alias (decls i) /\
    exists ans bad an, carried (d_attrs (decls i)) ans bad /\ In an ans /\ ~ alias_kind (a_kind an).
Proof. exact insert_none_iff. Qed.
Print Assumptions storing_goes_wrong_only_for_unsupported_alias_targets.

Theorem reports_are_never_nested_refuted :
  exists decls i st, insert decls i st = None.
Proof. exact insert_none_example. Qed.
Print Assumptions reports_are_never_nested_refuted.

(** C14: also in the presence of errors. *)
Theorem last_visibility_annotation_wins :
  forall decls i st st' ds, insert decls i st = Some (st', ds) ->
    lookup_attrs st i = None -> d_skip (decls i) = false ->
    exists a ans bad, lookup_attrs st' i = Some a /\ carried (d_attrs (decls i)) ans bad /\
      exists v, default_visibility (decls i) v /\ latest visibility_of ans v (n_visible (at_named a)).
Proof. exact insert_visibility. Qed.
Print Assumptions last_visibility_annotation_wins.

Theorem default_visibility_is_unique :
  forall d v w, default_visibility d v -> default_visibility d w -> v = w.
Proof. exact default_visibility_unique. Qed.
Print Assumptions default_visibility_is_unique.

(** C14: if the texts are fine, annotated means that there is an annotation. *)
Theorem annotated_means_some_annotation :
  forall d ans, carried (d_attrs d) ans false -> (annotated d <-> ans <> []).
Proof. exact annotated_iff_nonempty. Qed.
Print Assumptions annotated_means_some_annotation.

Theorem latest_is_unique :
  forall A (f : annotation -> option A) ans default v w, latest f ans default v -> latest f ans default w -> v = w.
Proof. exact @latest_unique. Qed.
Print Assumptions latest_is_unique.

Example C14_example :
  insert (fun _ => plain KEnum ["hidden, arithmetic"; "visible(default)"; "export_values"]%string) 0 [] =
  Some ([(0, mkAttrs (mkNamed [] None) (mkNamespace false []) (mkEnum true (Some true)) (mkRecord false [] [] [])
        (mkTypedef false false) (mkField false None false) (mkMethod [] []) false (mkFunction [] [] [] []))], []).
Proof. vm_compute. reflexivity. Qed.

(** C15: contrary to the documentation the macro without arguments does not
    make anything visible. *)
Theorem macro_without_arguments_implies_visible_refuted :
  exists decls i st' a, marked (decls i) /\ d_kind (decls i) = KRecord /\
    insert decls i [] = Some (st', []) /\ lookup_attrs st' i = Some a /\ n_visible (at_named a) <> Some true.
Proof. exact empty_macro_not_visible. Qed.
Print Assumptions macro_without_arguments_implies_visible_refuted.

(** C15: it holds if one of the macros has arguments, or there are no
    visibility annotations that say otherwise. *)
Theorem macro_with_arguments_implies_visible_partial :
  forall decls i st st' ds, insert decls i st = Some (st', ds) ->
    lookup_attrs st i = None -> d_skip (decls i) = false ->
    d_kind (decls i) <> KNamespace -> annotated (decls i) ->
    exists a ans bad, lookup_attrs st' i = Some a /\ carried (d_attrs (decls i)) ans bad /\
      ((forall an, In an ans -> visibility_of an = None) -> n_visible (at_named a) = Some true).
Proof. exact annotated_visible. Qed.
Print Assumptions macro_with_arguments_implies_visible_partial.

Example C15_example : annotated (plain KRecord ["dynamic_attr"]%string) /\ ~ annotated (plain KRecord [" "; ""]%string).
Proof. exact annotated_examples. Qed.

(** C16 *)
Theorem stored_spellings_are_identifiers :
  forall decls i st st' ds, insert decls i st = Some (st', ds) ->
    lookup_attrs st i = None -> d_skip (decls i) = false ->
    exists a ans bad, lookup_attrs st' i = Some a /\ carried (d_attrs (decls i)) ans bad /\
      latest (spelling_of (decls i)) ans [] (n_spelling (at_named a)) /\
      (n_spelling (at_named a) = [] \/ identifier (n_spelling (at_named a))).
Proof. exact insert_spelling. Qed.
Print Assumptions stored_spellings_are_identifiers.

(** C16: annotations that request a spelling. *)
Theorem requested_spellings :
  forall d an s, spelling_of d an = Some s <->
    (an = mkAnnotation ExposeAs [LDefault] /\ s = []) \/
    (an = mkAnnotation ExposeAs [LString s] /\ identifier s) \/
    (an = mkAnnotation Module [LString s] /\ d_kind d = KNamespace /\ identifier s).
Proof. exact spelling_of_iff. Qed.
Print Assumptions requested_spellings.

Example C16_example :
  option_map (fun r => (option_map (fun a => n_spelling (at_named a)) (lookup_attrs (fst r) 3), snd r))
    (insert (fun _ => plain KNamespace ["expose_as(a)"; "module(""b c"")"; "module(d), expose_as(""1"")"]%string) 3 []) =
  Some (Some $"d", [DInvalidSpelling Module $"b c"; DInvalidSpelling ExposeAs $"1"]).
Proof. vm_compute. reflexivity. Qed.

(** C17 *)
Theorem storing_is_idempotent :
  forall decls i st st' ds, insert decls i st = Some (st', ds) -> d_skip (decls i) = false ->
    insert decls i st' = Some (st', []).
Proof. exact insert_again. Qed.
Print Assumptions storing_is_idempotent.

Theorem storing_is_local :
  forall decls i st st' ds, insert decls i st = Some (st', ds) ->
    (forall j, j <> i -> lookup_attrs st' j = lookup_attrs st j) /\
    (forall a, lookup_attrs st i = Some a -> st' = st).
Proof. exact insert_local. Qed.
Print Assumptions storing_is_local.

Theorem storing_does_not_depend_on_order :
  forall decls is1 is2 st st1 ds1, (forall i, In i is1 <-> In i is2) ->
    insert_all decls is1 st = Some (st1, ds1) ->
    exists st2 ds2, insert_all decls is2 st = Some (st2, ds2) /\ forall j, lookup_attrs st2 j = lookup_attrs st1 j.
Proof. exact insert_all_order. Qed.
Print Assumptions storing_does_not_depend_on_order.

(** C17: and the diagnostics are the same up to their order. *)
Theorem diagnostics_do_not_depend_on_order :
  forall decls is1 is2 st st1 ds1, (forall i, In i is1 -> d_skip (decls i) = false) -> (forall i, In i is1 <-> In i is2) ->
    insert_all decls is1 st = Some (st1, ds1) ->
    exists st2 ds2, insert_all decls is2 st = Some (st2, ds2) /\ Permutation ds1 ds2.
Proof. exact insert_all_diags. Qed.
Print Assumptions diagnostics_do_not_depend_on_order.

Example C17_example :
  let decls := fun i => match i with 0 => plain KRecord ["dynamic_attr"]%string | 1 => plain KField ["readonly(1)"]%string | _ => plain KEnum [] end in
  exists st ds st' ds', insert_all decls [0; 1; 2; 1] [] = Some (st, ds) /\ insert_all decls [2; 1; 0] [] = Some (st', ds') /\
    st <> st' /\ length st = 3 /\ length ds = 1.
Proof. exact insert_all_example. Qed.

(** C19: all indices of keep_alive annotations, for anything but static
    member functions; the parameters are never called return or this as these
    are keywords. *)
Theorem keep_alive_indices_partial :
  forall decls i st st' ds, insert decls i st = Some (st', ds) ->
    lookup_attrs st i = None -> d_skip (decls i) = false -> ~ has_error ds ->
    let d := decls i in
    is_function d -> ~ In $"return" (d_params d) -> ~ In $"this" (d_params d) ->
    (forall o, d_kind d = KMethod o -> d_static d = false) ->
    exists a ans bad, lookup_attrs st' i = Some a /\ carried (d_attrs d) ans bad /\
      Forall2 (fun an p => exists n m s t, a_args an = [LString n; LString m] /\
          refers_to d n s /\ refers_to d m t /\
          binding_index d s = Some (fst p) /\ binding_index d t = Some (snd p))
        (filter (fun an => akind_eqb (a_kind an) KeepAlive) ans) (fn_keep_alive (at_function a)).
Proof. exact keep_alive_indices. Qed.
Print Assumptions keep_alive_indices_partial.

Theorem slot_names_are_unambiguous :
  forall d n s t, ~ In $"return" (d_params d) -> ~ In $"this" (d_params d) ->
    refers_to d n s -> refers_to d n t -> s = t.
Proof. exact refers_to_unique. Qed.
Print Assumptions slot_names_are_unambiguous.

(** C19: for static member functions every parameter is off by one ... *)
Theorem keep_alive_indices_static_refuted :
  exists decls i st' a n s j k,
    d_kind (decls i) = KMethod NoOperator /\ d_static (decls i) = true /\
    insert decls i [] = Some (st', []) /\ lookup_attrs st' i = Some a /\
    carried (d_attrs (decls i)) [mkAnnotation KeepAlive [LString $"return"; LString n]] false /\
    refers_to (decls i) n s /\ binding_index (decls i) s = Some j /\
    fn_keep_alive (at_function a) = [(0, k)] /\ k <> j.
Proof. exact keep_alive_static_wrong. Qed.
Print Assumptions keep_alive_indices_static_refuted.

(** ... and an object that does not exist can be named without an error. *)
Theorem keep_alive_this_in_static_refuted :
  exists decls i st' a, d_kind (decls i) = KMethod NoOperator /\ d_static (decls i) = true /\
    insert decls i [] = Some (st', []) /\ lookup_attrs st' i = Some a /\
    carried (d_attrs (decls i)) [mkAnnotation KeepAlive [LString $"return"; LString $"this"]] false /\
    (forall s, refers_to (decls i) $"this" s -> binding_index (decls i) s = None) /\
    fn_keep_alive (at_function a) = [(0, 1)].
Proof. exact keep_alive_static_this. Qed.
Print Assumptions keep_alive_this_in_static_refuted.

Example C19_example :
  let d := callable KConstructor false ["a"; ""; "c"]%string ["keep_alive(this, c), keep_alive(c, a)"]%string in
  option_map (fun r => (option_map (fun a => fn_keep_alive (at_function a)) (lookup_attrs (fst r) 0), snd r)) (insert (fun _ => d) 0 [])
  = Some (Some [(1, 4); (4, 2)], []) /\
  binding_index d This = Some 1 /\ binding_index d (Param 2) = Some 4 /\ binding_index d (Param 0) = Some 2.
Proof. vm_compute. auto. Qed.
