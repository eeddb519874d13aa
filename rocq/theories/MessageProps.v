(** * C68, C69: texts of diagnostics *)
From Verif Require Import Base ParserModel StringSpec AnnotModel AnnotSpec MessageModel MessageSpec MessageProofs.

(** C68: whatever is reported for the annotations of a declaration, is indeed
    wrong with what is written there, and the message shows the annotation and
    the text at fault. *)
Theorem diagnostics_name_the_fault : forall d a ds x, compute_attrs d = Some (a, ds) -> In x ds ->
  justified d x /\ exists m, message (PAnnotation d x) = Some m /\ forall s, In s (shown (PAnnotation d x)) -> contains m s.
Proof. exact name_the_fault. Qed.
Print Assumptions diagnostics_name_the_fault.

(** C69: every message can be produced, shows the names at fault, and two equal
    messages are about the same kind of problem and the same texts. *)
Theorem messages_show_the_names : forall p, exists m, message p = Some m /\ forall s, In s (shown p) -> contains m s.
Proof. exact show_the_names. Qed.
Print Assumptions messages_show_the_names.

Theorem messages_can_be_told_apart : forall p p' m, wording p -> wording p' -> message p = Some m -> message p' = Some m ->
  sort p = sort p' /\ shown p = shown p'.
Proof. exact told_apart. Qed.
Print Assumptions messages_can_be_told_apart.

(** The condition holds for all reports about annotations. *)
Theorem annotation_messages_can_be_told_apart : forall d a ds x d' a' ds' x' m,
  compute_attrs d = Some (a, ds) -> In x ds -> compute_attrs d' = Some (a', ds') -> In x' ds' ->
  message (PAnnotation d x) = Some m -> message (PAnnotation d' x') = Some m ->
  sort (PAnnotation d x) = sort (PAnnotation d' x') /\ shown (PAnnotation d x) = shown (PAnnotation d' x').
Proof. exact annotations_told_apart. Qed.
Print Assumptions annotation_messages_can_be_told_apart.

(** Messages for an alias and a member function with several mistakes. *)
Definition alias : decl :=
  mkDecl KTypedef (map (fun t => lozenge ++ $t) ["expose_here, encourage"; "arithmetic"; "visible(7)"; "expose_as(x"]%string)
    false [] 0 false false false [] [] None true (Some 0).
Definition method : decl :=
  mkDecl (KMethod NoOperator) (map (fun t => lozenge ++ $t) ["getter_for(x)"; "keep_alive(this, z)"; "noconvert"; "setter_for(""a b"")"]%string)
    false [$"y"] 1 false false false [] [] None false None.
Definition messages (d : decl) : option (list (option string)) :=
  match compute_attrs d with
  | Some (_, ds) => Some (map (fun x => option_map string_of_list_ascii (message (PAnnotation d x))) ds)
  | None => None
  end.

Example diagnostics_name_the_fault_example :
  messages alias =
  Some [Some "Invalid token in genpybind annotation while looking for ')': ";
        Some "'encourage' and 'expose_here' cannot be used at the same time";
        Some "Invalid annotation for type alias: arithmetic()";
        Some "Wrong type of argument for 'visible' annotation: 7"]%string /\
  messages method =
  Some [Some "Signature of method is incompatible with 'getter_for' annotation";
        Some "Invalid argument specifier in 'keep_alive' annotation: 'z'";
        Some "Wrong number of arguments for 'noconvert' annotation";
        Some "Invalid spelling in 'setter_for' annotation: 'a b'"]%string.
Proof. split; vm_compute; reflexivity. Qed.

Example messages_show_the_names_example :
  option_map string_of_list_ascii (message (PAlreadyDefined $"value" true)) = Some "setter already defined for 'value'"%string /\
  option_map string_of_list_ascii (message (PUnreachable $"ns::Inner")) =
    Some "Declaration context 'ns::Inner' contains 'visible' declarations but is not exposed"%string /\
  shown (PUnreachable $"ns::Inner") = [$"'ns::Inner'"].
Proof. repeat split; vm_compute; reflexivity. Qed.

Example messages_can_be_told_apart_example : exists d x m,
  In x (match compute_attrs d with Some (_, ds) => ds | None => [] end) /\ wording (PAnnotation d x) /\ message (PAnnotation d x) = Some m /\
  shown (PAnnotation d x) = [$"type alias"; $"arithmetic()"].
Proof.
  exists alias, (DInvalidForDeclKind $"type alias" (mkAnnotation Arithmetic [])), ($"Invalid annotation for type alias: arithmetic()").
  split; [vm_compute; tauto|]. split; [cbn; intuition discriminate|]. split; vm_compute; reflexivity.
Qed.
