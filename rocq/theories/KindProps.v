(** * Properties of the kinds of declarations *)
From Verif Require Import Base ParserModel AnnotModel CollectModel.

(** C13: the kinds of declarations the descriptions of annotations and bindings
    refer to are those listed. *)
Theorem kinds_of_declarations : forall d,
  (supports_operator d = true <-> In (d_kind d) [KFunction OtherOperator; KMethod OtherOperator]) /\
  (supports_method d = true <-> In (d_kind d) [KMethod NoOperator; KMethod CallOperator]) /\
  (supports_function d = true <-> In (d_kind d) (map KFunction [NoOperator; CallOperator; OtherOperator] ++ map KMethod [NoOperator; CallOperator; OtherOperator] ++ [KConstructor; KConversion])) /\
  (supports_constructor d = true <-> d_kind d = KConstructor) /\ (supports_conversion d = true <-> d_kind d = KConversion) /\
  (supports_enum d = true <-> d_kind d = KEnum) /\ (supports_record d = true <-> d_kind d = KRecord) /\
  (supports_field d = true <-> In (d_kind d) [KField; KVar]) /\
  (is_namespace d = true <-> d_kind d = KNamespace) /\ (is_typedef d = true <-> d_kind d = KTypedef) /\
  (is_tag_kind (d_kind d) = true <-> In (d_kind d) [KEnum; KRecord]) /\
  (is_namespace_kind (d_kind d) = true <-> d_kind d = KNamespace) /\ (is_typedef_kind (d_kind d) = true <-> d_kind d = KTypedef).
Proof.
  intros d. unfold supports_method, is_method_decl, supports_operator, supports_function, supports_constructor, supports_conversion, supports_enum, supports_record,
    supports_field, is_namespace, is_typedef. destruct (d_kind d) as [| | | | | |[]|[]| | | | |]; cbn; intuition congruence.
Qed.
Print Assumptions kinds_of_declarations.

(** Free operators are functions but not methods; destructors are neither. *)
Example kinds_of_declarations_example :
  (exists d, d_kind d = KFunction OtherOperator /\ supports_operator d = true /\ supports_function d = true /\ supports_method d = false) /\
  (exists d, d_kind d = KDestructor /\ supports_method d = false /\ supports_function d = false).
Proof.
  split.
  - exists (mkDecl (KFunction OtherOperator) [] false [] 0 false false false [] [] None true (Some 0)). repeat split.
  - exists (mkDecl KDestructor [] false [] 0 false false false [] [] None true (Some 0)). repeat split.
Qed.

(** How messages about annotations call a declaration. *)
Inductive called : dkind -> string -> Prop :=
| ca_namespace : called KNamespace "namespace"
| ca_enum : called KEnum "enum"
| ca_record : called KRecord "class"
| ca_typedef : called KTypedef "type alias"
| ca_field : called KField "variable"
| ca_variable : called KVar "variable"
| ca_operator : called (KFunction OtherOperator) "operator"
| ca_member_operator : called (KMethod OtherOperator) "operator"
| ca_conversion : called KConversion "conversion function"
| ca_method : called (KMethod NoOperator) "method"
| ca_call_operator : called (KMethod CallOperator) "method"
| ca_constructor : called KConstructor "constructor"
| ca_function : called (KFunction NoOperator) "free function"
| ca_odd : called (KFunction CallOperator) "free function"
| ca_destructor : called KDestructor "named declaration"
| ca_guide : called KDeductionGuide "named declaration"
| ca_other : called KOther "named declaration".

(** C68: the name used for the kind of a declaration in messages is the one listed. *)
Theorem messages_call_declarations_by_kind : forall d name, friendly_name d = list_ascii_of_string name <-> called (d_kind d) name.
Proof.
  assert (C : forall d, exists name, called (d_kind d) name /\ friendly_name d = list_ascii_of_string name).
  { intros d. unfold friendly_name, supports_method, is_method_decl, supports_operator, supports_function, supports_constructor, supports_conversion.
    destruct (d_kind d) as [| | | | | |[]|[]| | | | |]; eexists; (split; [constructor|reflexivity]). }
  intros d name. destruct (C d) as (name' & H & E). split.
  - intros E'. rewrite E in E'. apply (f_equal string_of_list_ascii) in E'. rewrite !string_of_list_ascii_of_string in E'. subst. exact H.
  - intros H'. rewrite E. f_equal. destruct H; inversion H'; reflexivity.
Qed.
Print Assumptions messages_call_declarations_by_kind.

Example messages_call_declarations_by_kind_example :
  friendly_name (mkDecl (KMethod CallOperator) [] false [] 0 false false false [] [] None true (Some 0)) = list_ascii_of_string "method" /\ called (KMethod CallOperator) "method".
Proof. split; [reflexivity|constructor]. Qed.
