(** * Levels of messages *)
From Verif Require Import Base ParserModel AnnotModel CollectModel EmitModel.

(** Messages printed as errors (diagnostics.cpp L31-105); all others are warnings. *)
Inductive severe_diag : diag -> Prop :=
| sv_parser e : severe_diag (DParser e)
| sv_type k v : severe_diag (DWrongArgumentType k v)
| sv_number k : severe_diag (DWrongNumberOfArguments k)
| sv_kind what a : severe_diag (DInvalidForDeclKind what a)
| sv_spelling k text : severe_diag (DInvalidSpelling k text)
| sv_specifier k arg : severe_diag (DInvalidArgumentSpecifier k arg)
| sv_signature k : severe_diag (DIncompatibleSignature k)
| sv_scope k : severe_diag (DOnlyGlobalScope k)
| sv_conflict : severe_diag DConflicting
| sv_target : severe_diag DUnsupportedAliasTarget.

Inductive severe : report -> Prop :=
| sv_annotation i d : severe_diag d -> severe (RAnnotation i d)
| sv_mismatch i first : severe (RMismatch i first)
| sv_exposed alias previous : severe (RAlreadyExposed alias previous)
| sv_cycle alias : severe (RExposeHereCycle alias).

(** Messages while the bindings are written. *)
Inductive severe_late : ereport -> Prop :=
| sv_late i d : severe_diag d -> severe_late (EAnnotation i d)
| sv_trailing f p : severe_late (ETrailingParameters f p)
| sv_getter setter name : severe_late (ENoGetter setter name)
| sv_defined m name setter previous : severe_late (EAlreadyDefined m name setter previous).
