(** * Specification of the names used in Python *)
From Verif Require Import Base ParserModel StringSpec AnnotModel CollectModel GraphModel GraphSpec EmitModel EmitSpec ModuleModel ModuleSpec NameModel.

(** Maximal sequences of characters allowed in identifiers. *)
Inductive words : str -> list str -> Prop :=
| words_nil : words [] []
| words_other c s l : is_ident_continue c = false -> words s l -> words (c :: s) l
| words_word w s l : w <> [] -> forallb is_ident_continue w = true -> stops is_ident_continue s -> words s l -> words (w ++ s) (w :: l).

(** Name of a specialisation: that of the template, followed by the words of
    all arguments. *)
Definition specialization_name (template : str) (args : list str) (name : str) : Prop :=
  exists wss, Forall2 words args wss /\ name = template ++ $"_" ++ concat (map (fun w => w ++ $"_") (concat wss)).

Definition without_underscore (s : str) : Prop := ~ In "_"%char s.

(** The declaration has a name; identifiers consist of ASCII characters. *)
Definition proper_name (n : naming) : Prop :=
  match na_name n with NIdentifier s => identifier s | NSpecial s => s <> [] end.

(** Only namespaces, classes and enumerations can be without a name; enumerators
    are neither. *)
Record properly_named (u : unit) (x : extra) (names : nat -> naming) : Prop := {
  pn_declarations : forall i, kind u i <> KOther -> kind u i <> KNamespace -> is_tag_kind (kind u i) = false -> proper_name (names i);
  pn_enumerators : forall i, x_enumerator x i = true -> proper_name (names i) /\ kind u i = KOther }.

(** ** Names in the generated code *)

Definition introduced_name (i : introducer) : option str :=
  match i with NAlias _ => None | NSubmodule _ n | NEnum _ _ n _ | NClass _ _ n _ => Some n end.

Definition name_in (s : stmt) : option str :=
  match s with
  | SAlias n _ | SVariable n _ | SFunction _ n _ _ _ | SOperator n _ _ | SPrint n _ | SProperty n _ _ | SMember _ _ n _ | SValue n _ => Some n
  | SManual _ | SConvertible _ _ | SInit _ _ _ _ | SExportValues | SUnused => None
  end.

(** Operators that have no name in Python, see C37. *)
Definition nameless_operator (s : stmt) : Prop := exists f l, s = SOperator [] f l.
