(** * Names used in Python: model of src/annotated_decl.cpp L316-338. *)
From Verif Require Import Base ParserModel StringModel.

(** [clang::DeclarationName]: an identifier, empty for unnamed declarations, or
    the text of another kind of name, e.g. that of a conversion function. *)
Inductive declaration_name := NIdentifier (s : str) | NSpecial (printed : str).

(** What is used of a [clang::NamedDecl]: its name and, in case of a
    [clang::ClassTemplateSpecializationDecl], the arguments as printed, those of
    parameter packs included one by one. *)
Record naming := mkNaming { na_name : declaration_name; na_arguments : option (list str) }.

(** [DeclarationName::print]. *)
Definition print_name (n : declaration_name) : str := match n with NIdentifier s => s | NSpecial s => s end.
Definition is_identifier (n : declaration_name) : bool := match n with NIdentifier _ => true | NSpecial _ => false end.

(** [clang::printTemplateArgumentList] (lib/AST/TypePrinter.cpp): a space
    prevents the digraph; another one keeps closing brackets apart. *)
Definition print_template_argument_list (split_closers : bool) (args : list str) : str :=
  $"<" ++
  (match args with (c :: _) :: _ => if (code c =? 58)%N then $" " else [] | _ => [] end) ++
  (match args with [] => [] | a :: r => a ++ concat (map (fun b => $", " ++ b) r) end) ++
  (match rev (concat args) with c :: _ => if split_closers && (code c =? 62)%N then $" " else [] | [] => [] end) ++ $">".

(** annotated_decl.cpp L316-338 [getSpelling]; the stream appends to what is
    left by [makeValidIdentifier]. *)
Definition get_spelling (split_closers : bool) (n : naming) : str :=
  let result := print_name (na_name n) in
  let result := if is_identifier (na_name n) then result else make_valid_identifier result in
  match na_arguments n with
  | None => result
  | Some args => make_valid_identifier (result ++ print_template_argument_list split_closers args)
  end.
