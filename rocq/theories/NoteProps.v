(** * Printed annotations *)
From Verif Require Import Base ParserModel ParserSpec StringSpec NoteSpec NoteProofs.

(** ** C120 *)

(** Annotations are printed with their documented name and all arguments in order;
    strings are printed as literals of C++ denoting them, numbers in decimal. *)
Theorem annotations_are_printed_with_their_arguments : forall a, printable a -> noted a (print_annotation a).
Proof. exact annotation_noted. Qed.
Print Assumptions annotations_are_printed_with_their_arguments.

(** Hence the printed text tells which annotation it is, although reading it again
    results in another one if there are characters to be escaped. *)
Theorem printed_annotations_can_be_told_apart : forall a b, printable a -> printable b -> print_annotation a = print_annotation b -> a = b.
Proof. exact print_injective. Qed.
Print Assumptions printed_annotations_can_be_told_apart.

(** Arguments that look like several, a character that is not printable, and words
    as strings. *)
Example printed_example :
  let a := mkAnnotation GetterFor [LString (quote :: $", "); LString ["001"%char]; LUnsigned 10; LDefault; LNothing; LBool true] in
  printable a /\ print_annotation a = $"getter_for(""\"", "", ""\001"", 10, default, nothing, true)" /\
  print_annotation (mkAnnotation GetterFor [LString ($"nothing")]) <> print_annotation (mkAnnotation GetterFor [LNothing]) /\
  print_annotation (mkAnnotation Visible []) = $"visible()".
Proof. split; [repeat constructor; discriminate|]. split; [reflexivity|]. split; [discriminate|reflexivity]. Qed.
