(** * Printed annotations *)
From Verif Require Import Base ParserModel ParserSpec StringSpec.

(** Text printed for an argument: strings are literals of C++ in plain ASCII, numbers
    are decimal without leading zeros, other values are words. *)
Inductive prints : lit -> str -> Prop :=
| pr_string s t : read_cpp_literal t = Some (s, []) -> Forall (fun c => 32 <= code c <= 126)%N t -> prints (LString s) t
| pr_zero : prints (LUnsigned 0) ($"0")
| pr_number n c t : c <> "0"%char -> forallb is_digit (c :: t) = true -> dec_value (c :: t) = n -> prints (LUnsigned n) (c :: t)
| pr_true : prints (LBool true) ($"true")
| pr_false : prints (LBool false) ($"false")
| pr_default : prints LDefault ($"default")
| pr_nothing : prints LNothing ($"nothing").

(** Texts separated by comma and blank. *)
Inductive separated : list str -> str -> Prop :=
| se_none : separated [] []
| se_one t : separated [t] t
| se_more t ts text : ts <> [] -> separated ts text -> separated (t :: ts) (t ++ $", " ++ text).

(** Name and arguments as in the source; there are parentheses in any case. *)
Definition noted (a : annotation) (text : str) : Prop :=
  exists name ts inner, names name (a_kind a) /\ Forall2 prints (a_args a) ts /\ separated ts inner /\ text = name ++ $"(" ++ inner ++ $")".
