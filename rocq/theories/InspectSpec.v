(** * Specification of printed context graphs *)
From Verif Require Import Base ParserModel AnnotModel CollectModel GraphModel GraphSpec InspectModel.

(** ** Trees *)

Inductive ctree := CTree (n : nat) (ts : list ctree).
Definition top (t : ctree) : nat := match t with CTree n _ => n end.
Fixpoint tree_nodes (t : ctree) : list nat := match t with CTree n ts => n :: flat_map tree_nodes ts end.

(** The tree below a node, children in order. *)
Inductive below (g : graph) : ctree -> Prop :=
| below_node n ts : map top ts = children g n -> (forall t, In t ts -> below g t) -> below g (CTree n ts).

(** Depth and caption of all nodes, parents first. *)
Fixpoint outline (caption : nat -> str) (depth : nat) (t : ctree) : list (nat * str) :=
  match t with CTree n ts => (depth, caption n) :: flat_map (outline caption (S depth)) ts end.

(** ** Text *)

(** Lines with two columns for each enclosing level, and a connector. *)
Inductive indented (caption : str) : nat -> str -> Prop :=
| indented_connector c : c = $"|-" \/ c = $"`-" -> indented caption 0 (c ++ caption)
| indented_level c depth line : c = $"| " \/ c = $"  " -> indented caption depth line -> indented caption (S depth) (c ++ line).

Definition outlined (title text : str) (l : list (nat * str)) : Prop :=
  exists lines, text = title ++ flat_map (fun line => line_break ++ line) lines ++ line_break /\
    Forall2 (fun e line => indented (snd e) (fst e) line) l lines.

(** Name of a context in Python. *)
Definition python_name (u : unit) (n : nat) (a : attrs) (s : str) : Prop :=
  (n_spelling (at_named a) <> [] /\ s = n_spelling (at_named a)) \/ (n_spelling (at_named a) = [] /\ s = u_name u n).

(** What is said about a context: kind, qualified name, name in Python if annotated
    and different, and visibility. *)
Definition captioned (x : names) (u : unit) (st : storage) (n : nat) (visible : bool) (s : str) : Prop :=
  exists renamed, s = nm_kind x n ++ $" '" ++ nm_display x n ++ $"'" ++ renamed ++ $": " ++ (if visible then $"visible" else $"hidden") /\
    ((renamed = [] /\ forall a, lookup_attrs st n = Some a -> python_name u n a (nm_simple x n)) \/
     (exists a s', lookup_attrs st n = Some a /\ python_name u n a s' /\ s' <> nm_simple x n /\ renamed = $" as '" ++ s' ++ $"'")).

(** Text without line breaks. *)
Definition single_line (s : str) : Prop := ~ In (ascii_of_N 10) s.

(** Names in C++ never contain line breaks. *)
Definition plain_names (x : names) (u : unit) : Prop :=
  forall n, single_line (nm_kind x n) /\ single_line (nm_display x n) /\ single_line (u_name u n).

(** Trees of captions. *)
Inductive stree := STree (caption : str) (ts : list stree).
Fixpoint labelled (caption : nat -> str) (t : ctree) : stree := match t with CTree n ts => STree (caption n) (map (labelled caption) ts) end.
