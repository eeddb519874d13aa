(** * Specification of the CMake function for building modules *)
From Verif Require Import Base ModuleModel ToolModel ToolSpec.

(** Use of the function: keywords with their values, and other arguments. *)
Inductive part := Other (l : list str) | TheHeader (h : str) | Libraries (l : list str) | Count (l : list str).

Definition reserved : list str := [$"HEADER"; $"LINK_LIBRARIES"; $"NUM_BINDING_FILES"].
Definition words (p : part) : list str :=
  match p with Other l => l | TheHeader h => [$"HEADER"; h] | Libraries l => $"LINK_LIBRARIES" :: l | Count l => $"NUM_BINDING_FILES" :: l end.
Definition values (p : part) : list str := match p with Other l | Libraries l | Count l => l | TheHeader h => [h] end.

(** Other arguments do not directly follow those of a keyword with several values. *)
Fixpoint separated (open : bool) (l : list part) : Prop :=
  match l with
  | [] => True
  | Other _ :: r => open = false /\ separated false r
  | TheHeader _ :: r => separated false r
  | _ :: r => separated true r
  end.

Definition others (l : list part) : list str := flat_map (fun p => match p with Other x => x | _ => [] end) l.
Definition libraries (l : list part) : list str := flat_map (fun p => match p with Libraries x => x | _ => [] end) l.
Definition counts (l : list part) : list str := flat_map (fun p => match p with Count x => x | _ => [] end) l.
Definition headers (l : list part) : list str := flat_map (fun p => match p with TheHeader h => [h] | _ => [] end) l.

(** Normal absolute path of a directory. *)
Definition directory (d : str) : Prop := exists c r, d = $"/" ++ c :: r /\ c <> "/"%char.

Record use (l : list part) (h : str) (n : N) : Prop := {
  us_values : forall p v, In p l -> In v (values p) -> ~ In v reserved;
  us_separated : separated false l;
  us_header : headers l = [h] /\ h <> [];
  us_count : (counts l = [] /\ n = 1%N) \/ (exists k, counts l = [decimal k] /\ n = N.max 1 k) }.
