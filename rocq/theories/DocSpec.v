(** * Specification of the documentation found in Python *)
From Coq Require Import Sorting.Sorted.
From Verif Require Import Base ParserModel AnnotModel AnnotSpec CollectModel GraphModel GraphSpec OrderModel InlineModel EmitModel EmitSpec ModuleModel ModuleSpec ImportSpec ExecSpec AccessSpec TextModel.

(** ** What is passed to pybind11 *)

(** Comment passed along with a function, see C63; printing functions and getters
    are given none. *)
Definition comment_of (tx : texts) (t : stmt) : str :=
  match t with SFunction _ _ f _ _ | SInit f _ _ _ | SOperator _ f _ => docstring tx f | _ => [] end.

(** Comment passed along with a value of an enumeration. *)
Definition value_comment (tx : texts) (t : stmt) : str := match t with SValue _ i => tx_brief tx i | _ => [] end.

(** ** __doc__ as put together by pybind11 *)

Definition line_end : ascii := ascii_of_N 10.
Definition break : str := [line_end].

Section Functions.
(** [signature]: rendered parameters and result, beginning with a parenthesis. *)
Context (tx : texts) (signature : stmt -> str).

Definition number_of (k : nat) : str := decimal (N.of_nat k) ++ $". ".

(** cpp_function::initialize_generic: of one overload. *)
Definition paragraph (prefix n : str) (t : stmt) : str :=
  prefix ++ n ++ signature t ++ break ++ match comment_of tx t with [] => [] | c => break ++ c ++ break end.
Fixpoint paragraphs (n : str) (k : nat) (l : list stmt) : str :=
  match l with
  | [] => []
  | [t] => paragraph (number_of k) n t
  | t :: r => paragraph (number_of k) n t ++ break ++ paragraphs n (S k) r
  end.
Definition generic : str := $"(*args, **kwargs)".
Definition overloaded : str := $"Overloaded function.".
Definition function_doc (n : str) (l : list stmt) : str :=
  match l with [t] => paragraph [] n t | _ => n ++ generic ++ break ++ overloaded ++ break ++ break ++ paragraphs n 1 l end.
End Functions.

(** enum_base::init: __doc__ of an enumeration with its comment. *)
Definition members : str := $"Members:".
Definition value_line (tx : texts) (v : str * stmt) : str :=
  $"  " ++ fst v ++ match value_comment tx (snd v) with [] => [] | c => $" : " ++ c end.
Definition enum_doc (tx : texts) (p : pystate) (e : nat) : str :=
  match tx_brief tx e with [] => [] | c => c ++ break ++ break end ++ members ++ flat_map (fun v => break ++ break ++ value_line tx v) (entries p e).

(** ** Reading *)

Fixpoint lines (s : str) : list str :=
  match s with
  | [] => [[]]
  | c :: r => if Ascii.eqb c line_end then [] :: lines r else match lines r with l :: q => (c :: l) :: q | [] => [[c]] end
  end.

(** Lines that are separated by empty ones. *)
Fixpoint separated (l : list str) : option (list str) :=
  match l with
  | [] => Some []
  | [x] => Some [x]
  | x :: y :: r => match y with [] => option_map (cons x) (separated r) | _ => None end
  end.

(** What follows a prefix. *)
Fixpoint after (p s : str) : option str :=
  match p, s with
  | [], _ => Some s
  | c :: p', d :: s' => if Ascii.eqb c d then after p' s' else None
  | _, _ => None
  end.

(** The text up to the final end of line. *)
Fixpoint unended (s : str) : option str :=
  match s with [] => None | [c] => if Ascii.eqb c line_end then Some [] else None | c :: r => option_map (cons c) (unended r) end.

(** Numbered overloads with or without comment. *)
Fixpoint grouped (n : str) (k : nat) (l : list str) : option (list (str * str)) :=
  match l with
  | [] => Some []
  | s :: r =>
      match after (number_of k ++ n) s with
      | None => None
      | Some sig =>
          match r with
          | [] => Some [(sig, [])]
          | c :: r' =>
              match after (number_of (S k) ++ n ++ $"(") c with
              | Some _ => option_map (cons (sig, [])) (grouped n (S k) r)
              | None => option_map (cons (sig, c)) (grouped n (S k) r')
              end
          end
      end
  end.

(** Signatures and comments of the overloads according to the __doc__ of function [n]. *)
Definition read_function (n doc : str) : option (list (str * str)) :=
  match after (n ++ generic ++ break ++ overloaded ++ break ++ break) doc with
  | Some text => match unended text with Some t => match separated (lines t) with Some l => grouped n 1 l | None => None end | None => None end
  | None =>
      match unended doc with
      | Some t =>
          match separated (lines t) with
          | Some [s] => match after n s with Some sig => Some [(sig, [])] | None => None end
          | Some [s; c] => match after n s with Some sig => Some [(sig, c)] | None => None end
          | _ => None
          end
      | None => None
      end
  end.

(** The first of the places where [" : "] occurs. *)
Fixpoint split_comment (s : str) : str * str :=
  match s with
  | [] => ([], [])
  | c :: r => match after ($" : ") s with Some q => ([], q) | None => let (a, b) := split_comment r in (c :: a, b) end
  end.

Fixpoint read_values (l : list str) : option (list (str * str)) :=
  match l with
  | [] => Some []
  | s :: r => match after ($"  ") s, read_values r with Some v, Some q => Some (split_comment v :: q) | _, _ => None end
  end.

(** Comment and values, with comments, according to the __doc__ of an enumeration. *)
Definition read_enum (doc : str) : option (str * list (str * str)) :=
  match separated (lines doc) with
  | Some (a :: l) =>
      if str_eqb a members then option_map (pair []) (read_values l)
      else match l with m :: l' => if str_eqb m members then option_map (pair a) (read_values l') else None | [] => None end
  | _ => None
  end.

(** ** What is expected *)

(** Comment of a function: its own or that of the template it is an instance of. *)
Inductive commented (tx : texts) (f : nat) : str -> Prop :=
| cm_own c : tx_brief tx f = c -> c <> [] -> commented tx f c
| cm_template p c : tx_brief tx f = [] -> tx_primary tx f = Some p -> tx_brief tx p = c -> commented tx f c
| cm_none : tx_brief tx f = [] -> tx_primary tx f = None -> commented tx f [].

(** Functions overloads are called for; only printing functions have no comment. *)
Definition bound_to (t : stmt) : option nat := match t with SFunction _ _ f _ _ | SInit f _ _ _ | SOperator _ f _ => Some f | _ => None end.
Definition documents (tx : texts) (t : stmt) (c : str) : Prop := match bound_to t with Some f => commented tx f c | None => c = [] end.

(** Names and comments of the visible ones among the declarations [l] in
    enumeration [e]. *)
Inductive listed (tx : texts) (u : unit) (b : bstate) (name : str) (e : nat) : list nat -> list (str * str) -> Prop :=
| li_nil : listed tx u b name e [] []
| li_value i l a n r : visible_in u b name e i -> own_attributes u i a -> called u a i [] n ->
    listed tx u b name e l r -> listed tx u b name e (i :: l) ((n, tx_brief tx i) :: r)
| li_other i l r : ~ visible_in u b name e i -> listed tx u b name e l r -> listed tx u b name e (i :: l) r.

(** The enumerators of [e] as they are written. *)
Definition enumerators (u : unit) (w : facts) (b : bstate) (e : nat) (l : list nat) : Prop :=
  StronglySorted (fun i j => (u_location u i <= u_location u j)%N) l /\ forall i, In i l <-> declared_in u w b e i /\ x_enumerator (w_extra w) i = true.

(** ** Conditions *)

Definition one_line (s : str) : Prop := ~ In line_end s.

(** Brief comments are single lines; here they are not taken for the beginning of
    another overload of [n]. *)
Definition unlike_overloads (n c : str) : Prop := forall k s, after (number_of k ++ n ++ $"(") c <> Some s.
Record readable (tx : texts) (signature : stmt -> str) (n : str) (l : list stmt) : Prop := {
  rd_name : one_line n;
  rd_signatures : forall t, In t l -> one_line (signature t) /\ (exists r, signature t = $"(" ++ r) /\ signature t <> generic;
  rd_comments : forall t, In t l -> one_line (comment_of tx t) /\ unlike_overloads n (comment_of tx t)
}.

Record readable_enum (tx : texts) (e : nat) (vs : list (str * str)) : Prop := {
  re_comment : one_line (tx_brief tx e) /\ tx_brief tx e <> members;
  re_values : forall n c, In (n, c) vs -> one_line n /\ ~ In (ascii_of_N 32) n /\ one_line c
}.

(** Enumerators are neither contexts nor templates or their instances. *)
Definition proper_enumerators (u : unit) (w : facts) : Prop :=
  forall i, x_enumerator (w_extra w) i = true -> is_tag_kind (kind u i) = false /\
    x_specializations (w_extra w) i = None /\ forall j l, x_specializations (w_extra w) j = Some l -> ~ In i l.

(** Manual bindings do not add values to enumerations. *)
Definition leaves_values (manual : nat -> object -> pystate -> option pystate) : Prop :=
  forall l o p p', manual l o p = Some p' -> forall e, entries p' e = entries p e.

(** __doc__ of attributes: pybind11 is not given a comment for data members,
    variables and getters. *)
Definition attribute_doc (tx : texts) (signature : stmt -> str) (k : str) (m : member) : option str :=
  match m with MFunction _ l => Some (function_doc tx signature k l) | _ => None end.
