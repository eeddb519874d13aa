(** * Specification of what annotations of single declarations affect *)
From Verif Require Import Base ParserModel AnnotModel AnnotSpec CollectModel GraphModel GraphSpec OrderModel InlineModel EmitModel EmitSpec ModuleModel ModuleSpec.

(** Other annotations for one declaration. *)
Definition with_texts (d : decl) (texts : list str) : decl :=
  mkDecl (d_kind d) texts (d_skip d) (d_params d) (d_min_required d) (d_returns_void d) (d_static d) (d_converting d)
    (d_bases d) (d_all_bases d) (d_lambda d) (d_global d) (d_target d).

Definition reannotated (u : unit) (i : nat) (texts : list str) : unit :=
  mkUnit (fun j => if Nat.eqb j i then with_texts (u_decls u j) texts else u_decls u j)
    (u_top u) (u_root u) (u_contexts u) (u_lookup u) (u_dependent u) (u_canonical u) (u_qualified u) (u_name u) (u_hidden_access u) (u_location u).

(** Functions, constructors, data members, variables, ...: neither contexts, nor
    aliases, nor free operators. *)
Definition single (u : unit) (i : nat) : Prop :=
  match kind u i with
  | KNamespace | KEnum | KRecord | KTypedef | KFunction OtherOperator => False
  | _ => True
  end.

(** The annotations are valid and result in attributes [a]. *)
Definition valid_with (u : unit) (i : nat) (a : attrs) : Prop := AnnotModel.insert (u_decls u) i [] = Some ([(i, a)], []).

(** Attributes differ at most in the name ([expose_as]), [readonly] and those of
    functions ([keep_alive], [noconvert], [required], [return_value_policy]). *)
Record similar (a a' : attrs) : Prop := {
  si_visible : n_visible (at_named a) = n_visible (at_named a');
  si_namespace : at_namespace a = at_namespace a';
  si_enum : at_enum a = at_enum a';
  si_record : at_record a = at_record a';
  si_typedef : at_typedef a = at_typedef a';
  si_manual : f_manual (at_field a) = f_manual (at_field a');
  si_postamble : f_postamble (at_field a) = f_postamble (at_field a');
  si_method : at_method a = at_method a';
  si_implicit : at_implicit_conversion a = at_implicit_conversion a' }.

(** Bodies that agree in all statements that are not about [i] (the remaining ones
    are in the same order). *)
Inductive same_but (i : nat) : list stmt -> list stmt -> Prop :=
| sb_nil : same_but i [] []
| sb_same t l l' : same_but i l l' -> same_but i (t :: l) (t :: l')
| sb_about t t' l l' : mentions t i -> mentions t' i -> same_but i l l' -> same_but i (t :: l) (t' :: l').

Inductive same_item (i : nat) : item -> item -> Prop :=
| si_equal m : same_item i m m
| si_body id p body body' : same_but i body body' -> same_item i (IDefine id p body) (IDefine id p body').

(** Results of two runs. *)
Definition same_output (i : nat) (r r' : option run_result) : Prop :=
  match r, r' with
  | None, None => True
  | Some RStopped, Some RStopped => True
  | Some (RGraph b (ECycle c)), Some (RGraph b' (ECycle c')) => c = c' /\ bs_reports b = bs_reports b'
  | Some (RGraph b (EWritten files rs _)), Some (RGraph b' (EWritten files' rs' _)) =>
      Forall2 (Forall2 (same_item i)) files files' /\ rs = rs' /\ bs_reports b = bs_reports b'
  | _, _ => False
  end.
