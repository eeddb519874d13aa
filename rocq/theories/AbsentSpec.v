(** * Specification of translation units with fewer declarations *)
From Verif Require Import Base ParserModel AnnotModel AnnotSpec CollectModel CollectSpec GraphModel GraphSpec OrderModel InlineModel EmitModel EmitSpec ModuleModel ModuleSpec ImportSpec ExecSpec AccessSpec ToolModel.

Section Absent.
Variable drop : nat -> bool.

Definition kept (i : nat) : bool := negb (drop i).

(** The declarations chosen are left out. *)
Fixpoint cut (t : tree) : list tree :=
  match t with Node i ts => let ts' := flat_map cut ts in if drop i then ts' else [Node i ts'] end.

Definition without (u : unit) : unit :=
  mkUnit (u_decls u) (flat_map cut (u_top u)) (u_root u) (u_contexts u) (u_lookup u) (u_dependent u) (u_canonical u) (u_qualified u) (u_name u) (u_hidden_access u) (u_location u).

(** They are not found by name lookup, neither by themselves nor via a using-declaration. *)
Definition refers (w : facts) (f : found) : nat :=
  match mb_shadow (w_members w (fd_decl f)) with Some t => t | None => fd_decl f end.

Definition facts_without (w : facts) : facts :=
  let x := w_extra w in
  mkFacts
    (mkExtra (x_fn x) (x_const x) (x_tag x) (x_enumerator x) (x_scoped x) (x_abstract x)
       (fun i => option_map (filter kept) (x_specializations x i)) (fun r k => filter kept (x_adl x r k)))
    (w_hierarchy w) (w_members w) (fun c => filter (fun f => kept (refers w f)) (w_results w c)) (w_qualified w) (filter kept (w_variables w)) (w_pop w).

(** Neither annotated nor a namespace, class or enumeration. *)
Definition plain (u : unit) (i : nat) : Prop := ~ marked (u_decls u i) /\ ~ context_kind (kind u i).

(** [i] is not found in contexts that are visible. *)
Definition out_of_sight (u : unit) (w : facts) (found : nat -> list nat) (implicit : nat -> bool) (i : nat) : Prop :=
  forall b, build_graph u = Done (true, b) -> forall c l, path (edge (bs_graph b)) (u_root u) (c :: l) -> visible_along u (bs_annotations b) (c :: l) true ->
    (In i (found c) -> implicit i = true) /\ ~ declared_in u w b c i.

(** What is left out does not matter; along with templates, their specialisations
    are left out. *)
Record dispensable (u : unit) (w : facts) (found : nat -> list nat) (implicit : nat -> bool) : Prop := {
  di_plain : forall i, drop i = true -> plain u i;
  di_sight : forall i, drop i = true -> out_of_sight u w found implicit i;
  di_templates : forall i j, drop i = true -> In j (expand (w_extra w) i) -> drop j = true }.
End Absent.

(** Results of two runs: the same files, the same reports. *)
Definition same_result (r r' : option run_result) : Prop :=
  match r, r' with
  | Some (RGraph b (EWritten files rs _)), Some (RGraph b' (EWritten files' rs' _)) => b = b' /\ files = files' /\ rs = rs'
  | r, r' => r = r'
  end.

(** Declared in the global scope only. *)
Definition only_global (u : unit) (w : facts) (found : nat -> list nat) (i : nat) : Prop :=
  (forall c, In i (found c) -> c = u_root u) /\ forall b c, declared_in u w b c i -> c = u_root u.

(** A compile command for the header without these declarations. *)
Definition reduced_job (j j' : job) : Prop :=
  exists drop, setting (j_unit j) (j_facts j) (j_iteration j) /\ dispensable drop (j_unit j) (j_facts j) (j_found j) (j_implicit j) /\
    j' = mkJob (j_main j) (j_errors j) (j_pragmas j) (without drop (j_unit j)) (facts_without drop (j_facts j)) (fun c => filter (kept drop) (j_found j c)) (j_implicit j) (j_iteration j).
