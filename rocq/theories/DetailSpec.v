(** * Specification of what generated code may depend on *)
From Verif Require Import Base ParserModel AnnotModel AnnotSpec CollectModel GraphModel GraphSpec OrderModel InlineModel EmitModel EmitSpec ModuleModel ModuleSpec AccessSpec.

(** Declaration [i] is the same: signature, constness, aliased type, kind of constant. *)
Record same_details (x x' : extra) (i : nat) : Prop := {
  sd_signature : x_fn x i = x_fn x' i;
  sd_const : x_const x i = x_const x' i;
  sd_aliased : x_tag x i = x_tag x' i;
  sd_enumerator : x_enumerator x i = x_enumerator x' i }.

(** Some parameter has the type of class [r], references and qualifiers aside. *)
Definition takes_class (x : extra) (r i : nat) : Prop := exists q, In q (fi_params (x_fn x i)) /\ has_type_of_record r q = true.

(** [i] is declared in some context of the module and visible there. *)
Definition in_use (u : unit) (w : facts) (g : graph) (b : bstate) (name : str) (i : nat) : Prop :=
  exists c, In c (g_nodes g) /\ declared_in u w b c i /\ visible_in u b name c i.

(** The same contexts are found ... *)
Record same_context (u : unit) (w w' : facts) (c : nat) : Prop := {
  sc_name : w_qualified w c = w_qualified w' c;
  sc_results : w_results w c = w_results w' c;
  sc_abstract : x_abstract (w_extra w) c = x_abstract (w_extra w') c;
  sc_scoped : x_scoped (w_extra w) c = x_scoped (w_extra w') c;
  sc_operators : kind u c = KRecord -> forall k, x_adl (w_extra w) c k = x_adl (w_extra w') c k;
  sc_operands : kind u c = KRecord -> forall i k d, In d (x_adl (w_extra w) c k) -> In i (expand (w_extra w) d) ->
    (takes_class (w_extra w) c i <-> takes_class (w_extra w') c i) }.

(** ... with the same declarations, only those in use need to have the same details. *)
Record same_where_used (u : unit) (w w' : facts) (g : graph) (b : bstate) (name : str) : Prop := {
  su_details : forall i, in_use u w g b name i -> same_details (w_extra w) (w_extra w') i;
  su_contexts : forall c, In c (g_nodes g) -> same_context u w w' c;
  su_templates : forall i, x_specializations (w_extra w) i = x_specializations (w_extra w') i;
  su_hierarchy : w_hierarchy w = w_hierarchy w';
  su_members : w_members w = w_members w';
  su_variables : w_variables w = w_variables w';
  su_queue : w_pop w = w_pop w' }.

(** ** Changes to one declaration *)

Definition change {A} (f : nat -> A) (i : nat) (v : A) (j : nat) : A := if Nat.eqb j i then v else f j.

(** Declaration [i] is changed arbitrarily. *)
Definition changed (w : facts) (i : nat) (f : fn) (const : bool) (tag : option nat) (enumerator : bool) : facts :=
  let x := w_extra w in
  mkFacts (mkExtra (change (x_fn x) i f) (change (x_const x) i const) (change (x_tag x) i tag) (change (x_enumerator x) i enumerator)
             (x_scoped x) (x_abstract x) (x_specializations x) (x_adl x))
    (w_hierarchy w) (w_members w) (w_results w) (w_qualified w) (w_variables w) (w_pop w).
