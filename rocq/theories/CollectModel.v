(** * Collection of contexts and annotations: model of
    include/genpybind/lookup_context_collector.h and
    src/lookup_context_collector.cpp. *)
From Verif Require Import Base ParserModel AnnotModel.

(** ** Translation units *)

(** Declarations as traversed by clang's [RecursiveASTVisitor]: the children of
    a node are the declarations traversed while traversing it (lexically
    contained declarations, without statements and implicit code, including
    template instantiations).  How clang arrives at this tree is not modelled. *)
Inductive tree := Node (i : nat) (children : list tree).

(** Declarations are numbers. *)
Record unit := mkUnit {
  u_decls : nat -> decl;
  u_top : list tree;               (* children of the translation unit *)
  u_root : nat;                    (* the translation unit *)
  u_contexts : nat -> list nat;    (* [getDeclContext()] and its [getParent()]s, innermost first *)
  u_lookup : nat -> bool;          (* [DeclContext::isLookupContext] *)
  u_dependent : nat -> bool;       (* [getDeclContext()->isDependentContext()] *)
  u_canonical : nat -> nat;        (* [getCanonicalDecl] *)
  u_qualified : nat -> bool;       (* alias of a type with qualifiers *)
  u_name : nat -> str;             (* [getSpelling], name of the declaration *)
  u_hidden_access : nat -> bool;   (* protected or private *)
  u_location : nat -> N            (* position in the translation unit *)
}.

Definition kind (u : unit) (i : nat) : dkind := d_kind (u_decls u i).

Definition is_namespace_kind (k : dkind) : bool := match k with KNamespace => true | _ => false end.
Definition is_tag_kind (k : dkind) : bool := match k with KEnum | KRecord => true | _ => false end.
Definition is_typedef_kind (k : dkind) : bool := match k with KTypedef => true | _ => false end.

(** Diagnostics and the declaration they are attached to. *)
Inductive report :=
| RAnnotation (i : nat) (d : diag)
| RQualifiers (i : nat)                       (* warning *)
| RMismatch (i first : nat)                   (* error with a note at [first] *)
| RAlreadyExposed (alias previous : nat)      (* error with a note at [previous] *)
| RExposeHereCycle (alias : nat)
| RUnreachable (i : nat).                     (* warning *)

Definition is_error_report (r : report) : bool :=
  match r with
  | RAnnotation _ d => is_error d
  | RQualifiers _ | RUnreachable _ => false
  | RMismatch _ _ | RAlreadyExposed _ _ | RExposeHereCycle _ => true
  end.

(** ** Comparison of stored attributes, annotated_decl.cpp L932-941 *)

Definition opt_eqb {A} (eqb : A -> A -> bool) (x y : option A) : bool :=
  match x, y with Some a, Some b => eqb a b | None, None => true | _, _ => false end.
Fixpoint list_eqb {A} (eqb : A -> A -> bool) (x y : list A) : bool :=
  match x, y with [], [] => true | a :: x', b :: y' => eqb a b && list_eqb eqb x' y' | _, _ => false end.
(** [SmallSet], [SmallPtrSet]: same size and inclusion.  Stored sets have no
    duplicates. *)
Definition set_eqb {A} (eqb : A -> A -> bool) (x y : list A) : bool :=
  Nat.eqb (length x) (length y) && forallb (fun a => existsb (eqb a) y) x.

Definition named_eqb (x y : named_attrs) : bool :=
  str_eqb (n_spelling x) (n_spelling y) && opt_eqb Bool.eqb (n_visible x) (n_visible y).
Definition namespace_eqb (x y : namespace_attrs) : bool :=
  Bool.eqb (ns_module x) (ns_module y) && list_eqb str_eqb (ns_only_expose_in x) (ns_only_expose_in y).
Definition enum_eqb (x y : enum_attrs) : bool :=
  Bool.eqb (e_arithmetic x) (e_arithmetic y) && opt_eqb Bool.eqb (e_export_values x) (e_export_values y).
Definition record_eqb (x y : record_attrs) : bool :=
  Bool.eqb (r_dynamic_attr x) (r_dynamic_attr y) && set_eqb Nat.eqb (r_hide_base x) (r_hide_base y) &&
  set_eqb Nat.eqb (r_inline_base x) (r_inline_base y) && str_eqb (r_holder_type x) (r_holder_type y).
Definition typedef_eqb (x y : typedef_attrs) : bool :=
  Bool.eqb (t_encourage x) (t_encourage y) && Bool.eqb (t_expose_here x) (t_expose_here y).
Definition field_eqb (x y : field_attrs) : bool :=
  Bool.eqb (f_readonly x) (f_readonly y) && opt_eqb Nat.eqb (f_manual x) (f_manual y) && Bool.eqb (f_postamble x) (f_postamble y).
Definition method_eqb (x y : method_attrs) : bool :=
  set_eqb str_eqb (m_getter_for x) (m_getter_for y) && set_eqb str_eqb (m_setter_for x) (m_setter_for y).
Definition pair_eqb (x y : nat * nat) : bool := Nat.eqb (fst x) (fst y) && Nat.eqb (snd x) (snd y).
Definition function_eqb (x y : function_attrs) : bool :=
  list_eqb pair_eqb (fn_keep_alive x) (fn_keep_alive y) && set_eqb Nat.eqb (fn_noconvert x) (fn_noconvert y) &&
  set_eqb Nat.eqb (fn_required x) (fn_required y) && str_eqb (fn_policy x) (fn_policy y).
Definition always {A} (x y : A) : bool := true.

(** annotated_decl.h L226-234 [get<T>]. *)
Definition get {A} (u : unit) (st : storage) (supports : decl -> bool) (proj : attrs -> A) (i : nat) : option A :=
  if supports (u_decls u i) then option_map proj (lookup_attrs st i) else None.

Definition get_named (u : unit) (st : storage) (i : nat) : option named_attrs := get u st (fun _ => true) at_named i.
Definition get_namespace (u : unit) (st : storage) (i : nat) : option namespace_attrs := get u st is_namespace at_namespace i.
Definition get_typedef (u : unit) (st : storage) (i : nat) : option typedef_attrs := get u st is_typedef at_typedef i.

Definition equal (u : unit) (st : storage) (i j : nat) : bool :=
  opt_eqb named_eqb (get_named u st i) (get_named u st j) &&
  opt_eqb namespace_eqb (get_namespace u st i) (get_namespace u st j) &&
  opt_eqb enum_eqb (get u st supports_enum at_enum i) (get u st supports_enum at_enum j) &&
  opt_eqb record_eqb (get u st supports_record at_record i) (get u st supports_record at_record j) &&
  opt_eqb typedef_eqb (get_typedef u st i) (get_typedef u st j) &&
  opt_eqb field_eqb (get u st supports_field at_field i) (get u st supports_field at_field j) &&
  opt_eqb always (get u st supports_operator (fun _ => tt) i) (get u st supports_operator (fun _ => tt) j) &&
  opt_eqb always (get u st supports_conversion (fun _ => tt) i) (get u st supports_conversion (fun _ => tt) j) &&
  opt_eqb method_eqb (get u st supports_method at_method i) (get u st supports_method at_method j) &&
  opt_eqb Bool.eqb (get u st supports_constructor at_implicit_conversion i) (get u st supports_constructor at_implicit_conversion j) &&
  opt_eqb function_eqb (get u st supports_function at_function i) (get u st supports_function at_function j).

(** ** The collector *)

Record cstate := mkState {
  cs_annotations : storage;
  cs_reports : list report;
  cs_first : list (nat * nat);     (* [first_decls], L42-43 *)
  cs_contexts : list nat;          (* [lookup_contexts] *)
  cs_aliases : list nat            (* [aliases] *)
}.

Definition init_state : cstate := mkState [] [] [] [] [].

Definition report_all (rs : list report) (s : cstate) : cstate :=
  mkState (cs_annotations s) (cs_reports s ++ rs) (cs_first s) (cs_contexts s) (cs_aliases s).
Definition push_context (i : nat) (s : cstate) : cstate :=
  mkState (cs_annotations s) (cs_reports s) (cs_first s) (cs_contexts s ++ [i]) (cs_aliases s).
Definition push_alias (i : nat) (s : cstate) : cstate :=
  mkState (cs_annotations s) (cs_reports s) (cs_first s) (cs_contexts s) (cs_aliases s ++ [i]).

(** L78-87 [VisitNamedDecl]. *)
Definition visit_named (u : unit) (i : nat) (s : cstate) : option cstate :=
  let d := u_decls u i in
  if is_tag_kind (d_kind d) && d_skip d || u_dependent u i || negb (has_annotations d true) then Some s
  else match insert (u_decls u) i (cs_annotations s) with
       | None => None
       | Some (st, ds) =>
           Some (mkState st (cs_reports s ++ map (RAnnotation i) ds) (cs_first s) (cs_contexts s) (cs_aliases s))
       end.

(** L93-100 [VisitTypedefNameDecl]; lookup_context_collector.cpp L16-22. *)
Definition visit_typedef (u : unit) (i : nat) (s : cstate) : cstate :=
  if negb (has_annotations (u_decls u i) true) || u_dependent u i then s
  else push_alias i (if u_qualified u i then report_all [RQualifiers i] s else s).

(** L118-130 [VisitNamespaceDecl], [VisitTagDecl]. *)
Definition visit_context (u : unit) (i : nat) (s : cstate) : cstate :=
  if d_skip (u_decls u i) then s else push_context i s.

(** The [WalkUpFrom] functions of the visitor: base classes first. *)
Definition visit (u : unit) (i : nat) (s : cstate) : option cstate :=
  match visit_named u i s with
  | None => None
  | Some s1 =>
      Some (match kind u i with
            | KTypedef => visit_typedef u i s1
            | KNamespace | KEnum | KRecord => visit_context u i s1
            | _ => s1
            end)
  end.

Fixpoint assoc (l : list (nat * nat)) (i : nat) : option nat :=
  match l with [] => None | (j, x) :: l' => if Nat.eqb i j then Some x else assoc l' i end.

(** lookup_context_collector.cpp L24-37 [errorIfAnnotationsDoNotMatchFirstDecl]. *)
Definition check_first (u : unit) (i : nat) (s : cstate) : cstate :=
  match assoc (cs_first s) (u_canonical u i) with
  | None =>
      mkState (cs_annotations s) (cs_reports s) (cs_first s ++ [(u_canonical u i, i)]) (cs_contexts s) (cs_aliases s)
  | Some first => if equal u (cs_annotations s) i first then s else report_all [RMismatch i first] s
  end.

(** [RecursiveASTVisitor::TraverseDecl] with L102-117 [TraverseNamespaceDecl]. *)
Fixpoint traverse (u : unit) (t : tree) (s : cstate) {struct t} : option cstate :=
  match t with
  | Node i ts =>
      let fix traverse_all (ts : list tree) (s : cstate) {struct ts} : option cstate :=
        match ts with
        | [] => Some s
        | t :: ts' => match traverse u t s with None => None | Some s' => traverse_all ts' s' end
        end in
      if is_namespace_kind (kind u i) then
        if d_skip (u_decls u i) then Some s
        else
          let before_traversing := length (cs_annotations s) in
          match visit u i s with
          | None => None
          | Some s1 =>
              match traverse_all ts s1 with
              | None => None
              | Some s2 =>
                  if negb (Nat.eqb (length (cs_annotations s2)) before_traversing) then Some (check_first u i s2)
                  else Some s2
              end
          end
      else
        match visit u i s with
        | None => None
        | Some s1 => traverse_all ts s1
        end
  end.

Fixpoint traverse_all (u : unit) (ts : list tree) (s : cstate) : option cstate :=
  match ts with
  | [] => Some s
  | t :: ts' => match traverse u t s with None => None | Some s' => traverse_all u ts' s' end
  end.

(** [TraverseDecl(translation_unit)]; the translation unit is not a named
    declaration. *)
Definition collect (u : unit) : option cstate := traverse_all u (u_top u) init_state.
