(** * Base classes and visible declarations: model of src/visible_decls.cpp and
    of the listing of bases in src/expose.cpp. *)
From Verif Require Import Base ParserModel AnnotModel CollectModel GraphModel.

(** [clang::CXXBaseSpecifier]: definition of the base, access, [virtual]. *)
Record bspec := mkSpec { sp_base : nat; sp_public : bool; sp_virtual : bool }.

(** Class hierarchies: [h_direct] is [CXXRecordDecl::bases]; [h_height] exceeds
    the height of all bases (inheritance is acyclic) and only serves to bound
    recursion. *)
Record hierarchy := mkHierarchy { h_direct : nat -> list bspec; h_height : nat -> nat }.

(** ** [RecordInliningPolicy::createFromAnnotations], visible_decls.cpp L90-113 *)

Definition get_record (u : unit) (st : storage) (i : nat) : option record_attrs := get u st supports_record at_record i.

(** The loop; [None]: out of fuel.  [remaining] is a stack, its top comes first. *)
Fixpoint gather (fuel : nat) (u : unit) (st : storage) (remaining candidates hidden : list nat) : option (list nat * list nat) :=
  match remaining with
  | [] => Some (candidates, hidden)
  | decl :: remaining' =>
      match fuel with
      | O => None
      | S fuel' =>
          match get_record u st decl with
          | None => gather fuel' u st remaining' candidates hidden
          | Some a =>
              let hidden' := fold_left (fun h b => add_nat b h) (r_hide_base a) hidden in
              let '(remaining'', candidates') :=
                fold_left (fun rc b => if mem b (snd rc) then rc else (b :: fst rc, snd rc ++ [b])) (r_inline_base a) (remaining', candidates) in
              gather fuel' u st remaining'' candidates' hidden'
          end
      end
  end.

(** All classes that any declaration asks to inline. *)
Definition all_inline_bases (st : storage) : list nat := flat_map (fun e => r_inline_base (at_record (snd e))) st.

Definition gather_all (u : unit) (st : storage) (r : nat) : option (list nat * list nat) :=
  gather (S (length (all_inline_bases st))) u st [r] [] [].

(** ** Paths to a base class *)

(** [CXXRecordDecl::isDerivedFrom] with [CXXBasePaths] (clang): all paths from
    the class to [target], except that a virtual base is descended into only
    once.  [visited]: virtual bases met so far.  [None]: out of fuel. *)
Fixpoint find_paths (fuel : nat) (h : hierarchy) (target r : nat) (scratch : list bspec) (visited : list nat)
    : option (list (list bspec) * list nat) :=
  match fuel with
  | O => None
  | S fuel' =>
      fold_opt (fun acc s =>
        let '(paths, visited) := acc in
        let descend := negb (sp_virtual s && mem (sp_base s) visited) in
        let visited := if sp_virtual s then sp_base s :: visited else visited in
        let path := scratch ++ [s] in
        if Nat.eqb (sp_base s) target then Some (paths ++ [path], visited)
        else if descend then
          match find_paths fuel' h target (sp_base s) path visited with
          | None => None
          | Some (more, visited') => Some (paths ++ more, visited')
          end
        else Some (paths, visited))
      (h_direct h r) ([], visited)
  end.

Definition base_paths (h : hierarchy) (r target : nat) : option (list (list bspec)) :=
  option_map fst (find_paths (S (h_height h r)) h target r [] []).

(** [CXXRecordDecl::forallBases] (clang): all bases, direct and indirect. *)
Fixpoint forall_bases (fuel : nat) (h : hierarchy) (r : nat) : list nat :=
  match fuel with
  | O => []
  | S fuel' => flat_map (fun s => sp_base s :: forall_bases fuel' h (sp_base s)) (h_direct h r)
  end.

(** ** Policies, visible_decls.cpp L115-159 *)

Record policy := mkPolicy { p_inline : list nat; p_hide : list nat }.

(** L120-129: [is_hidden_base], [is_valid_path]. *)
Definition is_valid_path (hidden : list nat) (path : list bspec) : bool :=
  forallb sp_public path && negb (existsb (fun s => mem (sp_base s) hidden) path).

(** L131-139. *)
Definition inlines (h : hierarchy) (r : nat) (candidates hidden : list nat) (base : nat) : option bool :=
  if negb (mem base candidates) then Some false
  else option_map (existsb (is_valid_path hidden)) (base_paths h r base).

(** L115-147; the set of bases in the order of insertion. *)
Definition make_policy (h : hierarchy) (r : nat) (candidates hidden : list nat) : option policy :=
  option_map (fun l => mkPolicy l hidden)
    (fold_opt (fun acc b => match inlines h r candidates hidden b with
                            | None => None
                            | Some true => Some (add_nat b acc)
                            | Some false => Some acc
                            end) (forall_bases (S (h_height h r)) h r) []).

(** L90-113. *)
Definition create_policy (u : unit) (st : storage) (h : hierarchy) (r : nat) : option policy :=
  match gather_all u st r with
  | None => None
  | Some (candidates, hidden) => make_policy h r candidates hidden
  end.

Definition should_inline (p : policy) (i : nat) : bool := mem i (p_inline p).
Definition should_hide (p : policy) (i : nat) : bool := mem i (p_hide p).

(** ** Bases listed in [pybind11::class_], expose.cpp L1231-1250 *)
Fixpoint listed_bases (fuel : nat) (h : hierarchy) (p : policy) (g : graph) (r : nat) : option (list nat) :=
  match fuel with
  | O => None
  | S fuel' =>
      fold_opt (fun acc s =>
        let b := sp_base s in
        if negb (sp_public s) || should_hide p b then Some acc
        else if should_inline p b then option_map (app acc) (listed_bases fuel' h p g b)
        else if has_node g b then Some (acc ++ [b])
        else Some acc)
      (h_direct h r) []
  end.

Definition class_bases (h : hierarchy) (p : policy) (g : graph) (r : nat) : option (list nat) :=
  listed_bases (S (h_height h r)) h p g r.

(** ** [ExposableDeclConsumer], visible_decls.cpp L32-84 *)

(** Results of [Sema::LookupVisibleDecls]: arguments of [FoundDecl]. *)
Record found := mkFound { fd_decl : nat; fd_hiding : option nat; fd_in_base : bool }.

(** What is looked at of a declaration found. *)
Record member := mkMember {
  mb_public : bool;              (* access public or none *)
  mb_constructor : bool;         (* constructor or constructor template *)
  mb_destructor : bool;
  mb_parent : option nat;        (* the class that is the declaration context *)
  mb_shadow : option nat;        (* target of a [UsingShadowDecl] *)
  mb_context : bool;             (* [DeclContextGraph::accepts] *)
  mb_located : bool              (* has a valid location *)
}.

(** L45-58. *)
Definition should_inline_decl (members : nat -> member) (p : option policy) (i : nat) : bool :=
  match p with
  | None => false
  | Some p =>
      if mb_constructor (members i) || mb_destructor (members i) then false
      else match mb_parent (members i) with
           | None => false
           | Some c => should_inline p c
           end
  end.

(** L60-84. *)
Definition found_decl (members : nat -> member) (p : option policy) (decls : list nat) (f : found) : list nat :=
  let i := fd_decl f in
  if negb (match fd_hiding f with None => true | Some _ => false end) || negb (mb_public (members i)) then decls
  else if fd_in_base f && negb (should_inline_decl members p i) then decls
  else
    let i := match mb_shadow (members i) with Some t => t | None => i end in
    if mb_context (members i) then decls
    else if negb (mb_located (members i)) then decls
    else decls ++ [i].

(** L161-176 [collectVisibleDeclsFromDeclContext]. *)
Definition visible_decls (members : nat -> member) (p : option policy) (results : list found) : list nat :=
  fold_left (found_decl members p) results [].
