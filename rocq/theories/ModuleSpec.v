(** * Specification of the generated module *)
From Coq Require Import Sorting.Permutation.
From Verif Require Import Base ParserModel AnnotModel CollectModel GraphModel GraphSpec OrderModel OrderSpec InlineModel InlineSpec EmitModel EmitSpec ModuleModel.

(** ** Blocks of namespaces *)

Definition same_namespace (u : unit) (c d : nat) : Prop :=
  kind u c = KNamespace /\ kind u d = KNamespace /\ u_canonical u c = u_canonical u d.

(** Contexts in order, later blocks of namespaces left out. *)
Inductive blocks (u : unit) : list nat -> list nat -> list nat -> Prop :=
| blocks_nil seen : blocks u seen [] []
| blocks_new seen c l r : (forall d, In d seen -> ~ same_namespace u d c) -> blocks u (seen ++ [c]) l r -> blocks u seen (c :: l) (c :: r)
| blocks_again seen d c l r : In d seen -> same_namespace u d c -> blocks u (seen ++ [c]) l r -> blocks u seen (c :: l) r.

(** ** Parts of the output *)

(** One context: identifier, parameter of the exposing function, object, definition. *)
Record entry := mkEntry { ex_context : nat; ex_id : str; ex_param : parameter; ex_intro : introducer; ex_body : list stmt }.

Definition declaration (e : entry) : item := IDeclare (ex_id e) (ex_param e).
Definition definition (e : entry) : item := IDefine (ex_id e) (ex_param e) (ex_body e).

(** Files for the given entries: the first one contains the module, others only
    definitions, each preceded by a declaration. *)
Definition layout (name : str) (post : list nat) (all : list entry) (chunks : list (list entry)) (files : list (list item)) : Prop :=
  concat chunks = all /\ length chunks = length files /\
  forall k chunk file, nth_error chunks k = Some chunk -> nth_error files k = Some file ->
    file = match k with
           | O => map declaration all ++
                  IModule name (map (fun e => (ex_id e, ex_intro e)) all) (map (fun e => (ex_id e, ex_id e)) all) post ::
                  map definition chunk
           | S _ => flat_map (fun e => [declaration e; definition e]) chunk
           end.

Definition is_definition (i : item) : bool := match i with IDefine _ _ _ => true | _ => false end.
Definition is_module (i : item) : bool := match i with IModule _ _ _ _ => true | _ => false end.

(** ** Objects *)

Definition intro_parent (i : introducer) : str :=
  match i with NAlias p | NSubmodule p _ | NEnum _ p _ _ | NClass _ p _ _ => p end.

(** Name of a class, enumeration or namespace, from stored attributes if any. *)
Definition named (u : unit) (st : storage) (i : nat) (n : str) : Prop :=
  match lookup_attrs st i with Some a => called u a i [] n | None => n = u_name u i end.

(** The object for a context; [bases]: those to be listed. *)
Definition introduces (u : unit) (w : facts) (g : graph) (st : storage) (c : nat) (i : introducer) : Prop :=
  match kind u c with
  | KNamespace =>
      match i with
      | NSubmodule _ n => (exists a, lookup_attrs st c = Some a /\ ns_module (at_namespace a) = true) /\ named u st c n
      | NAlias _ => forall a, lookup_attrs st c = Some a -> ns_module (at_namespace a) = false
      | _ => False
      end
  | KEnum => exists p n b, i = NEnum c p n b /\ named u st c n /\ (b = true <-> exists a, lookup_attrs st c = Some a /\ e_arithmetic (at_enum a) = true)
  | KRecord => exists t p n b, i = NClass t p n b /\ named u st c n /\ ct_record t = c /\
      (b = true <-> exists a, lookup_attrs st c = Some a /\ r_dynamic_attr (at_record a) = true) /\
      ct_holder t = match lookup_attrs st c with Some a => r_holder_type (at_record a) | None => [] end /\
      exists pol, create_policy u st (w_hierarchy w) c = Some pol /\
      (forall b, In b (ct_bases t) <->
        lists (w_hierarchy w) (fun i => should_inline pol i = true) (fun i => should_hide pol i = true) (fun i => In i (g_nodes g)) c b) /\
      listing (w_hierarchy w) (fun i => should_inline pol i = true) (fun i => should_hide pol i = true) (fun i => In i (g_nodes g))
        (h_direct (w_hierarchy w) c) (ct_bases t)
  | _ => exists p, i = NAlias p
  end.

(** Parameter for which an object of the context is accepted. *)
Definition accepts (e : entry) : Prop :=
  ex_param e = match ex_intro e with NAlias _ | NSubmodule _ _ => PModule | NEnum i _ _ _ => PEnum i | NClass t _ _ _ => PClass t end.

(** ** Compilation of the module block *)

(** Local variables and their types.  Introducing an object fails if the parent
    is not known, is not a module although one is required, or if the name is
    taken. *)
Definition variables := list (str * parameter).
Fixpoint variable (n : str) (vs : variables) : option parameter :=
  match vs with [] => None | (m, t) :: vs' => if str_eqb n m then Some t else variable n vs' end.

Definition run_intro (vs : variables) (i : str * introducer) : option variables :=
  match variable (fst i) vs, variable (intro_parent (snd i)) vs with
  | None, Some t =>
      match snd i with
      | NAlias _ => Some ((fst i, t) :: vs)
      | NSubmodule _ _ => match t with PModule => Some ((fst i, PModule) :: vs) | _ => None end
      | NEnum e _ _ _ => Some ((fst i, PEnum e) :: vs)
      | NClass c _ _ _ => Some ((fst i, PClass c) :: vs)
      end
  | _, _ => None
  end.

Definition run_block (intros : list (str * introducer)) : option variables := fold_opt run_intro intros [($"root", PModule)].

(** ** Facts that hold by construction of the language *)

Record language (u : unit) (w : facts) : Prop := {
  la_acyclic : acyclic (w_hierarchy w);
  (* classes and enumerations are contexts of their own *)
  la_members : forall i, is_tag_kind (kind u i) = true -> mb_context (w_members w i) = true;
  (* operators and specialisations of function templates are functions *)
  la_operators : forall r k i, In i (x_adl (w_extra w) r k) -> is_tag_kind (kind u i) = false;
  la_templates : forall i l j, x_specializations (w_extra w) i = Some l -> In j l -> is_tag_kind (kind u j) = false;
  (* bases are classes *)
  la_bases : forall r s, In s (h_direct (w_hierarchy w) r) -> kind u (sp_base s) = KRecord;
  (* namespaces are not nested in classes or enumerations *)
  la_namespaces : forall c p, kind u c = KNamespace -> nearest_context u c p -> is_tag_kind (kind u p) = false
}.

(** ** Numbered identifiers *)

(** Number of occurrences. *)
Definition occurrences (l : list str) (n : str) : nat := length (filter (str_eqb n) l).

(** Names in order, the second and further occurrences numbered. *)
Fixpoint numbered_names (before l : list str) : list str :=
  match l with
  | [] => []
  | n :: l' => numbered n (N.of_nat (S (occurrences before n))) :: numbered_names (before ++ [n]) l'
  end.

(** Ends in an underscore and a number. *)
Definition ends_in_number (n : str) : Prop := exists m k, n = m ++ $"_" ++ decimal k.

(** ** Code at the end of the module *)

(** Manual bindings of the variables [vs] that are to be placed there. *)
Inductive final_code (u : unit) (st : storage) : list nat -> list nat -> Prop :=
| final_nil : final_code u st [] []
| final_take i vs a l code : supports_field (u_decls u i) = true -> lookup_attrs st i = Some a -> f_manual (at_field a) = Some l -> f_postamble (at_field a) = true ->
    final_code u st vs code -> final_code u st (i :: vs) (l :: code)
| final_skip i vs code : (forall a, supports_field (u_decls u i) = true -> lookup_attrs st i = Some a -> f_manual (at_field a) = None \/ f_postamble (at_field a) = false) ->
    final_code u st vs code -> final_code u st (i :: vs) code.

(** ** Bodies *)

Definition extends (st st' : storage) : Prop := forall i a, lookup_attrs st i = Some a -> lookup_attrs st' i = Some a.

(** Declarations looked at for a context. *)
Definition looked_up (u : unit) (w : facts) (c : nat) (x : exposer) : list nat :=
  declarations u (w_extra w) c (visible_decls (w_members w) (policy_of x) (w_results w c)).

(** The body is what is defined for the context, starting from some of the
    attributes stored in the end; [rs]: reports made. *)
Definition body_of (u : unit) (w : facts) (vis : dmap bool) (st st' : storage) (e : entry) (rs : list ereport) : Prop :=
  exists x st1 st2, create u st (w_hierarchy w) (ex_context e) = Some x /\
    define u (w_extra w) x (lookup_vis vis (ex_context e)) (looked_up u w (ex_context e) x) st1 = Some (st2, ex_body e, rs) /\
    extends st st1 /\ extends st2 st' /\ (faithful u st -> faithful u st1).

(** Nearest proper ancestor that is not transparent. *)
Definition scope_of (u : unit) (st : storage) (g : graph) (c p : nat) : Prop :=
  exists l1 l2, path (edge g) (u_root u) (c :: l1 ++ p :: l2) /\ ~ transparent u st p /\ forall q, In q l1 -> transparent u st q.

(** [m] has to be introduced before [c]. *)
Definition needed (u : unit) (w : facts) (st : storage) (g : graph) (m c : nat) : Prop :=
  In c (g_nodes g) /\ In m (g_nodes g) /\
  (scope_of u st g c m \/ (kind u c = KRecord /\ exists s, In s (h_direct (w_hierarchy w) c) /\ sp_public s = true /\ sp_base s = m)).

(** [e] is introduced in the object of its scope, introduced before; [before]:
    entries before [e]. *)
Definition placed_in_scope (u : unit) (st : storage) (g : graph) (before : list entry) (e : entry) : Prop :=
  (ex_context e = u_root u /\ intro_parent (ex_intro e) = $"root") \/
  (ex_context e <> u_root u /\ exists p f, scope_of u st g (ex_context e) p /\ In f before /\ intro_parent (ex_intro e) = ex_id f /\
     (ex_context f = p \/ same_namespace u (ex_context f) p)).

(** ** The module as a whole *)

(** [order]: contexts in order; [all]: their entries. *)
Record generated (u : unit) (w : facts) (g : graph) (vis : dmap bool) (st : storage) (name : str) (rs : list ereport) (st' : storage)
    (order : list nat) (all : list entry) (post : list nat) : Prop := {
  ge_order : valid_order (g_nodes g) (needed u w st g) order;
  ge_blocks : blocks u [] order (map ex_context all);
  ge_names : map ex_id all = numbered_names [] (map (context_name u w) (map ex_context all));
  ge_introduces : forall e, In e all -> introduces u w g st (ex_context e) (ex_intro e) /\ accepts e;
  ge_places : forall before e after, all = before ++ e :: after -> placed_in_scope u st g before e;
  ge_bodies : exists rss, Forall2 (body_of u w vis st st') all rss /\ concat rss = rs;
  ge_final : final_code u st (w_variables w) post
}.

(** ** Settings *)

(** Translation units along with an order of iteration over sets of pointers. *)
Record setting (u : unit) (w : facts) (iteration : list nat -> list nat) : Prop := {
  se_placed : placed u;
  se_language : language u w;
  se_queue : exists location, good_queue location (w_pop w);
  se_iteration : forall l, Permutation l (iteration l)
}.

(** What is exposed, see C21-C26, and the attributes collected. *)
Definition exposed (u : unit) (found : nat -> list nat) (implicit : nat -> bool) (name : str) (g : graph) (vis : dmap bool) (b : bstate) : Prop :=
  exists contexts warned, process u found implicit name = Done (Pruned g contexts vis warned b).

(** Declarations are as clang has them, see C54. *)
Definition proper_declarations (u : unit) (w : facts) : Prop :=
  forall st c x, create u st (w_hierarchy w) c = Some x -> forall i, In i (flat_map (expand (w_extra w)) (looked_up u w c x)) ->
    consistent u (w_extra w) i /\ in_place u x i /\ first_class_named u (w_extra w) i /\ insert (u_decls u) i [] <> None.

(** ** Base classes *)

(** Public bases, direct or via exposed bases. *)
Inductive base_via (h : hierarchy) (exposed : nat -> Prop) : nat -> nat -> Prop :=
| via_direct r s : In s (h_direct h r) -> sp_public s = true -> base_via h exposed r (sp_base s)
| via_exposed r s b : In s (h_direct h r) -> sp_public s = true -> exposed (sp_base s) -> base_via h exposed (sp_base s) b -> base_via h exposed r b.

(** ** Observable parts of the output *)

Definition name_of (i : item) : str := match i with IDeclare id _ | IDefine id _ _ => id | IModule n _ _ _ => n end.

(** The object on which the binding of [f] is defined. *)
Definition bound_on (files : list (list item)) (f : nat) (i : introducer) : Prop :=
  exists name intros calls post id p body obj, In (IModule name intros calls post) (concat files) /\ In (IDefine id p body) (concat files) /\
    (exists s, In s body /\ match s with SFunction _ _ g _ _ => g = f | _ => False end) /\ In (id, obj) calls /\ In (obj, i) intros.

(** A class is introduced. *)
Definition introduced_class (intros : list (str * introducer)) (i : nat) : Prop :=
  exists id t p n d, In (id, NClass t p n d) intros /\ ct_record t = i.
