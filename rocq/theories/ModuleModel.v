(** * Emission of the module: model of src/expose.cpp L64-76 and L640-839 and
    of the introducers and parameters of the exposers (L876-884, L981-1072,
    L1231-1257).  Output streams are lists of items; docstrings are not modelled. *)
From Coq Require Import DecimalString.
From Verif Require Import Base ParserModel StringModel AnnotModel CollectModel GraphModel OrderModel InlineModel EmitModel.

(** ** L64-76 [DiscriminateIdentifiers] *)

(** [llvm::utostr].  Counters do not wrap around here. *)
Definition decimal (n : N) : str := list_ascii_of_string (NilZero.string_of_uint (N.to_uint n)).

Definition counters := list (str * N).

(** [++discriminators[name]]. *)
Fixpoint count_up (name : str) (m : counters) : N * counters :=
  match m with
  | [] => (1%N, [(name, 1%N)])
  | (n, k) :: m' => if str_eqb name n then ((k + 1)%N, (n, (k + 1)%N) :: m') else let '(r, m'') := count_up name m' in (r, (n, k) :: m'')
  end.

Definition numbered (name : str) (k : N) : str := if (k =? 1)%N then name else name ++ $"_" ++ decimal k.

Definition discriminated (name : str) (m : counters) : str * counters := let '(k, m') := count_up name m in (numbered name k, m').

(** ** Contexts to be exposed *)

(** What clang says, in addition to [unit]. *)
Record facts := mkFacts {
  w_extra : extra;
  w_hierarchy : hierarchy;
  w_members : nat -> member;
  w_results : nat -> list found;    (* results of looking up the declarations visible in a context *)
  w_qualified : nat -> str;         (* [getFullyQualifiedName] of types, [getQualifiedNameAsString] of namespaces *)
  w_variables : list nat;           (* variables at the top level, in order *)
  w_pop : queue -> option (nat * queue)
}.

Record work := mkWork { wk_context : nat; wk_exposer : exposer; wk_identifier : str }.

Record plan := mkPlan {
  pl_identifiers : dmap str;        (* [context_identifiers], without the one for [nullptr] *)
  pl_covered : dmap nat;            (* [covered_namespaces] *)
  pl_used : counters;
  pl_work : list work }.

(** L700-709. *)
Definition context_name (u : unit) (w : facts) (c : nat) : str :=
  make_valid_identifier
    ($"context" ++
     match kind u c with
     | KRecord | KEnum => w_qualified w c
     | KNamespace => $"_" ++ w_qualified w c
     | _ => []
     end).

(** L680-718: the loop body; [None]: failing assertion or out of fuel. *)
Definition plan_context (u : unit) (w : facts) (st : storage) (p : plan) (c : nat) : option plan :=
  match (if is_namespace_kind (kind u c) then dlookup (pl_covered p) (u_canonical u c) else None) with
  | Some d =>
      match dlookup (pl_identifiers p) d, dlookup (pl_identifiers p) c with
      | Some id, None => Some (mkPlan (dset c id (pl_identifiers p)) (pl_covered p) (pl_used p) (pl_work p))
      | _, _ => None
      end
  | None =>
      let covered := if is_namespace_kind (kind u c) then dset (u_canonical u c) c (pl_covered p) else pl_covered p in
      let '(id, used) := discriminated (context_name u w c) (pl_used p) in
      match dlookup (pl_identifiers p) c, create u st (w_hierarchy w) c with
      | None, Some e => Some (mkPlan (dset c id (pl_identifiers p)) covered used (pl_work p ++ [mkWork c e id]))
      | _, _ => None
      end
  end.

Definition make_plan (u : unit) (w : facts) (st : storage) (order : list nat) : option plan :=
  fold_opt (plan_context u w st) order (mkPlan [] [] [] []).

(** ** Output *)

(** Template arguments of [pybind11::class_]. *)
Record pyclass := mkClass { ct_record : nat; ct_bases : list nat; ct_holder : str }.

Inductive parameter := PModule | PEnum (i : nat) | PClass (t : pyclass).

Inductive introducer :=
| NAlias (parent : str)
| NSubmodule (parent spelling : str)
| NEnum (i : nat) (parent spelling : str) (arithmetic : bool)
| NClass (t : pyclass) (parent spelling : str) (dynamic_attr : bool).

Inductive item :=
| IDeclare (id : str) (p : parameter)                         (* void expose_id(p); *)
| IModule (name : str)                                        (* PYBIND11_MODULE(name, root) { *)
    (introductions : list (str * introducer))                 (*   auto id = introducer; *)
    (calls : list (str * str))                                (*   expose_id(object); *)
    (postamble : list nat)                                    (*   manual bindings } *)
| IDefine (id : str) (p : parameter) (body : list stmt).      (* void expose_id(p) { body } *)

(** L1231-1257 [emitType]; without bases not listed in [g]. *)
Definition class_of (u : unit) (w : facts) (g : graph) (st : storage) (r : nat) (p : policy) : option pyclass :=
  option_map (fun bases => mkClass r bases (match get u st supports_record at_record r with Some a => r_holder_type a | None => [] end))
    (class_bases (w_hierarchy w) p g r).

(** L876-878, L996-999, L1058-1061 [emitParameter]. *)
Definition parameter_of (u : unit) (w : facts) (g : graph) (st : storage) (e : exposer) : option parameter :=
  match e with
  | XContext | XNamespace _ => Some PModule
  | XEnum i => Some (PEnum i)
  | XRecord r p => option_map PClass (class_of u w g st r p)
  end.

(** L880-883, L985-994, L1002-1016, L1063-1077 [emitIntroducer]. *)
Definition introducer_of (u : unit) (w : facts) (g : graph) (st : storage) (e : exposer) (parent : str) : option introducer :=
  match e with
  | XContext => Some (NAlias parent)
  | XNamespace i =>
      Some (if match get_namespace u st i with Some a => ns_module a | None => false end
            then NSubmodule parent (spelling u st i []) else NAlias parent)
  | XEnum i => Some (NEnum i parent (spelling u st i []) (match get u st supports_enum at_enum i with Some a => e_arithmetic a | None => false end))
  | XRecord r p =>
      option_map (fun t => NClass t parent (spelling u st r []) (match get u st supports_record at_record r with Some a => r_dynamic_attr a | None => false end))
        (class_of u w g st r p)
  end.

Fixpoint map_opt {A B} (f : A -> option B) (l : list A) : option (list B) :=
  match l with
  | [] => Some []
  | x :: l' => match f x, map_opt f l' with Some y, Some ys => Some (y :: ys) | _, _ => None end
  end.

(** L721-726: the lambda [emit_expose_declarator]. *)
Definition declare (u : unit) (w : facts) (g : graph) (st : storage) (t : work) : option item :=
  option_map (IDeclare (wk_identifier t)) (parameter_of u w g st (wk_exposer t)).

(** L742-755; [None]: failing assertion. *)
Definition introduce (u : unit) (w : facts) (g : graph) (st : storage) (scopes : dmap (option nat)) (ids : dmap str) (t : work) : option (str * introducer) :=
  let c := wk_context t in
  let parent := match dlookup scopes c with Some p => p | None => None end in
  if negb (xorb (match parent with Some _ => true | None => false end) (Nat.eqb c (u_root u))) then None
  else
    match (match parent with None => Some ($"root") | Some p => dlookup ids p end) with
    | None => None
    | Some id => option_map (pair (wk_identifier t)) (introducer_of u w g st (wk_exposer t) id)
    end.

(** L766-779. *)
Definition postamble (u : unit) (w : facts) (st : storage) : list nat :=
  flat_map (fun i => let a := lookup_or u st supports_field at_field i in
                     match f_manual a with Some l => if f_postamble a then [l] else [] | None => [] end) (w_variables w).

(** L784-838: one iteration; what is written to the chosen stream. *)
Definition define_context (u : unit) (w : facts) (g : graph) (vis : dmap bool) (main : bool) (st : storage) (t : work)
    : option (storage * list item * list ereport) :=
  let c := wk_context t in
  let default_visibility := match dlookup vis c with Some b => b | None => false end in
  let decls := declarations u (w_extra w) c (visible_decls (w_members w) (policy_of (wk_exposer t)) (w_results w c)) in
  match parameter_of u w g st (wk_exposer t), define u (w_extra w) (wk_exposer t) default_visibility decls st with
  | Some p, Some (st', body, rs) =>
      Some (st', (if main then [] else [IDeclare (wk_identifier t) p]) ++ [IDefine (wk_identifier t) p body], rs)
  | _, _ => None
  end.

(** Writing to stream number [k]; [None]: there is no such stream. *)
Fixpoint write_to {A} (k : nat) (items : list A) (streams : list (list A)) : option (list (list A)) :=
  match streams, k with
  | [], _ => None
  | s :: streams', O => Some ((s ++ items) :: streams')
  | s :: streams', S k' => option_map (cons s) (write_to k' items streams')
  end.

Record output := mkOutput { o_storage : storage; o_index : nat; o_streams : list (list item); o_reports : list ereport }.

(** L782-838: the loop; [total]: [worklist.size()]. *)
Definition define_step (u : unit) (w : facts) (g : graph) (vis : dmap bool) (total : nat) (o : output) (t : work) : option output :=
  let k := o_index o * length (o_streams o) / total in
  match define_context u w g vis (Nat.eqb k 0) (o_storage o) t with
  | None => None
  | Some (st, items, rs) =>
      match write_to k items (o_streams o) with
      | None => None
      | Some streams => Some (mkOutput st (S (o_index o)) streams (o_reports o ++ rs))
      end
  end.

Inductive emission :=
| ECycle (n : nat)                                        (* reported at [n], no output *)
| EWritten (streams : list (list item)) (reports : list ereport) (st : storage).

(** Direct bases with public access, for [sort_contexts]. *)
Definition public_bases_of (h : hierarchy) (r : nat) : list nat := map sp_base (filter sp_public (h_direct h r)).

(** L645-839 [emitModule] with [n] output streams, [n <> 0]. *)
Definition emit_module (u : unit) (w : facts) (g : graph) (vis : dmap bool) (st : storage) (nodes : list nat) (n : nat) (module_name : str) : option emission :=
  match n, find_enclosing_scopes u st g with
  | O, _ | _, None => None
  | S _, Some scopes =>
      match sort_contexts (w_pop w) u (public_bases_of (w_hierarchy w)) nodes g scopes with
      | None => None
      | Some (CycleAt c) => Some (ECycle c)
      | Some (Sorted order) =>
          match make_plan u w st order with
          | None => None
          | Some p =>
              match map_opt (declare u w g st) (pl_work p), map_opt (introduce u w g st scopes (pl_identifiers p)) (pl_work p) with
              | Some ds, Some is =>
                  let calls := map (fun t => (wk_identifier t, wk_identifier t)) (pl_work p) in
                  let main := ds ++ [IModule module_name is calls (postamble u w st)] in
                  option_map (fun o => EWritten (o_streams o) (o_reports o) (o_storage o))
                    (fold_opt (define_step u w g vis (length (pl_work p))) (pl_work p)
                      (mkOutput st 0 (main :: repeat [] (pred n)) []))
              | _, _ => None
              end
          end
      end
  end.

(** tool.cpp L193-282 [HandleTranslationUnit], without opening of files:
    processing of the graph followed by emission.  [iteration]: order in which
    nodes are iterated over. *)
Inductive run_result := RStopped | RGraph (b : bstate) (e : emission).

Definition generate (u : unit) (w : facts) (found : nat -> list nat) (implicit : nat -> bool) (iteration : list nat -> list nat) (n : nat) (module_name : str)
    : option run_result :=
  match process u found implicit module_name with
  | Done (Pruned g contexts vis warned b) =>
      option_map (RGraph b) (emit_module u w g vis (bs_annotations b) (iteration (g_nodes g)) n module_name)
  | Done _ => Some RStopped
  | _ => None
  end.
