(** * Specification of inlining and of visible declarations *)
From Verif Require Import Base ParserModel AnnotModel CollectModel GraphModel InlineModel.

(** Inheritance is acyclic. *)
Definition acyclic (h : hierarchy) : Prop := forall r s, In s (h_direct h r) -> h_height h (sp_base s) < h_height h r.

(** [path] leads from [r] up to [b]. *)
Inductive derives (h : hierarchy) : nat -> list bspec -> nat -> Prop :=
| derives_direct r s : In s (h_direct h r) -> derives h r [s] (sp_base s)
| derives_step r s path b : In s (h_direct h r) -> derives h (sp_base s) path b -> derives h r (s :: path) b.

(** Requests of a single class. *)
Definition asks_to_inline (u : unit) (st : storage) (c b : nat) : Prop := exists a, get_record u st c = Some a /\ In b (r_inline_base a).
Definition asks_to_hide (u : unit) (st : storage) (c b : nat) : Prop := exists a, get_record u st c = Some a /\ In b (r_hide_base a).

(** Requests are passed on by classes that are to be inlined. *)
Inductive requested (u : unit) (st : storage) (r : nat) : nat -> Prop :=
| requested_own b : asks_to_inline u st r b -> requested u st r b
| requested_via c b : requested u st r c -> asks_to_inline u st c b -> requested u st r b.

Definition hides (u : unit) (st : storage) (r b : nat) : Prop :=
  asks_to_hide u st r b \/ exists c, requested u st r c /\ asks_to_hide u st c b.

(** Public path without hidden bases. *)
Definition open_path (hidden : nat -> Prop) (path : list bspec) : Prop :=
  forall s, In s path -> sp_public s = true /\ ~ hidden (sp_base s).

Definition no_virtual_bases (h : hierarchy) : Prop := forall r s, In s (h_direct h r) -> sp_virtual s = false.

(** [b] is reached from [r] by public inheritance through classes that are
    inlined (and not hidden). *)
Inductive lists (h : hierarchy) (inlined hidden : nat -> Prop) (exposed : nat -> Prop) : nat -> nat -> Prop :=
| lists_direct r s : In s (h_direct h r) -> sp_public s = true -> ~ hidden (sp_base s) -> ~ inlined (sp_base s) -> exposed (sp_base s) ->
    lists h inlined hidden exposed r (sp_base s)
| lists_inlined r s b : In s (h_direct h r) -> sp_public s = true -> ~ hidden (sp_base s) -> inlined (sp_base s) ->
    lists h inlined hidden exposed (sp_base s) b -> lists h inlined hidden exposed r b.

(** The bases listed for those that are declared, in order. *)
Inductive listing (h : hierarchy) (inlined hidden : nat -> Prop) (exposed : nat -> Prop) : list bspec -> list nat -> Prop :=
| listing_none : listing h inlined hidden exposed [] []
| listing_skip s l r : sp_public s = false \/ hidden (sp_base s) \/ (~ inlined (sp_base s) /\ ~ exposed (sp_base s)) ->
    listing h inlined hidden exposed l r -> listing h inlined hidden exposed (s :: l) r
| listing_take s l r : sp_public s = true -> ~ hidden (sp_base s) -> ~ inlined (sp_base s) -> exposed (sp_base s) ->
    listing h inlined hidden exposed l r -> listing h inlined hidden exposed (s :: l) (sp_base s :: r)
| listing_inlined s l r1 r2 : sp_public s = true -> ~ hidden (sp_base s) -> inlined (sp_base s) ->
    listing h inlined hidden exposed (h_direct h (sp_base s)) r1 -> listing h inlined hidden exposed l r2 ->
    listing h inlined hidden exposed (s :: l) (r1 ++ r2).

(** The declaration denoted by a found one. *)
Definition denotes (members : nat -> member) (i j : nat) : Prop :=
  match mb_shadow (members i) with Some t => j = t | None => j = i end.

(** Members of bases: those of inlined ones except for constructors and destructors. *)
Definition inlined_member (members : nat -> member) (p : option policy) (i : nat) : Prop :=
  exists q c, p = Some q /\ mb_parent (members i) = Some c /\ In c (p_inline q) /\ mb_constructor (members i) = false /\ mb_destructor (members i) = false.

(** Classes inherited from virtually do not have bases themselves. *)
Definition virtual_bases_are_roots (h : hierarchy) : Prop :=
  forall r s, In s (h_direct h r) -> sp_virtual s = true -> h_direct h (sp_base s) = [].

(** Only the last step is virtual. *)
Definition plain (p : list bspec) : Prop := forall s, In s (removelast p) -> sp_virtual s = false.

(** What is to be exposed for one result. *)
Definition contributes (members : nat -> member) (p : option policy) (f : found) (j : nat) : Prop :=
  fd_hiding f = None /\ mb_public (members (fd_decl f)) = true /\ (fd_in_base f = true -> inlined_member members p (fd_decl f)) /\
  denotes members (fd_decl f) j /\ mb_context (members j) = false /\ mb_located (members j) = true.

(** Results in order, those that do not contribute left out. *)
Inductive selection (members : nat -> member) (p : option policy) : list found -> list nat -> Prop :=
| selection_nil : selection members p [] []
| selection_take f fs j js : contributes members p f j -> selection members p fs js -> selection members p (f :: fs) (j :: js)
| selection_drop f fs js : (forall j, ~ contributes members p f j) -> selection members p fs js -> selection members p (f :: fs) js.
