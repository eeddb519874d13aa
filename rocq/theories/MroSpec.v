(** * Specification of the hierarchy of classes in Python *)
From Verif Require Import Base ParserModel AnnotModel CollectModel GraphModel GraphSpec OrderModel InlineModel InlineSpec EmitModel EmitSpec ModuleModel ModuleSpec ImportSpec.

(** ** Order in which classes are searched for attributes (C3) *)

(** Merging the orders of the bases, and the bases themselves: the first class at
    the head of a list that is not in the tail of any is next. *)
Definition free (ls : list (list nat)) (x : nat) : Prop := forall l, In l ls -> ~ In x (tl l).
Definition next (ls : list (list nat)) (x : nat) : Prop :=
  exists before t after, ls = before ++ (x :: t) :: after /\ free ls x /\ forall y t', In (y :: t') before -> ~ free ls y.
Definition advance (x : nat) (l : list nat) : list nat :=
  match l with y :: t => if Nat.eqb x y then t else l | [] => [] end.

Inductive merges : list (list nat) -> list nat -> Prop :=
| merges_done ls : (forall l, In l ls -> l = []) -> merges ls []
| merges_next ls x r : next ls x -> merges (map (advance x) ls) r -> merges ls (x :: r).

(** Creating classes in order; [ms]: orders of those created before.  No base may
    be given twice. *)
Inductive creates : list (nat * list nat) -> list (str * introducer) -> list (nat * list nat) -> Prop :=
| creates_none ms : creates ms [] ms
| creates_other ms id i intros ms' : (forall t p n d, i <> NClass t p n d) -> creates ms intros ms' -> creates ms ((id, i) :: intros) ms'
| creates_class ms id t p n d intros ls r ms' : NoDup (ct_bases t) -> Forall2 (fun b m => In (b, m) ms) (ct_bases t) ls ->
    merges (ls ++ [ct_bases t]) r -> creates ((ct_record t, ct_record t :: r) :: ms) intros ms' ->
    creates ms ((id, NClass t p n d) :: intros) ms'.

(** ** What is expected *)

(** [c] is [b] or derived from it in Python. *)
Definition subclass (ms : list (nat * list nat)) (c b : nat) : Prop := exists m, In (c, m) ms /\ In b m.

Definition public_path (path : list bspec) : Prop := forall s, In s path -> sp_public s = true.

(** Derived from in C++, accessibly. *)
Definition publicly_derived (h : hierarchy) (c b : nat) : Prop := exists path, derives h c path b /\ public_path path.

(** Also, all classes in between are exposed, and nothing is requested concerning them. *)
Inductive plainly_derived (u : unit) (st : storage) (h : hierarchy) (exposed : nat -> Prop) : nat -> nat -> Prop :=
| plainly_same c : plainly_derived u st h exposed c c
| plainly_base c s b : In s (h_direct h c) -> sp_public s = true -> exposed (sp_base s) ->
    ~ requested u st c (sp_base s) -> ~ hides u st c (sp_base s) -> plainly_derived u st h exposed (sp_base s) b -> plainly_derived u st h exposed c b.

(** Exposed classes are inherited from by one path only. *)
Definition unambiguous (h : hierarchy) (exposed : nat -> Prop) : Prop :=
  forall c p q b, exposed b -> derives h c p b -> derives h c q b -> public_path p -> public_path q -> p = q.

(** As required by C++. *)
Definition distinct_bases (h : hierarchy) : Prop := forall c, NoDup (h_direct h c).
