(** * Specification of access to what the generated code refers to *)
From Verif Require Import Base ParserModel AnnotModel AnnotSpec CollectModel CollectSpec GraphModel GraphSpec OrderModel InlineModel InlineSpec EmitModel EmitSpec ModuleModel ModuleSpec AccessSpec FindSpec.

(** Functions, variables, members and values the generated code refers to, by their
    qualified names. *)
Definition referred (files : list (list item)) (i : nat) : Prop := exists id q body t, In (IDefine id q body) (concat files) /\ In t body /\ mentions t i.

(** Classes and enumerations it refers to in order to expose them. *)
Definition introduced (files : list (list item)) (c : nat) : Prop :=
  exists name intros calls post id i, In (IModule name intros calls post) (concat files) /\ In (id, i) intros /\
    match i with NEnum e _ _ _ => e = c | NClass t _ _ _ => ct_record t = c | _ => False end.

(** Members are not protected or private. *)
Definition is_public (w : facts) (i : nat) : Prop := mb_public (w_members w i) = true.

(** Members with a public declaration or using-declaration that is found in a class. *)
Definition named_publicly (w : facts) (j : nat) : Prop := exists c f, In f (w_results w c) /\ fd_hiding f = None /\ is_public w (fd_decl f) /\ denotes (w_members w) (fd_decl f) j.

(** Operators that are used in expressions, not by their names. *)
Definition used_in_expressions (w : facts) (i : nat) : Prop :=
  exists r k j, In j (x_adl (w_extra w) r k) /\ (i = j \/ exists l, x_specializations (w_extra w) j = Some l /\ In i l).

(** Specializations are as accessible as their templates. *)
Definition same_access (w : facts) : Prop := forall i l j, x_specializations (w_extra w) i = Some l -> In j l -> is_public w i -> is_public w j.

(** Using-declarations do not make members more accessible. *)
Definition modest_usings (w : facts) : Prop :=
  forall c f t, In f (w_results w c) -> mb_shadow (w_members w (fd_decl f)) = Some t -> is_public w (fd_decl f) -> is_public w t.
