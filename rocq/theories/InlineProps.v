(** * Properties of inlining and visible declarations *)
From Verif Require Import Base ParserModel AnnotModel CollectModel GraphModel GraphProps InlineModel InlineSpec InlineProofs.

(** ** C39 *)

(** All requests met are taken into account, and computing them terminates. *)
Theorem inlining_requests_are_closed :
  forall u st r, exists candidates hidden, gather_all u st r = Some (candidates, hidden) /\
    (forall b, In b candidates <-> requested u st r b) /\ (forall b, In b hidden <-> hides u st r b).
Proof. exact gather_spec. Qed.
Print Assumptions inlining_requests_are_closed.

(** Without virtual inheritance from classes that have bases themselves, the
    inlined bases are those requested that are reached by an open path. *)
Theorem inlined_bases_are_requested_and_reachable :
  forall h, acyclic h -> virtual_bases_are_roots h -> forall u st r,
    exists p, create_policy u st h r = Some p /\
      (forall b, should_hide p b = true <-> hides u st r b) /\
      (forall b, should_inline p b = true <-> requested u st r b /\ exists q, derives h r q b /\ open_path (hides u st r) q).
Proof. exact policy_iff. Qed.
Print Assumptions inlined_bases_are_requested_and_reachable.

(** In general: nothing else is inlined, and whatever is reached by an open path
    is if only the last step may be virtual. *)
Theorem inlined_bases_in_general :
  forall h, acyclic h -> forall u st r,
    exists p, create_policy u st h r = Some p /\
      (forall b, should_hide p b = true <-> hides u st r b) /\
      (forall b, should_inline p b = true -> requested u st r b /\ exists q, derives h r q b /\ open_path (hides u st r) q) /\
      (forall b q, requested u st r b -> derives h r q b -> plain q -> open_path (hides u st r) q -> should_inline p b = true).
Proof. exact policy_general. Qed.
Print Assumptions inlined_bases_in_general.

Theorem inlined_bases_are_not_hidden :
  forall h, acyclic h -> forall u st r p b, create_policy u st h r = Some p -> should_inline p b = true -> should_hide p b = false.
Proof. exact inlined_not_hidden. Qed.
Print Assumptions inlined_bases_are_not_hidden.

Definition asking (inline hide : list nat) : attrs := set_record (fun _ => mkRecord false hide inline []) default_attrs.

(** class 0 : 1, 2;  class 1 : 3;  class 2 : private 3;  class 3 : 4; *)
Definition diamond : hierarchy :=
  mkHierarchy
    (fun i => match i with
              | 0 => [mkSpec 1 true false; mkSpec 2 true false]
              | 1 => [mkSpec 3 true false]
              | 2 => [mkSpec 3 false false]
              | 3 => [mkSpec 4 true false]
              | _ => []
              end)
    (fun i => match i with 0 => 3 | 1 | 2 => 2 | 3 => 1 | _ => 0 end).

Lemma diamond_acyclic : acyclic diamond.
Proof. intros r s. do 5 (destruct r as [|r]; [cbn; intuition (subst; cbn; lia)|]). intros []. Qed.

Lemma diamond_virtual : virtual_bases_are_roots diamond.
Proof. intros r s. do 5 (destruct r as [|r]; [cbn; intuition (subst; discriminate)|]). intros []. Qed.

Definition records : unit :=
  mkUnit (fun _ => a_decl KRecord false None []) [] 0 (fun _ => [])
    (fun _ => true) (fun _ => false) (fun i => i) (fun _ => false) (fun _ => $"X") (fun _ => false) N.of_nat.

(** 0 inlines 1, which inlines 3 and 4; 3 hides 2. *)
Example C39_example :
  create_policy records [(0, asking [1] []); (1, asking [3; 4] []); (3, asking [1] [2])] diamond 0 = Some (mkPolicy [1; 3; 4] [2]).
Proof. vm_compute. reflexivity. Qed.

(** Hiding 3 also cuts off 4. *)
Example C39_example_hidden :
  create_policy records [(0, asking [1] []); (1, asking [3; 4] []); (4, asking [] [3])] diamond 0 = Some (mkPolicy [1] [3]).
Proof. vm_compute. reflexivity. Qed.

(** class 0 : private 1, public 2;  class 1 : virtual 3;  class 2 : virtual 3;  class 3 : 4;
    The path via 2 is not recorded as 3 has been met before. *)
Definition virtual_diamond : hierarchy :=
  mkHierarchy
    (fun i => match i with
              | 0 => [mkSpec 1 false false; mkSpec 2 true false]
              | 1 | 2 => [mkSpec 3 true true]
              | 3 => [mkSpec 4 true false]
              | _ => []
              end)
    (fun i => match i with 0 => 3 | 1 | 2 => 2 | 3 => 1 | _ => 0 end).

Theorem inlined_bases_with_virtual_bases_refuted :
  exists h u st r b p, acyclic h /\ create_policy u st h r = Some p /\
    requested u st r b /\ (exists q, derives h r q b /\ open_path (hides u st r) q) /\ should_inline p b = false.
Proof.
  exists virtual_diamond, records, [(0, asking [4] [])], 0, 4, (mkPolicy [] []). split.
  { intros r s. do 5 (destruct r as [|r]; [cbn; intuition (subst; cbn; lia)|]). intros []. }
  split; [vm_compute; reflexivity|]. split.
  { apply requested_own. exists (mkRecord false [] [4] []). split; [reflexivity|now left]. }
  split; [|reflexivity]. exists [mkSpec 2 true false; mkSpec 3 true true; mkSpec 4 true false]. split.
  - apply derives_step; [cbn; auto|]. apply derives_step; [cbn; auto|]. apply derives_direct. cbn. auto.
  - intros s Hs. split; [cbn in Hs; intuition (subst; reflexivity)|].
    intros [(a & Ea & Hb)|(c & Hc & a & Ea & Hb)].
    + cbn in Ea. injection Ea as <-. destruct Hb.
    + assert (c = 4) as ->.
      { assert (X : forall c d, asks_to_inline records [(0, asking [4] [])] c d -> d = 4).
        { intros x d (y & Ey & Hd). unfold get_record, get in Ey. cbn in Ey. destruct (Nat.eqb x 0); [|discriminate].
          cbn in Ey. injection Ey as <-. destruct Hd as [<-|[]]. reflexivity. }
        destruct Hc as [d Hd|? d _ Hd]; eapply X; eauto. }
      cbn in Ea. discriminate.
Qed.
Print Assumptions inlined_bases_with_virtual_bases_refuted.

(** ** C40 *)

Theorem listed_bases_are_exactly_those_reached :
  forall h, acyclic h -> forall p g r,
    exists l, class_bases h p g r = Some l /\
      forall b, In b l <-> lists h (fun i => should_inline p i = true) (fun i => should_hide p i = true) (fun i => has_node g i = true) r b.
Proof. exact class_bases_spec. Qed.
Print Assumptions listed_bases_are_exactly_those_reached.

(** They are in the order of declaration, those of inlined bases in place of these. *)
Theorem listed_bases_are_in_order :
  forall h p g r l, class_bases h p g r = Some l ->
    listing h (fun i => should_inline p i = true) (fun i => should_hide p i = true) (fun i => has_node g i = true) (h_direct h r) l.
Proof. exact class_bases_listing. Qed.
Print Assumptions listed_bases_are_in_order.

(** Consequently they are exposed bases, public and neither hidden nor inlined. *)
Theorem listed_bases_are_exposed_public_bases :
  forall h, acyclic h -> forall p g r l b, class_bases h p g r = Some l -> In b l ->
    has_node g b = true /\ should_hide p b = false /\ should_inline p b = false /\
    exists q, derives h r q b /\ forall s, In s q -> sp_public s = true /\ should_hide p (sp_base s) = false.
Proof. exact class_bases_sound. Qed.
Print Assumptions listed_bases_are_exposed_public_bases.

Definition some_graph : graph := mkGraph [0; 2; 4] [].

Example C40_example :
  class_bases diamond (mkPolicy [1; 3] []) some_graph 0 = Some [4; 2] /\ class_bases diamond (mkPolicy [1; 3] [2]) some_graph 0 = Some [4] /\
  class_bases diamond (mkPolicy [] []) some_graph 0 = Some [2].
Proof. repeat split. Qed.

(** class 0 : 1, 2;  class 1 : 3;  class 2 : 3;  with 1 and 2 inlined into 0. *)
Theorem listed_bases_are_distinct_refuted :
  exists h u st g r p l, acyclic h /\ create_policy u st h r = Some p /\ class_bases h p g r = Some l /\ ~ NoDup l.
Proof.
  exists (mkHierarchy (fun i => match i with 0 => [mkSpec 1 true false; mkSpec 2 true false] | 1 | 2 => [mkSpec 3 true true] | _ => [] end)
           (fun i => match i with 0 => 2 | 1 | 2 => 1 | _ => 0 end)),
    records, [(0, asking [1; 2] [])], (mkGraph [0; 3] []), 0, (mkPolicy [1; 2] []), [3; 3].
  split; [intros r s; do 4 (destruct r as [|r]; [cbn; intuition (subst; cbn; lia)|]); intros []|].
  split; [vm_compute; reflexivity|]. split; [vm_compute; reflexivity|].
  intros N. inversion N as [|? ? H]. apply H. now left.
Qed.
Print Assumptions listed_bases_are_distinct_refuted.

(** ** C47 *)

(** Every result that is accessible, not shadowed and not a member of a base
    that is not inlined is passed on, in order, as the declaration it denotes,
    unless that is a context of its own or has no location; nothing else is. *)
Theorem visible_declarations_are_selected_from_the_results :
  forall members p results, selection members p results (visible_decls members p results).
Proof. exact visible_selection. Qed.
Print Assumptions visible_declarations_are_selected_from_the_results.

Theorem visible_declarations_iff :
  forall members p results j, In j (visible_decls members p results) <->
    exists f, In f results /\ fd_hiding f = None /\ mb_public (members (fd_decl f)) = true /\
      (fd_in_base f = true -> inlined_member members p (fd_decl f)) /\
      denotes members (fd_decl f) j /\ mb_context (members j) = false /\ mb_located (members j) = true.
Proof. exact visible_iff. Qed.
Print Assumptions visible_declarations_iff.

(** Results: a method 1; a base's method 2 that is inlined, its constructor 3;
    a nested class 4; a using-declaration 5 for 6; a private field 7; a
    declaration 8 of a base that is not inlined; an implicit member 9; a method
    2 hidden by 1. *)
Definition some_members (i : nat) : member :=
  match i with
  | 2 => mkMember true false false (Some 10) None false true
  | 3 => mkMember true true false (Some 10) None false true
  | 4 => mkMember true false false (Some 0) None true true
  | 5 => mkMember true false false (Some 0) (Some 6) false true
  | 7 => mkMember false false false (Some 0) None false true
  | 8 => mkMember true false false (Some 11) None false true
  | 9 => mkMember true false false (Some 0) None false false
  | _ => mkMember true false false (Some 0) None false true
  end.

Example C47_example :
  visible_decls some_members (Some (mkPolicy [10] []))
    [mkFound 1 None false; mkFound 2 None true; mkFound 3 None true; mkFound 4 None false; mkFound 5 None false;
     mkFound 7 None false; mkFound 8 None true; mkFound 9 None false; mkFound 2 (Some 1) true] = [1; 2; 6].
Proof. reflexivity. Qed.
