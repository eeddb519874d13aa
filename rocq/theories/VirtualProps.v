(** * Inlining in the presence of virtual bases (C39) *)
From Coq Require Import Lia.
From Verif Require Import Base ParserModel AnnotModel CollectModel GraphModel GraphProps InlineModel InlineSpec InlineProps VirtualSpec VirtualProofs.

(** Whatever the inheritance, a base is inlined iff it has been requested and is
    reached on an open path that continues beyond virtual bases only when it arrives
    there first. *)
Theorem inlined_bases_exactly :
  forall h, acyclic h -> distinct_bases h -> forall u st r,
    exists p, create_policy u st h r = Some p /\
      (forall b, should_hide p b = true <-> hides u st r b) /\
      (forall b, should_inline p b = true <-> requested u st r b /\ exists q, derives h r q b /\ followed h r q /\ open_path (hides u st r) q).
Proof. exact policy_exact. Qed.
Print Assumptions inlined_bases_exactly.

(** The paths considered are exactly those. *)
Theorem paths_to_bases_exactly :
  forall h, acyclic h -> distinct_bases h -> forall b r,
    exists paths, base_paths h r b = Some paths /\ forall p, In p paths <-> derives h r p b /\ followed h r p.
Proof. exact base_paths_exact. Qed.
Print Assumptions paths_to_bases_exactly.

(** In the diamond with a virtual base the private path to 3 comes first, ... *)
Lemma virtual_diamond_facts : acyclic virtual_diamond /\ distinct_bases virtual_diamond.
Proof.
  split.
  - intros r s. do 5 (destruct r as [|r]; [cbn; intuition (subst; cbn; lia)|]). intros [].
  - intros r. do 5 (destruct r as [|r]; [cbn; repeat constructor; cbn; intuition discriminate|]). constructor.
Qed.

Definition via_first : list bspec := [mkSpec 1 false false; mkSpec 3 true true; mkSpec 4 true false].
Definition via_second : list bspec := [mkSpec 2 true false; mkSpec 3 true true; mkSpec 4 true false].

(** ... so only the path via 1 continues to 4, although both lead there; ... *)
Example C39_example_paths :
  derives virtual_diamond 0 via_first 4 /\ followed virtual_diamond 0 via_first /\
  derives virtual_diamond 0 via_second 4 /\ ~ followed virtual_diamond 0 via_second /\
  base_paths virtual_diamond 0 4 = Some [via_first].
Proof.
  assert (F1 : derives virtual_diamond 0 via_first 4) by (do 2 (apply derives_step; [cbn; tauto|]); apply (derives_direct virtual_diamond 3 (mkSpec 4 true false)); cbn; tauto).
  assert (F2 : derives virtual_diamond 0 via_second 4) by (do 2 (apply derives_step; [cbn; tauto|]); apply (derives_direct virtual_diamond 3 (mkSpec 4 true false)); cbn; tauto).
  assert (B : base_paths virtual_diamond 0 4 = Some [via_first]) by (vm_compute; reflexivity).
  destruct virtual_diamond_facts as [A D]. destruct (base_paths_exact virtual_diamond A D 4 0) as (paths & E & S). rewrite B in E. injection E as <-.
  split; [exact F1|]. split; [exact (proj2 (proj1 (S via_first) (or_introl eq_refl)))|]. split; [exact F2|]. split; [|exact B].
  intros F. destruct (proj2 (S via_second) (conj F2 F)) as [H|[]]. discriminate H.
Qed.

(** ... hence 3, at which the second path ends, is inlined while 4 is not. *)
Example C39_example_virtual :
  create_policy records [(0, asking [3; 4] [])] virtual_diamond 0 = Some (mkPolicy [3] []).
Proof. vm_compute. reflexivity. Qed.
