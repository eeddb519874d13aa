(** * Properties of the instantiation of default arguments *)
From Verif Require Import Base DefaultModel DefaultSpec DefaultProofs.

(** ** C77 *)

(** After default arguments have been instantiated, each one of a valid
    instantiated function in the translation unit is available or an error has been
    reported.  All that were available before are unchanged, clang is asked only
    for those that need it and once if this succeeds.  So if no declarations have
    been added, all default arguments can be printed.  Missing: functions that are
    instantiated as a consequence. *)
Theorem default_arguments_are_instantiated_partial :
  forall sr sema fuel root t t' log, sema_spec sema -> instantiate_defaults sr sema fuel root t = Some (t', log) ->
  (forall p, within sr t root p -> instantiated_parameter sr p -> tr_default t p = Uninstantiated -> (exists e, tr_default t' p = Parsed e) \/ In (p, true) log) /\
  (forall p, tr_default t p <> Uninstantiated -> tr_default t' p = tr_default t p) /\
  (forall p b, In (p, b) log -> instantiated_parameter sr p /\ tr_default t p = Uninstantiated) /\
  NoDup (map fst (filter (fun x => negb (snd x)) log)) /\
  ((forall p, ~ In (p, true) log) -> (forall n, tr_children t' n = tr_children t n) -> (forall p, tr_default t p <> Unparsed) ->
   forall p, within sr t' root p -> instantiated_parameter sr p -> printable t' p).
Proof. exact defaults_available. Qed.
Print Assumptions default_arguments_are_instantiated_partial.

(** ** Examples *)

(** template <typename T> T f(1)(T v, T w = T(1)) GENPYBIND(visible);  pattern 3 with parameter 4
    template <typename T> void h(2)(T v = f(T(), T())) GENPYBIND(visible);  pattern 5 with parameter 6
    template void h<int>(7)(int (8));  and f<int>(9) with parameter 10, if any *)
Definition two_templates : source :=
  mkSource (fun n => match n with 1 | 2 => NTemplate | 4 => NParam (Some 3) | 6 => NParam (Some 5) | 8 => NParam (Some 7) | 10 => NParam (Some 9) | _ => NOther end)
    (fun _ => false) (fun f => match f with 3 | 5 => true | _ => false end).
Definition two_templates_tree : tree :=
  mkTree (fun n => match n with 0 => [1; 2] | 1 => [3] | 2 => [5; 7] | 3 => [4] | 5 => [6] | 7 => [8] | 9 => [10] | _ => [] end)
    (fun p => match p with 4 => Parsed 0 | 6 => Parsed 1 | 8 => Uninstantiated | 10 => Uninstantiated | _ => NoDefault end).

(** clang; [extra p]: templates and instantiations that are added to them for [p]. *)
Definition instantiating (extra : nat -> list (nat * nat)) (f p : nat) (t : tree) : tree * bool :=
  (mkTree (fun n => tr_children t n ++ map snd (filter (fun x => Nat.eqb (fst x) n) (extra p)))
     (fun q => if Nat.eqb q p then match tr_default t q with Uninstantiated => Parsed 7 | d => d end else tr_default t q),
   match tr_default t p with Uninstantiated | Parsed _ => false | _ => true end).
Lemma instantiating_spec extra : sema_spec (instantiating extra).
Proof.
  constructor; unfold instantiating.
  - intros f p t t1 [= <- H]. cbn. rewrite Nat.eqb_refl. destruct (tr_default t p); try discriminate H; eauto.
  - intros f p t t1 b n [= <- _]. cbn. eauto.
  - intros f p t t1 b q [= <- _]. cbn. destruct (Nat.eqb q p); [|auto]. destruct (tr_default t q); eauto.
Qed.

Example default_arguments_are_instantiated_example :
  exists t', instantiate_defaults two_templates (instantiating (fun _ => [])) 30 0 two_templates_tree = Some (t', [(8, false)]) /\
    sema_spec (instantiating (fun _ => [])) /\ within two_templates two_templates_tree 0 8 /\ instantiated_parameter two_templates 8 /\
    tr_default two_templates_tree 8 = Uninstantiated /\ tr_default t' 8 = Parsed 7 /\ tr_default t' 4 = Parsed 0 /\
    (forall n, tr_children t' n = tr_children two_templates_tree n) /\ (forall p, tr_default two_templates_tree p <> Unparsed).
Proof.
  eexists. split; [vm_compute; reflexivity|]. split; [apply instantiating_spec|]. split; [|split; [exists 7; auto|]].
  - apply within_child with 2; [discriminate|cbn; auto|]. apply within_child with 7; [discriminate|cbn; auto|].
    apply within_child with 8; [discriminate|cbn; auto|]. constructor. discriminate.
  - do 3 (split; [reflexivity|]). split.
    + intros n. do 10 (destruct n as [|n]; [reflexivity|]). reflexivity.
    + intros p. do 11 (destruct p as [|p]; [discriminate|]). discriminate.
Qed.

(** The specialisation of f is added while the default argument of h is being
    instantiated, after specialisations of f have been visited.  It is exposed
    (expose.cpp L828-830) with a default argument that cannot be printed. *)
Theorem default_arguments_can_be_printed_refuted :
  exists sr sema fuel root t t' log p, sema_spec sema /\ instantiate_defaults sr sema fuel root t = Some (t', log) /\
    (forall q, ~ In (q, true) log) /\ (forall q, tr_default t q <> Unparsed) /\ within sr t' root p /\ instantiated_parameter sr p /\ ~ printable t' p.
Proof.
  exists two_templates, (instantiating (fun p => if Nat.eqb p 8 then [(1, 9)] else [])), 30, 0, two_templates_tree. do 2 eexists. exists 10.
  split; [apply instantiating_spec|]. split; [vm_compute; reflexivity|]. split; [|split; [|split; [|split]]].
  - intros q [[=]|[]].
  - intros p. do 11 (destruct p as [|p]; [discriminate|]). discriminate.
  - apply within_child with 1; [discriminate|cbn; auto|]. apply within_child with 9; [discriminate|cbn; auto|].
    apply within_child with 10; [discriminate|cbn; auto|]. constructor. discriminate.
  - exists 9. auto.
  - intros [_ H]. apply H. reflexivity.
Qed.
Print Assumptions default_arguments_can_be_printed_refuted.
