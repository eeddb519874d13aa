(** * Properties of what hiding a single declaration changes *)
From Coq Require Import Sorting.Permutation.
From Verif Require Import Base ParserModel StringModel StringSpec AnnotModel AnnotSpec CollectModel CollectSpec GraphModel GraphSpec GraphWalk GraphPlace GraphFinal GraphProps
  OrderModel OrderSpec OrderProofs OrderProps InlineModel InlineSpec InlineProofs EmitModel EmitSpec EmitProofs EmitFinal EmitProps ModuleModel ModuleSpec ModuleChunks ModuleProofs ModuleFinal ModuleProps
  ImportSpec ImportProofs ImportProps ExecSpec ExecProofs ExecProps AccessSpec AccessProofs AccessProps LocalSpec LocalProofs HideSpec HideProofs.

(** ** C111 *)

(** Hiding an annotated function, data member, variable or enumerator removes its
    bindings (and reports about its parameters) and nothing else: if the original
    run has a result, the one with the hidden declaration has the same result
    without them, provided that everything in which the declaration is found has
    something else to expose. *)
Theorem hiding_removes_exactly_the_bindings : forall u i texts a a' w found implicit iteration n name r,
  placed u -> leaf u i -> i <> u_root u -> valid_with u i a -> valid_with (reannotated u i texts) i a' -> hidden a a' -> bound_by_itself a ->
  has_annotations (u_decls (reannotated u i texts) i) true = has_annotations (u_decls u i) true -> accompanied u found implicit i ->
  generate u w found implicit iteration n name = Some r ->
  exists r', generate (reannotated u i texts) w found implicit iteration n name = Some r' /\ same_without i r r'.
Proof.
  intros u i texts a a' w found implicit iteration n name r P L N V V' H M Ha Hac.
  exact (generate_sim u i texts L N P a a' V V' H M Ha w found implicit iteration n name Hac r).
Qed.
Print Assumptions hiding_removes_exactly_the_bindings.

(** Otherwise the contexts themselves can disappear: with k(9) hidden in the example
    of C72, nothing is exposed in the namespace b(7) anymore. *)
Theorem hiding_removes_exactly_the_bindings_refuted : exists u i texts a a' w found implicit iteration n name r,
  placed u /\ leaf u i /\ i <> u_root u /\ valid_with u i a /\ valid_with (reannotated u i texts) i a' /\ hidden a a' /\ bound_by_itself a /\
  has_annotations (u_decls (reannotated u i texts) i) true = has_annotations (u_decls u i) true /\
  generate u w found implicit iteration n name = Some r /\
  ~ exists r', generate (reannotated u i texts) w found implicit iteration n name = Some r' /\ same_without i r r'.
Proof.
  exists vault, 9, [lozenge ++ $"hidden"]. do 2 eexists. exists vault_facts, vault_found, (fun _ => false), (@rev nat), 1, ($"m"). eexists.
  split; [exact (se_placed _ _ _ vault_setting)|]. split; [exact Logic.I|]. split; [discriminate|].
  split; [vm_compute; reflexivity|]. split; [vm_compute; reflexivity|]. split; [repeat (split; [reflexivity|]); reflexivity|].
  split; [repeat (split; [reflexivity|]); reflexivity|]. split; [vm_compute; reflexivity|]. split; [vm_compute; reflexivity|].
  intros (r' & E & S).
  match type of E with ?g = _ => let v := eval vm_compute in g in change g with v in E end. injection E as <-. destruct S as (S & _). vm_compute in S. discriminate S.
Qed.
Print Assumptions hiding_removes_exactly_the_bindings_refuted.

(** ** Examples *)

(** The example of C72 with f(2) GENPYBIND(expose_as(w)); ... *)
Definition desk : unit := reannotated vault 2 [lozenge ++ $"expose_as(w)"].
Definition desk_hidden : list str := [lozenge ++ $"expose_as(w), hidden"].

Lemma desk_placed : placed desk.
Proof. placed_unit [1; 2; 3; 4; 5; 6; 7; 8; 9]. Qed.

(** ... the class S(4) remains visible without f. *)
Lemma desk_accompanied : accompanied desk vault_found (fun _ => false) 2.
Proof.
  intros b visible B Hv n (l & Hp) Hin. match type of B with ?g = _ => let v := eval vm_compute in g in change g with v in B end. injection B as <-.
  assert (n = 1) as -> by (do 8 (destruct n as [|n]; [cbn in Hin; repeat destruct Hin as [Hin|Hin]; first [discriminate Hin|reflexivity|destruct Hin]|]); destruct Hin).
  left. exists 4. split; [cbn; auto 10|]. split; [left; reflexivity|]. apply (Hv 4 [1; 0]).
  - repeat (constructor; [|cbn; auto 10]). constructor.
  - left. exists [4], 1, [0]. split; [reflexivity|]. split; [left; eexists; split; [reflexivity|reflexivity]|].
    intros m v [<-|[]] [(x & E & F)|(_ & E & _)]; [|discriminate E]. vm_compute in E. first [discriminate E|injection E as <-; discriminate F].
Qed.

(** All hypotheses are met; the function has a binding before it is hidden. *)
Example hiding_removes_exactly_the_bindings_example :
  exists r r', generate desk vault_facts vault_found (fun _ => false) (@rev nat) 2 ($"m") = Some r /\
    generate (reannotated desk 2 desk_hidden) vault_facts vault_found (fun _ => false) (@rev nat) 2 ($"m") = Some r' /\ same_without 2 r r' /\
    written (Some r) <> written (Some r').
Proof.
  destruct (generate desk vault_facts vault_found (fun _ => false) (@rev nat) 2 ($"m")) as [r|] eqn:G; [|vm_compute in G; discriminate G].
  assert (T : exists r', generate (reannotated desk 2 desk_hidden) vault_facts vault_found (fun _ => false) (@rev nat) 2 ($"m") = Some r' /\ same_without 2 r r').
  { refine (hiding_removes_exactly_the_bindings desk 2 desk_hidden _ _ vault_facts vault_found (fun _ => false) (@rev nat) 2 ($"m") r desk_placed Logic.I _ _ _ _ _ _ desk_accompanied G);
      [discriminate|vm_compute; reflexivity|vm_compute; reflexivity|repeat (split; [reflexivity|]); reflexivity|repeat (split; [reflexivity|]); reflexivity|vm_compute; reflexivity]. }
  destruct T as (r' & E & S). exists r, r'. split; [reflexivity|]. split; [exact E|]. split; [exact S|]. rewrite <- G, <- E. vm_compute. discriminate.
Qed.
