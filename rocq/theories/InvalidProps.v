(** * The fate of invalid annotations *)
From Coq Require Import Sorting.Permutation.
From Verif Require Import Base ParserModel StringModel AnnotModel AnnotSpec CollectModel CollectSpec GraphModel GraphSpec GraphProps
  OrderModel OrderSpec OrderProofs OrderProps InlineModel EmitModel EmitProps ModuleModel ModuleSpec ModuleProps ExecProps ImportProps ToolModel ToolSpec ToolProps AccessSpec AccessProps InvalidSpec InvalidProofs.

(** ** C80 *)

(** An invalid annotation prevents any output.  It is reported at its declaration,
    if that is in the source; for what an alias refers to this is so unless other
    errors come first. *)
Theorem invalid_annotations_prevent_output : forall u found implicit name r i, placed u -> process u found implicit name = Done r -> looked_at_early u i -> ~ valid_annotations (u_decls u i) ->
  exists rs, r = NoGraph rs /\ (exists x, In x rs /\ is_error_report x = true) /\ (In i (source_order u) -> counts u i -> exists d, In (RAnnotation i d) rs /\ is_error d = true) /\
    ((forall j, In j (source_order u) -> counts u j -> valid_annotations (u_decls u j)) -> (forall j k, ~ In (RMismatch j k) rs) -> exists d, In (RAnnotation i d) rs /\ is_error d = true).
Proof. exact early_invalid_reported. Qed.
Print Assumptions invalid_annotations_prevent_output.

(** No other declaration is blamed. *)
Theorem only_invalid_annotations_are_reported : forall u found implicit name rs i d, placed u -> process u found implicit name = Done (NoGraph rs) -> In (RAnnotation i d) rs -> is_error d = true ->
  looked_at_early u i /\ ~ valid_annotations (u_decls u i).
Proof. exact early_blame. Qed.
Print Assumptions only_invalid_annotations_are_reported.

(** Reports come in the order of the source, those about targets of aliases follow. *)
Theorem reports_follow_the_source : forall u found implicit name rs, placed u -> process u found implicit name = Done (NoGraph rs) ->
  exists rs1 rs2, about_annotations rs = rs1 ++ rs2 /\ reported_for u (source_order u) rs1 /\ forall i d, In (i, d) rs2 -> exists a, relocates u a i \/ encourages u a i.
Proof. exact early_order. Qed.
Print Assumptions reports_follow_the_source.

(** Declarations looked at later, like specializations of templates: an error is
    reported at exactly those with invalid annotations. *)
Theorem invalid_annotations_are_reported_while_emitting : forall u w found implicit iteration n name b files rs st', setting u w iteration -> 0 < n ->
  generate u w found implicit iteration n name = Some (RGraph b (EWritten files rs st')) ->
  exists g vis order all chunks post, exposed u found implicit name g vis b /\ generated u w g vis (bs_annotations b) name rs st' order all post /\ layout name post all chunks files /\
    (forall i, looked_at_late u w b all i -> (~ valid_annotations (u_decls u i) <-> exists d, In (EAnnotation i d) rs /\ is_error d = true)) /\
    (forall i d, In (EAnnotation i d) rs -> is_error d = true -> d_skip (u_decls u i) = false -> looked_at_late u w b all i /\ ~ valid_annotations (u_decls u i)) /\
    (forall i, looked_at_late u w b all i -> valid_annotations (u_decls u i) \/ exists d, In (EAnnotation i d) rs /\ is_error d = true).
Proof. exact late_reported. Qed.
Print Assumptions invalid_annotations_are_reported_while_emitting.

(** If a run succeeds, then all annotations looked at are valid.  Missing: templates
    that are not instantiated. *)
Theorem successful_runs_have_valid_annotations_partial : forall env outputs keep name jobs fs fs' out ns k j n, main env outputs keep false name jobs fs = Some (fs', out, 0%N) -> acceptable outputs -> names name jobs ns ->
  nth_error jobs k = Some j -> nth_error ns k = Some n -> setting (j_unit j) (j_facts j) (j_iteration j) ->
  exists parts b g vis rs st' order all chunks post, succeeds env (effective outputs) n j parts /\ exposed (j_unit j) (j_found j) (j_implicit j) n g vis b /\
    generated (j_unit j) (j_facts j) g vis (bs_annotations b) n rs st' order all post /\ layout n post all chunks parts /\
    forall i, looked_at_early (j_unit j) i \/ looked_at_late (j_unit j) (j_facts j) b all i -> valid_annotations (u_decls (j_unit j) i).
Proof. exact passing_valid. Qed.
Print Assumptions successful_runs_have_valid_annotations_partial.

(** ** Examples *)

(** namespace GENPYBIND(visible) a(1) {
      void f(2)() GENPYBIND(text);
      struct S(3) { int x(4) GENPYBIND(readonly(1)); };
      template <typename T> void t(5)(T) GENPYBIND(bogus);
    }
    and a specialization of t(6). *)
Definition typos (f x : string) : unit :=
  mkUnit
    (fun i => match i with
              | 0 => a_decl KOther false None []
              | 1 => a_decl KNamespace false None ["visible"]%string
              | 2 => a_decl (KFunction NoOperator) false None [f]
              | 3 => a_decl KRecord false None []
              | 4 => a_decl KField false None [x]
              | _ => a_decl (KFunction NoOperator) false None ["bogus"]%string
              end)
    [Node 1 [Node 2 []; Node 3 [Node 4 []]; Node 5 []]] 0
    (fun i => match i with 0 => [] | 1 => [0] | 4 => [3; 1; 0] | _ => [1; 0] end)
    (fun _ => true) (fun i => Nat.eqb i 5) (fun i => i) (fun _ => false)
    (fun i => match i with 1 => $"a" | 2 => $"f" | 3 => $"S" | 4 => $"x" | _ => $"t" end) (fun _ => false) N.of_nat.
Definition typos_found (c : nat) : list nat := match c with 1 => [2] | 3 => [4] | _ => [] end.
Definition typos_facts (f x : string) (specializations : list nat) : facts :=
  let w := simple_facts (typos f x) no_bases (fun c => match c with 0 => [1] | 1 => [2; 3; 5] | c => typos_found c end)
    (fun i => match i with 1 => "a" | _ => "::a::S" end)%string in
  let e := w_extra w in
  mkFacts (mkExtra (x_fn e) (x_const e) (x_tag e) (x_enumerator e) (x_scoped e) (x_abstract e) (fun i => if Nat.eqb i 5 then Some specializations else None) (x_adl e))
    (w_hierarchy w) (w_members w) (w_results w) (w_qualified w) (w_variables w) (w_pop w).
Definition typos_job (f x : string) (specializations : list nat) : job :=
  mkJob ($"/src/a.h") false [] (typos f x) (typos_facts f x specializations) typos_found (fun _ => false) (@rev nat).

Lemma typos_placed f x : placed (typos f x).
Proof. placed_unit [1; 2; 3; 4; 5]. Qed.

Lemma typos_setting f x specializations : (forall j, In j specializations -> j = 6) -> setting (typos f x) (typos_facts f x specializations) (@rev nat).
Proof.
  intros H6. constructor; [apply typos_placed| |exists N.of_nat; exact (pop_first_good (typos f x))|intros l; apply Permutation_rev].
  constructor;
  [let r := fresh "r" in let s := fresh "s" in intros r s; do 14 (destruct r as [|r]; [cbn; intuition (subst; cbn; lia)|]); intros []
  |intros i H; exact H
  |intros r k i []
  |intros i l j; cbn; destruct (Nat.eqb i 5); [|discriminate]; intros H Hj; injection H as <-; rewrite (H6 j Hj); reflexivity
  |let r := fresh "r" in let s := fresh "s" in intros r s; do 14 (destruct r as [|r]; [cbn; intuition (subst; reflexivity)|]); intros []
  |let c := fresh "c" in intros c p Hc (before & after & H & _);
   do 14 (destruct c as [|c]; [try discriminate; assert (Hp : In p (before ++ p :: after)) by (apply in_or_app; right; left; reflexivity);
     rewrite <- H in Hp; cbn in Hp; intuition (subst; reflexivity)|]); try discriminate].
Qed.

Lemma invalid_by u i : match insert (u_decls u) i [] with Some (_, ds) => negb (d_skip (u_decls u i)) && existsb is_error ds | None => false end = true -> ~ valid_annotations (u_decls u i).
Proof.
  destruct (insert (u_decls u) i []) as [[st ds]|] eqn:E; [|discriminate]. intros H. apply andb_true_iff in H as [H1 H2]. apply negb_true_iff in H1.
  apply (insert_valid _ _ _ _ E H1). apply existsb_exists in H2. exact H2.
Qed.

(** Misspelled annotations are reported at f and x, in this order, and there is no
    output; nor is there one for the invalid annotation of the specialization. *)
Example invalid_annotations_example :
  (setting (typos "hiden" "readonly(1)") (typos_facts "hiden" "readonly(1)" []) (@rev nat) /\ looked_at_early (typos "hiden" "readonly(1)") 2 /\ looked_at_early (typos "hiden" "readonly(1)") 4 /\
   ~ valid_annotations (u_decls (typos "hiden" "readonly(1)") 2) /\ ~ valid_annotations (u_decls (typos "hiden" "readonly(1)") 4) /\
   process (typos "hiden" "readonly(1)") typos_found (fun _ => false) ($"m") =
     Done (NoGraph [RAnnotation 2 (DParser (mkError InvalidAnnotation ($"hiden"))); RAnnotation 4 (DWrongArgumentType Readonly (LUnsigned 1))]) /\
   observe (main anything [$"/a"] false false [] [typos_job "hiden" "readonly(1)" []] no_files) [$"/a"] = Some ([Absent], 0, 1%N)) /\
  (setting (typos "hidden" "readonly") (typos_facts "hidden" "readonly" [6]) (@rev nat) /\ ~ valid_annotations (u_decls (typos "hidden" "readonly") 6) /\
   (exists b files st', generate (typos "hidden" "readonly") (typos_facts "hidden" "readonly" [6]) typos_found (fun _ => false) (@rev nat) 1 ($"m") =
      Some (RGraph b (EWritten files [EAnnotation 6 (DParser (mkError InvalidAnnotation ($"bogus")))] st'))) /\
   observe (main anything [$"/a"] false false [] [typos_job "hidden" "readonly" [6]] no_files) [$"/a"] = Some ([Absent], 0, 1%N)).
Proof.
  split.
  - split; [apply typos_setting; intros j []|]. split; [left; split; [right; left; reflexivity|apply CollectProofs.counts_b_iff; vm_compute; reflexivity]|]. split; [left; split; [do 3 right; left; reflexivity|apply CollectProofs.counts_b_iff; vm_compute; reflexivity]|].
    split; [apply invalid_by; vm_compute; reflexivity|]. split; [apply invalid_by; vm_compute; reflexivity|]. split; vm_compute; reflexivity.
  - split; [apply typos_setting; intros j [<-|[]]; reflexivity|]. split; [apply invalid_by; vm_compute; reflexivity|]. split; [|vm_compute; reflexivity].
    assert (E : match generate (typos "hidden" "readonly") (typos_facts "hidden" "readonly" [6]) typos_found (fun _ => false) (@rev nat) 1 ($"m") with
      | Some (RGraph _ (EWritten _ rs _)) => Some rs | _ => None end = Some [EAnnotation 6 (DParser (mkError InvalidAnnotation ($"bogus")))]) by (vm_compute; reflexivity).
    destruct (generate _ _ _ _ _ _ _) as [[|b [c|fs rs st]]|]; try discriminate. injection E as ->. exists b, fs, st. reflexivity.
Qed.

(** Annotations of templates are not looked at, unless there are specializations:
    the run succeeds in spite of the invalid annotation of t. *)
Theorem successful_runs_have_valid_annotations_refuted : exists env outputs name j fs fs' out, setting (j_unit j) (j_facts j) (j_iteration j) /\ acceptable outputs /\
  main env outputs false false name [j] fs = Some (fs', out, 0%N) /\ exists i, In i (source_order (j_unit j)) /\ ~ valid_annotations (u_decls (j_unit j) i).
Proof.
  destruct (observe_inv (main anything [$"/a"] false false [] [typos_job "hidden" "readonly" []] no_files) [$"/a"] ([Generated 7], 0, 0%N)) as (fs & out & code & E & _ & _ & Hc); [vm_compute; reflexivity|].
  cbn in Hc. subst code. exists anything, [$"/a"], [], (typos_job "hidden" "readonly" []), no_files, fs, out. split; [apply typos_setting; intros j []|].
  split; [|split; [exact E|]].
  - intros p [<-|[]]. right. reflexivity.
  - exists 5. split; [do 4 right; left; reflexivity|]. apply invalid_by. vm_compute. reflexivity.
Qed.
Print Assumptions successful_runs_have_valid_annotations_refuted.
