(** * Properties of the text of the generated code *)
From Verif Require Import Base ParserModel StringModel StringSpec AnnotModel AnnotSpec AnnotStore CollectModel GraphModel GraphProps OrderModel InlineModel EmitModel EmitProps
  ModuleModel ModuleProps ToolModel TextModel TextSpec TextProofs TextFinal.

(** ** Examples *)

(** namespace GENPYBIND(visible, module) ex(1) {
      /// Says "hi".
      struct Greeter(2) {
        Greeter(3)(int n = 1);
        /// Name\path
        const T &name(4)() const GENPYBIND(return_value_policy(copy));
        GENPYBIND_MANUAL(5) { parent.attr("x") = 1; }
      };
    } *)
Definition greeter_with (record method : list string) : unit :=
  mkUnit
    (fun i => match i with
              | 0 => a_decl KOther false None []
              | 1 => a_decl KNamespace false None ["visible, module"]%string
              | 2 => a_decl KRecord false None record
              | 3 => mkDecl KConstructor [] false [$"n"] 0 true false true [] [] None false None
              | 4 => a_decl (KMethod NoOperator) false None method
              | _ => mkDecl KVar [lozenge ++ $"manual"] false [] 0 false false false [] [] (Some 5) false None
              end)
    [Node 1 [Node 2 [Node 3 []; Node 4 []; Node 5 []]]] 0
    (fun i => match i with 0 => [] | 1 => [0] | 2 => [1; 0] | _ => [2; 1; 0] end)
    (fun _ => true) (fun _ => false) (fun i => i) (fun _ => false)
    (fun i => match i with 1 => $"ex" | 2 | 3 => $"Greeter" | 4 => $"name" | _ => $"manual" end) (fun _ => false) N.of_nat.
Definition greeter : unit := greeter_with [] ["return_value_policy(copy)"]%string.

Definition greeter_facts : facts :=
  mkFacts
    (extra_of (fun i => match i with
                        | 3 => mkFn [mkParam ($"n") (plain_type 0) None (Some ($"1"))] None false false false NoClass (plain_type 0)
                        | _ => mkFn [] None false true false NoClass (plain_type 1)
                        end))
    no_bases (fun i => a_member (match i with 2 => true | _ => false end))
    (fun c => map (fun i => mkFound i None false) (match c with 1 => [2] | 2 => [3; 4; 5] | _ => [1] end))
    (fun i => match i with 1 => $"ex" | _ => $"::ex::Greeter" end) [] (pop_first greeter).

Definition greeter_texts : texts :=
  mkTexts (fun _ => $"int") (fun f => match f with 3 => [$"int"] | _ => [] end)
    (fun i => match i with 4 => $"ex::Greeter::name" | _ => $"ex" end) (fun _ => None) (fun _ => $"name")
    (fun i => match i with 2 => $"Says " ++ [quote] ++ $"hi" ++ [quote] ++ $"." | 4 => $"Name\path" | _ => [] end) (fun _ => None)
    (fun _ => (Some ($"parent"), $"{" ++ end_line ++ $"    parent.attr(" ++ emit_string_literal ($"x") ++ $") = 1;" ++ end_line ++ $"}" ++ end_line)).

Definition greeter_files (u : unit) (name : string) : list (list item) :=
  match written (generate u greeter_facts (fun _ => []) (fun _ => false) (@rev nat) 1 ($name)) with Some files => files | None => [] end.

Definition lines (l : list string) : str := flat_map (fun s => $s ++ end_line) l.


Definition greeter_text : str :=
  lines ["void expose_context(::pybind11::module& context);";
         "void expose_context_ex(::pybind11::module& context);";
         "void expose_context_ex_Greeter(::pybind11::class_<::ex::Greeter>& context);";
         "";
         "PYBIND11_MODULE(m, root) {";
         "auto context = root;";
         "auto context_ex = context.def_submodule(""ex"");";
         "auto context_ex_Greeter = ::pybind11::class_<::ex::Greeter>(context_ex, ""Greeter"", ""Says \""hi\""."");";
         "";
         "expose_context(context);";
         "expose_context_ex(context_ex);";
         "expose_context_ex_Greeter(context_ex_Greeter);";
         "}";
         "";
         "void expose_context(::pybind11::module& context) {";
         "(void)context;";
         "}";
         "";
         "void expose_context_ex(::pybind11::module& context) {";
         "(void)context;";
         "}";
         "";
         "void expose_context_ex_Greeter(::pybind11::class_<::ex::Greeter>& context) {";
         "context.def(::pybind11::init<int>(), """", ::pybind11::arg(""n"") = 1);";
         "context.def(""name"", ::pybind11::overload_cast<>(&::ex::Greeter::name, ::pybind11::const_), ""Name\\path"", pybind11::return_value_policy::copy);";
         "[](auto &parent) {";
         "    parent.attr(""x"") = 1;";
         "}";
         "(context);";
         "}";
         ""]%string.

Definition no_strings (e : str) : list (str * str) := [].
Definition body_strings (l : nat) : list (str * str) := [ordinary ($"x")].

Lemma greeter_texts_fine : fine_texts greeter_texts greeter_facts body_strings.
Proof.
  constructor; cbn [greeter_texts tx_type tx_original tx_name tx_args tx_simple tx_lambda fst snd].
  - intros ?. now apply simple_is_piece.
  - intros f. do 4 (destruct f as [|f]; [repeat constructor; now apply simple_is_piece|]). constructor.
  - intros i. do 2 (destruct i as [|i]; [now apply simple_is_piece|]). now apply simple_is_piece.
  - intros i. do 5 (destruct i as [|i]; [now apply simple_is_piece|]). now apply simple_is_piece.
  - discriminate.
  - intros ?. split; [discriminate|repeat constructor].
  - intros i. split; [|split; [discriminate|repeat constructor]].
    match goal with |- lambda_body ?t _ => assert (H : exists st ts, tokenize 60 fresh t = Some (st, ts) /\ is_block ts /\ strings ts = body_strings 0) end.
    { eexists _, _. split; [vm_compute; reflexivity|]. split; [|reflexivity].
      match goal with |- is_block (?o :: ?l) => exists (firstn (length l - 2) l) end. split; [|reflexivity].
      cbn [firstn length Nat.sub]. do 16 (apply ne_token; [reflexivity|]). refine (ne_group "("%char ")"%char [_] _ _ _ _); [constructor|..]; repeat (constructor; [reflexivity|]); constructor. }
    destruct H as (st & ts & H & Hb & Hs). exists st, ts. split; [exact (tokenize_scans _ _ _ _ _ H)|]. split; assumption.
Qed.

Lemma greeter_defaults_fine : fine_defaults greeter_facts no_strings.
Proof.
  intros f p e. do 4 (destruct f as [|f]; [cbn; intros H E; repeat (destruct H as [<-|H]; [injection E as <-; now apply simple_is_piece|]); destruct H|]). intros [].
Qed.

Lemma greeter_annotations_fine : fine_annotations greeter.
Proof. apply checked_fine. intro i. do 5 (destruct i as [|i]; [vm_compute; reflexivity|]). vm_compute. reflexivity. Qed.

(** ** C62 *)

(** Every file that is written consists of the expected statements and
    definitions: read as C++, it is the concatenation of statements ended by
    semicolons, and blocks with balanced brackets, one for each thing to be
    exposed; string literals denote exactly the names and docstrings. *)
Theorem files_consist_of_the_intended_statements :
  forall u w tx of_expr of_body found implicit iteration n name b streams rs st s,
    fine_texts tx w of_body -> fine_annotations u -> fine_defaults w of_expr -> piece true name [] ->
    generate u w found implicit iteration n name = Some (RGraph b (EWritten streams rs st)) -> In s streams ->
    exists tss, Forall2 (item_shape tx of_expr of_body) s tss /\ scans fresh (stream_text tx w s) fresh (concat tss).
Proof. exact generate_reads. Qed.
Print Assumptions files_consist_of_the_intended_statements.

(** There is no other way to read them. *)
Theorem text_is_read_in_one_way :
  forall st s st1 ts1 st2 ts2, scans st s st1 ts1 -> scans st s st2 ts2 -> st1 = st2 /\ ts1 = ts2.
Proof. intros st s st1 ts1 st2 ts2 H1 H2. exact (scans_deterministic st s st1 ts1 H1 st2 ts2 H2). Qed.
Print Assumptions text_is_read_in_one_way.

(** Without a name given on the command line the name of the module is suitable. *)
Theorem default_name_is_suitable :
  forall main_file, stem main_file <> [] -> piece true (default_name [] main_file) [].
Proof. exact default_name_piece. Qed.
Print Assumptions default_name_is_suitable.

Example files_consist_of_the_intended_statements_example :
  greeter_files greeter "m" <> [] /\ map (stream_text greeter_texts greeter_facts) (greeter_files greeter "m") = [greeter_text] /\
  fine_texts greeter_texts greeter_facts body_strings /\ fine_annotations greeter /\ fine_defaults greeter_facts no_strings /\ piece true ($"m") [] /\
  default_name [] ($"dir/some-file.h") = $"some_file".
Proof.
  split; [vm_compute; discriminate|]. split; [vm_compute; reflexivity|]. split; [exact greeter_texts_fine|]. split; [exact greeter_annotations_fine|].
  split; [exact greeter_defaults_fine|]. split; [now apply simple_is_piece|reflexivity].
Qed.

(** Texts of return value policies, holder types and module names are not
    checked: without these conditions the claim is false. *)
Definition broken (u : unit) (name : string) : Prop :=
  exists w tx of_expr of_body b streams st s,
    fine_texts tx w of_body /\ fine_defaults w of_expr /\
    generate u w (fun _ => []) (fun _ => false) (@rev nat) 1 ($name) = Some (RGraph b (EWritten streams [] st)) /\ bs_reports b = [] /\ In s streams /\
    ~ exists tss, Forall2 (item_shape tx of_expr of_body) s tss /\ scans fresh (stream_text tx w s) fresh (concat tss).

Ltac break_greeter :=
  match goal with |- broken ?u ?name =>
    let files := eval vm_compute in (greeter_files u name) in
    match files with
    | [?s] =>
        destruct (written_inv (generate u greeter_facts (fun _ => []) (fun _ => false) (@rev nat) 1 ($name)) [s]) as (b & st & Hg & Hr); [vm_compute; reflexivity|];
        exists greeter_facts, greeter_texts, no_strings, body_strings, b, [s], st, s;
        split; [exact greeter_texts_fine|]; split; [exact greeter_defaults_fine|]; split; [exact Hg|]; split; [exact Hr|]; split; [left; reflexivity|];
        let t := eval vm_compute in (tokenize 2000 fresh (stream_text greeter_texts greeter_facts s)) in
        match t with
        | Some (?l, ?ts) => apply (uneven _ _ _ _ 2000 _ l ts); [vm_compute; reflexivity|vm_compute; discriminate]
        end
    end
  end.

Definition fine_policies (u : unit) : Prop :=
  forall i ans bad an s, carried (d_attrs (u_decls u i)) ans bad -> In an ans -> string_of ReturnValuePolicy an = Some s -> fine_policy s.
Definition fine_holders (u : unit) : Prop :=
  forall i ans bad an s, carried (d_attrs (u_decls u i)) ans bad -> In an ans -> string_of HolderType an = Some s -> fine_holder s.

Lemma no_annotation u k : (forall i, forallb (fun an => match string_of k an with Some _ => false | None => true end) (fst (parse_attrs (d_attrs (u_decls u i)) [])) = true) ->
  forall i ans bad an s, carried (d_attrs (u_decls u i)) ans bad -> In an ans -> string_of k an <> Some s.
Proof.
  intros H i ans bad an s Hc Hin E. specialize (H i). destruct (parse_attrs (d_attrs (u_decls u i)) []) as [l ds] eqn:El.
  destruct (parse_attrs_carried _ _ _ _ El) as (l' & -> & Hc' & _). cbn [fst app] in H. destruct (carried_unique _ _ _ Hc' _ _ Hc) as [-> _].
  rewrite forallb_forall in H. specialize (H an Hin). rewrite E in H. discriminate.
Qed.

Theorem statements_with_unchecked_policy_refuted : exists u, fine_holders u /\ broken u "m".
Proof.
  exists (greeter_with [] ["return_value_policy(""copy)"")"]%string). split; [|break_greeter].
  intros i ans bad an s Hc Hin E. exfalso. revert E. eapply no_annotation; [|exact Hc|exact Hin].
  intro j. do 5 (destruct j as [|j]; [vm_compute; reflexivity|]). vm_compute. reflexivity.
Qed.
Print Assumptions statements_with_unchecked_policy_refuted.

Theorem statements_with_unchecked_holder_type_refuted : exists u, fine_policies u /\ broken u "m".
Proof.
  exists (greeter_with ["holder_type(""std::shared_ptr<ex::Greeter)"")"]%string []). split; [|break_greeter].
  intros i ans bad an s Hc Hin E. exfalso. revert E. eapply no_annotation; [|exact Hc|exact Hin].
  intro j. do 5 (destruct j as [|j]; [vm_compute; reflexivity|]). vm_compute. reflexivity.
Qed.
Print Assumptions statements_with_unchecked_holder_type_refuted.

Theorem statements_with_unchecked_module_name_refuted : exists u name, fine_annotations u /\ broken u name.
Proof.
  exists greeter, "m)"%string. split; [exact greeter_annotations_fine|]. break_greeter.
Qed.
Print Assumptions statements_with_unchecked_module_name_refuted.
