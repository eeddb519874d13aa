(** * Properties of the calls in the generated code *)
From Verif Require Import Base ParserModel StringModel StringSpec AnnotModel AnnotSpec AnnotStore CollectModel GraphModel GraphProps OrderModel InlineModel EmitModel EmitProps
  ModuleModel ModuleProps ToolModel TextModel TextSpec TextProofs TextFinal TextProps CallSpec CallProofs.

(** ** Examples *)

(** namespace GENPYBIND(visible, module) ex(1) {
      enum GENPYBIND(arithmetic) Color(2) { red(3) };
      /// Some vector.
      struct GENPYBIND(dynamic_attr) Vec(4) {
        GENPYBIND(implicit_conversion) Vec(5)(Color c);
        Vec operator-(6)() const;
        Vec operator+(7)(Color) const;
        void link(8)(Vec &other, int n = 3) GENPYBIND(keep_alive(this, other), noconvert(other), required(other));
        int size(9)() const GENPYBIND(getter_for(size));
      };
    }
    With [vec_facts OCoawait] the unary operator is [co_await]. *)
Definition vec : unit :=
  mkUnit
    (fun i => match i with
              | 0 => a_decl KOther false None []
              | 1 => a_decl KNamespace false None ["visible, module"]%string
              | 2 => a_decl KEnum false None ["arithmetic"]%string
              | 3 => a_decl KOther false None []
              | 4 => a_decl KRecord false None ["dynamic_attr"]%string
              | 5 => mkDecl KConstructor [lozenge ++ $"implicit_conversion"] false [$"c"] 0 true false true [] [] None false None
              | 6 | 7 => a_decl (KMethod OtherOperator) false None []
              | 8 => mkDecl (KMethod NoOperator) [lozenge ++ $"keep_alive(this, other), noconvert(other), required(other)"] false [$"other"; $"n"] 0 true false true [] [] None false None
              | 9 => a_decl (KMethod NoOperator) false None ["getter_for(size)"]%string
              | _ => a_decl KOther false None []
              end)
    [Node 1 [Node 2 [Node 3 []]; Node 4 [Node 5 []; Node 6 []; Node 7 []; Node 8 []; Node 9 []]]] 0
    (fun i => match i with 0 => [] | 1 => [0] | 2 | 4 => [1; 0] | 3 => [2; 1; 0] | _ => [4; 1; 0] end)
    (fun _ => true) (fun _ => false) (fun i => i) (fun _ => false)
    (fun i => match i with 1 => $"ex" | 2 => $"Color" | 3 => $"red" | 4 | 5 => $"Vec" | 8 => $"link" | 9 => $"size" | _ => $"operator" end) (fun _ => false) N.of_nat.

Definition vec_facts (unary : opkind) : facts :=
  mkFacts
    (mkExtra (fun i => match i with
                        | 5 => mkFn [mkParam ($"c") (plain_type 0) None None] None false false false NoClass (plain_type 0)
                        | 6 => mkFn [] (Some unary) false true false NoClass (plain_type 1)
                        | 7 => mkFn [mkParam ($"c") (plain_type 0) None None] (Some OPlus) false true false NoClass (plain_type 1)
                        | 8 => mkFn [mkParam ($"other") (plain_type 2) None None; mkParam ($"n") (plain_type 3) None (Some ($"3"))] None false false false NoClass (plain_type 4)
                        | _ => mkFn [] None false true false NoClass (plain_type 3)
                        end)
       (fun _ => false) (fun _ => None) (fun i => Nat.eqb i 3) (fun _ => false) (fun _ => false) (fun _ => None) (fun _ _ => []))
    no_bases (fun i => a_member (match i with 2 | 4 => true | _ => false end))
    (fun c => map (fun i => mkFound i None false) (match c with 1 => [2; 4] | 2 => [3] | 4 => [5; 6; 7; 8; 9] | _ => [1] end))
    (fun i => match i with 1 => $"ex" | 2 => $"::ex::Color" | _ => $"::ex::Vec" end) [] (pop_first vec).

Definition vec_texts : texts :=
  mkTexts (fun t => match ty_core t with COther 0 => $"::ex::Color" | COther 1 => $"::ex::Vec" | COther 2 => $"::ex::Vec &" | COther _ => $"int" | _ => $"::ex::Vec const &" end)
    (fun f => match f with 5 => [$"ex::Color"] | 8 => [$"ex::Vec &"; $"int"] | _ => [] end)
    (fun i => match i with 8 => $"ex::Vec::link" | 9 => $"ex::Vec::size" | _ => $"ex" end) (fun _ => None) (fun _ => $"red")
    (fun i => match i with 4 => $"Some vector." | _ => [] end) (fun _ => None) (fun _ => (None, [])).

Definition vec_files (unary : opkind) : list (list item) :=
  match written (generate vec (vec_facts unary) (fun _ => []) (fun _ => false) (@rev nat) 1 ($"m")) with Some files => files | None => [] end.

Definition vec_text : str :=
  lines ["void expose_context(::pybind11::module& context);";
         "void expose_context_ex(::pybind11::module& context);";
         "void expose_context_ex_Color(::pybind11::enum_<::ex::Color>& context);";
         "void expose_context_ex_Vec(::pybind11::class_<::ex::Vec>& context);";
         "";
         "PYBIND11_MODULE(m, root) {";
         "auto context = root;";
         "auto context_ex = context.def_submodule(""ex"");";
         "auto context_ex_Color = ::pybind11::enum_<::ex::Color>(context_ex, ""Color"", ::pybind11::arithmetic());";
         "auto context_ex_Vec = ::pybind11::class_<::ex::Vec>(context_ex, ""Vec"", ""Some vector."", ::pybind11::dynamic_attr());";
         "";
         "expose_context(context);";
         "expose_context_ex(context_ex);";
         "expose_context_ex_Color(context_ex_Color);";
         "expose_context_ex_Vec(context_ex_Vec);";
         "}";
         "";
         "void expose_context(::pybind11::module& context) {";
         "(void)context;";
         "}";
         "";
         "void expose_context_ex(::pybind11::module& context) {";
         "(void)context;";
         "}";
         "";
         "void expose_context_ex_Color(::pybind11::enum_<::ex::Color>& context) {";
         "context.value(""red"", ::ex::Color::red);";
         "context.export_values();";
         "}";
         "";
         "void expose_context_ex_Vec(::pybind11::class_<::ex::Vec>& context) {";
         "::pybind11::implicitly_convertible<::ex::Color, ::ex::Vec>();";
         "context.def(::pybind11::init<ex::Color>(), """", ::pybind11::arg(""c""));";
         "context.def(""__neg__"", [](::ex::Vec const & lhs) -> ::ex::Vec { return -lhs; }, """", ::pybind11::is_operator());";
         "context.def(""__add__"", [](::ex::Vec const & lhs, ::ex::Color rhs) -> ::ex::Vec { return lhs + rhs; }, """", ::pybind11::is_operator());";
         "context.def(""link"", ::pybind11::overload_cast<ex::Vec &, int>(&::ex::Vec::link), """", ::pybind11::arg(""other"").noconvert().none(false), ::pybind11::arg(""n"") = 3, pybind11::keep_alive<1, 2>());";
         "context.def_property_readonly(""size"", ::pybind11::overload_cast<>(&::ex::Vec::size, ::pybind11::const_));";
         "}";
         ""]%string.

(** ** C63 *)

(** Every file that is written is the sequence of the calls that the
    statements and blocks stand for: with the arguments that pybind11 expects,
    in that order. *)
Theorem statements_pass_the_intended_arguments :
  forall u w tx found implicit iteration n name b streams rs st s,
    generate u w found implicit iteration n name = Some (RGraph b (EWritten streams rs st)) -> In s streams ->
    exists parts, Forall2 (item_says tx w) s parts /\ stream_text tx w s = concat parts.
Proof. exact generate_says. Qed.
Print Assumptions statements_pass_the_intended_arguments.

Example statements_pass_the_intended_arguments_example :
  exists b s rs st, generate vec (vec_facts OMinus) (fun _ => []) (fun _ => false) (@rev nat) 1 ($"m") = Some (RGraph b (EWritten [s] rs st)) /\
    stream_text vec_texts (vec_facts OMinus) s = vec_text /\
    keyword (mkArg ($"n") false false (Some ($"3"))) ($"::pybind11::arg(""n"") = 3") /\
    keyword (mkArg ($"other") true true None) ($"::pybind11::arg(""other"").noconvert().none(false)") /\
    ~ keyword (mkArg ($"other") true false None) ($"::pybind11::arg(""other"").noconvert().none(false)").
Proof.
  destruct (written_inv (generate vec (vec_facts OMinus) (fun _ => []) (fun _ => false) (@rev nat) 1 ($"m")) (vec_files OMinus)) as (b & st & Hg & _); [vm_compute; reflexivity|].
  assert (E : exists s, vec_files OMinus = [s] /\ stream_text vec_texts (vec_facts OMinus) s = vec_text).
  { assert (Hl : length (vec_files OMinus) = 1) by (vm_compute; reflexivity).
    assert (Ht : map (stream_text vec_texts (vec_facts OMinus)) (vec_files OMinus) = [vec_text]) by (vm_compute; reflexivity).
    destruct (vec_files OMinus) as [|s [|]]; try discriminate Hl. exists s. split; [reflexivity|]. now injection Ht. }
  destruct E as (s & E & Ht). rewrite E in Hg. exists b, s, [], st. split; [exact Hg|]. split; [exact Ht|]. split; [|split].
  - change ($"::pybind11::arg(""n"") = 3") with (call ($"::pybind11::arg") [literal (ar_name (mkArg ($"n") false false (Some ($"3"))))] ++ concat [] ++ $" = 3").
    apply keyword_intro; [constructor| |intros e H; injection H as <-; reflexivity|discriminate]. intro m. split; [intros []|]. intros [[_ H]|[_ H]]; discriminate H.
  - change ($"::pybind11::arg(""other"").noconvert().none(false)")
      with (call ($"::pybind11::arg") [literal (ar_name (mkArg ($"other") true true None))] ++ concat [$".noconvert()"; $".none(false)"] ++ []).
    apply keyword_intro; [|intro m|discriminate|reflexivity].
    + constructor; [|constructor; [intros []|constructor]]. intros [H|[]]. discriminate H.
    + split; [intros [<-|[<-|[]]]; auto|]. intros [[-> _]|[-> _]]; [now left|right; now left].
  - intro H. inversion H as [ms d Hn Hm Hs Hd E']. subst. rewrite (Hd eq_refl), app_nil_r in E'. clear Hd Hs H.
    destruct ms as [|m ms]; [vm_compute in E'; discriminate E'|]. assert (Em : m = $".noconvert()") by (destruct (proj1 (Hm m) (or_introl eq_refl)) as [[? _]|[_ ?]]; [assumption|discriminate]).
    destruct ms as [|m' ms]; [subst m; vm_compute in E'; discriminate E'|]. assert (Em' : m' = $".noconvert()") by (destruct (proj1 (Hm m') (or_intror (or_introl eq_refl))) as [[? _]|[_ ?]]; [assumption|discriminate]).
    subst m m'. inversion Hn as [|? ? Hx _]. apply Hx. now left.
Qed.

(** [co_await] is not among the operators that are skipped.  The function that
    is defined for it does not apply it: it returns the undeclared variable
    [co_awaitlhs].  Its name is empty. *)
Theorem operators_apply_their_operator_refuted :
  exists u w tx b s st id p body l,
    generate u w (fun _ => []) (fun _ => false) (@rev nat) 1 ($"m") = Some (RGraph b (EWritten [s] [] st)) /\ bs_reports b = [] /\
    In (IDefine id p body) s /\ In (SOperator [] 6 l) body /\ la_operator l = OCoawait /\
    stmt_text tx w p (SOperator [] 6 l) =
      lines ["context.def("""", [](::ex::Vec const & lhs) -> ::ex::Vec { return co_awaitlhs; }, """", ::pybind11::is_operator());"]%string.
Proof.
  destruct (written_inv (generate vec (vec_facts OCoawait) (fun _ => []) (fun _ => false) (@rev nat) 1 ($"m")) (vec_files OCoawait)) as (b & st & Hg & Hr); [vm_compute; reflexivity|].
  exists vec, (vec_facts OCoawait), vec_texts, b.
  let files := eval vm_compute in (vec_files OCoawait) in match files with [?s] => change (vec_files OCoawait) with [s] in Hg; exists s end.
  exists st. eexists _, _, _, _. split; [exact Hg|]. split; [exact Hr|].
  split; [do 8 right; left; reflexivity|]. split; [do 2 right; left; reflexivity|]. split; vm_compute; reflexivity.
Qed.
Print Assumptions operators_apply_their_operator_refuted.
