(** * Printed default arguments: theorems *)
From Verif Require Import Base PrinterModel PrinterSpec PrinterProofs.

(** Example: a default argument using most of the constructs,
    [flag ? make<int>({1, 2}, Color::red) : Pair{1, {2, 3}}.first + ns::origin->x]
    written inside of namespace [ns]. *)
Definition ns_entity (n : str) : entity := mkEntity false [Namespace ($"ns")] n false false [].
Definition vec_ty : ty := mkTy ($"::std::vector<int>") false.
Definition array_ty : ty := mkTy ($"const int[2]") true.
Definition int_ty : ty := mkTy ($"int") false.
Definition t_ty : ty := mkTy ($"::T") false.

Definition C61_expr : expr :=
  Conditional (Wrapped (Ref (ns_entity ($"flag"))))
    (Call (Ref (mkEntity false [Namespace ($"ns")] ($"make") false false ($"<int>")))
       [Construct vec_ty BracedStd [Wrapped (InitList array_ty [Leaf ($"1"); Leaf ($"2")])];
        Wrapped (Ref (mkEntity false [Enumeration ($"Color") true; Namespace ($"ns")] ($"red") false false []));
        DefaultArg])
    (Binary (Member (Wrapped (Temporary (mkTy ($"::ns::Pair") false) Braced [Leaf ($"1"); InitList t_ty [Leaf ($"2"); FunctionalCast int_ty false (InitList int_ty [Leaf ($"3")])]]))
                    false (mkEntity false [Class ($"Pair"); Namespace ($"ns")] ($"first") false false []))
            ($"+") (Member (Wrapped (Ref (ns_entity ($"origin")))) true (mkEntity false [Class ($"Point"); Namespace ($"ns")] ($"x") false false []))).

Ltac source :=
  constructor;
  [ discriminate
  | cbn; intuition (subst; reflexivity)
  | cbn; intros ? Ho ?; repeat (destruct Ho as [<-|Ho]; [first [congruence|source]|]); destruct Ho
  | cbn; first [ exact I | discriminate | reflexivity | intuition discriminate
               | eexists; first [ apply written_all; cbn; intuition discriminate
                                | split; [apply written_all; cbn; intuition discriminate|reflexivity] ] ] ].

Ltac parts :=
  apply fine_node;
  [ cbn; intuition discriminate
  | cbn; let o := fresh in let Ho := fresh in intros o Ho; repeat (destruct Ho as [<-|Ho]; [parts|]); destruct Ho ].

Example C61_example : from_source C61_expr /\ unproblematic C61_expr.
Proof.
  split.
  - source.
  - change (fine false C61_expr). parts.
Qed.

Example C61_text :
  print_default C61_expr =
  $"::ns::flag ? ::ns::make<int>(::std::vector<int>{1, 2}, ::ns::Color::red) : ::ns::Pair{1, ::T{2, int{3}}}.::ns::Pair::first + ::ns::origin->::ns::Point::x".
Proof. reflexivity. Qed.


(** C61 [partial]: the text printed for a default argument denotes that default
    argument wherever it is placed, unless it contains a list that comes with its
    type or an array outside of other lists, a local name, or a name without a
    path from global scope.  These are refuted below. *)
Theorem default_arguments_keep_their_meaning_partial e :
  from_source e -> unproblematic e -> denotes e (print_default e).
Proof. exact (default_printed e). Qed.
Print Assumptions default_arguments_keep_their_meaning_partial.

Ltac no_path :=
  repeat match goal with
  | H : written_args _ _ |- _ => inversion H; subst; clear H; try discriminate
  | H : denotes _ _ |- _ => inversion H; subst; clear H
  | H : bare _ _ |- _ => inversion H; subst; clear H
  | H : refers _ _ |- _ => unfold refers in H; cbn in H; subst
  | H : selects _ _ _ |- _ => inversion H; subst; clear H
  | H : selector _ _ |- _ => destruct H as [H|[_ H]]; subst
  | H : global_name _ _ |- _ => inversion H; subst; clear H
  | H : scope_path (rev _) _ |- _ => cbn in H
  | H : scope_path _ _ |- _ => inversion H; subst; clear H
  end; try discriminate.

(** [T{1}] is printed as [::T::T{1}], [int{5}] as [intint{5}]. *)
Theorem typed_lists_keep_their_meaning_refuted :
  exists e, from_source e /\ print_default e = $"::T::T{1}" /\ ~ denotes e (print_default e).
Proof.
  exists (FunctionalCast t_ty false (InitList t_ty [Leaf ($"1")])). split; [source|]. split; [reflexivity|].
  intro H. vm_compute in H. no_path.
Qed.
Print Assumptions typed_lists_keep_their_meaning_refuted.

(** [std::vector<int>{1, 2}]. *)
Theorem typed_std_lists_keep_their_meaning_refuted :
  exists e, from_source e /\ print_default e = $"::std::vector<int>const int[2]{1, 2}" /\ ~ denotes e (print_default e).
Proof.
  exists (Temporary vec_ty BracedStd [Wrapped (InitList array_ty [Leaf ($"1"); Leaf ($"2")])]). split; [source|]. split; [reflexivity|].
  intro H. vm_compute in H. no_path.
Qed.
Print Assumptions typed_std_lists_keep_their_meaning_refuted.

(** [std::initializer_list<int> l = {1, 2}]. *)
Theorem initializer_lists_keep_their_meaning_refuted :
  exists e, from_source e /\ print_default e = $"const int[2]{1, 2}" /\ ~ denotes e (print_default e).
Proof.
  exists (Wrapped (InitList array_ty [Leaf ($"1"); Leaf ($"2")])). split; [source|]. split; [reflexivity|].
  intro H. vm_compute in H. no_path.
Qed.
Print Assumptions initializer_lists_keep_their_meaning_refuted.

(** [[](int x) { return x; }(1)]. *)
Theorem local_names_keep_their_meaning_refuted :
  exists e, from_source e /\
    print_default e = $"[](int x) {" ++ newline ++ $"    return ::x;" ++ newline ++ $"}(1)" /\ ~ denotes e (print_default e).
Proof.
  exists (Call (Lambda ($"[](int x)") (Wrapped (Ref (mkEntity true [] ($"x") false false [])))) [Leaf ($"1")]). split; [source|]. split; [reflexivity|].
  intro H. vm_compute in H. no_path.
Qed.
Print Assumptions local_names_keep_their_meaning_refuted.

(** A constant inside of an anonymous namespace. *)
Theorem unnamed_namespaces_are_left_out_refuted :
  exists e, from_source e /\ print_default e = $"::(anonymous namespace)::x" /\ ~ denotes e (print_default e).
Proof.
  exists (Wrapped (Ref (mkEntity false [UnnamedNamespace] ($"x") false false []))). split; [source|]. split; [reflexivity|].
  intro H. vm_compute in H. no_path.
Qed.
Print Assumptions unnamed_namespaces_are_left_out_refuted.

(** [s.v] for [struct { int v; } s]. *)
Theorem members_of_unnamed_classes_are_named_refuted :
  exists e, from_source e /\ print_default e = $"::s.::(anonymous struct)::v" /\ ~ denotes e (print_default e).
Proof.
  exists (Wrapped (Member (Ref (mkEntity false [] ($"s") false false [])) false (mkEntity false [UnnamedClass ($"struct")] ($"v") false false []))).
  split; [source|]. split; [reflexivity|]. intro H. vm_compute in H. no_path.
Qed.
Print Assumptions members_of_unnamed_classes_are_named_refuted.

(** [s.v] for [struct S { union { int v; }; } s]. *)
Theorem members_of_anonymous_unions_are_named_refuted :
  exists e, from_source e /\ print_default e = $"::s.::S::::S::(anonymous union)::v" /\ ~ denotes e (print_default e).
Proof.
  exists (Wrapped (Member (Member (Ref (mkEntity false [] ($"s") false false [])) false (mkEntity false [Class ($"S")] [] true false []))
                          false (mkEntity false [UnnamedClass ($"union"); Class ($"S")] ($"v") false false []))).
  split; [source|]. split; [reflexivity|]. intro H. vm_compute in H. no_path.
Qed.
Print Assumptions members_of_anonymous_unions_are_named_refuted.
