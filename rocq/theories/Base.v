(** * Common definitions: byte strings and ASCII character classes.

    Text handled by genpybind is a sequence of bytes ([llvm::StringRef],
    [std::string], [llvm::SmallVector<char>]); here it is a list of [ascii]. *)
From Coq Require Export List Arith NArith ZArith Bool Lia.
From Coq Require Export Ascii.
From Coq Require Export Strings.String.
From Coq Require Import ZifyBool ZifyNat ZifyN.
Export ListNotations.
Open Scope list_scope.

(* [String.length], [String.append] and friends shadow the list functions *)
Notation length := Datatypes.length.
Notation concat := List.concat.

Definition str := list ascii.

(** Literal strings in model and examples: [$"text"]. *)
Notation "$ s" := (list_ascii_of_string s%string) (at level 0, s at level 0, only parsing).

Definition str_eqb (a b : str) : bool :=
  if list_eq_dec ascii_dec a b then true else false.

Definition code (c : ascii) : N := N_of_ascii c.

Definition in_range (lo hi : N) (c : ascii) : bool :=
  (N.leb lo (code c)) && (N.leb (code c) hi).

(** clang/Basic/CharInfo.h: [isDigit], ['0'..'9']. *)
Definition is_digit (c : ascii) : bool := in_range 48 57 c.

(** clang/Basic/CharInfo.h: letters. *)
Definition is_letter (c : ascii) : bool := in_range 65 90 c || in_range 97 122 c.

(** clang/Basic/CharInfo.h: [isAsciiIdentifierStart] with [AllowDollar = false]. *)
Definition is_ident_start (c : ascii) : bool := is_letter c || N.eqb (code c) 95.

(** clang/Basic/CharInfo.h: [isAsciiIdentifierContinue]. *)
Definition is_ident_continue (c : ascii) : bool := is_ident_start c || is_digit c.

(** clang/Basic/CharInfo.h: [isHorizontalWhitespace]: space, \t, \v, \f. *)
Definition is_hspace (c : ascii) : bool :=
  N.eqb (code c) 32 || N.eqb (code c) 9 || N.eqb (code c) 11 || N.eqb (code c) 12.

(** llvm::StringRef::take_while / drop_while. *)
Fixpoint take_while {A} (p : A -> bool) (s : list A) : list A :=
  match s with
  | [] => []
  | c :: s' => if p c then c :: take_while p s' else []
  end.

Fixpoint drop_while {A} (p : A -> bool) (s : list A) : list A :=
  match s with
  | [] => []
  | c :: s' => if p c then drop_while p s' else s
  end.

Definition forallb_s (p : ascii -> bool) (s : str) : bool := forallb p s.

(** ** Lemmas *)

Lemma str_eqb_eq a b : str_eqb a b = true <-> a = b.
Proof. unfold str_eqb; destruct (list_eq_dec ascii_dec a b); split; congruence. Qed.

Lemma str_eqb_refl a : str_eqb a a = true.
Proof. apply str_eqb_eq; reflexivity. Qed.

Lemma str_eqb_neq a b : str_eqb a b = false <-> a <> b.
Proof. unfold str_eqb; destruct (list_eq_dec ascii_dec a b); split; congruence. Qed.

Lemma take_drop_while {A} (p : A -> bool) s : take_while p s ++ drop_while p s = s.
Proof. induction s as [|c s IH]; cbn; [reflexivity|]. destruct (p c); cbn; congruence. Qed.

Lemma take_while_forallb {A} (p : A -> bool) s : forallb p (take_while p s) = true.
Proof. induction s as [|c s IH]; cbn; [reflexivity|]. destruct (p c) eqn:E; cbn; [rewrite E; exact IH|reflexivity]. Qed.

Lemma drop_while_head {A} (p : A -> bool) s c r : drop_while p s = c :: r -> p c = false.
Proof.
  induction s as [|d s IH]; cbn; [discriminate|].
  destruct (p d) eqn:E; [exact IH|]. intros [= -> ->]. exact E.
Qed.

Lemma take_while_app {A} (p : A -> bool) a b :
  forallb p a = true -> take_while p (a ++ b) = a ++ take_while p b.
Proof.
  induction a as [|c a IH]; cbn; [reflexivity|].
  rewrite andb_true_iff; intros [-> H]. rewrite (IH H); reflexivity.
Qed.

Lemma drop_while_app {A} (p : A -> bool) a b :
  forallb p a = true -> drop_while p (a ++ b) = drop_while p b.
Proof.
  induction a as [|c a IH]; cbn; [reflexivity|].
  rewrite andb_true_iff; intros [-> H]. exact (IH H).
Qed.

(** The next character, if any, does not satisfy [p]. *)
Definition stops {A} (p : A -> bool) (s : list A) : Prop :=
  match s with [] => True | c :: _ => p c = false end.

Lemma take_while_stops {A} (p : A -> bool) s : stops p s -> take_while p s = [].
Proof. destruct s as [|c s]; cbn; [reflexivity|]. intros ->; reflexivity. Qed.

Lemma drop_while_stops {A} (p : A -> bool) s : stops p s -> drop_while p s = s.
Proof. destruct s as [|c s]; cbn; [reflexivity|]. intros ->; reflexivity. Qed.

Lemma drop_while_stops' {A} (p : A -> bool) s : stops p (drop_while p s).
Proof.
  destruct (drop_while p s) as [|c r] eqn:E; cbn; [exact I|]. eapply drop_while_head; eassumption.
Qed.

Lemma drop_while_length {A} (p : A -> bool) s : length (drop_while p s) <= length s.
Proof. induction s as [|c s IH]; cbn; [lia|]. destruct (p c); cbn; lia. Qed.

Lemma code_inj a b : code a = code b -> a = b.
Proof. unfold code; intros H. rewrite <- (ascii_N_embedding a), <- (ascii_N_embedding b), H; reflexivity. Qed.

Lemma code_bound a : (code a < 256)%N.
Proof. apply N_ascii_bounded. Qed.
