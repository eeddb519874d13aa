(** * Properties of the classes of characters *)
From Verif Require Import Base.

Definition tab : ascii := "009". Definition vertical_tab : ascii := "011". Definition form_feed : ascii := "012".
Definition lower : str := $"abcdefghijklmnopqrstuvwxyz".
Definition upper : str := $"ABCDEFGHIJKLMNOPQRSTUVWXYZ".
Definition digits : str := $"0123456789".

Lemma in_existsb c l : In c l <-> existsb (Ascii.eqb c) l = true.
Proof.
  rewrite existsb_exists. split; [intros H; exists c; split; [exact H|apply Ascii.eqb_refl]|]. intros (d & H & E). apply Ascii.eqb_eq in E. subst. exact H.
Qed.

Lemma class_iff (p : ascii -> bool) l : forallb (fun n => Bool.eqb (p (ascii_of_nat n)) (existsb (Ascii.eqb (ascii_of_nat n)) l)) (seq 0 256) = true -> forall c, p c = true <-> In c l.
Proof.
  intros H c. rewrite in_existsb, forallb_forall in *. specialize (H (nat_of_ascii c)). rewrite ascii_nat_embedding in H.
  rewrite (proj1 (Bool.eqb_true_iff _ _) (H (proj2 (in_seq _ _ _) (conj (Nat.le_0_l _) (nat_ascii_bounded c))))). reflexivity.
Qed.

(** C03: blanks between tokens, digits, and the characters of identifiers, which
    the description of tokens refers to, are those listed. *)
Theorem classes_of_characters : forall c,
  (is_hspace c = true <-> In c [" "%char; tab; vertical_tab; form_feed]) /\ (is_digit c = true <-> In c digits) /\
  (is_ident_start c = true <-> In c (lower ++ upper ++ $"_")) /\ (is_ident_continue c = true <-> In c (lower ++ upper ++ $"_" ++ digits)).
Proof. intros c. repeat split; apply class_iff; vm_compute; reflexivity. Qed.
Print Assumptions classes_of_characters.

Example classes_of_characters_example : is_hspace "010"%char = false /\ is_ident_start "$"%char = false /\ is_ident_start "_"%char = true /\ is_ident_start "7"%char = false /\ is_ident_continue "7"%char = true.
Proof. repeat split. Qed.
