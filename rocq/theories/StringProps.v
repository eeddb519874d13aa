(** * Properties of string handling (C10-C12). *)
From Verif Require Import Base ParserModel StringModel StringSpec StringProofs.

(** C10: a C++ compiler reading the emitted literal obtains the bytes and stops
    where the generator stopped, whatever follows. *)
Theorem emitted_literal_denotes_its_bytes :
  forall text rest, read_cpp_literal (emit_string_literal text ++ rest) = Some (text, rest).
Proof. exact string_literal_denotes. Qed.
Print Assumptions emitted_literal_denotes_its_bytes.

(** C10: in particular there are no line breaks, and the source character set
    is not left. *)
Theorem emitted_literal_is_printable_ascii :
  forall text, Forall (fun d => (32 <= code d <= 126)%N) (emit_string_literal text).
Proof. exact string_literal_printable. Qed.
Print Assumptions emitted_literal_is_printable_ascii.

(** An octal escape directly followed by a digit, and a quote in the rest. *)
Example C10_example :
  let text := [ascii_of_N 1; "7"%char; quote; ascii_of_N 200; ascii_of_N 10] in
  emit_string_literal text = quote :: $"\0017\" ++ quote :: $"\310\n" ++ [quote] /\
  read_cpp_literal (emit_string_literal text ++ quote :: $"x") = Some (text, quote :: $"x").
Proof. split; vm_compute; reflexivity. Qed.

(** C11: exactly the conversion described by the specification. *)
Theorem identifier_conversion_collapses_runs :
  forall name result, make_valid_identifier name = result <-> converted name result.
Proof. exact make_valid_identifier_spec. Qed.
Print Assumptions identifier_conversion_collapses_runs.

Theorem converted_names_are_identifiers :
  forall name, name <> [] -> identifier (make_valid_identifier name).
Proof. exact make_id_valid. Qed.
Print Assumptions converted_names_are_identifiers.

Theorem identifiers_are_unchanged :
  forall name, identifier name -> make_valid_identifier name = name.
Proof. exact make_id_unchanged. Qed.
Print Assumptions identifiers_are_unchanged.

Theorem identifier_conversion_is_idempotent :
  forall name, make_valid_identifier (make_valid_identifier name) = make_valid_identifier name.
Proof. exact make_id_idempotent. Qed.
Print Assumptions identifier_conversion_is_idempotent.

Theorem identifier_check_is_exact :
  forall name, is_valid_identifier name = true <-> identifier name.
Proof. exact is_valid_identifier_iff. Qed.
Print Assumptions identifier_check_is_exact.

Example C11_example :
  make_valid_identifier $"Tpl<int, 3>::x" = $"Tpl_int_3_x" /\
  make_valid_identifier $"3D" = $"_D" /\ make_valid_identifier $"operator()" = $"operator_" /\
  make_valid_identifier $"__" = $"__" /\ identifier $"_x1".
Proof. repeat split; try (vm_compute; reflexivity). exists "_"%char, $"x1". repeat split. Qed.

(** C12: every character read is the original one, every access is within the
    buffer, the result is no longer than the input, and there are at most
    three accesses per character. *)
Theorem identifier_conversion_is_safe_in_place :
  forall name, exists trace, make_valid_identifier_run name = Some (make_valid_identifier name, trace) /\
    (forall i c, In (Rd i c) trace -> nth_error name i = Some c) /\
    (forall i c, In (Wr i c) trace -> i < length name) /\
    length (make_valid_identifier name) <= length name /\
    length trace <= 3 * length name.
Proof. exact conversion_in_place. Qed.
Print Assumptions identifier_conversion_is_safe_in_place.

(** The buffer is overwritten although characters are still to be read. *)
Example C12_example : exists trace,
  make_valid_identifier_run $"  a b" = Some ($"_a_b", trace) /\ In (Wr 1 "a"%char) trace /\ In (Rd 4 "b"%char) trace.
Proof. eexists. split; [vm_compute; reflexivity|]. cbn. split; auto 20. Qed.
