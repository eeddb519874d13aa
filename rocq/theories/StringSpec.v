(** * Specification of identifier conversion and of C++ string literals. *)
From Verif Require Import Base ParserModel.

(** ** Identifiers *)

Definition identifier (s : str) : Prop :=
  exists c r, s = c :: r /\ is_ident_start c = true /\ forallb is_ident_continue r = true.

Definition not_start (c : ascii) : bool := negb (is_ident_start c).
Definition not_continue (c : ascii) : bool := negb (is_ident_continue c).

(** Maximal runs of invalid characters become single underscores. *)
Inductive collapsed : str -> str -> Prop :=
| co_nil : collapsed [] []
| co_keep c s t : is_ident_continue c = true -> collapsed s t -> collapsed (c :: s) (c :: t)
| co_run run s t : run <> [] -> forallb not_continue run = true -> stops not_continue s ->
    collapsed s t -> collapsed (run ++ s) ("_"%char :: t).

(** At the start digits are invalid, too. *)
Inductive converted : str -> str -> Prop :=
| cv_clean s t : stops not_start s -> collapsed s t -> converted s t
| cv_lead run s t : run <> [] -> forallb not_start run = true -> stops not_start s ->
    collapsed s t -> converted (run ++ s) ("_"%char :: t).

(** ** C++ string literals (C++17, ordinary literals; no trigraphs) *)

Definition is_octal (c : ascii) : bool := in_range 48 55 c.
Definition octal_value (c : ascii) : N := (code c - 48)%N.
Definition is_hex (c : ascii) : bool := is_digit c || in_range 65 70 c || in_range 97 102 c.
Definition hex_value (c : ascii) : N :=
  if is_digit c then (code c - 48)%N else if in_range 65 70 c then (code c - 55)%N else (code c - 87)%N.

(** Numeric value of an escape sequence has to fit a character. *)
Definition byte (n : N) : option ascii := if (n <? 256)%N then Some (ascii_of_N n) else None.

(** Simple escape sequences. *)
Definition simple_escape (c : ascii) : option N :=
  match code c with
  | 39 => Some 39 | 34 => Some 34 | 63 => Some 63 | 92 => Some 92
  | 97 => Some 7 | 98 => Some 8 | 102 => Some 12 | 110 => Some 10
  | 114 => Some 13 | 116 => Some 9 | 118 => Some 11
  | _ => None
  end%N.

Definition cons_byte (n : N) (r : option (str * str)) : option (str * str) :=
  match byte n, r with Some c, Some (bs, rest) => Some (c :: bs, rest) | _, _ => None end.

(** Characters after the opening quote: bytes denoted and the remaining source
    text.  [None]: ill-formed, e.g. a line break within the literal. Octal
    escapes take at most three digits, hexadecimal ones all that follow. *)
Fixpoint literal_body (fuel : nat) (s : str) : option (str * str) :=
  match fuel with
  | O => None
  | S f =>
      match s with
      | [] => None
      | c :: r =>
          if (code c =? 34)%N then Some ([], r)
          else if (code c =? 10)%N || (code c =? 13)%N then None
          else if (code c =? 92)%N then
            match r with
            | [] => None
            | e :: r1 =>
                if is_octal e then
                  let ds := take_while is_octal (firstn 2 r1) in
                  let v := fold_left (fun v d => v * 8 + octal_value d)%N (e :: ds) 0%N in
                  cons_byte v (literal_body f (skipn (length ds) r1))
                else if (code e =? 120)%N then
                  let ds := take_while is_hex r1 in
                  match ds with
                  | [] => None
                  | _ => cons_byte (fold_left (fun v d => v * 16 + hex_value d)%N ds 0%N)
                                   (literal_body f (skipn (length ds) r1))
                  end
                else match simple_escape e with
                     | Some n => cons_byte n (literal_body f r1)
                     | None => None
                     end
            end
          else cons_byte (code c) (literal_body f r)
      end
  end.

(** A string literal at the start of [src]: denoted bytes, remaining source. *)
Definition read_cpp_literal (src : str) : option (str * str) :=
  match src with
  | q :: r => if (code q =? 34)%N then literal_body (S (length r)) r else None
  | [] => None
  end.
