(** * String utilities: model of src/string_utils.cpp and of the emission of
    string literals (src/expose.cpp L260-264). *)
From Verif Require Import Base ParserModel.

(** clang/Basic/CharInfo.h [isValidAsciiIdentifier], string_utils.cpp L12-14. *)
Definition is_valid_identifier (s : str) : bool :=
  match s with
  | [] => false
  | c :: r => is_ident_start c && forallb is_ident_continue r
  end.

(** Memory accesses of the in-place conversion. *)
Inductive access := Rd (i : nat) (c : ascii) | Wr (i : nat) (c : ascii).

(** The buffer and the accesses made so far.  Accesses outside of the buffer
    are undefined behaviour: [None]. *)
Record buffer := mkBuffer { b_data : str; b_trace : list access }.

Definition read (b : buffer) (i : nat) : option (ascii * buffer) :=
  match nth_error (b_data b) i with
  | Some c => Some (c, mkBuffer (b_data b) (b_trace b ++ [Rd i c]))
  | None => None
  end.

Definition write (b : buffer) (i : nat) (c : ascii) : option buffer :=
  if Nat.ltb i (length (b_data b)) then
    Some (mkBuffer (firstn i (b_data b) ++ c :: skipn (S i) (b_data b)) (b_trace b ++ [Wr i c]))
  else None.

(** [std::find_if(input, end, pred)].  Also [None] without sufficient fuel. *)
Fixpoint find_if (fuel : nat) (pred : ascii -> bool) (b : buffer) (i : nat) : option (nat * buffer) :=
  if Nat.eqb i (length (b_data b)) then Some (i, b)
  else match fuel with
       | O => None
       | S fuel' =>
           match read b i with
           | None => None
           | Some (c, b') => if pred c then Some (i, b') else find_if fuel' pred b' (S i)
           end
       end.

Definition underscore : ascii := ascii_of_N 95.

(** string_utils.cpp L31-42: the loop and the code after it. *)
Fixpoint convert_loop (fuel : nat) (b : buffer) (input last_valid output : nat) : option (str * list access) :=
  let end_ := length (b_data b) in
  if Nat.eqb input end_ then
    let r := if Nat.eqb last_valid end_ then Some (b, output)
             else match write b output underscore with Some b' => Some (b', S output) | None => None end in
    match r with
    | None => None
    | Some (b', output') => Some (firstn output' (b_data b'), b_trace b')   (* name.erase(output, end) *)
    end
  else
    match fuel with
    | O => None
    | S fuel' =>
        let r := if Nat.eqb input last_valid then Some (b, output)
                 else match write b output underscore with Some b' => Some (b', S output) | None => None end in
        match r with
        | None => None
        | Some (b1, output1) =>
            match read b1 input with
            | None => None
            | Some (c, b2) =>
                match write b2 output1 c with
                | None => None
                | Some b3 =>
                    let input' := S input in
                    match find_if (length (b_data b3)) is_ident_continue b3 input' with
                    | None => None
                    | Some (input'', b4) => convert_loop fuel' b4 input'' input' (S output1)
                    end
                end
            end
        end
    end.

(** string_utils.cpp L16-43 [makeValidIdentifier]: resulting text and the
    accesses made.  [None]: access out of bounds (or out of fuel). *)
Definition make_valid_identifier_run (name : str) : option (str * list access) :=
  match find_if (length name) is_ident_start (mkBuffer name []) 0 with
  | None => None
  | Some (input, b) => convert_loop (length name) b input 0 0
  end.

Definition make_valid_identifier (name : str) : str :=
  match make_valid_identifier_run name with Some (r, _) => r | None => [] end.

(** expose.cpp L260-264 [emitStringLiteral]; [write_escaped] is in
    ParserModel.v. *)
Definition emit_string_literal (text : str) : str := quote :: write_escaped text ++ [quote].
