(** * Annotation parser: model of src/annotations/parser.cpp,
    include/genpybind/annotations/parser.h and the printing functions of
    src/annotations/{annotation,literal_value}.cpp. *)
From Verif Require Import Base.

(** include/genpybind/annotations/annotations.def (all entries, in order). *)
Inductive akind :=
| ExposeAs | Hidden | Visible | Arithmetic | ExportValues | GetterFor | SetterFor
| DynamicAttr | HideBase | HolderType | InlineBase | ImplicitConversion | KeepAlive
| Noconvert | Required | ReturnValuePolicy | Manual | Postamble | Module
| OnlyExposeIn | ExposeHere | Encourage | Readonly.

(** src/annotations/annotation.cpp L13-21 [toString(AnnotationKind)]. *)
Definition kind_spelling (k : akind) : str :=
  match k with
  | ExposeAs => $"expose_as" | Hidden => $"hidden" | Visible => $"visible"
  | Arithmetic => $"arithmetic" | ExportValues => $"export_values"
  | GetterFor => $"getter_for" | SetterFor => $"setter_for"
  | DynamicAttr => $"dynamic_attr" | HideBase => $"hide_base"
  | HolderType => $"holder_type" | InlineBase => $"inline_base"
  | ImplicitConversion => $"implicit_conversion" | KeepAlive => $"keep_alive"
  | Noconvert => $"noconvert" | Required => $"required"
  | ReturnValuePolicy => $"return_value_policy" | Manual => $"manual"
  | Postamble => $"postamble" | Module => $"module"
  | OnlyExposeIn => $"only_expose_in" | ExposeHere => $"expose_here"
  | Encourage => $"encourage" | Readonly => $"readonly"
  end.

Definition all_kinds : list akind :=
  [ExposeAs; Hidden; Visible; Arithmetic; ExportValues; GetterFor; SetterFor;
   DynamicAttr; HideBase; HolderType; InlineBase; ImplicitConversion; KeepAlive;
   Noconvert; Required; ReturnValuePolicy; Manual; Postamble; Module;
   OnlyExposeIn; ExposeHere; Encourage; Readonly].

(** Value of [LiteralValue] (literal_value.h L23-38) as seen through its
    accessors; the pointer level is modelled in LiteralModel.v.
    [unsigned] is a number below 2^32. *)
Inductive lit :=
| LNothing
| LString (s : str)
| LUnsigned (n : N)
| LBool (b : bool)
| LDefault.

(** include/genpybind/annotations/annotation.h L52-69. *)
Record annotation := mkAnnotation { a_kind : akind; a_args : list lit }.

(** parser.h L80-94 [Parser::Token]. *)
Inductive tkind := TkEof | TkIdentifier | TkLiteral | TkOpen | TkClose | TkComma | TkInvalid.

Record token := mkToken { t_kind : tkind; t_text : str; t_value : lit }.

(** llvm/lib/Support/StringRef.cpp [consumeUnsignedInteger] (radix 10) on a
    digit run, including the 64 bit wrap-around and the overflow check
    [Result / Radix < PrevResult].  [None] stands for failure. *)
Definition pow64 : N := 2 ^ 64.
Definition pow32 : N := 2 ^ 32.

Fixpoint consume_unsigned (s : str) (result : N) : option N :=
  match s with
  | [] => Some result
  | c :: s' =>
      let prev := result in
      let result' := ((result * 10 + (code c - 48)) mod pow64)%N in
      if (result' / 10 <? prev)%N then None else consume_unsigned s' result'
  end.

(** [StringRef::getAsInteger<unsigned>]: fails on the empty string, on 64 bit
    overflow and if the value does not survive the cast to [unsigned]. *)
Definition get_as_unsigned (s : str) : option N :=
  match s with
  | [] => None
  | _ =>
      match consume_unsigned s 0 with
      | None => None
      | Some v => if N.eqb (v mod pow32) v then Some v else None
      end
  end.

(** parser.cpp L83-97 [tokenizeNumberLiteral]. *)
Definition tokenize_number (text : str) : token * str :=
  let t := take_while is_digit text in
  let rest := skipn (length t) text in
  match get_as_unsigned t with
  | Some v => (mkToken TkLiteral t (LUnsigned v), rest)
  | None => (mkToken TkInvalid t LNothing, rest)
  end.

(** parser.cpp L99-118: the loop over [pos] of [tokenizeStringLiteral].
    Returns the position of the closing quote. *)
Fixpoint scan_string (s : str) (pos : nat) (escape_next_char : bool) : option nat :=
  match s with
  | [] => None
  | c :: s' =>
      if escape_next_char || (code c =? 92)%N then scan_string s' (S pos) (negb escape_next_char)
      else if (code c =? 34)%N then Some pos
      else scan_string s' (S pos) escape_next_char
  end.

(** parser.cpp L99-118 [tokenizeStringLiteral]; the value is the raw text
    between the quotes. *)
Definition tokenize_string (text : str) : token * str :=
  match scan_string (skipn 1 text) 1 false with
  | Some pos =>
      (mkToken TkLiteral (firstn (pos + 1) text)
               (LString (firstn (pos - 1) (skipn 1 text))),
       skipn (pos + 1) text)
  | None => (mkToken TkInvalid text LNothing, skipn (length text) text)
  end.

(** parser.cpp L120-127 [tokenizeIdentifier]. *)
Definition tokenize_identifier (text : str) : token * str :=
  let t := take_while is_ident_continue text in
  (mkToken TkIdentifier t LNothing, skipn (length t) text).

(** parser.cpp L40-44: the lambda [tokenize_char]. *)
Definition tokenize_char (k : tkind) (text : str) : token * str :=
  (mkToken k (firstn 1 text) LNothing, skipn 1 text).

(** parser.cpp L29-81 [tokenize]. *)
Definition tokenize (text0 : str) : token * str :=
  let text := drop_while is_hspace text0 in
  match text with
  | [] => (mkToken TkEof [] LNothing, text)
  | c :: _ =>
      if (code c =? 40)%N then tokenize_char TkOpen text
      else if (code c =? 41)%N then tokenize_char TkClose text
      else if (code c =? 44)%N then tokenize_char TkComma text
      else if is_digit c then tokenize_number text
      else if (code c =? 34)%N then tokenize_string text
      else if is_ident_start c then tokenize_identifier text
      else tokenize_char TkInvalid text
  end.

(** parser.h L96-116 [Parser::Tokenizer]: one token of lookahead. *)
Record tokenizer := mkTokenizer { tz_text : str; tz_next : token }.

Definition make_tokenizer (text : str) : tokenizer :=
  let '(t, rest) := tokenize text in mkTokenizer rest t.

Definition token_kind (tz : tokenizer) : tkind := t_kind (tz_next tz).

(** parser.h L105-109 [consumeToken]. *)
Definition consume_token (tz : tokenizer) : token * tokenizer :=
  (tz_next tz, make_tokenizer (tz_text tz)).

(** parser.h L53-57 [Parser::Error::Kind]. *)
Inductive perror_kind := InvalidToken | MissingClosingParen | InvalidAnnotation.
Record perror := mkError { pe_kind : perror_kind; pe_token : str }.

Inductive res (A : Type) :=
| ROk (a : A)
| RErr (e : perror)
| RFuel.                    (* out of fuel; excluded by the theorems *)
Arguments ROk {A} a. Arguments RErr {A} e. Arguments RFuel {A}.

Definition tkind_eqb (a b : tkind) : bool :=
  match a, b with
  | TkEof, TkEof | TkIdentifier, TkIdentifier | TkLiteral, TkLiteral
  | TkOpen, TkOpen | TkClose, TkClose | TkComma, TkComma | TkInvalid, TkInvalid => true
  | _, _ => false
  end.

(** parser.cpp L227-232 [skipComma]. *)
Definition skip_comma (tz : tokenizer) : bool * tokenizer :=
  if tkind_eqb (token_kind tz) TkComma then (true, snd (consume_token tz)) else (false, tz).

(** parser.cpp L172-176: the string switch (first matching case wins). *)
Definition kind_of_spelling (s : str) : option akind :=
  find (fun k => str_eqb s (kind_spelling k)) all_kinds.

(** parser.cpp L169-180 [parseAnnotationKind]. *)
Definition parse_kind (tz : tokenizer) : res akind * tokenizer :=
  let '(t, tz') := consume_token tz in
  match kind_of_spelling (t_text t) with
  | Some k => (ROk k, tz')
  | None => (RErr (mkError InvalidAnnotation (t_text t)), tz')
  end.

(** parser.cpp L218-222: conversion of identifiers used as arguments. *)
Definition value_of_identifier (s : str) : lit :=
  if str_eqb s $"true" then LBool true
  else if str_eqb s $"false" then LBool false
  else if str_eqb s $"default" then LDefault
  else LString s.

(** parser.cpp L209-225 [parseAnnotationValue]. *)
Definition parse_value (tz : tokenizer) : lit * tokenizer :=
  if tkind_eqb (token_kind tz) TkLiteral then
    let '(t, tz') := consume_token tz in (t_value t, tz')
  else if tkind_eqb (token_kind tz) TkIdentifier then
    let '(t, tz') := consume_token tz in (value_of_identifier (t_text t), tz')
  else (LNothing, tz).

Definition has_value (v : lit) : bool := match v with LNothing => false | _ => true end.

(** parser.cpp L192-197: the loop of [parseAnnotationArguments]. *)
Fixpoint parse_values (fuel : nat) (tz : tokenizer) (args : list lit) : option (list lit * tokenizer) :=
  match fuel with
  | O => None
  | S fuel' =>
      let '(v, tz1) := parse_value tz in
      if has_value v then
        let '(comma, tz2) := skip_comma tz1 in
        if comma then parse_values fuel' tz2 (args ++ [v]) else Some (args ++ [v], tz2)
      else Some (args, tz1)
  end.

(** parser.cpp L182-207 [parseAnnotationArguments]. *)
Definition parse_arguments (fuel : nat) (tz : tokenizer) : res (list lit) * tokenizer :=
  if tkind_eqb (token_kind tz) TkOpen then
    let tz1 := snd (consume_token tz) in
    match parse_values fuel tz1 [] with
    | None => (RFuel, tz1)
    | Some (args, tz2) =>
        let '(t, tz3) := consume_token tz2 in
        if tkind_eqb (t_kind t) TkClose then (ROk args, tz3)
        else (RErr (mkError (if tkind_eqb (t_kind t) TkInvalid then InvalidToken
                             else MissingClosingParen) (t_text t)), tz3)
    end
  else (ROk [], tz).

(** parser.cpp L162-166: check for the end of input after the loop. *)
Definition parse_end (tz : tokenizer) : res unit :=
  if tkind_eqb (token_kind tz) TkEof then ROk tt
  else RErr (mkError InvalidToken (t_text (tz_next tz))).

(** parser.cpp L147-167 [Parser::parseAnnotations(Annotations &)].
    The annotations are accumulated in a list passed by reference, hence the
    list is part of the result also in case of an error. *)
Fixpoint parse_loop (fuel : nat) (tz : tokenizer) (acc : list annotation) : res unit * list annotation :=
  match fuel with
  | O => (RFuel, acc)
  | S fuel' =>
      if tkind_eqb (token_kind tz) TkIdentifier then
        match parse_kind tz with
        | (RErr e, _) => (RErr e, acc)
        | (RFuel, _) => (RFuel, acc)
        | (ROk k, tz1) =>
            match parse_arguments fuel' tz1 with
            | (RErr e, _) => (RErr e, acc)
            | (RFuel, _) => (RFuel, acc)
            | (ROk args, tz2) =>
                let acc' := acc ++ [mkAnnotation k args] in
                let '(comma, tz3) := skip_comma tz2 in
                if comma then parse_loop fuel' tz3 acc' else (parse_end tz3, acc')
            end
        end
      else (parse_end tz, acc)
  end.

(** parser.cpp L137-141: the public entry point with an output list. *)
Definition parse_annotations_into (text : str) (acc : list annotation) : res unit * list annotation :=
  parse_loop (2 + length text) (make_tokenizer text) acc.

(** parser.cpp L129-135: the public entry point returning the list. *)
Definition parse_annotations (text : str) : res (list annotation) :=
  match parse_annotations_into text [] with
  | (ROk _, acc) => ROk acc
  | (RErr e, _) => RErr e
  | (RFuel, _) => RFuel
  end.

(** ** Printing *)

(** llvm/lib/Support/raw_ostream.cpp [raw_ostream::write_escaped] with
    [UseHexEscapes = false]. *)
Definition octal_digit (n : N) : ascii := ascii_of_N (48 + n mod 8).

Definition escape_char (c : ascii) : str :=
  let n := code c in
  if (n =? 92)%N then [ascii_of_N 92; ascii_of_N 92]
  else if (n =? 9)%N then [ascii_of_N 92; ascii_of_N 116]
  else if (n =? 10)%N then [ascii_of_N 92; ascii_of_N 110]
  else if (n =? 34)%N then [ascii_of_N 92; ascii_of_N 34]
  else if ((32 <=? n) && (n <=? 126))%N then [c]
  else [ascii_of_N 92; octal_digit (n / 64); octal_digit (n / 8); octal_digit n].

Definition write_escaped (s : str) : str := flat_map escape_char s.

Definition quote : ascii := ascii_of_N 34.

(** [raw_ostream << unsigned]: decimal digits without leading zeros. *)
Fixpoint digits_fuel (fuel : nat) (n : N) (acc : str) : str :=
  match fuel with
  | O => acc
  | S fuel' =>
      let acc' := ascii_of_N (48 + n mod 10) :: acc in
      if (n / 10 =? 0)%N then acc' else digits_fuel fuel' (n / 10) acc'
  end.

(** 10 digits suffice for a 32 bit number (excluded otherwise). *)
Definition print_unsigned (n : N) : str := digits_fuel 10 n [].

(** literal_value.cpp L142-162 [LiteralValue::print]. *)
Definition print_lit (v : lit) : str :=
  match v with
  | LString s => quote :: write_escaped s ++ [quote]
  | LUnsigned n => print_unsigned n
  | LBool true => $"true"
  | LBool false => $"false"
  | LNothing => $"nothing"
  | LDefault => $"default"
  end.

(** annotation.cpp L27-38 [Annotation::print]: the arguments, separated by ", ". *)
Fixpoint print_args (args : list lit) : str :=
  match args with
  | [] => []
  | [v] => print_lit v
  | v :: args' => print_lit v ++ $", " ++ print_args args'
  end.

Definition print_annotation (a : annotation) : str :=
  kind_spelling (a_kind a) ++ $"(" ++ print_args (a_args a) ++ $")".
