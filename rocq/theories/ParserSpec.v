(** * Specification of annotation texts: lexical structure and grammar.

    Independent of the token machine in ParserModel.v, only the data types
    [akind], [lit] and [annotation] are shared. *)
From Verif Require Import Base ParserModel.

(** Documented annotation names (README.md, public/genpybind/genpybind.h). *)
Definition documented_names : list (string * akind) :=
  [("visible", Visible); ("hidden", Hidden); ("expose_as", ExposeAs);
   ("readonly", Readonly); ("manual", Manual); ("postamble", Postamble);
   ("module", Module); ("only_expose_in", OnlyExposeIn);
   ("arithmetic", Arithmetic); ("export_values", ExportValues);
   ("getter_for", GetterFor); ("setter_for", SetterFor);
   ("dynamic_attr", DynamicAttr); ("hide_base", HideBase);
   ("inline_base", InlineBase); ("holder_type", HolderType);
   ("implicit_conversion", ImplicitConversion); ("keep_alive", KeepAlive);
   ("noconvert", Noconvert); ("required", Required);
   ("return_value_policy", ReturnValuePolicy);
   ("expose_here", ExposeHere); ("encourage", Encourage)]%string.

Definition names (s : str) (k : akind) : Prop :=
  exists n, In (n, k) documented_names /\ s = $n.

(** Mathematical value of a digit string. *)
Definition dec_value (s : str) : N :=
  fold_left (fun v c => v * 10 + (code c - 48))%N s 0%N.

(** Lexical tokens.  [SStr] carries the text between the quotes, [SBad] the
    text of something that is not a token. *)
Inductive stoken :=
| SIdent (s : str) | SNum (s : str) | SStr (s : str)
| SOpen | SClose | SComma | SBad (s : str).

Definition stext (t : stoken) : str :=
  match t with
  | SIdent s | SNum s | SBad s => s
  | SStr s => quote :: s ++ [quote]
  | SOpen => $"(" | SClose => $")" | SComma => $","
  end.

(** Text between quotes: a backslash protects the character after it. *)
Inductive string_body : str -> Prop :=
| sb_nil : string_body []
| sb_plain c s : code c <> 34%N -> code c <> 92%N -> string_body s -> string_body (c :: s)
| sb_escaped b c s : code b = 92%N -> string_body s -> string_body (b :: c :: s).

Definition max_unsigned : N := 4294967295.

(** [lexeme t r]: [stext t], followed by the text [r], is one token. *)
Inductive lexeme : stoken -> str -> Prop :=
| lx_ident c s r : is_ident_start c = true -> forallb is_ident_continue s = true ->
    stops is_ident_continue r -> lexeme (SIdent (c :: s)) r
| lx_num s r : s <> [] -> forallb is_digit s = true -> stops is_digit r ->
    (dec_value s <= max_unsigned)%N -> lexeme (SNum s) r
| lx_str s r : string_body s -> lexeme (SStr s) r
| lx_open r : lexeme SOpen r
| lx_close r : lexeme SClose r
| lx_comma r : lexeme SComma r
| lx_too_large s r : s <> [] -> forallb is_digit s = true -> stops is_digit r ->
    (max_unsigned < dec_value s)%N -> lexeme (SBad s) r
| lx_unterminated s : (forall b r, string_body b -> s <> b ++ quote :: r) ->
    lexeme (SBad (quote :: s)) []
| lx_char c r : is_hspace c = false -> is_ident_start c = false -> is_digit c = false ->
    ~ In (code c) [34; 40; 41; 44]%N -> lexeme (SBad [c]) r.

(** Splitting of a text into tokens, horizontal white space is skipped. *)
Inductive lexes : str -> list stoken -> Prop :=
| lexes_end w : forallb is_hspace w = true -> lexes w []
| lexes_cons w t r ts : forallb is_hspace w = true -> lexeme t r -> lexes r ts ->
    lexes (w ++ stext t ++ r) (t :: ts).

(** Grammar on token lists.
<<
  annotations ::= <empty> | annotation | annotation "," annotations
  annotation  ::= NAME | NAME "(" values ")"
  values      ::= <empty> | value | value "," values
  value       ::= NUMBER | STRING | "true" | "false" | "default" | IDENTIFIER
>> *)
Inductive g_value : stoken -> lit -> Prop :=
| gv_true : g_value (SIdent $"true") (LBool true)
| gv_false : g_value (SIdent $"false") (LBool false)
| gv_default : g_value (SIdent $"default") LDefault
| gv_ident s : s <> $"true" -> s <> $"false" -> s <> $"default" -> g_value (SIdent s) (LString s)
| gv_num s : g_value (SNum s) (LUnsigned (dec_value s))
| gv_str s : g_value (SStr s) (LString s).

Inductive g_values : list stoken -> list lit -> Prop :=
| gvs_nil : g_values [] []
| gvs_one t v : g_value t v -> g_values [t] [v]
| gvs_cons t v ts vs : g_value t v -> g_values ts vs -> g_values (t :: SComma :: ts) (v :: vs).

Inductive g_annotation : list stoken -> annotation -> Prop :=
| ga_bare s k : names s k -> g_annotation [SIdent s] (mkAnnotation k [])
| ga_args s k ts vs : names s k -> g_values ts vs ->
    g_annotation (SIdent s :: SOpen :: ts ++ [SClose]) (mkAnnotation k vs).

Inductive g_annotations : list stoken -> list annotation -> Prop :=
| gas_nil : g_annotations [] []
| gas_one ts a : g_annotation ts a -> g_annotations ts [a]
| gas_cons ts a ts' l : g_annotation ts a -> g_annotations ts' l ->
    g_annotations (ts ++ SComma :: ts') (a :: l).

(** A text denotes a list of annotations. *)
Definition denotes (text : str) (l : list annotation) : Prop :=
  exists ts, lexes text ts /\ g_annotations ts l.

(** Classification of dead ends: what was expected at the offending token. *)
Inductive position := ExpectAnnotation | AfterAnnotation | InsideArguments.

(** [at_position pre anns p]: after the tokens [pre] the annotations [anns]
    are complete and [p] tells what may come next. *)
Inductive at_position : list stoken -> list annotation -> position -> Prop :=
| ap_start : at_position [] [] ExpectAnnotation
| ap_comma done anns : at_position done anns AfterAnnotation ->
    at_position (done ++ [SComma]) anns ExpectAnnotation
| ap_done done anns ts a : at_position done anns ExpectAnnotation -> g_annotation ts a ->
    at_position (done ++ ts) (anns ++ [a]) AfterAnnotation
| ap_open done anns s k part : at_position done anns ExpectAnnotation -> names s k ->
    (* an unfinished argument list *)
    (exists more vs, g_values (part ++ more) vs) ->
    at_position (done ++ SIdent s :: SOpen :: part) anns InsideArguments.

(** The offending token: the first one of the remaining ones, or the end. *)
Definition offending (rest : list stoken) : option stoken := hd_error rest.

Definition offending_text (rest : list stoken) : str :=
  match rest with [] => [] | t :: _ => stext t end.

(** [pre] can be continued to a valid token list. *)
Definition viable (pre : list stoken) : Prop := exists cont l, g_annotations (pre ++ cont) l.

(** After [pre], the first of the remaining tokens (or the end) is a dead end. *)
Definition dead_end (pre rest : list stoken) : Prop :=
  match rest with
  | [] => forall l, ~ g_annotations pre l
  | t :: _ => forall cont l, ~ g_annotations (pre ++ t :: cont) l
  end.

(** Which kind of error is due at a dead end. *)
Definition error_at (p : position) (t : option stoken) : perror_kind :=
  match p, t with
  | _, Some (SBad _) => InvalidToken
  | InsideArguments, _ => MissingClosingParen
  | ExpectAnnotation, Some (SIdent _) => InvalidAnnotation
  | _, _ => InvalidToken
  end.

(** The first [n] tokens delivered by a tokenizer (API: [consumeToken]). *)
Fixpoint consume_n (n : nat) (tz : tokenizer) : list token :=
  match n with O => [] | S n' => let '(t, tz') := consume_token tz in t :: consume_n n' tz' end.

(** Tokens other than invalid text. *)
Definition good_token (t : stoken) : Prop := match t with SBad _ => False | _ => True end.

(** Values a parser may produce: numbers fit 32 bits, never 'nothing'. *)
Definition lit_in_range (v : lit) : Prop := match v with LUnsigned n => (n <= max_unsigned)%N | LNothing => False | _ => True end.

(** Values representable in memory: numbers fit 32 bits. *)
Definition printable_lit (v : lit) : Prop := match v with LUnsigned n => (n <= max_unsigned)%N | _ => True end.

Definition printable (a : annotation) : Prop := Forall printable_lit (a_args a).

(** Argument values that are read back unchanged. *)
Definition plain_char (c : ascii) : Prop := (32 <= code c <= 126)%N /\ code c <> 34%N /\ code c <> 92%N.

Definition plain_lit (v : lit) : Prop :=
  match v with LString s => Forall plain_char s | LNothing => False | _ => True end.

(** Kind and value of lexical tokens. *)
Definition lexical_kind (t : stoken) : tkind :=
  match t with
  | SIdent _ => TkIdentifier | SNum _ | SStr _ => TkLiteral
  | SOpen => TkOpen | SClose => TkClose | SComma => TkComma | SBad _ => TkInvalid
  end.

Definition lexical_value (t : stoken) : lit :=
  match t with SNum s => LUnsigned (dec_value s) | SStr s => LString s | _ => LNothing end.
