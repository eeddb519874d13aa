(** * Specification: annotations in C++ source text. *)
From Verif Require Import Base ParserModel ParserSpec AnnotModel AnnotSpec MacroModel.

(** ** How annotations may be laid out *)

(** White space and comments between tokens. *)
Inductive gap : str -> Prop :=
| gap_nil : gap []
| gap_blank c g : In (code c) [32; 9; 11; 12; 10; 13]%N -> gap g -> gap (c :: g)
| gap_block b g : (forall x y, b ++ $"*/" = x ++ $"*/" ++ y -> y = []) -> gap g ->
    gap ($"/*" ++ b ++ $"*/" ++ g)
| gap_line b n g : (forall c, In c b -> code c <> 10%N /\ code c <> 13%N) ->
    (code n = 10 \/ code n = 13)%N -> gap g -> gap ($"//" ++ b ++ n :: g).

(** Tokens of annotations; strings end on the same line. *)
Definition proper (t : stoken) : Prop :=
  match t with
  | SIdent s => exists c r, s = c :: r /\ is_ident_start c = true /\ forallb is_ident_continue r = true
  | SNum s => s <> [] /\ forallb is_digit s = true /\ (dec_value s <= max_unsigned)%N
  | SStr s => string_body s /\ forall c, In c s -> code c <> 10%N /\ code c <> 13%N
  | SOpen | SClose | SComma => True
  | SBad _ => False
  end.

(** Names and numbers are not directly followed by another one, or by a quote. *)
Definition apart (t : stoken) (r : str) : Prop :=
  match t with
  | SIdent _ => stops (fun c => is_ident_continue c || (code c =? 34)%N) r
  | SNum _ => stops is_ident_continue r
  | _ => True
  end.

(** [written ts s]: the source text [s] consists of the tokens [ts]. *)
Inductive written : list stoken -> str -> Prop :=
| wr_end g : gap g -> written [] g
| wr_token g t r ts : gap g -> proper t -> apart t r -> written ts r ->
    written (t :: ts) (g ++ stext t ++ r).

(** Parentheses match. *)
Inductive matched : list stoken -> Prop :=
| ma_nil : matched []
| ma_token t r : t <> SOpen -> t <> SClose -> matched r -> matched (t :: r)
| ma_group a r : matched a -> matched r -> matched (SOpen :: a ++ SClose :: r).

(** A name stands for itself: it is neither a macro nor one of genpybind.h. *)
Definition no_macro (defs : macros) (name : str) : Prop :=
  ~ In name (map fst defs) /\ name <> $"GENPYBIND" /\ name <> $"GENPYBIND_MANUAL".

(** ** What becomes of a source file *)

Definition open_paren : pptok := PPunct "("%char.
Definition close_paren : pptok := PPunct ")"%char.

Inductive closed : list pptok -> Prop :=
| cl_nil : closed []
| cl_token t r : t <> open_paren -> t <> close_paren -> closed r -> closed (t :: r)
| cl_group a r : closed a -> closed r -> closed (open_paren :: a ++ close_paren :: r).

(** Tokens as given to an attribute: single spaces where there was space. *)
Definition one_line (l : list item) : str :=
  match l with
  | [] => []
  | i :: r => spelling (snd i) ++
      concat (map (fun i : item => (if fst i then $" " else []) ++ spelling (snd i)) r)
  end.

(** The type of the enclosing binding, in manual bindings. *)
Definition with_parent_type (t : pptok) : list pptok :=
  match t with
  | PIdent s =>
      if str_eqb s $"GENPYBIND_PARENT_TYPE" then
        [PIdent $"typename"; PIdent $"std"; PPunct ":"%char; PPunct ":"%char; PIdent $"remove_reference_t";
         PPunct "<"%char; PIdent $"decltype"; PPunct "("%char; PIdent $"parent"; PPunct ")"%char; PPunct ">"%char;
         PPunct ":"%char; PPunct ":"%char; PIdent $"type"]
      else [t]
  | _ => [t]
  end.

(** [becomes on l o]: with annotations switched on or off. *)
Inductive becomes (on : bool) : list item -> list out -> Prop :=
| be_nil : becomes on [] []
| be_other i r o : (snd i <> PIdent $"GENPYBIND" /\ snd i <> PIdent $"GENPYBIND_MANUAL" \/
                    (forall b r', r <> (b, open_paren) :: r')) ->
    becomes on r o -> becomes on (i :: r) (OTok (snd i) :: o)
| be_off b1 b2 b3 name args r o : on = false -> name = $"GENPYBIND" \/ name = $"GENPYBIND_MANUAL" ->
    closed (map snd args) -> becomes on r o ->
    becomes on ((b1, PIdent name) :: (b2, open_paren) :: args ++ (b3, close_paren) :: r) o
| be_annotate b1 b2 b3 args r o : on = true -> closed (map snd args) -> becomes on r o ->
    becomes on ((b1, PIdent $"GENPYBIND") :: (b2, open_paren) :: args ++ (b3, close_paren) :: r)
            (OAnnotate (lozenge ++ one_line args) :: o)
| be_manual b1 b2 b3 name args r o : on = true -> closed (map snd args) -> becomes on r o ->
    becomes on ((b1, PIdent $"GENPYBIND_MANUAL") :: (b2, open_paren) :: args ++ (b3, close_paren) :: r)
            (OManual name (lozenge ++ $"manual") (flat_map with_parent_type (map snd args)) :: o).

(** The program without what was added by the macros. *)
Definition program (o : list out) : list out :=
  filter (fun x => match x with OTok _ => true | _ => false end) o.

(** Names declared for manual bindings. *)
Definition manual_names (o : list out) : list str :=
  flat_map (fun x => match x with OManual n _ _ => [n] | _ => [] end) o.
