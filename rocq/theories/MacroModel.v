(** * Model of the macros in public/genpybind/genpybind.h.

    The C++ preprocessor (an external component) is modelled as far as these
    macros need it: translation phase 3 (comments, preprocessing tokens),
    collection of macro arguments, expansion of object-like macros, the
    operators # and ##, [__COUNTER__] and phases 5 and 6 for the resulting string
    literals.  Simplifications: the text is given after phase 2 (no line
    continuations), punctuators are single characters, exponents of numbers
    are split at the sign (neither changes spellings), literals with encoding
    prefix and other function-like macros are not modelled ([None]). *)
From Verif Require Import Base ParserModel AnnotModel StringModel StringSpec ModuleModel.

(** Preprocessing tokens; literals with their quotes. *)
Inductive pptok := PIdent (s : str) | PNum (s : str) | PLit (s : str) | PPunct (c : ascii).

Definition spelling (t : pptok) : str :=
  match t with PIdent s | PNum s | PLit s => s | PPunct c => [c] end.

(** A token, and whether white space precedes it. *)
Definition item : Type := bool * pptok.

Definition is_newline (c : ascii) : bool := (code c =? 10)%N || (code c =? 13)%N.
Definition is_blank (c : ascii) : bool := is_hspace c || is_newline c.

Definition starts (n : N) (s : str) : bool :=
  match s with c :: _ => (code c =? n)%N | [] => false end.

(** Text after the end of a block comment. *)
Fixpoint after_block (s : str) : option str :=
  match s with
  | [] => None
  | c :: r =>
      if ((code c =? 42)%N && starts 47 r) then Some (tl r) else after_block r
  end.

(** White space and comments: was there any, and the remaining text. *)
Fixpoint skip_blank (fuel : nat) (s : str) : option (bool * str) :=
  match fuel with
  | O => None
  | S f =>
      match s with
      | [] => Some (false, [])
      | c :: r =>
          let some_space := option_map (fun p : bool * str => (true, snd p)) in
          if is_blank c then some_space (skip_blank f r)
          else if (code c =? 47)%N && starts 42 r then
            match after_block (tl r) with None => None | Some r' => some_space (skip_blank f r') end
          else if (code c =? 47)%N && starts 47 r then
            some_space (skip_blank f (drop_while (fun d => negb (is_newline d)) r))
          else Some (false, s)
      end
  end.

(** Rest of a literal with quotes [q], up to the closing one. *)
Fixpoint literal_rest (q : ascii) (s : str) : option (str * str) :=
  match s with
  | [] => None
  | c :: r =>
      if is_newline c then None
      else if (code c =? code q)%N then Some ([c], r)
      else if (code c =? 92)%N then
        match r with
        | [] => None
        | e :: r' =>
            if is_newline e then None
            else option_map (fun p => (c :: e :: fst p, snd p)) (literal_rest q r')
        end
      else option_map (fun p => (c :: fst p, snd p)) (literal_rest q r)
  end.

Definition is_quote (c : ascii) : bool := (code c =? 34)%N || (code c =? 39)%N.
Definition number_char (c : ascii) : bool := is_ident_continue c || (code c =? 46)%N.

Definition literal_prefixes : list str :=
  map (fun s => $s) ["u8"; "u"; "U"; "L"; "R"; "u8R"; "uR"; "UR"; "LR"]%string.

(** The preprocessing token at the start of a text. *)
Definition pp_next (s : str) : option (pptok * str) :=
  match s with
  | [] => None
  | c :: r =>
      if is_ident_start c then
        let name := take_while is_ident_continue s in
        let rest := drop_while is_ident_continue s in
        if (starts 34 rest || starts 39 rest) && existsb (str_eqb name) literal_prefixes then None
        else Some (PIdent name, rest)
      else if is_digit c then Some (PNum (take_while number_char s), drop_while number_char s)
      else if is_quote c then option_map (fun p => (PLit (c :: fst p), snd p)) (literal_rest c r)
      else Some (PPunct c, r)
  end.

(** Division into preprocessing tokens. *)
Fixpoint pp_lex_fuel (fuel : nat) (s : str) : option (list item) :=
  match fuel with
  | O => None
  | S f =>
      match skip_blank (S (length s)) s with
      | None => None
      | Some (_, []) => Some []
      | Some (space, s') =>
          match pp_next s' with
          | None => None
          | Some (t, r) => option_map (cons (space, t)) (pp_lex_fuel f r)
          end
      end
  end.
Definition pp_lex (s : str) : option (list item) := pp_lex_fuel (S (length s)) s.

(** Object-like macros: names and replacement lists. *)
Definition macros : Type := list (str * list item).

Definition find_macro (defs : macros) (name : str) : option (list item) :=
  option_map snd (find (fun d => str_eqb (fst d) name) defs).

Definition is_open (t : pptok) : bool := match t with PPunct c => (code c =? 40)%N | _ => false end.
Definition is_close (t : pptok) : bool := match t with PPunct c => (code c =? 41)%N | _ => false end.

(** Arguments up to the matching parenthesis (the opening one is consumed). *)
Fixpoint collect (depth : nat) (l : list item) : option (list item * list item) :=
  match l with
  | [] => None
  | i :: r =>
      let continue d := option_map (fun p => (i :: fst p, snd p)) (collect d r) in
      if is_open (snd i) then continue (S depth)
      else if is_close (snd i) then
        match depth with O => Some ([], r) | S d => continue d end
      else continue depth
  end.

Definition genpybind_macros : list str :=
  map (fun s => $s) ["GENPYBIND"; "GENPYBIND_MANUAL"]%string.

(** Replacement of object-like macros; a macro is not replaced within its own
    expansion. Uses of the macros of genpybind.h in an argument are not
    modelled. *)
Fixpoint expand (fuel : nat) (defs : macros) (active : list str) (l : list item) : option (list item) :=
  match fuel with
  | O => None
  | S f =>
      (fix go (l : list item) : option (list item) :=
         match l with
         | [] => Some []
         | (space, t) :: r =>
             match go r with
             | None => None
             | Some r' =>
                 match t with
                 | PIdent name =>
                     if existsb (str_eqb name) genpybind_macros then None
                     else if existsb (str_eqb name) active then Some ((space, t) :: r')
                     else match find_macro defs name with
                          | None => Some ((space, t) :: r')
                          | Some body =>
                              match expand f defs (name :: active) body with
                              | None => None
                              | Some [] => Some r'
                              | Some ((_, t1) :: b) => Some ((space, t1) :: b ++ r')
                              end
                          end
                 | _ => Some ((space, t) :: r')
                 end
             end
         end) l
  end.

(** Every nested expansion uses up a macro. *)
Definition expand_all (defs : macros) (l : list item) : option (list item) :=
  expand (S (length defs)) defs [] l.

(** Operator #: spellings, with a single space for white space between tokens;
    quotes and backslashes of literals are escaped. *)
Definition protect (c : ascii) : str :=
  if (code c =? 34)%N || (code c =? 92)%N then [ascii_of_N 92; c] else [c].

Definition stringize_token (t : pptok) : str :=
  match t with PLit s => concat (map protect s) | _ => spelling t end.

Definition stringize_item (i : item) : str :=
  (if fst i then [" "%char] else []) ++ stringize_token (snd i).

Definition stringize (l : list item) : str :=
  quote :: match l with
           | [] => []
           | i :: r => stringize_token (snd i) ++ concat (map stringize_item r)
           end ++ [quote].

(** L19: UTF-8 encoding of the lozenge as written in the header, independently of
    the one in src/annotated_decl.cpp. *)
Definition header_prefix : str := [ascii_of_N 226; ascii_of_N 151; ascii_of_N 138].

(** L16, L18-19 [GENPYBIND]: the arguments are expanded before
    [GENPYBIND__PRIVATE_STRINGIZE__] applies the operator; the literal is joined
    to the one with the lozenge. *)
Definition annotate_text (defs : macros) (args : list item) : option str :=
  match expand_all defs args with
  | None => None
  | Some l =>
      match read_cpp_literal (stringize l) with
      | Some (bytes, []) => Some (header_prefix ++ bytes)
      | _ => None
      end
  end.

(** Result of preprocessing: tokens of the program, attributes, and
    declarations of manual bindings. *)
Inductive out :=
| OTok (t : pptok)
| OAnnotate (text : str)
| OManual (name text : str) (body : list pptok).

(** L23-24 [GENPYBIND_PARENT_TYPE], only useful in manual bindings. *)
Definition parent_type : str * list item :=
  ($"GENPYBIND_PARENT_TYPE",
   match pp_lex $"typename std::remove_reference_t<decltype(parent)>::type" with Some l => l | None => [] end).

(** L10-15, L20-22 [GENPYBIND_MANUAL]. *)
Definition manual_block (defs : macros) (counter : N) (args : list item) : option out :=
  match annotate_text defs [(false, PIdent $"manual")], expand_all (parent_type :: defs) args with
  | Some text, Some body => Some (OManual ($"genpybind_" ++ decimal counter) text (map snd body))
  | _, _ => None
  end.

(** L9. *)
Definition header_guard : str := $"__GENPYBIND__".

(** A translation unit; [on]: is [header_guard] defined (L9, L26-29)? *)
Fixpoint preprocess (fuel : nat) (on : bool) (defs : macros) (counter : N) (l : list item) : option (list out) :=
  match fuel with
  | O => None
  | S f =>
      match l with
      | [] => Some []
      | (space, t) :: r =>
          let plain :=
            match t with
            | PIdent name =>
                if str_eqb name $"__COUNTER__" then
                  option_map (cons (OTok (PNum (decimal counter)))) (preprocess f on defs (counter + 1) r)
                else if existsb (str_eqb name) genpybind_macros then
                  option_map (cons (OTok t)) (preprocess f on defs counter r)
                else match expand_all defs [(space, t)] with
                     | None => None
                     | Some b => option_map (app (map (fun i => OTok (snd i)) b)) (preprocess f on defs counter r)
                     end
            | _ => option_map (cons (OTok t)) (preprocess f on defs counter r)
            end in
          match t, r with
          | PIdent name, (_, p) :: r' =>
              if is_open p && existsb (str_eqb name) genpybind_macros then
                match collect 0 r' with
                | None => None
                | Some (args, rest) =>
                    if negb on then preprocess f on defs counter rest
                    else if str_eqb name $"GENPYBIND" then
                      match annotate_text defs args with
                      | None => None
                      | Some text => option_map (cons (OAnnotate text)) (preprocess f on defs counter rest)
                      end
                    else
                      match manual_block defs counter args with
                      | None => None
                      | Some o => option_map (cons o) (preprocess f on defs (counter + 1) rest)
                      end
                end
              else plain
          | _, _ => plain
          end
      end
  end.

Definition preprocess_items (on : bool) (defs : macros) (l : list item) : option (list out) :=
  preprocess (S (length l)) on defs 0 l.

Definition preprocess_text (on : bool) (defs : macros) (s : str) : option (list out) :=
  match pp_lex s with None => None | Some l => preprocess_items on defs l end.
