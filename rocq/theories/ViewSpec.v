(** * Specification of graphical views *)
From Verif Require Import Base ParserModel AnnotModel CollectModel GraphModel GraphSpec InspectModel ViewModel.

(** ** Reading graphs in the DOT language (as far as used) *)

Fixpoint text_lines (s : str) : list str :=
  match s with
  | [] => [[]]
  | c :: r => if Ascii.eqb c (ascii_of_N 10) then [] :: text_lines r else match text_lines r with l :: ls => (c :: l) :: ls | [] => [[c]] end
  end.

Fixpoint without_prefix (p s : str) : option str :=
  match p, s with
  | [], _ => Some s
  | a :: p', c :: s' => if Ascii.eqb a c then without_prefix p' s' else None
  | _ :: _, [] => None
  end.
Fixpoint word (s : str) : str * str :=
  match s with
  | c :: r => if is_ident_continue c then let (w, q) := word r in (c :: w, q) else ([], s)
  | [] => ([], [])
  end.

(** Quoted text: only quotes are unescaped by the lexer. *)
Fixpoint quoted (s : str) : option (str * str) :=
  match s with
  | [] => None
  | c :: r =>
      if Ascii.eqb c (ascii_of_N 34) then Some ([], r)
      else if Ascii.eqb c (ascii_of_N 92) then
        match r with
        | d :: r' => match quoted r' with Some (t, q) => Some ((if Ascii.eqb d (ascii_of_N 34) then [d] else [c; d]) ++ t, q) | None => None end
        | [] => None
        end
      else match quoted r with Some (t, q) => Some (c :: t, q) | None => None end
  end.

Definition dot_value (s : str) : option (str * str) :=
  match s with
  | c :: r => if Ascii.eqb c (ascii_of_N 34) then quoted r else let (w, q) := word s in match w with [] => None | _ => Some (w, q) end
  | [] => None
  end.
Fixpoint attributes (fuel : nat) (s : str) : option (list (str * str) * str) :=
  match fuel with
  | O => None
  | S fuel' =>
      let (k, r) := word s in
      match without_prefix ($"=") r with
      | Some r1 =>
          match dot_value r1 with
          | Some (v, r2) =>
              match without_prefix ($",") r2 with
              | Some r3 => match attributes fuel' r3 with Some (l, q) => Some ((k, v) :: l, q) | None => None end
              | None => Some ([(k, v)], r2)
              end
          | None => None
          end
      | None => None
      end
  end.

Inductive shown := Box (id : str) (attrs : list (str * str)) | Arrow (source target : str).
Definition dot_statement (s : str) : option shown :=
  match without_prefix [ascii_of_N 9] s with
  | Some r =>
      let (id, r1) := word r in
      match without_prefix ($" -> ") r1 with
      | Some r2 => let (id', r3) := word r2 in if str_eqb r3 ($";") then Some (Arrow id id') else None
      | None =>
          match without_prefix ($" [") r1 with
          | Some r2 => match attributes (length r2) r2 with Some (l, r3) => if str_eqb r3 ($"];") then Some (Box id l) else None | None => None end
          | None => None
          end
      end
  | None => None
  end.
Fixpoint dot_statements (ls : list str) : option (list shown) :=
  match ls with
  | [a; b] => if str_eqb a ($"}") && str_eqb b [] then Some [] else None
  | l :: r => match dot_statement l, dot_statements r with Some x, Some xs => Some (x :: xs) | _, _ => None end
  | [] => None
  end.
Definition dot_graph (s : str) : option (list shown) :=
  match text_lines s with h :: e :: r => if str_eqb h ($"digraph unnamed {") && str_eqb e [] then dot_statements r else None | _ => None end.

(** Later attributes replace earlier ones. *)
Definition attribute (k : str) (l : list (str * str)) : option str := option_map snd (find (fun p => str_eqb (fst p) k) (rev l)).

(** Fields of a record label [{a|b}]. *)
Definition push (c : ascii) (fs : option (list str)) : option (list str) := match fs with Some (f :: r) => Some ((c :: f) :: r) | _ => None end.
Fixpoint fields (s : str) : option (list str) :=
  match s with
  | [] => None
  | c :: r =>
      if Ascii.eqb c "}" then match r with [] => Some [[]] | _ => None end
      else if Ascii.eqb c "|" then option_map (cons []) (fields r)
      else if existsb (Ascii.eqb c) ($"{<>") then None
      else if Ascii.eqb c (ascii_of_N 92) then match r with d :: r' => push d (fields r') | [] => None end
      else push c (fields r)
  end.
Definition record_label (s : str) : option (list str) := match without_prefix ($"{") s with Some r => fields r | None => None end.

(** Words separated by commas. *)
Fixpoint style_words (s : str) : list str :=
  match s with
  | [] => [[]]
  | c :: r => if Ascii.eqb c "," then [] :: style_words r else match style_words r with l :: ls => (c :: l) :: ls | [] => [[c]] end
  end.

(** ** What is expected *)

(** Text shown for a context: its qualified name, its kind if it has no name, and the
    name given by annotations in a second field. *)
Definition caption_of (x : names) (u : unit) (st : storage) (n : nat) (fs : list str) : Prop :=
  (n = u_root u /\ fs = [$"*"]) \/
  (n <> u_root u /\ exists title, (nm_display x n <> [] /\ title = nm_display x n \/ nm_display x n = [] /\ title = $"<" ++ nm_kind x n ++ $">") /\
    ((exists a, lookup_attrs st n = Some a /\ n_spelling (at_named a) <> [] /\ fs = [title; n_spelling (at_named a)]) \/
     ((forall a, lookup_attrs st n = Some a -> n_spelling (at_named a) = []) /\ fs = [title]))).

(** Lines are dotted if annotations say nothing about visibility, dashed for
    explicitly hidden contexts; namespaces and the root are filled. *)
Record looks (x : names) (u : unit) (st : storage) (n : nat) (l : list (str * str)) : Prop := {
  lk_label : exists text fs, attribute ($"label") l = Some text /\ record_label text = Some fs /\ caption_of x u st n fs;
  lk_shape : attribute ($"shape") l = Some (if Nat.eqb n (u_root u) then $"diamond" else $"record");
  lk_style : exists style, attribute ($"style") l = Some style /\
    (In ($"dotted") (style_words style) <-> n <> u_root u /\ exists a, lookup_attrs st n = Some a /\ n_visible (at_named a) = None) /\
    (In ($"dashed") (style_words style) <-> n <> u_root u /\ exists a, lookup_attrs st n = Some a /\ n_visible (at_named a) = Some false) /\
    (In ($"filled") (style_words style) <-> n = u_root u \/ kind u n = KNamespace);
  lk_color : forall c, attribute ($"fillcolor") l = Some c -> n = u_root u \/ kind u n = KNamespace
}.

Definition boxes (l : list shown) : list (str * list (str * str)) := flat_map (fun s => match s with Box id a => [(id, a)] | Arrow _ _ => [] end) l.
Definition arrows (l : list shown) : list (str * str) := flat_map (fun s => match s with Box _ _ => [] | Arrow a b => [(a, b)] end) l.

(** Text that can be shown as it is: LLVM takes a backslash in front of certain
    characters as an instruction (those of escape sequences like [\n] in the arguments of
    templates are fine); tabulators are replaced. *)
Definition showable (s : str) : Prop :=
  (forall c, In c s -> c <> ascii_of_N 9 /\ c <> ascii_of_N 10) /\
  forall a d b, s = a ++ ascii_of_N 92 :: d :: b -> ~ In d ($"l|{}").
Definition simple_text (s : str) : Prop := forall c, In c s -> c <> ascii_of_N 9 /\ c <> ascii_of_N 10 /\ c <> ascii_of_N 92.
Definition showable_names (x : names) (u : unit) : Prop := forall n, simple_text (nm_kind x n) /\ showable (nm_display x n) /\ simple_text (u_name u n).

(** Distinct names for distinct addresses. *)
Definition proper_addresses (address : nat -> str) : Prop :=
  (forall n, forallb is_ident_continue (address n) = true) /\ forall n m, address n = address m -> n = m.

(** [text] shows the graph. *)
Definition depicts (x : names) (u : unit) (st : storage) (g : graph) (text : str) : Prop :=
  exists l id, dot_graph text = Some l /\ (forall n m, id n = id m -> n = m) /\
    (NoDup (map fst (boxes l)) /\ forall b, In b (map fst (boxes l)) <-> exists n, In n (g_nodes g) /\ b = id n) /\
    (forall n, In n (g_nodes g) -> exists a, In (id n, a) (boxes l) /\ looks x u st n a) /\
    (NoDup (arrows l) /\ forall a b, In (a, b) (arrows l) <-> exists p c, edge g p c /\ a = id p /\ b = id c).

(** What is shown for a stage: at most one view and one text. *)
Definition stage_output (views dumps : list stage) (s : stage) (dot text : str) (l : list shown_graph) : Prop :=
  exists v d, l = v ++ d /\
    (In s views -> v = [Displayed dot]) /\ (~ In s views -> v = []) /\
    (In s dumps -> d = [Dumped text]) /\ (~ In s dumps -> d = []).
