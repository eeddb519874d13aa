(** * Specification of calls from Python *)
From Verif Require Import Base ParserModel AnnotModel AnnotSpec CollectModel CollectSpec GraphModel GraphSpec EmitModel EmitSpec ImportSpec ExecSpec.

Section Calls.
(** Python objects; [default f k]: the one converted from the default argument for
    parameter [k] of a function. *)
Context {V : Type} (is_none : V -> bool) (default : nat -> nat -> V).

(** ** Parameters known to pybind11 *)

(** [argument_record]; nothing is known about parameters without [pybind11::arg]. *)
Record formal := mkFormal { fo_name : option str; fo_convert : bool; fo_none : bool; fo_default : option V }.
Definition plain : formal := mkFormal None true true None.

(** Records are added for [pybind11::arg], the object itself is added in front of
    the first one. *)
Fixpoint formals_from (f k : nat) (args : list arg) : list formal :=
  match args with
  | [] => []
  | a :: r => mkFormal (Some (ar_name a)) (negb (ar_noconvert a)) (negb (ar_required a)) (option_map (fun _ => default f k) (ar_default a)) :: formals_from f (S k) r
  end.
Definition formals_with_self (method : bool) (fs : list formal) : list formal :=
  if method then match fs with [] => [plain] | _ => mkFormal (Some ($"self")) true false None :: fs end else fs.

Definition in_class (o : object) : bool := match o with Class _ => true | _ => false end.
Definition is_method_of (o : object) (s : stmt) : bool := match s with SFunction static _ _ _ _ => in_class o && negb static | _ => true end.
Definition formals (o : object) (s : stmt) : list formal :=
  match s with
  | SFunction _ _ f args _ | SInit f _ args _ => formals_with_self (is_method_of o s) (formals_from f 0 args)
  | SOperator _ _ l => map (fun _ => plain) (la_types l)
  | _ => [plain]
  end.

Definition function_of (s : stmt) : option nat := match s with SFunction _ _ f _ _ | SInit f _ _ _ => Some f | _ => None end.
Definition is_args (p : param) : bool := match pm_variadic p with Some Args => true | _ => false end.
Definition collects (x : extra) (which : param -> bool) (s : stmt) : bool := match function_of s with Some f => existsb which (fi_params (x_fn x f)) | None => false end.

(** ** The dispatcher of pybind11 *)

Definition keywords := list (str * V).
Definition keyword (f : formal) (kw : keywords) : option V :=
  match fo_name f with Some n => option_map snd (find (fun p => str_eqb (fst p) n) kw) | None => None end.
Definition without (f : formal) (kw : keywords) : keywords := match fo_name f with Some n => filter (fun p => negb (str_eqb (fst p) n)) kw | None => kw end.
Definition refused (f : formal) (v : V) : bool := is_none v && negb (fo_none f).

Fixpoint positional (kw : keywords) (fs : list formal) (pos : list V) : option (list V) :=
  match fs, pos with
  | f :: fs', v :: pos' =>
      match keyword f kw with
      | Some _ => None
      | None => if refused f v then None else option_map (cons v) (positional kw fs' pos')
      end
  | _, _ => Some []
  end.

Fixpoint remaining (kw : keywords) (fs : list formal) : option (list V * keywords) :=
  match fs with
  | [] => Some ([], kw)
  | f :: fs' =>
      match match keyword f kw with Some v => Some (v, without f kw) | None => option_map (fun v => (v, kw)) (fo_default f) end with
      | Some (v, kw') => if refused f v then None else match remaining kw' fs' with Some (vs, rest) => Some (v :: vs, rest) | None => None end
      | None => None
      end
  end.

(** Arguments for the parameters, for [pybind11::args] and [pybind11::kwargs]. *)
Record binding := mkBinding { bi_values : list V; bi_args : list V; bi_kwargs : keywords }.

Definition bind (fs : list formal) (variadic keyword_variadic : bool) (pos : list V) (kw : keywords) : option binding :=
  if negb variadic && Nat.ltb (length fs) (length pos) then None else
  match positional kw fs pos with
  | None => None
  | Some got =>
      match remaining kw (skipn (length pos) fs) with
      | None => None
      | Some (more, rest) => if negb keyword_variadic && negb (is_empty rest) then None else Some (mkBinding (got ++ more) (skipn (length fs) pos) rest)
      end
  end.

(** [accepts s k convert v]: the value can be passed as parameter [k] of the
    function, with or without conversion. *)
Context (accepts : stmt -> nat -> bool -> V -> bool) (x : extra) (o : object).

Definition bind_for (s : stmt) (pos : list V) (kw : keywords) : option binding := bind (formals o s) (collects x is_args s) (collects x is_kwargs s) pos kw.

Fixpoint loads (s : stmt) (convert : bool) (k : nat) (fs : list formal) (vs : list V) : bool :=
  match fs, vs with
  | f :: fs', v :: vs' => accepts s k (convert && fo_convert f) v && loads s convert (S k) fs' vs'
  | _, _ => true
  end.
Definition try (convert : bool) (pos : list V) (kw : keywords) (s : stmt) : option (stmt * binding) :=
  match bind_for s pos kw with Some b => if loads s convert 0 (formals o s) (bi_values b) then Some (s, b) else None | None => None end.
Definition convertible (s : stmt) : bool := existsb fo_convert (skipn (if is_method_of o s then 1 else 0) (formals o s)).

(** Without conversions first, if there are several overloads. *)
Definition dispatch (l : list stmt) (pos : list V) (kw : keywords) : option (stmt * binding) :=
  match l with
  | [s] => try true pos kw s
  | _ => match first_some (try false pos kw) l with Some r => Some r | None => first_some (fun s => if convertible s then try true pos kw s else None) l end
  end.

(** ** What is expected *)

Definition given_as (kw : keywords) (f : formal) (v : V) : Prop := exists n, fo_name f = Some n /\ In (n, v) kw.

(** Keywords taken by parameters without an argument by position. *)
Definition taken (n : nat) (fs : list formal) (k : str) : bool :=
  existsb (fun f => match fo_name f with Some m => str_eqb k m | None => false end) (skipn n fs).

(** Each parameter takes an argument by position, by keyword or its default; all
    arguments are used. *)
Record fits (s : stmt) (pos : list V) (kw : keywords) (b : binding) : Prop := {
  ft_length : length (bi_values b) = length (formals o s);
  ft_values : forall k f v, nth_error (formals o s) k = Some f -> nth_error (bi_values b) k = Some v ->
    ((nth_error pos k = Some v /\ forall w, ~ given_as kw f w) \/
     (length pos <= k /\ (given_as kw f v \/ ((forall w, ~ given_as kw f w) /\ fo_default f = Some v)))) /\
    (is_none v = true -> fo_none f = true);
  ft_args : pos = firstn (length (formals o s)) pos ++ bi_args b /\ (bi_args b <> [] -> collects x is_args s = true);
  ft_kwargs : bi_kwargs b = filter (fun p => negb (taken (length pos) (formals o s) (fst p))) kw;
  ft_keywords : bi_kwargs b <> [] -> collects x is_kwargs s = true
}.

(** All values can be passed, possibly after conversions where these are allowed. *)
Definition passes (convert : bool) (s : stmt) (b : binding) : Prop :=
  forall k f v, nth_error (formals o s) k = Some f -> nth_error (bi_values b) k = Some v -> accepts s k (convert && fo_convert f) v = true.
Definition suits (convert : bool) (pos : list V) (kw : keywords) (s : stmt) (b : binding) : Prop := fits s pos kw b /\ passes convert s b.

(** The first one suiting without conversions is called, if there is any, otherwise
    the first one suiting with conversions. *)
Definition chosen (l : list stmt) (pos : list V) (kw : keywords) (s : stmt) (b : binding) : Prop :=
  exists before after convert, l = before ++ s :: after /\ suits convert pos kw s b /\ (forall t c, In t before -> ~ suits convert pos kw t c) /\
    (convert = true -> forall t c, In t l -> ~ suits false pos kw t c).

(** Values that can be passed as they are can also be passed where conversions are
    allowed; objects methods are called for are not converted. *)
Definition sensible (l : list stmt) : Prop :=
  (forall s k v, In s l -> accepts s k false v = true -> accepts s k true v = true) /\
  (forall s v, In s l -> is_method_of o s = true -> accepts s 0 true v = true -> accepts s 0 false v = true).

(** Parameters with names have different ones. *)
Definition distinct_formals (fs : list formal) : Prop :=
  forall j k f h n, nth_error fs j = Some f -> nth_error fs k = Some h -> fo_name f = Some n -> fo_name h = Some n -> n <> [] -> j = k.
Definition proper_keywords (kw : keywords) : Prop := NoDup (map fst kw) /\ ~ In [] (map fst kw).
End Calls.

Arguments formal : clear implicits.
Arguments keywords : clear implicits.
Arguments binding : clear implicits.

(** ** Parameters as declared *)

(** Variadic parameters come last. *)
Definition variadic_last (ps : list param) : Prop := exists l1 l2, ps = l1 ++ l2 /\ (forall p, In p l1 -> is_ordinary p = true) /\ (forall p, In p l2 -> is_ordinary p = false) /\
  (l2 = [] \/ (exists p, l2 = [p]) \/ exists p q, l2 = [p; q] /\ is_args p = true /\ is_kwargs q = true).

(** Methods, other than static ones, and constructors take an object. *)
Definition takes_self (u : unit) (o : object) (f : nat) : Prop :=
  kind u f = KConstructor \/ (in_class o = true /\ ~ ((exists k, kind u f = KMethod k \/ kind u f = KConversion) /\ d_static (u_decls u f) = true)).

(** Parameter [k] has a name of its own. *)
Definition own_name (ps : list param) (k : nat) (p : param) : Prop := forall j q, nth_error ps j = Some q -> pm_name q = pm_name p -> j = k.

(** What is known of the parameters is what is declared and annotated: for each
    ordinary one its name, its default argument, that it must not be converted, and
    that it must not be None. *)
Definition as_declared {V} (default : nat -> V) (ps : list param) (ans : list annotation) (self : bool) (fs : list (formal V)) : Prop :=
  exists l, length l = length (filter is_ordinary ps) /\
    fs = (if self then match l with [] => [plain] | _ => mkFormal (Some ($"self")) true false None :: l end else l) /\
    forall k p, nth_error (filter is_ordinary ps) k = Some p -> exists f, nth_error l k = Some f /\ fo_name f = Some (pm_name p) /\
      fo_default f = option_map (fun _ => default k) (pm_default p) /\
      (own_name ps k p -> (fo_convert f = false <-> named_by Noconvert ans (pm_name p)) /\ (fo_none f = false <-> named_by Required ans (pm_name p))).

(** Where the value for a parameter comes from: [k] counts arguments by position. *)
Inductive source {V} (pos : list V) (kw : keywords V) (k : nat) (p : param) (default : V) : V -> Prop :=
| by_position v : nth_error pos k = Some v -> (forall w, ~ In (pm_name p, w) kw) -> source pos kw k p default v
| by_keyword v : length pos <= k -> In (pm_name p, v) kw -> source pos kw k p default v
| by_default : length pos <= k -> (forall w, ~ In (pm_name p, w) kw) -> pm_default p <> None -> source pos kw k p default default.
