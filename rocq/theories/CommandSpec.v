(** * Specification of command lines *)
From Verif Require Import Base.

(** ** Options *)

Inductive opt := Language (v : str) | Standard (v : str) | Other (arg : str) | Incomplete.

(** Reading of a command line without the program name: options up to the
    separator, and what follows (including the separator). *)
Inductive reads : list str -> list opt -> list str -> Prop :=
| reads_end : reads [] [] []
| reads_separator l : reads ($"--" :: l) [] ($"--" :: l)
| reads_language v l os r : v <> [] -> reads l os r -> reads (($"-x" ++ v) :: l) (Language v :: os) r
| reads_language_next v l os r : reads l os r -> reads ($"-x" :: v :: l) (Language v :: os) r
| reads_language_missing : reads [$"-x"] [Incomplete] []
| reads_standard v l os r : reads l os r -> reads (($"-std=" ++ v) :: l) (Standard v :: os) r
| reads_other a l os r : a <> $"--" -> (forall v, a <> $"-x" ++ v) -> (forall v, a <> $"-std=" ++ v) -> reads l os r -> reads (a :: l) (Other a :: os) r.

Definition others (os : list opt) : list str := flat_map (fun o => match o with Other a => [a] | _ => [] end) os.
Definition languages (os : list opt) : list str := flat_map (fun o => match o with Language v => [v] | _ => [] end) os.
Definition standards (os : list opt) : list str := flat_map (fun o => match o with Standard v => [v] | _ => [] end) os.

(** The last one counts. *)
Definition in_effect (l : list str) : option str := match rev l with [] => None | v :: _ => Some v end.

(** ** C++ standards known to clang *)

Inductive flavour := ISO | GNU.
Definition flavour_name (f : flavour) : str := match f with ISO => $"c" | GNU => $"gnu" end.

(** Suffixes with the years of publication. *)
Definition editions : list (string * N) :=
  [("98", 1998); ("03", 2003); ("0x", 2011); ("11", 2011); ("1y", 2014); ("14", 2014); ("1z", 2017); ("17", 2017);
   ("2a", 2020); ("20", 2020); ("2b", 2023); ("23", 2023); ("2c", 2026); ("26", 2026)]%string%N.

Definition cpp_standard (v : str) (f : flavour) (year : N) : Prop := exists s, In (s, year) editions /\ v = flavour_name f ++ $"++" ++ $s.

(** [v'] follows the request: C++17 or the later standard asked for, of the same
    flavour. *)
Definition brought_up (os : list opt) (v' : str) : Prop :=
  (in_effect (standards os) = None -> cpp_standard v' ISO 2017) /\
  forall v f year, in_effect (standards os) = Some v -> cpp_standard v f year -> cpp_standard v' f (N.max 2017 year) /\ ((2017 < year)%N -> v' = v).

(** The location of the builtin headers is given. *)
Definition resource_dir_given (args : list str) : Prop := exists a, In a args /\ (a = $"-resource-dir" \/ exists v, a = $"-resource-dir=" ++ v).

(** ** Quoted arguments *)

(** Arguments that can be told apart. *)
Definition plain_argument (a : str) : Prop := a <> [] /\ (In (ascii_of_N 32) a \/ forall s, a <> ascii_of_N 34 :: s).
