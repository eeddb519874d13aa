(** * Model of the CMake function for building modules (tools/genpybind.cmake) *)
From Verif Require Import Base ModuleModel.

(** L21-26 [cmake_parse_arguments]: values of [HEADER] (one), [LINK_LIBRARIES] and
    [NUM_BINDING_FILES] (several), and other arguments.  Arguments are not empty
    and contain no semicolons. *)
Record arguments := mkArguments { ca_header : option str; ca_libraries : list str; ca_count : list str; ca_rest : list str }.
Inductive mode := Rest | InHeader | InLibraries | InCount.

Definition keyword (a : str) : option mode :=
  if str_eqb a ($"HEADER") then Some InHeader
  else if str_eqb a ($"LINK_LIBRARIES") then Some InLibraries
  else if str_eqb a ($"NUM_BINDING_FILES") then Some InCount
  else None.

Fixpoint parse_arguments (m : mode) (args : list str) (r : arguments) : arguments :=
  match args with
  | [] => r
  | a :: args' =>
      match keyword a with
      | Some k => parse_arguments k args' r
      | None =>
          match m with
          | Rest => parse_arguments Rest args' (mkArguments (ca_header r) (ca_libraries r) (ca_count r) (ca_rest r ++ [a]))
          | InHeader => parse_arguments Rest args' (mkArguments (Some a) (ca_libraries r) (ca_count r) (ca_rest r))
          | InLibraries => parse_arguments m args' (mkArguments (ca_header r) (ca_libraries r ++ [a]) (ca_count r) (ca_rest r))
          | InCount => parse_arguments m args' (mkArguments (ca_header r) (ca_libraries r) (ca_count r ++ [a]) (ca_rest r))
          end
      end
  end.

(** Lists are texts with semicolons. *)
Fixpoint joined (l : list str) : str := match l with [] => [] | [a] => a | a :: r => a ++ $";" ++ joined r end.

(** Number at the start of a text, as read by [LESS], and what follows; fractions
    and exponents are not read. *)
Definition read_number (s : str) : option (Z * str) :=
  let '(negative, t) := match s with c :: r => if Ascii.eqb c "-" then (true, r) else (false, s) | [] => (false, s) end in
  match take_while is_digit t with
  | [] => None
  | ds => let v := fold_left (fun v c => 10 * v + Z.of_N (code c - 48))%Z ds 0%Z in Some (if negative then (- v)%Z else v, drop_while is_digit t)
  end.

(** L28-31; [None]: error, as [math] accepts no lists (or another expression, not modelled). *)
Definition number_of_files (l : list str) : option N :=
  match l with
  | [] => Some 1%N
  | _ =>
      match read_number (joined l) with
      | Some (v, rest) => if (v <? 1)%Z then Some 1%N else match rest with [] => Some (Z.to_N v) | _ => None end
      | None => None
      end
  end.

(** L33-36 [get_filename_component(... ABSOLUTE)], without removing [.] and [..]. *)
Definition absolute (dir p : str) : str := match p with c :: _ => if Ascii.eqb c "/" then p else dir ++ $"/" ++ p | [] => dir end.

(** L38-44 *)
Definition binding (bin target : str) (i : N) : str := bin ++ $"/genpybind-" ++ target ++ $"-" ++ decimal i ++ $".cpp".
Definition bindings (bin target : str) (n : N) : list str := map (fun i => binding bin target (N.of_nat i)) (seq 0 (N.to_nat n)).

(** Command that writes the bindings, sources and libraries of the module. *)
Record build := mkBuild { bd_command : list str; bd_sources : list str; bd_libraries : list str }.

(** L20-63; [bin], [top], [src]: CMAKE_CURRENT_BINARY_DIR, CMAKE_BINARY_DIR,
    CMAKE_CURRENT_SOURCE_DIR.  Dependencies are left out. *)
Definition configure (bin top src target : str) (args : list str) : option build :=
  let r := parse_arguments Rest args (mkArguments None [] [] []) in
  match number_of_files (ca_count r), ca_header r with
  | Some n, Some h =>
      let files := bindings bin target n in
      Some (mkBuild ([$"-p"; top; $"--module-name"; target; absolute src h] ++ map (fun f => $"-o=" ++ f) files)
        (files ++ ca_rest r) (ca_libraries r ++ [$"genpybind::genpybind"]))
  | _, _ => None
  end.

(** ** How the tool reads the command (llvm/lib/Support/CommandLine.cpp, in part) *)

Record command := mkCommand { cm_module : str; cm_sources : list str; cm_outputs : list str }.

Fixpoint strip_prefix (p s : str) : option str :=
  match p, s with
  | [], _ => Some s
  | c :: p', d :: s' => if Ascii.eqb c d then strip_prefix p' s' else None
  | _, [] => None
  end.

Fixpoint read_command (args : list str) : option command :=
  match args with
  | [] => Some (mkCommand [] [] [])
  | a :: l =>
      if str_eqb a ($"-p") then match l with _ :: l' => read_command l' | [] => None end
      else if str_eqb a ($"--module-name") then
        match l with v :: l' => option_map (fun c => mkCommand v (cm_sources c) (cm_outputs c)) (read_command l') | [] => None end
      else
        match strip_prefix ($"-o=") a with
        | Some v => option_map (fun c => mkCommand (cm_module c) (cm_sources c) (v :: cm_outputs c)) (read_command l)
        | None =>
            match a with
            | c :: _ => if Ascii.eqb c "-" then None else option_map (fun c => mkCommand (cm_module c) (a :: cm_sources c) (cm_outputs c)) (read_command l)
            | [] => None
            end
        end
  end.
