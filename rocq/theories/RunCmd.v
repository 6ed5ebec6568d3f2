(** From options and parameters to the commands that start a compiled instrument: run/runner.py.

    Simplifications: paths are texts of absolute POSIX paths without a slash at the end; the system is not Windows; a program that was started ends with success and the files it writes are readable.
    None and Raised stand for a raised exception.  What argparse does is the input (record cmdline); the compiler is an arbitrary function. *)
From Coq Require Import List String Ascii Bool ZArith QArith Arith Lia.
From Verif Require Import PyStr Scan CmdLine Target.
Import ListNotations.
Local Open Scope string_scope.
Local Open Scope list_scope.
Local Open Scope nat_scope.

(** the values of run time options *)
Inductive pyval := PNone | PBool (b : bool) | PInt (z : Z) | PStr (s : string).
(** str(x) *)
Definition str_py (v : pyval) : string := match v with PNone => "None" | PBool true => "True" | PBool false => "False" | PInt z => str_Z z | PStr s => s end.
(** bool(x) *)
Definition truthy (v : pyval) : bool := match v with PNone => false | PBool b => b | PInt z => negb (z =? 0)%Z | PStr s => negb (s =?s "") end.
(** a dict of options, runner.py:5-24 *)
Definition options := list (string * pyval).

(** insert_best_of, runner.py:6-15 *)
Fixpoint best_of (src : options) (names : list string) : option pyval :=
  match names with [] => None | n :: names => match dict_get src n with Some v => Some v | None => best_of src names end end.
(** runner.py:6-14 *)
Definition insert_best_of (src snk : options) (names : list string) : options :=
  match best_of src names with Some v => dict_set snk (hd "" names) v | None => snk end.
(** regular_mccode_runtime_dict, runner.py:17-24 *)
Definition aliases : list (list string) := [["seed"; "s"]; ["ncount"; "n"]; ["dir"; "out_dir"; "d"]; ["trace"; "t"]; ["gravitation"; "g"]; ["bufsiz"]; ["format"]].
(** regular_mccode_runtime_dict, runner.py:5-24 *)
Definition regular (src : options) : options := fold_left (insert_best_of src) aliases [].
(** mccode_runtime_dict_to_args_list, runner.py:27-49 *)
Definition valued (args : options) (n : string) : list string :=
  match dict_get args n with Some PNone | None => [] | Some v => [("--" ++ n ++ "=" ++ str_py v)%string] end.
(** runner.py:27-49, options without a value *)
Definition flag (args : options) (n : string) : list string :=
  match dict_get args n with Some v => if truthy v then [("--" ++ n)%string] else [] | None => [] end.
(** mccode_runtime_dict_to_args_list, runner.py:27-49 *)
Definition args_list (args : options) : list string :=
  valued args "seed" ++ valued args "ncount" ++ valued args "dir" ++ flag args "trace" ++ flag args "gravitation" ++ valued args "bufsiz" ++ valued args "format".
(** mccode_runtime_parameters, runner.py:52-55; the texts of the parameters are given *)
Definition runtime_parameters (args : options) (pars : list (string * string)) : string := (join " " (args_list args) ++ " " ++ parameter_text pars)%string.
(** mccode_run_compiled, runner.py:150-158: the text that is split into words *)
Definition run_text (dir pars : string) : string := ("--dir " ++ dir ++ " " ++ pars)%string.

(** a list comprehension in which every item may raise *)
Fixpoint sequence {A} (l : list (option A)) : option (list A) :=
  match l with [] => Some [] | x :: l => match x, sequence l with Some x, Some l => Some (x :: l) | _, _ => None end end.

(** a directory as the caller gives it: nothing, a Path, or a text *)
Inductive dirval := DNone | DPath (p : string) | DText (s : string).
(** runner.py:168-170; mkdir, joinpath and parent (174-188) exist for a Path only *)
Definition directory_of (name now : string) (d : dirval) : option string :=
  match d with DNone => Some (name ++ now)%string | DPath p => Some p | DText _ => None end.

Section Scan.
  Variable str_num : Q -> string.
  (** start of the binary with a text of options *)
  Context {W : Type}.
  Variable start : string -> option W.
  (** runner.py:52-55 *)
  Definition par_texts (params : list (string * item)) : list (string * string) := map (fun p => (fst p, str_item str_num (snd p))) params.
  (** mccode_run_scan, runner.py:161-188: the options as given in a scan, in regular form for a single run *)
  Definition run_scan_cmds (name now : string) (params : list (string * item)) (d : dirval) (grid : bool) (r_args : options) : option (list W) :=
    match to_scan params grid with
    | None => None
    | Some (n_pts, _, scan) =>
        match directory_of name now d with
        | None => None
        | Some dir =>
            if (1 <? n_pts)%Z
            then sequence (map (fun k => start (run_text (dir ++ "/" ++ str_nat k) (runtime_parameters r_args (par_texts params)))) (seq 0 (List.length scan)))
            else sequence [start (run_text dir (runtime_parameters (regular r_args) (par_texts params)))]
        end
    end.
End Scan.

(** args.process_count, runner.py:107, 248: with nargs=1 a list if given *)
Inductive count := CInt (z : Z) | CList (z : Z).
(** str of the number of particles *)
Definition count_text (c : count) : string := match c with CInt z => str_Z z | CList z => ("[" ++ str_Z z ++ "]")%string end.
(** runner.py:191-226: no particles asked for *)
Definition count_is_zero (c : count) : bool := match c with CInt z => (z =? 0)%Z | CList _ => false end.
(** compiler/c.py:279-316 run_compiled_instrument, as in Target.v but with any count *)
Definition command (g : config) (mpi acc : bool) (c : count) (binary opts : string) : option (list string) :=
  if mpi && acc then None
  else Some ((if mpi
              then g_mpirun g :: (if count_is_zero c then [] else ["-np"; count_text c]) ++ match g_machinefile g with Some m => ["-machinefile"; m] | None => [] end
              else []) ++ binary :: words opts).

(** what argparse makes of the command line, runner.py:76-107 *)
Record cmdline := mkCmd { a_file : string; a_stem : string; a_output : option string; a_dir : option string; a_parallel : bool; a_gpu : bool; a_count : option Z;
  a_trace : bool; a_grav : bool; a_ncount : option Z; a_seed : option Z; a_bufsiz : option Z; a_format : option string; a_mesh : bool; a_params : list (string * item) }.
(** the files, with whether they can be read and executed; B is what a file holds *)
Record file (B : Type) := mkFile { f_content : B; f_read : bool; f_exec : bool }.
Arguments mkFile {B}. Arguments f_content {B}. Arguments f_read {B}. Arguments f_exec {B}.
(** what a call does: raise, compile only, or run *)
Inductive outcome (B : Type) := Raised | NoRun | Ran (binary : B) (commands : list (list string)).
Arguments Raised {B}. Arguments NoRun {B}. Arguments Ran {B}.
(** an option that may be missing *)
Definition of_int (o : option Z) : pyval := match o with Some z => PInt z | None => PNone end.
(** runner.py:251-260 and, with the named arguments dry_run and capture taken out, what mccode_run_scan receives as r_args *)
Definition runtime_of (a : cmdline) : options :=
  [("seed", of_int (a_seed a)); ("ncount", of_int (a_ncount a)); ("trace", PBool (a_trace a)); ("gravitation", PBool (a_grav a));
   ("bufsiz", of_int (a_bufsiz a)); ("format", match a_format a with Some s => PStr s | None => PNone end)].

Section Cmd.
  Variable str_num : Q -> string.
  Variable g : config.
  Context {B : Type}.
  Variable disk : string -> option (file B).
  (** the instrument of a file: its name and the binary the compiler makes of it for mpi and acc; None for an error *)
  Variable read : B -> option string.
  Variable build : B -> bool -> bool -> option B.
  (** the current directory, the extension of binaries, and the time *)
  Variable cwd ext now : string.
  Variable is_dir : string -> bool.
  (** _compile_instrument, compiler/c.py:197-230: where the binary is; replace is never given *)
  Definition output_of (o : option string) (name : string) : string :=
    let o := match o with Some s => s | None => cwd end in if is_dir o then (o ++ "/" ++ name ++ ext)%string else o.
  (** mccode_compile, runner.py:131-147 *)
  Definition compile (src : B) (o : option string) (name : string) (mpi acc : bool) : option (string * B) :=
    let out := output_of o name in
    match disk out with
    | Some f => Some (out, f_content f)
    | None => match build src mpi acc with Some b => Some (out, b) | None => None end
    end.
  (** mccode_run_cmd, runner.py:229-294 *)
  Definition run_cmd (a : cmdline) : outcome B :=
    let dir := match a_dir a with Some s => DText s | None => DNone end in
    let scan name b start := match run_scan_cmds str_num start name now (a_params a) dir (a_mesh a) (runtime_of a) with Some l => Ran b l | None => Raised end in
    let wants_params r := match a_params a with [] => NoRun | _ => r end in
    match disk (a_file a) with
    | None => Raised
    | Some f =>
        if match a_output a with None => f_exec f | Some _ => false end
        then wants_params (scan (a_stem a) (f_content f) (fun _ => None))   (* the target is still a dictionary, run_compiled_instrument asks for target.type *)
        else if negb (f_read f) then Raised
        else match read (f_content f) with
             | None => Raised
             | Some name =>
                 match compile (f_content f) (a_output a) name (a_parallel a) (a_gpu a) with
                 | None => Raised
                 | Some (out, b) => wants_params (scan name b (command g (a_parallel a) (a_gpu a) (match a_count a with Some z => CList z | None => CInt 0 end) out))
                 end
             end
    end.
End Cmd.

(** ** mccode_run from Python, runner.py:191-226 and 309-318 *)
(** the values that are passed on *)
Inductive value := VInstr | VDirectory (p : string) | VRegistry | VGenerator | VParams (p : list (string * item)).
(** mcstas_run, runner.py:309-312: the values in the order of the call, bound to instrument, generator, parameters, directory *)
Definition mcstas_run_args (p : string) : list value := [VInstr; VDirectory p; VRegistry; VGenerator].
(** Path(directory), runner.py:199-200: TypeError for anything but a path or text *)
Definition path_of (v : value) : option string := match v with VDirectory p => Some p | _ => None end.
(** the directory handed to mccode_run, runner.py:309-320 *)
Definition mccode_run_dir (args : list value) : option string := match args with [_; _; _; d] => path_of d | _ => None end.

(** ** The results, runner.py:156-158: a dictionary by file.stem over the files found *)
Definition dats {D} (files : list (string * D)) : list (string * D) := fold_left (fun d (f : string * D) => dict_set d (fst f) (snd f)) files [].
