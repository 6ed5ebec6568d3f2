(** Compiling an instrument: the check that the compiler works, kept for the rest of the
    process, and the compilation itself (C83).  src/mccode_antlr/compiler/check.py and
    src/mccode_antlr/compiler/c.py, on other systems than Windows. *)
From Coq Require Import List String Ascii Bool ZArith Arith Lia.
From Verif Require Import PyStr TextLines Registry Target.
Import ListNotations.
Local Open Scope string_scope.
Local Open Scope list_scope.
Local Open Scope nat_scope.

(** the names under which compilers are configured: 'cc', 'acc', 'mpi/cc' *)
Inductive key := KC | KAcc | KMpi.
(** the operator == of Python on these names *)
Definition key_eqb (a b : key) : bool := match a, b with KC, KC | KAcc, KAcc | KMpi, KMpi => true | _, _ => false end.
(** check.py:9-12: the name of the compiler as it was configured *)
Definition configured (g : config) (k : key) : string := match k with KC => g_cc g | KAcc => g_acc g | KMpi => g_mpicc g end.
(** check.py:34: the target of the trial compilation *)
Definition check_target (k : key) : target := create (key_eqb k KMpi) (key_eqb k KAcc) 1 false.
(** compiler/c.py:272-276 with check.py:81, 98, 103 *)
Definition dispatch (t : target) : key := if t_acc t then KAcc else if t_mpi t then KMpi else KC.

(** a command that was run: for the trial of a compiler or for the user; whether it
    returned zero *)
Record ran := mkRan { r_check : option key; r_cmd : list string; r_ok : bool }.
(** What a process and its surroundings hold: the configuration, programs that can be
    started, whether the component library can be read, files, results of trials
    (functools.cache), commands so far.  [check_for_mccode_antlr_compiler] is remembered as
    well, but asked only when a trial is not yet remembered. *)
Record world := mkW { w_cfg : config; w_tools : list string; w_lib : bool; w_files : list string;
                      w_cache : key -> option bool; w_log : list ran }.
(** the operator in of Python on lists *)
Definition mem (x : string) (l : list string) : bool := existsb (String.eqb x) l.

Section Compile.
(** os.path.expandvars (confuse as_str_expanded); what a program does: returns zero, writes
    its output; paths that are directories; the suffix of binaries; the temporary file of
    a trial.  Any values. *)
Variable expand : string -> string.
Variable exec : list string -> list string -> bool * bool.
Variable is_dir : string -> bool.
Variable ext : string.
Variable tmp : string.

(** compiler/c.py:48-57; the flags of Target.v are expanded already *)
Definition expanded (g : config) : config :=
  mkC (expand (g_cc g)) (expand (g_acc g)) (expand (g_mpicc g)) (g_mpirun g) (g_machinefile g) (f_cc g) (f_acc g) (f_ld g) (f_mpi g) (f_nexus g).
(** subprocess.run; None: FileNotFoundError *)
Definition attempt (w : world) (cmd : list string) : option (bool * bool) :=
  if mem (hd "" cmd) (w_tools w) then Some (exec (w_tools w) cmd) else None.
(** the command is entered in the list of what was run *)
Definition logged (w : world) (r : ran) : world := mkW (w_cfg w) (w_tools w) (w_lib w) (w_files w) (w_cache w) (w_log w ++ [r]).
(** functools.cache, compiler/check.py:60 *)
Definition remember (w : world) (k : key) (b : bool) : world :=
  mkW (w_cfg w) (w_tools w) (w_lib w) (w_files w) (fun x => if key_eqb x k then Some b else w_cache w x) (w_log w).
(** a file that was written *)
Definition created (w : world) (f : string) : world := mkW (w_cfg w) (w_tools w) (w_lib w) (f :: w_files w) (w_cache w) (w_log w).
(** check.py:5-74 simple_instr_compiles; the instrument of the trial brings no flags *)
Definition trial (k : key) (w : world) : bool * world :=
  match w_cache w k with
  | Some b => (b, w)
  | None =>
      let '(b, w1) :=
        if negb (mem (configured (w_cfg w) k) (w_tools w)) then (false, w)
        else if negb (w_lib w) then (false, w)
        else let cmd := linux_command (expanded (w_cfg w)) (check_target k) [] tmp in
             match attempt w cmd with
             | None => (false, w)
             | Some (rc, wrote) => (rc && wrote, logged w (mkRan (Some k) cmd rc))
             end in
      (b, remember w1 k b)
  end.

(** compiler/c.py:197-205; None: ValueError *)
Definition binary_path (output : option string) (name : string) : option string :=
  let o := match output with None => "." | Some o => o end in
  if is_dir o then with_suffix (o +++ "/" +++ name) ext else Some (posix (absolute o) (parts o)).
(** how the call ends, compiler/c.py *)
Inductive result := Binary (p : string) | NoCompiler | BadName | NotStarted | Failed | NotWritten.
(** compiler/c.py:175-230 and check.py:83-91: [NoCompiler], [Failed] and [NotWritten] are
    RuntimeErrors, [NotStarted] is FileNotFoundError.  Making the source is not modelled. *)
Definition compile (name : string) (decoded : list string) (t : target) (output : option string) (replace : bool) (w : world) : result * world :=
  let '(b, w1) := trial (dispatch t) w in
  if negb b then (NoCompiler, w1)
  else match binary_path output name with
       | None => (BadName, w1)
       | Some p =>
           if mem p (w_files w1) && negb replace then (Binary p, w1)
           else let cmd := linux_command (expanded (w_cfg w1)) t decoded p in
                match attempt w1 cmd with
                | None => (NotStarted, w1)
                | Some (rc, wrote) =>
                    let w2 := logged w1 (mkRan None cmd rc) in
                    let w3 := if wrote then created w2 p else w2 in
                    if negb rc then (Failed, w3) else if mem p (w_files w3) then (Binary p, w3) else (NotWritten, w3)
                end
       end.

(** what happens in a process: the configuration is changed, programs, library and files
    come and go, instruments are compiled *)
Inductive event :=
| Configure (g : config)
| Outside (tools : list string) (lib : bool) (files : list string)
| Compile (name : string) (decoded : list string) (t : target) (output : option string) (replace : bool).
(** one event *)
Definition happen (w : world) (e : event) : world :=
  match e with
  | Configure g => mkW g (w_tools w) (w_lib w) (w_files w) (w_cache w) (w_log w)
  | Outside tools lib files => mkW (w_cfg w) tools lib files (w_cache w) (w_log w)
  | Compile name decoded t output replace => snd (compile name decoded t output replace w)
  end.
(** all events *)
Definition after (es : list event) (w : world) : world := fold_left happen es w.
(** a process that has just started *)
Definition begins (w : world) : Prop := (forall k, w_cache w k = None) /\ w_log w = [].
End Compile.
