(** Compile targets: options, compiler flags, and the commands that compile and run a binary. *)
From Coq Require Import List String Ascii Bool ZArith Arith Lia.
From Verif Require Import PyStr.
Import ListNotations.
Local Open Scope string_scope.
Local Open Scope list_scope.
Local Open Scope nat_scope.

(** compiler/c.py:11-16 CBinaryTarget and its Type flags, one truth value each *)
Record target := mkT { t_count : Z; t_single : bool; t_acc : bool; t_mpi : bool; t_nexus : bool }.
(** c.py:20-27 and 37-43: the type without the NeXus bit *)
Definition base_type (count : Z) (mpi acc : bool) : target :=
  if mpi && acc then mkT count false true true false
  else if mpi then mkT count false false true false
  else if acc then mkT count false true false false
  else mkT count true false false false.
(** assignment to the NeXus bit *)
Definition with_nexus (t : target) : target := mkT (t_count t) (t_single t) (t_acc t) (t_mpi t) true.
(** c.py:18-30 __init__ *)
Definition create (mpi acc : bool) (count : Z) (nexus : bool) : target :=
  let t := base_type count mpi acc in if nexus then with_nexus t else t.
(** the dictionary given to update; a value counts by its truth *)
Record opts := mkO { o_count : option Z; o_mpi : option bool; o_acc : option bool; o_nexus : option bool }.
(** d.get(k, default) *)
Definition get {A} (o : option A) (d : A) : A := match o with Some x => x | None => d end.
(** c.py:32-45 update: the default of nexus is taken from the type that has just been assigned *)
Definition update (t : target) (d : opts) : target :=
  let t' := base_type (get (o_count d) (t_count t)) (get (o_mpi d) (t_mpi t)) (get (o_acc d) (t_acc t)) in
  if get (o_nexus d) (t_nexus t') then with_nexus t' else t'.

(** the configured compilers and, already split into words, flags (config/platforms.yaml); any values *)
Record config := mkC { g_cc : string; g_acc : string; g_mpicc : string; g_mpirun : string; g_machinefile : option string;
  f_cc : list string; f_acc : list string; f_ld : list string; f_mpi : list string; f_nexus : list string }.
(** c.py:47-57 *)
Definition compiler (g : config) (t : target) : string := if t_acc t then g_acc g else if t_mpi t then g_mpicc g else g_cc g.
(** c.py:59-66 *)
Definition flags (g : config) (t : target) : list string := if t_acc t then f_acc g else f_cc g.
(** c.py:73-82 *)
Definition extra_flags (g : config) (t : target) : list string := (if t_mpi t then f_mpi g else []) ++ (if t_nexus t then f_nexus g else []).

(** str.split() *)
Fixpoint words_from (cur : string) (s : string) : list string :=
  match s with
  | EmptyString => if cur =?s "" then [] else [cur]
  | String c r => if is_space c then (if cur =?s "" then [] else [cur]) ++ words_from "" r else words_from (cur ++ String c "")%string r
  end.
(** str.split() *)
Definition words (s : string) : list string := words_from "" s.

(** c.py:94-107 linux_split_flags; [decoded] is the result of instrument.decoded_flags() *)
Definition linux_split_flags (g : config) (t : target) (decoded : list string) : list string * list string :=
  let cf := flags g t ++ extra_flags g t in
  let lf := f_ld g ++ flat_map words decoded in
  (if existsb (contains "OPENACC") cf && existsb (contains "NeXus") cf then cf ++ ["-D__GNUC__"] else cf, lf).
(** c.py:146-152 the command of linux_compile *)
Definition linux_command (g : config) (t : target) (decoded : list string) (output : string) : list string :=
  let '(cf, lf) := linux_split_flags g t decoded in compiler g t :: cf ++ ["-o"; output; "-"] ++ lf.

(** c.py:110-143 windows_split_flags: where one (stripped) flag goes, and as what *)
Inductive place := ToCompiler (s : string) | ToLinker (s : string).
(** s[1:] *)
Definition rest (s : string) : string := match s with EmptyString => "" | String _ r => r end.
(** str.replace of one character *)
Fixpoint replace_char (a b : ascii) (s : string) : string := match s with EmptyString => "" | String c r => String (if Ascii.eqb c a then b else c) (replace_char a b r) end.
(** c.py:110-143, one flag *)
Definition windows_place (s : string) : place :=
  if negb (startswith "/" s) && negb (startswith "-" s) then ToLinker s
  else if startswith "D" (rest s) then (if s =?s "/DYNAMICBASE" then ToLinker s else ToCompiler s)
  else if startswith "U" (rest s) then ToCompiler s
  else if startswith "p" (rest s) then (if has_char "=" s then ToCompiler s else ToLinker s)
  else if startswith "std" (rest s) then (if has_char "=" s then ToCompiler (replace_char "=" ":" s) else ToLinker s)
  else ToLinker s.
(** c.py:110-143, the loop *)
Fixpoint windows_loop (decoded : list string) (cf lf : list string) : list string * list string :=
  match decoded with
  | [] => (cf, lf)
  | f :: r => match windows_place (strip f) with
              | ToCompiler s => windows_loop r (cf ++ [s]) lf
              | ToLinker s => windows_loop r cf (lf ++ [s])
              end
  end.
(** c.py:110-143 *)
Definition windows_split_flags (g : config) (t : target) (decoded : list string) : list string * list string :=
  windows_loop decoded (flags g t ++ extra_flags g t) (f_ld g).

(** str of an int *)
Definition str_Z (z : Z) : string := match z with Zneg p => ("-" ++ str_nat (Pos.to_nat p))%string | _ => str_nat (Z.to_nat z) end.
(** c.py:279-316 run_compiled_instrument on other systems than Windows, for an existing binary: the command, None for NotImplementedError *)
Definition run_command (g : config) (t : target) (binary options : string) : option (list string) :=
  if t_mpi t && t_acc t then None
  else Some ((if t_mpi t
              then g_mpirun g :: (if (t_count t =? 0)%Z then [] else ["-np"; str_Z (t_count t)]) ++ match g_machinefile g with Some m => ["-machinefile"; m] | None => [] end
              else []) ++ binary :: words options).

(** run/runner.py:131-151 mccode_compile: the target of a compilation *)
Definition compile_target (d : opts) : target := update (create false false 1 false) d.
(** run/runner.py:209-213 (mccode_run) and 237-283 (mccode_run_cmd): the target is turned from a dictionary into a CBinaryTarget only by compiling.
    run_compiled_instrument asks a dictionary for its attribute type: None is AttributeError. *)
Inductive held := HDict (d : opts) | HTarget (t : target).
(** run/runner.py:209-213, 237-283 *)
Definition target_for_run (binary_exists : bool) (d : opts) : held := if binary_exists then HDict d else HTarget (compile_target d).
(** what run_compiled_instrument makes of it *)
Definition run_held (g : config) (h : held) (binary options : string) : option (list string) :=
  match h with HDict _ => None | HTarget t => run_command g t binary options end.
