(** Which files a command reads and writes: the registries of the command line, the instrument file and the output file.
    src/mccode_antlr/cli/commands.py:43-81, run/runner.py:267-283, reader/reader.py:143-175, loader/loader.py:17-35,
    reader/registry.py:371-374 (InMemoryRegistry.add_instr), translators/target.py:51-72 *)
From Coq Require Import List String Ascii Bool Arith ZArith Lia.
From Verif Require Import PyStr TextLines Registry.
Import ListNotations.
Local Open Scope string_scope.
Local Open Scope list_scope.
Local Open Scope nat_scope.

(** * The registries of the command line *)
(** a directory on disk: its resolved path and what is below it *)
Record directory := mkDir { d_path : string; d_entries : list (list string * option string) }.
(** registry.py:279-284 LocalRegistry.__init__ with its default priority *)
Definition local_registry (name : string) (d : directory) : registry := mkReg name 10 (Local (d_entries d)).
(** cli/commands.py:61-66 and run/runner.py:272-278: [dirs] are the directories given with -I, in order ([] if there are none) *)
Definition cli_registries (remote : registry) (dirs : list directory) (cwd : directory) : list registry :=
  ([remote] ++ map (fun d => local_registry (stem_of (base (d_path d))) d) dirs) ++ [local_registry "working_directory" cwd].

(** loader.py:30-35; [same] is Registry.__eq__ *)
Definition ensure_registry (same : registry -> registry -> bool) (needed : registry) (have : option (list registry)) : list registry :=
  match have with
  | None | Some [] => [needed]
  | Some l => if existsb (same needed) l then l else l ++ [needed]
  end.

(** * The instrument file *)
(** where a text was read: a path on disk, or a file of a registry *)
Inductive place := OnDisk (p : string) | Within (r : registry) (p : string).
(** reader.py:152-159; [disk p]: the text of p if p exists and is a file; None: an exception.
    locate (68-75) gives the path the first registry that knows the name has for it, Python's None (no attribute name) for an
    InMemoryRegistry; contents (77-86) starts again with the name of that path. *)
Definition read_source (disk : string -> option string) (regs : list registry) (name : string) : option (place * string) :=
  match name_plus_suffix name (Some ".instr") with
  | None => None
  | Some p =>
    match disk p with
    | Some t => Some (OnDisk p, t)
    | None =>
      match first_known (selected regs None) (base p) None false with
      | Some (Some r) =>
        match r_path r (base p) None with
        | Some (Some q) =>
          match reader_contents regs None (base q) None false with
          | Some t => Some (Within r q, t)
          | None => None
          end
        | _ => None
        end
      | _ => None
      end
    end
  end.
(** registry.py:371-374 InMemoryRegistry.add_instr *)
Definition instr_key (k : string) : string := if endswith ".instr" (lower k) then k else k +++ ".instr".
(** InMemoryRegistry.add_instr, registry.py:371-374 *)
Definition add_instr (d : store) (k v : string) : store := put d (instr_key k) v.

(** * The command *)
(** cli/commands.py:58: the output file; [file] is resolved, so absolute, and not the root directory *)
Definition output_file (o : option string) (file : string) : option string :=
  match o with Some x => Some x | None => with_suffix file ".c" end.
(** what a command starts from: the registries and text of an instrument file, or an instrument stored in HDF5 *)
Inductive input := Source (regs : list registry) (at_ : place) (text : string) | Stored (file : string).
(** cli/commands.py:68-76, run/runner.py:267-282 *)
Definition command_input (disk : string -> option string) (remote : registry) (dirs : list directory) (cwd : directory) (file : string) : option input :=
  if lower (suffix_of (base file)) =?s ".h5" then Some (Stored file)
  else let regs := new_reader (cli_registries remote dirs cwd) in
       match read_source disk regs file with Some (w, t) => Some (Source regs w t) | None => None end.

(** * The registries of the instrument, which the translator looks into *)
(** target.py:62-69 locate: the registries in the order the instrument has them *)
Definition target_locate (regs : list registry) (name : string) : option (option string) :=
  match first_known (selected regs None) name None false with Some (Some r) => r_path r name None | _ => None end.
(** loader.py:22 and 26: the registries components are read from, and those the instrument gets (SEARCH is in InclMerge.v) *)
Definition loader_registries (regs : list registry) : list registry * list registry := (new_reader regs, regs).
(** reader.py:174 *)
Definition reader_registries (regs : list registry) : list registry * list registry := (new_reader regs, new_reader regs).
