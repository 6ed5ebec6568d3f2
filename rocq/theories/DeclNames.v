(** The names that the generated C source declares: translators/c_decls.py, c_header.py, c_initialise.py, c_trace.py, c_raytrace.py, c_save.py, c_finally.py, c_display.py.
    Names of the runtime library and of user code are left out. *)
From Coq Require Import List String Ascii Bool Arith.
From Verif Require Import PyStr TextLines.
Import ListNotations.
Local Open Scope string_scope.
Local Open Scope list_scope.

(** a component type: its name and the names of its functions in C, c_initialise.py:307, c_trace.py:114, c_save.py:54, c_finally.py:64, c_display.py:71,
    each made when the type has the section *)
Inductive sect := Initialize | Trace | Save | Finally | Display.
(** the part of a name that tells the section *)
Definition sect_name (s : sect) : string := match s with Initialize => "initialize" | Trace => "trace" | Save => "save" | Finally => "finally" | Display => "display" end.
(** a component type and the sections that it has *)
Record ctype := mkType { t_name : string; t_sections : list sect }.
(** an instrument: its component types in order, its instances (name, SPLIT or not), its groups *)
Record source := mkSource { types : list ctype; instances : list (string * bool); groups : list string }.

(** what is declared, and its name in C *)
Inductive ident :=
| Fixed (s : string)
| TypeParameters (t : string)   (* c_decls.py:186 *)
| TypeClass (t : string)        (* c_decls.py:202 *)
| Variable_of (i : string)      (* c_decls.py:211 *)
| Setpos (i : string)           (* c_initialise.py:181 *)
| Function (s : sect) (t : string).
(** how each of these names is written in C, with the lines given at [ident] *)
Definition c_name (x : ident) : string :=
  match x with
  | Fixed s => s
  | TypeParameters t => "_class_" +++ t +++ "_parameters"
  | TypeClass t => "_class_" +++ t
  | Variable_of i => "_" +++ i +++ "_var"
  | Setpos i => "_" +++ i +++ "_setpos"
  | Function s t => "class_" +++ t +++ "_" +++ sect_name s
  end.
(** typedef names, variables and functions; the fixed ones: c_header.py:154, c_decls.py:25, 56-57, 74, 86-88, 118, c_initialise.py:245, c_raytrace.py:9, 167, 256,
    c_save.py:12, c_finally.py:11, c_display.py:22 *)
Definition fixed_names : list string :=
  ["_class_particle"; "_class_instrument_parameters"; "_instrument_var"; "instrument"; "numipar"; "mcinputtable"; "metadata_table"; "num_metadata"; "mcNUMCOMP";
   "init"; "raytrace"; "raytrace_all"; "raytrace_all_funnel"; "save"; "finally"; "display"].
(** everything that is declared outside functions, with the lines given at [fixed_names] *)
Definition declared (s : source) : list ident :=
  map Fixed fixed_names
  ++ flat_map (fun t => [TypeParameters (t_name t); TypeClass (t_name t)]) (types s)
  ++ flat_map (fun i : string * bool => [Variable_of (fst i); Setpos (fst i)]) (instances s)
  ++ flat_map (fun t => map (fun f => Function f (t_name t)) (t_sections t)) (types s).
(** the same, as written *)
Definition c_names (s : source) : list string := map c_name (declared s).
(** names of structures: c_header.py:129-133, c_decls.py:24, 31, 44, 154, 189 *)
Definition struct_names (s : source) : list string :=
  ["particle_logic_struct"; "_struct_particle"; "_struct_instrument_parameters"; "instrument_logic_struct"; "_instrument_struct"]
  ++ flat_map (fun t => ["_struct_" +++ t_name t +++ "_parameters"; "_struct_" +++ t_name t]) (types s).
(** members of the structure that controls GROUP and SPLIT, c_decls.py:30-40 *)
Definition logic_members (s : source) : list string :=
  map (fun g => "Group_" +++ g) (groups s)
  ++ flat_map (fun i : string * bool => if snd i then ["Split_" +++ fst i; "Split_" +++ fst i +++ "_particle"] else []) (instances s).
