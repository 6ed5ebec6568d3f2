(** The instrument file inside the executable: what the C source says about the instrument it was made from. *)
From Coq Require Import List Bool NArith String Ascii.
From Verif Require Import CText.
Import ListNotations.
Local Open Scope N_scope.
Local Open Scope list_scope.

(** a Python text: code points, as in CText.v *)
Definition Text := list N.
(** a constant text of the source code (for translators/c_header.py:273-282) *)
Fixpoint codes (s : string) : Text := match s with String c r => N_of_ascii c :: codes r | EmptyString => [] end.

(** What can stand under a path when it is opened (for translators/c_header.py:276-279, pathlib.Path.exists, os.access, Path.open). *)
Inductive file := Absent | Locked | Directory | Undecodable | Holds (t : Text).
(** files by their path *)
Definition disk := Text -> file.

(** Python's text mode, used by translators/c_header.py:278-279, reader/reader.py:156 and loader/loader.py:49: each of \r\n and \r is read as \n. *)
Fixpoint newlines (t : Text) : Text :=
  match t with
  | 13 :: r => match r with 10 :: r' => 10 :: newlines r' | _ => 10 :: newlines r end
  | c :: r => c :: newlines r
  | [] => []
  end.
(** pathlib.Path.read_text (reader/reader.py:156, loader/loader.py:49) and Path.open('r').read() (translators/c_header.py:278-279); None: an exception *)
Definition read_text (d : disk) (p : Text) : option Text := match d p with Holds t => Some (newlines t) | _ => None end.
(** pathlib.Path.exists (translators/c_header.py:277) *)
Definition exists_ (d : disk) (p : Text) : bool := match d p with Absent => false | _ => true end.
(** os.access(path, R_OK) (translators/c_header.py:277) *)
Definition readable (d : disk) (p : Text) : bool := match d p with Absent | Locked => false | _ => true end.

Section Embed.
(** the rest of an instrument *)
Variable Body : Type.
(** grammar and visitor: the name of the instrument and all else, or an exception (reader/reader.py:162-171, loader/loader.py:22-24) *)
Variable parse : Text -> option (Text * Body).

(** instr/instr.py:14-34 Instr: the name, the source and the rest *)
Record instr := mkInstr { i_name : Text; i_source : option Text; i_body : Body }.

(** reader/reader.py:143-175 Reader.get_instrument of a file that exists: its resolved path becomes the source.
    Which file a name stands for is modelled in SourceFiles.v. *)
Definition get_instrument (d : disk) (p : Text) : option instr :=
  match read_text d p with
  | Some t => match parse t with Some (n, b) => Some (mkInstr n (Some p) b) | None => None end
  | None => None
  end.
(** loader/loader.py:17-27, 48-49 load_mccode_instr: the path is handed to the visitor only, the source of the instrument stays None *)
Definition load_mccode_instr (d : disk) (p : Text) : option instr :=
  match read_text d p with
  | Some t => match parse t with Some (n, b) => Some (mkInstr n None b) | None => None end
  | None => None
  end.
(** assembler/assembler.py:15: an instrument that is put together by a program *)
Definition assembled (n : Text) (b : Body) : instr := mkInstr n (Some (codes "interactive")) b.

(** the entries of the configuration that c_header.py:266-304 uses *)
Record config := mkConfig { c_embed : bool; c_main : bool; c_flavor : option Text }.
(** cli/commands.py:52-59: the options --source and --no-main; there is no entry for the flavor *)
Definition translate_config (source no_main : bool) : config := mkConfig source (negb no_main) None.
(** run/runner.py:136-138, 211, 239-244: the defaults, updated with the option --source *)
Definition run_config (source : bool) : config := mkConfig source true None.

(** c_header.py:282, the text of config.get('flavor') *)
Definition flavor_text (c : config) : Text := match c_flavor c with Some f => f | None => codes "None" end.
(** common/utilities.py:1-4 escape_str_for_c with None *)
Definition escape_option (s : option Text) : Text := match s with Some t => escape t | None => [] end.
(** translators/c_header.py:269-283 source_file_contents; None: an exception *)
Definition source_file_contents (d : disk) (i : instr) (c : config) : option Text :=
  match i_source i with
  | None => if c_embed c then None else Some (codes "Instrument source code is not embedded in this executable.")
  | Some p =>
    if c_embed c && exists_ d p && readable d p then option_map escape (read_text d p)
    else Some (codes "Instrument " ++ i_name i ++ codes " source code " ++ codes "from " ++ escape p ++ codes " is not embedded in this executable." ++ [92; 110]
               ++ codes "Use --source option when running " ++ flavor_text c)
  end.

(** translators/c_header.py:296-302, the values of the definitions as they are written, and whether main is defined.
    The trace switch and the macro of the include path are left out. *)
Record header := mkHeader { h_defaultmain : N; h_name : list N; h_source : list N; h_code : list N; h_main : bool }.
(** translators/c_header.py:266-304 header_post_runtime *)
Definition header_post_runtime (d : disk) (i : instr) (c : config) : option header :=
  match source_file_contents d i c with
  | Some t => Some (mkHeader (if c_main c then 1 else 0) (34 :: i_name i ++ [34]) (34 :: escape_option (i_source i) ++ [34]) (34 :: t ++ [34]) (c_main c))
  | None => None
  end.
End Embed.
Arguments mkInstr {Body}. Arguments i_name {Body}. Arguments i_source {Body}. Arguments i_body {Body}.
Arguments get_instrument {Body}. Arguments load_mccode_instr {Body}. Arguments assembled {Body}.
Arguments source_file_contents {Body}. Arguments header_post_runtime {Body}.
