(** The header that is configured and put into the C source.
    translators/target.py:56-122 (known to embed_file), config/__init__.py:49-69
    (registry_defaults), translators/c.py:302, reader/registry.py:148-149, 306-307 (unique).

    Simplifications.  The configuration (package confuse) is the list of its sources, highest
    priority first; a value is the text str() gives for it.  The number parts of a version
    (package packaging), the printed form of a registry and the date are arbitrary. *)
From Coq Require Import List String Ascii Bool Arith ZArith Lia.
From Verif Require Import PyStr TextLines Expr Registry DatFile.
From Verif Require Flags.
From Verif Require InstanceText.
Import InstanceText (newline).
Import ListNotations.
Local Open Scope string_scope.
Local Open Scope list_scope.
Local Open Scope nat_scope.

(** ** the regular expression of target.py:107: @MCCODE_, a group of any number of A to Z and _, @ *)
Definition key_char (c : ascii) : bool := (((65 <=? nat_of_ascii c) && (nat_of_ascii c <=? 90)) || (nat_of_ascii c =? 95))%nat.
(** the longest run of such characters, and what is behind it *)
Fixpoint run (s : string) : string * string :=
  match s with
  | EmptyString => ("", "")
  | String c r => if key_char c then let '(k, t) := run r in (String c k, t) else ("", s)
  end.
(** the texts that are looked for, translators/target.py:106-107 *)
Definition key_prefix : string := "@MCCODE_".
(** a match at the start of the text: the group *)
Definition match_key (s : string) : option string :=
  if startswith key_prefix s
  then match run (Flags.drop (String.length key_prefix) s) with
       | (k, String c _) => if ascii_dec c "@" then Some k else None
       | _ => None
       end
  else None.

Section Configure.
  (** re.sub of target.py:107: [skip] characters belong to a match already replaced *)
  Fixpoint sub (f : string -> res string) (skip : nat) (s : string) : res string :=
    match s with
    | EmptyString => Ok ""
    | String c r =>
        match skip with
        | S n => sub f n r
        | O => match match_key s with
               | Some k => do v <- f k ; do t <- sub f (String.length key_prefix + String.length k) r ; Ok (v ++ t)%string
               | None => do t <- sub f 0 r ; Ok (String c t)
               end
        end
    end.

  (** ** the configuration: a source gives a text or a table for a name *)
  Inductive entry := Leaf (v : string) | Table (l : list (string * string)).
  (** the sources of the configuration, highest priority first *)
  Definition conf := list (list (string * entry)).
  (** d.get(k) *)
  Definition assoc {A} (k : string) (l : list (string * A)) : option A := option_map snd (find (fun x => fst x =?s k) l).
  (** config[flavor][name]: the first source that has both; a text has no entries (TypeError) *)
  Fixpoint lookup (c : conf) (flavor name : string) : res (option string) :=
    match c with
    | [] => Ok None
    | s :: t => match assoc flavor s with
                | None => lookup t flavor name
                | Some (Leaf _) => Raise
                | Some (Table l) => match assoc name l with Some v => Ok (Some v) | None => lookup t flavor name end
                end
    end.
  (** replacement, target.py:95-104 *)
  Definition replacement (c : conf) (flavor group : string) : res string :=
    let name := lower group in
    do v <- lookup c flavor name ;
    Ok (match v with
        | Some t => t
        | None => if contains "date" name then "1970-01-01"
                  else if (name =?s "version_macro") || contains "number" name then "0" else "{UNKNOWN}"
        end).

  Variable parse_version : string -> option (Z * Z * Z).   (* packaging.version.Version; None is InvalidVersion *)
  Variable version_of : registry -> option string.         (* registry.version, None for Python's None *)
  Variable text_of : registry -> string.                   (* str(registry) *)
  Variable today : string.

  (** version_macro, config/__init__.py:53-59; Version(None) raises TypeError *)
  Definition macro_of (v : Z * Z * Z) : Z := let '(a, b, c) := v in ((a * 100 + b) * 1000 + c)%Z.
  Definition version_macro (v : option string) : res Z :=
    match v with
    | None => Raise
    | Some s => match parse_version s with Some n => Ok (macro_of n) | None => Ok 399999%Z end
    end.
  (** str(x) of a text or None *)
  Definition str_opt (v : option string) : string := match v with Some s => s | None => "None" end.
  (** replace of config/__init__.py:63 *)
  Fixpoint no_newlines (s : string) : string :=
    match s with
    | EmptyString => ""
    | String c r => if ascii_dec c (ascii_of_nat 10) then no_newlines r else String c (no_newlines r)
    end.
  (** registry_defaults, config/__init__.py:49-69, for one project: config.set puts the new source in front *)
  Definition registry_defaults (c : conf) (r : registry) (project : string) : res conf :=
    do m <- version_macro (version_of r) ;
    Ok ([(project, Table [("string", no_newlines (text_of r)); ("version", str_opt (version_of r)); ("version_macro", str_Z m); ("date", today)])] :: c).

  (** unique, registry.py:148-149 and 306-307; Registry.unique of a registry in memory has no result, registry.py:62-63 *)
  Definition unique (r : registry) (name : string) : option bool :=
    match r_kind r with
    | Remote fs => Some (List.length (filter (fun x => contains name x) (map fst fs)) =? 1)%nat
    | Local es => option_map (fun l => List.length l =? 1)%nat (glob_all (map fst es) name)
    | Memory _ => Some false
    end.
  (** the list of target.py:89 *)
  Fixpoint uniques (regs : list registry) (name : string) : option (list registry) :=
    match regs with
    | [] => Some []
    | r :: t => match unique r name, uniques t name with
                | Some b, Some l => Some (if b then r :: l else l)
                | _, _ => None
                end
    end.
  (** locate, target.py:62-69, and the reading of target.py:83-86: the path as text, and the contents.
      A registry in memory has no path. *)
  Definition read_file (regs : list registry) (name : string) : res (string * string) :=
    match first_known regs name None false with
    | Some (Some r) => match r_path r name None, r_contents r name None with
                       | Some (Some p), Some c => Ok (p, c)
                       | _, _ => Raise
                       end
    | _ => Raise
    end.
  (** a line that is written, with its line end *)
  Definition out (s : string) : string := (s ++ newline)%string.
  (** a text between quotation marks *)
  Definition quoted (s : string) : string := ("""" ++ s ++ """")%string.
  (** configure_file, target.py:74-113: the text written and the configuration left behind *)
  Definition configure_file (regs : list registry) (c : conf) (filename flavor : string) : res (string * conf) :=
    if negb (endswith ".h.in" filename) then Raise else
    do pc <- read_file regs filename ;
    let '(p, contents) := pc in
    match uniques regs filename with
    | Some [r] =>
        do c' <- registry_defaults c r (r_name r) ;
        do t <- sub (replacement c' flavor) 0 contents ;
        Ok ((out ("/* embedding configured version of file " ++ quoted p ++ " */") ++ out t ++
             out ("/* end of configured version of file " ++ quoted p ++ " */"))%string, c')
    | _ => Raise
    end.
  (** embed_file, target.py:115-122 *)
  Definition embed_file (regs : list registry) (filename : string) : res string :=
    do pc <- read_file regs filename ;
    let '(p, contents) := pc in
    Ok (out ("/* embedding file " ++ quoted p ++ " */") ++ contents ++ out ("/* end of file " ++ quoted p ++ " */"))%string.
End Configure.
