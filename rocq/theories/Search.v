(** SEARCH, SHELL and the texts that describe registries.
    instr/visitor.py:349-362 (visitShell to visitSearchShell), reader/reader.py:51-63
    (prepend_registry to handle_search_keyword), reader/registry.py:401-459
    (registries_match, registry_from_specification), 201-216, 220-262, 280-284 (constructors).

    Simplifications.  The file system, the test of URLs (registry.py:18-36), the shell and
    str.format of a URL are arbitrary functions; whether the list of files of a remote
    registry can be read is an arbitrary test.  Of a registry only what is compared is kept. *)
From Coq Require Import List String Ascii Bool Arith Lia.
From Verif Require Import PyStr TextLines Expr.
From Verif Require Target.
Import Target (words).
Import ListNotations.
Local Open Scope string_scope.
Local Open Scope list_scope.
Local Open Scope nat_scope.

(** what is known of a registry: its name, [root] of a LocalRegistry, [pooch.base_url] of a
    remote one; with the text of the other arguments *)
Inductive reg :=
| Local (name root : string)
| Module (name url file base_url : string)
| GitHub (name url version file base_url : string)
| Memory (name : string).
(** registry.root, a Path only for local registries (registry.py:41, 282, 358) *)
Definition root_of (r : reg) : option string := match r with Local _ p => Some p | _ => None end.
(** registry.pooch.base_url *)
Definition base_of (r : reg) : option string :=
  match r with Module _ _ _ b => Some b | GitHub _ _ _ _ b => Some b | _ => None end.

(** a file system *)
Record fs := mkFs { exists_ : string -> bool; is_dir : string -> bool; is_file : string -> bool; resolve : string -> string }.

(** the operator == of Python *)
Definition same (a : option string) (b : string) : bool := match a with Some x => x =?s b | None => false end.
(** the double quote *)
Definition q : string := """".
(** p[1:-1] if p.startswith and p.endswith a quotation mark, registry.py:441-444 *)
Fixpoint but_last (s : string) : string :=
  match s with EmptyString => "" | String c EmptyString => "" | String c r => String c (but_last r) end.
(** registry.py:441-444 *)
Definition unquote (s : string) : string :=
  if startswith q s && endswith q s then match s with EmptyString => "" | String _ r => but_last r end else s.

Section Search.
  Variable f : fs.
  Variable url_ok : string -> bool.                 (* simple_url_validator(…, file_ok=True) *)
  Variable format : string -> string.               (* base_url.format(version=…) of pooch.create *)
  Variable can_load : reg -> bool.                  (* the constructor ends without an error *)

  (** registries_match, registry.py:401-411, for a text; parts[0] of a blank text raises *)
  Definition registries_match (r : reg) (spec : string) : res bool :=
    match words spec with
    | [] => Raise
    | w1 :: t =>
        let path := match t with [w2] => w2 | _ => w1 end in
        let url := match t with w2 :: _ => w2 | [] => w1 end in
        Ok ((exists_ f path && same (root_of r) (resolve f path)) || same (base_of r) url)
    end.
  (** any(…) of reader.py:58 *)
  Fixpoint any_match (regs : list reg) (spec : string) : res bool :=
    match regs with
    | [] => Ok false
    | r :: t => do b <- registries_match r spec ; if b then Ok true else any_match t spec
    end.
  (** a registry that may be impossible to load *)
  Definition made (r : reg) : res (option reg) := if can_load r then Ok (Some r) else Raise.
  (** GitHubRegistry, registry.py:220-262: base_url, formatted if the version starts with v *)
  Definition github_url (url version : string) : string :=
    let b := (url ++ "/raw/" ++ version ++ "/")%string in if startswith "v" version then format b else b.
  (** registry_from_specification, registry.py:414-459; [Ok None] is None *)
  Definition from_specification (spec : string) : res (option reg) :=
    match words spec with
    | [] => Ok None
    | w1 :: t =>
        let p1 := unquote w1 in
        let p2 := unquote match t with w2 :: _ => w2 | [] => w1 end in
        let p3 := option_map unquote match t with _ :: w3 :: _ => Some w3 | _ => None end in
        let p4 := option_map unquote match t with _ :: _ :: w4 :: _ => Some w4 | _ => None end in
        if exists_ f p2 && is_dir f p2 then Ok (Some (Local p1 (resolve f p2)))
        else if negb (url_ok p2) then Ok None
        else match p3 with
             | None => Raise
             | Some p3 =>
                 if exists_ f p3 && is_file f p3 then made (Module p1 p2 (resolve f p3) (format p2))
                 else match p4 with Some p4 => made (GitHub p1 p2 p3 p4 (github_url p2 p3)) | None => Ok None end
             end
    end.
  (** handle_search_keyword, reader.py:57-63 *)
  Definition handle_search (regs : list reg) (spec : string) : res (list reg) :=
    do b <- any_match regs spec ;
    if b then Ok regs else
    do r <- from_specification spec ;
    match r with Some r => Ok (r :: regs) | None => Raise end.
  (** visitSearchPath, visitor.py:354-355: the literal with its quotation marks *)
  Definition literal (s : string) : string := (q ++ s ++ q)%string.
  (** visitSearchPath, instr/visitor.py:354-355 *)
  Definition search_path (regs : list reg) (s : string) : res (list reg) := handle_search regs (literal s).
  (** SEARCH after SEARCH *)
  Fixpoint search_all (regs : list reg) (specs : list string) : res (list reg) :=
    match specs with [] => Ok regs | s :: t => do regs' <- handle_search regs s ; search_all regs' t end.

  (** subprocess.run(args, shell=True, check=True): the first text is the script, the others
      are $0, $1, …; None is CalledProcessError *)
  Variable shell : string -> list string -> option string.
  (** the end of a line *)
  Definition newline_char : ascii := ascii_of_nat 10.
  (** visitSearchShell, visitor.py:357-362 *)
  Definition search_shell (regs : list reg) (s : string) : res (list reg) :=
    match words (literal s) with
    | [] => Raise
    | script :: args => match shell script args with
                        | None => Raise
                        | Some o => search_all regs (split_char newline_char o)
                        end
    end.
  (** visitShell, visitor.py:349-352 *)
  Definition visit_shell (s : string) : res unit :=
    match split_char " " (literal s) with
    | [] => Raise
    | script :: args => match shell script args with None => Raise | Some _ => Ok tt end
    end.
End Search.
