(** The version of the component libraries: reader/registry.py:462-487 (_mccode_pooch_registries),
    219-263 (GitHubRegistry.__init__, as far as the places of files are concerned).

    Simplifications.  What git prints is a text, the configuration three texts; \d is an ASCII
    digit (Python takes any decimal digit).  The libraries pooch and git are not modelled: of
    pooch.create and fetch only that a file is kept under the directory of the cache, the
    version and its name, and comes from the base URL followed by its name. *)
From Coq Require Import List String Ascii Bool Arith Lia.
From Verif Require Import PyStr TextLines Expr.
Import ListNotations.
Local Open Scope string_scope.
Local Open Scope list_scope.
Local Open Scope nat_scope.

(** \d, registry.py:468 *)
Definition is_digit (c : ascii) : bool := let n := nat_of_ascii c in (48 <=? n) && (n <=? 57).
(** the longest run of digits and what comes after it *)
Fixpoint span (s : string) : string * string :=
  match s with
  | EmptyString => ("", "")
  | String c r => if is_digit c then let (d, t) := span r in (String c d, t) else ("", s)
  end.
(** \.\d+, at the start of a text; registry.py:468 *)
Definition dot_part (s : string) : option (string * string) :=
  match s with
  | String "." r => match span r with (EmptyString, _) => None | (d, t) => Some (String "." d, t) end
  | _ => None
  end.
(** v\d+(?:\.\d+(?:\.\d+)?)? at the start of a text: what matches and the rest; registry.py:468 *)
Definition match_tag (s : string) : option (string * string) :=
  match s with
  | String "v" r =>
      match span r with
      | (EmptyString, _) => None
      | (d, t) =>
          match dot_part t with
          | None => Some (String "v" d, t)
          | Some (p, u) => match dot_part u with
                           | None => Some (String "v" (d +++ p), u)
                           | Some (p', w) => Some (String "v" (d +++ p +++ p'), w)
                           end
          end
      end
  | _ => None
  end.
(** ex.findall(res), registry.py:469: the matches from left to right, none inside another; the
    number bounds the length of the text *)
Fixpoint find_tags (n : nat) (s : string) : list string :=
  match n, s with
  | 0, _ => []
  | _, EmptyString => []
  | S k, String _ r => match match_tag s with Some (m, t) => m :: find_tags k t | None => find_tags k r end
  end.
(** the tags in the answer of git, registry.py:469 *)
Definition known_tags (s : string) : list string := find_tags (String.length s) s.

(** the operator in of Python on lists *)
Definition isin (x : string) (l : list string) : bool := existsb (String.eqb x) l.
(** source_registry_tag, registry.py:471-482: the tag; known_tags[0] of no tags raises *)
Definition library_tag (requested listing : string) : res string :=
  let tags := known_tags listing in
  if lower requested =?s "latest" then match tags with [] => Raise | t :: _ => Ok t end
  else if isin requested tags then Ok requested else Raise.

(** a GitHubRegistry: where its list of files comes from, where its files come from, where both
    are kept; registry.py:220-263 *)
Record github := mkGithub { g_name : string; g_list_url : string; g_list_file : string; g_base : string; g_dir : string }.
(** GitHubRegistry(name, src, tag, registry=reg), registry.py:220-262, [cache] being pooch.os_cache("") *)
Definition github_registry (cache name src tag reg : string) : github :=
  let file := name +++ "-registry.txt" in
  let dir := (cache +++ "/mccode_antlr/" +++ name)%string in
  mkGithub name
    (reg +++ "/raw/" +++ tag +++ "/" +++ file)
    (dir +++ "/" +++ tag +++ "/" +++ file)
    (src +++ "/raw/" +++ tag +++ "/")
    (if startswith "v" tag then dir +++ "/" +++ tag else dir).
(** _mccode_pooch_registries, registry.py:484-487: MCSTAS, MCXTRACE and LIBC *)
Definition pooch_registries (cache src reg requested listing : string) : res (list github) :=
  match library_tag requested listing with
  | Ok tag => Ok (map (fun n => github_registry cache n src tag reg) ["mcstas"; "mcxtrace"; "libc"])
  | Raise => Raise
  | Fuel => Fuel
  end.
(** where pooch gets a file and where it keeps it *)
Definition file_url (g : github) (f : string) : string := g_base g +++ f.
(** pooch: the path of a file that was downloaded *)
Definition kept_at (g : github) (f : string) : string := (g_dir g +++ "/" +++ f)%string.
