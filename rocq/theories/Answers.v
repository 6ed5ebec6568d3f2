(** What a reader says about a file before it is read, and the search for file names.
    src/mccode_antlr/reader/reader.py:97-111; src/mccode_antlr/reader/registry.py:9-15, 74-85, 183-184, 342-343, 376-377.
    Simplifications: a regular expression is the set of places where it matches, which is arbitrary; a local registry does not
    have the root directory or the empty path as its root, and there are no symbolic links. *)
From Coq Require Import List String Ascii Bool Arith ZArith Lia.
From Verif Require Import PyStr TextLines Registry.
From Verif Require ConfigFile.
Import ListNotations.
Local Open Scope string_scope.
Local Open Scope list_scope.
Local Open Scope nat_scope.

(** [f x for x in l], where f may raise *)
Fixpoint each {A B} (f : A -> option B) (l : list A) : option (list B) :=
  match l with
  | [] => Some []
  | x :: t => match f x, each f t with Some y, Some r => Some (y :: r) | _, _ => None end
  end.
(** reader.py:97-99 known: the list is made before any looks at it, so every registry is asked *)
Definition reader_known (regs : list registry) (which : option string) (name : string) (strict : bool) : option bool :=
  option_map (existsb (fun b => b)) (each (fun r => r_known r name None strict) (selected regs which)).
(** reader.py:101-103 unique *)
Definition reader_unique (regs : list registry) (which : option string) (name : string) : option bool :=
  option_map (fun l => List.length (filter (fun b => b) l) =? 1) (each (fun r => ConfigFile.unique r name) (selected regs which)).
(** reader.py:105-107 contain *)
Definition reader_contain (regs : list registry) (which : option string) (name : string) (strict : bool) : option (list string) :=
  option_map (fun l => map fst (filter snd l)) (each (fun r => option_map (pair (r_name r)) (r_known r name None strict)) (selected regs which)).
(** reader.py:109-111 stream: the text that the parser gets *)
Definition reader_stream (regs : list registry) (which : option string) (name : string) (strict : bool) : option string :=
  reader_contents regs which name None strict.

(** * Search *)
(** Path.glob of two stars, registry.py:342-343, below a root: directories only before Python 3.13, directories and files since; the
    root itself is one of them *)
Definition glob_stars (py313 : bool) (root : string) (entries : list (list string * option string)) : list string :=
  root :: map (fun e => root +++ "/" +++ join "/" (fst e)) (filter (fun e => match snd e with None => true | Some _ => py313 end) entries).
(** registry.py:183-184, 342-343, 376-377 filenames *)
Definition filenames (py313 : bool) (root : string) (r : registry) : list string :=
  match r_kind r with
  | Remote fs => map fst fs
  | Local es => glob_stars py313 root es
  | Memory d => map fst d
  end.
(** a regular expression: does it match the text from a position on *)
Definition regex := string -> nat -> bool.
(** what can be given for a regular expression: a text, a compiled one, something else *)
Inductive pattern := Text (s : string) | Compiled (p : regex) | Neither.
Section Search.
Variable compile : string -> option regex.   (* re.compile; None: re.error *)
(** registry.py:9-15 ensure_regex_pattern *)
Definition ensure_regex (p : pattern) : option regex := match p with Text s => compile s | Compiled q => Some q | Neither => None end.
(** Pattern.search finds the expression anywhere, registry.py:80 *)
Definition anywhere (q : regex) (x : string) : bool := existsb (q x) (seq 0 (S (String.length x))).
(** Pattern.match at the start of the text, registry.py:85 *)
Definition at_start (q : regex) (x : string) : bool := q x 0.
(** registry.py:77-80 search *)
Definition search (names : list string) (p : pattern) : option (list string) := option_map (fun q => filter (anywhere q) names) (ensure_regex p).
(** registry.py:82-85 match *)
Definition matching (names : list string) (p : pattern) : option (list string) := option_map (fun q => filter (at_start q) names) (ensure_regex p).
End Search.
