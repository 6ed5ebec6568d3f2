(** The commands that manage the configuration and the cache.
    cli/management.py:10-64 (config_list to config_save), 95-123 (cache_path to cache_list),
    config/__init__.py:8-11, 72-80.

    Simplifications.  The configuration (package confuse) is the list of its sources, highest
    priority first, each a tree; the sources above the user's file are set in the program or by
    variables of the environment, those below are defaults.  What is printed is the tree that
    is printed, not its YAML text.  Lists are leaves.  The cache is a list of paths, each a
    list of parts; links are left out. *)
From Coq Require Import List String Ascii Bool Arith Lia.
From Verif Require Import PyStr TextLines Expr.
From Verif Require Registry.
Import ListNotations.
Local Open Scope string_scope.
Local Open Scope list_scope.
Local Open Scope nat_scope.

(** ** trees and views *)
Inductive tree := Leaf (v : string) | Node (l : list (string * tree)).
(** confuse: a key of a mapping *)
Definition child (k : string) (l : list (string * tree)) : option tree := option_map snd (find (fun x => fst x =?s k) l).
(** what a source gives for a key of a view: a value, nothing (KeyError), an error (TypeError) *)
Inductive got := Value (t : tree) | Missing | Wrong.
(** confuse: the value of a view in one source *)
Fixpoint descend (t : tree) (p : list string) : got :=
  match p with
  | [] => Value t
  | k :: p' => match t with
               | Leaf _ => Wrong
               | Node l => match child k l with Some t' => descend t' p' | None => Missing end
               end
  end.
(** View.get: the first value among the sources; [Ok None] is NotFoundError *)
Fixpoint first_value (ss : list tree) (p : list string) : res (option tree) :=
  match ss with
  | [] => Ok None
  | s :: t => match descend s p with Value v => Ok (Some v) | Missing => first_value t p | Wrong => Raise end
  end.
(** keys of the whole configuration: those of all sources, each once *)
Definition top_keys (s : tree) : list string := match s with Node l => map fst l | Leaf _ => [] end.
(** confuse: each key once *)
Fixpoint once (l : list string) : list string :=
  match l with [] => [] | k :: t => k :: filter (fun x => negb (x =?s k)) (once t) end.
(** confuse: the keys of a view *)
Definition all_keys (ss : list tree) : list string := once (flat_map top_keys ss).

(** ** commands *)
Definition levels (key : string) : list string := split_char "." key.
(** {k: c[k].get() for k in list(c)}, management.py:14, 59 *)
Fixpoint gather (ss : list tree) (ks : list string) : res (list (string * tree)) :=
  match ks with
  | [] => Ok []
  | k :: t => do v <- first_value ss [k] ;
              match v with None => Raise | Some v => do r <- gather ss t ; Ok ((k, v) :: r) end
  end.
(** config_list, management.py:10-15: the expression is not used *)
Definition config_list (ss : list tree) (regex : option string) : res tree :=
  do l <- gather ss (all_keys ss) ; Ok (Node l).
(** the loop of config_get, management.py:21-32: `level in c` is the existence of c[level] *)
Fixpoint walk (ss : list tree) (depth : list string) (ls : list string) : res (option (list string)) :=
  match ls with
  | [] => Ok (Some depth)
  | l :: t => do v <- first_value ss (depth ++ [l]) ;
              match v with Some _ => walk ss (depth ++ [l]) t | None => Ok None end
  end.
(** config_get, management.py:18-36; [Ok None]: nothing is printed but the notice of lines 28-29 *)
Definition config_get (ss : list tree) (key : option string) : res (option tree) :=
  match key with
  | None | Some "" => first_value ss []
  | Some k => do d <- walk ss [] (levels k) ;
              match d with
              | None => Ok None
              | Some d => do v <- first_value ss d ; Ok (option_map (fun v => Node [(k, v)]) v)
              end
  end.
(** Subview.set: the value under its keys is a new source before all others *)
Fixpoint nest (p : list string) (v : tree) : tree := match p with [] => v | k :: t => Node [(k, nest t v)] end.
(** config_set, management.py:39-44 *)
Definition config_set (ss : list tree) (key : string) (v : string) : list tree := nest (levels key) (Leaf v) :: ss.
(** config_unset, management.py:47-52: only the local name is deleted *)
Definition config_unset (ss : list tree) (key : string) : list tree := ss.

(** what stays between two commands: variables of the environment, the user's file, defaults;
    config/__init__.py:8-11 with the default file of the package, 72-80 *)
Record world := mkW { w_env : list tree; w_file : option tree; w_defaults : list tree }.
(** the sources of the configuration, highest priority first *)
Definition sources (w : world) : list tree := w_env w ++ (match w_file w with Some f => [f] | None => [] end) ++ w_defaults w.
(** config_save, management.py:55-64, into the directory of the configuration *)
Definition config_save (w : world) (ss : list tree) : res world :=
  do l <- gather ss (all_keys ss) ; Ok (mkW (w_env w) (Some (Node l)) (w_defaults w)).
(** a command line, management.py:67-92, 152-157: each is a program of its own *)
Inductive command := List_ (regex : option string) | Get (key : option string) | Set_ (key value : string) | Unset (key : string) | Save.
(** cli/management.py:10-64 *)
Definition run (w : world) (c : command) : res (option tree * world) :=
  let ss := sources w in
  match c with
  | List_ r => do t <- config_list ss r ; Ok (Some t, w)
  | Get k => do t <- config_get ss k ; Ok (t, w)
  | Set_ k v => let ss' := config_set ss k v in Ok (None, w)
  | Unset k => let ss' := config_unset ss k in Ok (None, w)
  | Save => do w' <- config_save w ss ; Ok (None, w')
  end.

(** ** the cache *)
Definition path := list string.
(** Path.joinpath of a text: an absolute one replaces the path; Registry.parts *)
Definition joinpath (p : path) (s : string) : path := if startswith "/" s then Registry.parts s else p ++ Registry.parts s.
(** what a path means: ".." goes up *)
Fixpoint real (done : path) (p : path) : path :=
  match p with
  | [] => done
  | x :: t => if x =?s ".." then real (removelast done) t else real (done ++ [x]) t
  end.
(** a path inside a directory *)
Fixpoint is_under (d : path) (x : path) : bool :=
  match d, x with
  | [], _ => true
  | a :: d', b :: x' => (a =?s b) && is_under d' x'
  | _ :: _, [] => false
  end.
(** shutil.rmtree; a path that is not there raises *)
Definition rmtree (fs : list path) (d : path) : res (list path) :=
  if existsb (is_under d) fs then Ok (filter (fun x => negb (is_under d x)) fs) else Raise.
(** cli/management.py:100-112, the answer *)
Definition yes (answer : string) : bool := (PyStr.lower answer =?s "yes") || (PyStr.lower answer =?s "y").
(** cli/management.py:100-123 *)
Definition join_opt (p : path) (s : option string) : path := match s with Some n => joinpath p n | None => p end.
(** cache_remove, management.py:100-112; the files that are left *)
Definition cache_remove (fs : list path) (cache : path) (name version : option string) (force : bool) (answer : string) : res (list path) :=
  if force || yes answer then rmtree fs (real [] (join_opt (join_opt cache name) version)) else Ok fs.
(** cache_list, management.py:115-123: the directories in a directory by name; [fs] here are
    the directories *)
Fixpoint insert_name (x : string) (l : list string) : list string :=
  match l with [] => [x] | y :: t => if String.leb x y then x :: l else y :: insert_name x t end.
(** sorted, cli/management.py:115-123 *)
Definition sorted_names (l : list string) : list string := fold_right insert_name [] l.
(** the entries of a directory, cli/management.py:115-123 *)
Definition direct (d : path) (x : path) : option string :=
  if is_under d x && (List.length x =? S (List.length d))%nat then Some (List.last x "") else None.
(** cli/management.py:115-123 *)
Definition cache_list (dirs : list path) (cache : path) (name : option string) : res (list string) :=
  let d := real [] (join_opt cache name) in
  if existsb (fun x => is_under d x && is_under x d) dirs
  then Ok (sorted_names (flat_map (fun x => match direct d x with Some n => [n] | None => [] end) dirs)) else Raise.
