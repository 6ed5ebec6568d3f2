(** Equality of registries and the registry of the C library that the translator adds.
    src/mccode_antlr/reader/registry.py:39-44, 116-122, 186-197, 200-262, 279-284, 345-352, 356-361, 396-398;
    src/mccode_antlr/translators/c.py:227-244; src/mccode_antlr/loader/loader.py:30-35.
    Objects have an identity; == is the protocol of CPython.  Simplifications: pooch.create is the function [place_of] of directory,
    address and version, which is arbitrary; a pathlib.Path is its normalized text; packaging.version.Version is modelled for
    texts of digits and dots, with or without a leading v, and arbitrary for other texts that begin like a version. *)
From Coq Require Import List String Ascii Bool Arith ZArith Lia Permutation Sorted.
From Verif Require Import PyStr TextLines Registry.
Import ListNotations.
Local Open Scope string_scope.
Local Open Scope list_scope.
Local Open Scope nat_scope.

(** the classes of registry.py:39, 115, 200, 219, 279, 355 *)
Inductive class := CRegistry | CRemote | CModule | CGitHub | CLocal | CMemory.
(** the attribute root: None (registry.py:41), a Path (282) or a text (358) *)
Inductive place := NoRoot | PathRoot (p : string) | TextRoot (p : string).
(** the attributes that are compared or looked at; [o_id] is the identity of the object; [o_pooch]: pooch.path and pooch.base_url *)
Record object := mkObj { o_id : nat; o_cls : class; o_name : option string; o_root : place; o_pooch : option (string * string);
                         o_version : option string; o_prio : Z; o_kind : kind }.

(** is the first class a proper subclass of the second; registry.py:115, 200, 219, 279, 355 *)
Definition below (a b : class) : bool :=
  match a, b with
  | CRemote, CRegistry | CModule, CRegistry | CGitHub, CRegistry | CLocal, CRegistry | CMemory, CRegistry => true
  | CModule, CRemote | CGitHub, CRemote => true
  | _, _ => false
  end.

(** what a method __eq__ gives: NotImplemented, a truth value or an exception *)
Inductive answer := NotImpl | Says (b : bool) | Fails.
(** equality of names, one of which may be None *)
Definition name_eqb (a b : option string) : bool :=
  match a, b with Some x, Some y => x =?s y | None, None => true | _, _ => false end.
(** equality of roots: a Path never equals a text *)
Definition root_eqb (a b : place) : bool :=
  match a, b with NoRoot, NoRoot => true | PathRoot x, PathRoot y => x =?s y | TextRoot x, TextRoot y => x =?s y | _, _ => false end.
(** registry.py:186-197 RemoteRegistry.__eq__; a pooch that is None has no path *)
Definition remote_eq (self other : object) : answer :=
  if negb (name_eqb (o_name other) (o_name self)) then Says false
  else match o_pooch other with
       | None => Says false
       | Some (p, u) => match o_pooch self with
                        | None => Fails
                        | Some (p', u') => if negb (p =?s p') then Says false else if negb (u =?s u') then Says false else Says true
                        end
       end.
(** registry.py:345-352 LocalRegistry.__eq__ *)
Definition local_eq (self other : object) : answer :=
  if negb (name_eqb (o_name other) (o_name self)) then Says false
  else if negb (root_eqb (o_root other) (o_root self)) then Says false else Says true.
(** object.__eq__, which registry.py:39 and 355 leave in place *)
Definition object_eq (self other : object) : answer := if o_id self =? o_id other then Says true else NotImpl.
(** the method of a class, registry.py:115-197, 200, 219, 279, 345-352, 355 *)
Definition method (self other : object) : answer :=
  match o_cls self with
  | CRemote | CModule | CGitHub => remote_eq self other
  | CLocal => local_eq self other
  | CRegistry | CMemory => object_eq self other
  end.
(** v == w in CPython: the method of w comes first if the class of w is a proper subclass of that of v; identity decides at last;
    None is an exception *)
Definition equals (v w : object) : option bool :=
  let late := match method v w with
              | Says b => Some b
              | Fails => None
              | NotImpl => if below (o_cls w) (o_cls v) then Some (o_id v =? o_id w)
                           else match method w v with Says b => Some b | Fails => None | NotImpl => Some (o_id v =? o_id w) end
              end in
  if below (o_cls w) (o_cls v) then match method w v with Says b => Some b | Fails => None | NotImpl => late end else late.

(** * Constructors *)
Section Made.
(** pooch.create: directory and base_url for a directory, an address and a version *)
Variable place_of : string -> string -> option string -> string * string.
Variable cache : string.          (* pooch.os_cache of the empty text *)
Variable package : string.        (* mccode_antlr_version() *)
(** registry.py:39-44 *)
Definition new_base (i : nat) : object := mkObj i CRegistry None NoRoot None None 0 (Memory []).
(** registry.py:116-122 *)
Definition new_remote (i : nat) (name version : option string) (prio : Z) : object := mkObj i CRemote name NoRoot None version prio (Remote []).
(** registry.py:201-217 *)
Definition new_module (i : nat) (name url : string) (version : option string) (prio : Z) (files : list (string * string)) : object :=
  mkObj i CModule (Some name) NoRoot
    (Some (place_of (cache +++ "/mccode_antlr/mccode_antlr-" +++ name) url (Some (match version with Some v => v | None => package end))))
    version prio (Remote files).
(** registry.py:220-262; [files] is the list of files, wherever it comes from *)
Definition new_github (i : nat) (name url version : string) (prio : Z) (files : list (string * string)) : object :=
  mkObj i CGitHub (Some name) NoRoot
    (Some (place_of (cache +++ "/mccode_antlr/" +++ name) (url +++ "/raw/" +++ version +++ "/") (if startswith "v" version then Some version else None)))
    (Some version) prio (Remote files).
(** registry.py:280-284 *)
Definition new_local (i : nat) (name root : string) (prio : Z) (entries : list (list string * option string)) : object :=
  mkObj i CLocal (Some name) (PathRoot root) None (Some package) prio (Local entries).
(** registry.py:356-361 *)
Definition new_memory_registry (i : nat) (name : string) (prio : Z) (d : store) : object :=
  mkObj i CMemory (Some name) (TextRoot "/proc/memory/") None (Some package) prio (Memory d).
(** what the constructors make *)
Inductive made : object -> Prop :=
| made_base i : made (new_base i)
| made_remote i n v p : made (new_remote i n v p)
| made_module i n u v p fs : made (new_module i n u v p fs)
| made_github i n u v p fs : made (new_github i n u v p fs)
| made_local i n r p es : made (new_local i n r p es)
| made_memory i n p d : made (new_memory_registry i n p d).
End Made.

(** * The order of registries *)
(** sorted(key=priority, reverse=True), registry.py:396-398 *)
Fixpoint put_in (r : object) (l : list object) : list object :=
  match l with [] => [r] | x :: t => if (o_prio x <=? o_prio r)%Z then r :: l else x :: put_in r t end.
(** ordered_registries, registry.py:396-398 *)
Fixpoint ordered_objects (l : list object) : list object := match l with [] => [] | r :: t => put_in r (ordered_objects t) end.
(** the registry of Registry.v that looks up files *)
Definition core (r : object) : registry := mkReg (match o_name r with Some n => n | None => "" end) (o_prio r) (o_kind r).

(** * Membership *)
(** any(reg == needed for reg in l), translators/c.py:235; None is an exception *)
Fixpoint any_equal (needed : object) (l : list object) : option bool :=
  match l with
  | [] => Some false
  | r :: t => match equals r needed with Some true => Some true | Some false => any_equal needed t | None => None end
  end.
(** needed in l: an element is the object itself, or equal to it *)
Fixpoint is_in (needed : object) (l : list object) : option bool :=
  match l with
  | [] => Some false
  | r :: t => if o_id r =? o_id needed then Some true
              else match equals r needed with Some true => Some true | Some false => is_in needed t | None => None end
  end.
(** loader.py:30-35 ensure_registry *)
Definition ensure (needed : object) (have : option (list object)) : option (list object) :=
  match have with
  | None | Some [] => Some [needed]
  | Some l => match is_in needed l with Some true => Some l | Some false => Some (l ++ [needed]) | None => None end
  end.

(** * Versions *)
(** the number that digits stand for, the most significant first *)
Definition number (s : string) : N :=
  fold_left (fun n c => (10 * n + N.of_nat (nat_of_ascii c - 48))%N) (list_ascii_of_string s) 0%N.
(** a text of digits only, with at least one *)
Definition digits (s : string) : bool := negb (s =?s "") && forallb digit (list_ascii_of_string s).
(** the leading v that packaging.version.Version ignores, translators/c.py:242 *)
Definition no_v (s : string) : string := match s with String c t => if Ascii.eqb c "v" || Ascii.eqb c "V" then t else s | _ => s end.
(** packaging.version.Version for digits and dots: the numbers of the release, translators/c.py:242 *)
Definition release (s : string) : option (list N) :=
  let ps := split_char "." (no_v s) in if forallb digits ps then Some (map number ps) else None.
(** comparison of releases, the shorter one padded with zeros; translators/c.py:242 *)
Fixpoint less (a b : list N) : bool :=
  match a, b with
  | [], [] => false
  | [], y :: t => if (y =? 0)%N then less [] t else true
  | x :: s, [] => false
  | x :: s, y :: t => if (x <? y)%N then true else if (x =? y)%N then less s t else false
  end.
(** does the text begin like a version, after white space and a v *)
Definition begins_like_version (s : string) : bool := match no_v (lstrip s) with String c _ => digit c | _ => false end.
Section Check.
(** Version(s) < Version("3.5.20") for texts with more than digits and dots; None: InvalidVersion *)
Variable other_older : string -> option bool.
(** Version(version) < Version("3.5.20"), translators/c.py:242; Version(None) raises *)
Definition older (v : option string) : option bool :=
  match v with
  | None => None
  | Some s => match release s with
              | Some r => Some (less r [3; 5; 20]%N)
              | None => if begins_like_version s then other_older s else None
              end
  end.
(** translators/c.py:240-244: the number of warnings; None: an exception *)
Fixpoint warnings (l : list object) : option nat :=
  match l with
  | [] => Some 0
  | r :: t => if name_eqb (o_name r) (Some "libc") then
                match older (o_version r), warnings t with Some b, Some n => Some (if b then S n else n) | _, _ => None end
              else warnings t
  end.
(** translators/c.py:235-237 *)
Definition with_library (libc : object) (regs : list object) : option (list object) :=
  match any_equal libc regs with
  | Some b => Some (ordered_objects (if b then regs else regs ++ [libc]))
  | None => None
  end.
(** translators/c.py:227-244, the start of __post_init__: the registries of the instrument from then on, and the warnings *)
Definition prepare (libc : object) (regs : list object) : option (list object * nat) :=
  match with_library libc regs with
  | Some l => match warnings l with Some n => Some (l, n) | None => None end
  | None => None
  end.
End Check.
