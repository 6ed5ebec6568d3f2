(** The particle structure and the functions of the generated C that reach its members by name: translators/c_header.py:20-86, 133-262, c_particle.py, c_macros.py:21-35.

    Simplifications: memory is a function from addresses (relative to the particle) to bytes.  Sizes of types, the size of a pointer and the places of the members are arbitrary;
    the decimal forms and conversions of C are arbitrary functions.  Initial values of user variables depend only on their text. *)
From Coq Require Import List String Ascii Bool NArith ZArith Arith Lia.
From Verif Require Import PyStr UserVars.
Import ListNotations.
Local Open Scope string_scope.
Local Open Scope list_scope.
Local Open Scope nat_scope.

(** * Names of members *)
(** translators/c_particle.py:5-18 xyz_Axyz_Bxyz, names: all have the same type *)
Definition xyz (p : string) : list string := map (fun x => (p ++ x)%string) ["x"; "y"; "z"].
(** the names for neutrons and for x-rays, translators/c_particle.py:5-18 *)
Definition zab (mcstas : bool) : list string * list string * list string :=
  if mcstas then (xyz "", xyz "v", xyz "s") else (xyz "", xyz "k" ++ ["phi"], xyz "E").
(** translators/c_particle.py:53-76; all are double *)
Definition accessible (mcstas : bool) : list string :=
  let '(z, a, b) := zab mcstas in (z ++ a ++ b) ++ ["t"; "p"; "_mctmp_a"; "_mctmp_b"; "_mctmp_c"].
(** translators/c_particle.py:78-91 *)
Definition restorable (mcstas : bool) : list string := let '(z, a, b) := zab mcstas in z ++ a ++ b ++ ["t"; "p"].
(** translators/c_particle.py:94-105, names *)
Definition setstate_members (mcstas : bool) : list string :=
  let '(z, a, b) := zab mcstas in z ++ a ++ ["t"] ++ b ++ ["p"; "mcgravitation"; "mcMagnet"; "allow_backprop"].
(** d[k] *)
Fixpoint get {V} (k : string) (l : list (string * V)) : option V := match l with [] => None | (k', v) :: l => if k' =?s k then Some v else get k l end.
(** translators/c_particle.py:118-127 *)
Definition setstate_call (mcstas : bool) : list string :=
  let values := [((if mcstas then "vz" else "kz"), "1"); ("p", "1"); ("mcgravitation", "mcgravitation"); ("mcMagnet", "NULL"); ("allow_backprop", "mcallowbackprop")] in
  map (fun k => match get k values with Some v => v | None => "0" end) (setstate_members mcstas).

(** * User variables *)
Definition quals_of (d : decl) : quals := match d with Plain _ q | Fun _ _ _ q => q end.
(** s.strip(' ') is not empty *)
Fixpoint not_blank (s : string) : bool := match s with EmptyString => false | String c r => negb (Ascii.eqb c " ") || not_blank r end.
(** translators/c_listener.py:112-114 *)
Definition is_pointer (d : decl) : bool := match q_pointer (quals_of d) with Some s => not_blank s | None => false end.
(** translators/c_listener.py:116-121 *)
Fixpoint is_array (d : decl) : bool :=
  match d with Plain _ q => match q_elements q with Some _ => true | None => false end
  | Fun e _ _ q => match q_elements q with Some _ => true | None => is_array e end end.
(** x.dtype in an f-string *)
Definition dtype (d : decl) : string := match q_dtype (quals_of d) with Some t => t | None => "None" end.

(** * The structure in memory *)
Definition byte := N.
(** the bytes of the structure *)
Definition mem := nat -> byte.
(** the [n] bytes from [a] on *)
Definition bytes (m : mem) (a n : nat) : list byte := map m (seq a n).
(** writing bytes from [a] on *)
Definition put (m : mem) (a : nat) (l : list byte) : mem := fun i => if (a <=? i) && (i <? a + List.length l) then nth (i - a) l 0%N else m i.

Section Structure.
  (** what sizeof gives for the text of a type, and for pointers *)
  Variable sizeof : string -> nat.
  Variable psize : nat.
  (** the members of struct _struct_particle with their sizes: c_header.py:25-35, 133-151 *)
  Definition sized (t : string) (l : list string) : list (string * nat) := map (fun n => (n, sizeof t)) l.
  (** the members that every particle has, c_header.py:25-35, 133-151 *)
  Definition builtin (mcstas : bool) : list (string * nat) :=
    sized "double" ["x"; "y"; "z"]
    ++ (if mcstas then sized "double" ["vx"; "vy"; "vz"; "sx"; "sy"; "sz"] ++ sized "int" ["mcgravitation"] ++ [("mcMagnet", psize)] ++ sized "int" ["allow_backprop"]
        else sized "double" ["kx"; "ky"; "kz"; "phi"; "Ex"; "Ey"; "Ez"])
    ++ sized "double" ["_mctmp_a"; "_mctmp_b"; "_mctmp_c"] ++ [("randstate", 7 * sizeof "unsigned long")] ++ sized "double" ["t"; "p"]
    ++ sized "long long" ["_uid"] ++ sized "long" ["_index"; "_absorbed"; "_scattered"; "_restore"; "flag_nocoordschange"] ++ [("_logic", sizeof "struct particle_logic_struct")].
  (** c_header.py:40-41: a user variable is declared as its text; c_listener.py:156-166, 84-89: that text has the type, the stars and the name, no numbers of elements.
      The member has the size of a pointer for names with stars and for pointers to functions. *)
  Definition user_size (d : decl) : nat := match d with Plain _ _ => if is_pointer d then psize else sizeof (dtype d) | Fun _ _ _ _ => psize end.
  (** all members, c_header.py:25-41 *)
  Definition members (mcstas : bool) (us : list decl) : list (string * nat) := builtin mcstas ++ map (fun d => (d_name d, user_size d)) us.

  (** where the C compiler puts the members *)
  Variable off : string -> nat.
  (** the double in sizeof(double) bytes *)
  Variable D : Type.
  Variable zero : D.
  Variable dec : list byte -> D.
  (** the double that a member holds *)
  Definition read_double (m : mem) (x : string) : D := dec (bytes m (off x) (sizeof "double")).

  (** particle_getvar: c_header.py:43-47, 187-196; every line with the name sets the value; the number is *suc *)
  Definition getvar (mcstas : bool) (us : list decl) (m : mem) (name : string) : D * nat :=
    fold_left (fun acc x => if x =?s name then (read_double m x, 0) else acc) (accessible mcstas ++ map d_name us) (zero, 1).
  (** particle_getvar_void: c_header.py:50-52, 205-214; an address, None for the null pointer *)
  Definition getvar_void (mcstas : bool) (us : list decl) (name : string) : option nat * nat :=
    fold_left (fun acc x => if x =?s name then (Some (off x), 0) else acc) (accessible mcstas ++ map d_name us) (None, 1).
  (** memcpy of [n] bytes from a value elsewhere *)
  Definition memcpy (m : mem) (a : nat) (value : mem) (n : nat) : mem := put m a (bytes value 0 n).
  (** c_header.py:55-57 *)
  Definition members_types (mcstas : bool) (us : list decl) : list (string * string) :=
    map (fun x => (x, "double")) (accessible mcstas) ++ map (fun d => (d_name d, dtype d)) (filter (fun d => negb (is_array d) && negb (is_pointer d)) us).
  (** particle_setvar_void: c_header.py:58-61, 218-225 *)
  Definition setvar_void (mcstas : bool) (us : list decl) (m : mem) (name : string) (value : mem) : mem * nat :=
    fold_left (fun acc xy => if fst xy =?s name then (memcpy (fst acc) (off (fst xy)) value (sizeof (snd xy)), 0) else acc) (members_types mcstas us) (m, 1).
  (** particle_setvar_void_array: c_header.py:64-66, 230-237 *)
  Definition setvar_void_array (us : list decl) (m : mem) (name : string) (value : mem) (elements : nat) : mem * nat :=
    fold_left (fun acc d => if d_name d =?s name then (memcpy (fst acc) (off (d_name d)) value (elements * sizeof (dtype d)), 0) else acc)
      (filter (fun d => is_array d || is_pointer d) us) (m, 1).
  (** the value of a long, and the value of the text of an expression converted to the type of a variable *)
  Variable enc_long : Z -> list byte.
  Variable conv : decl -> string -> list byte.
  (** particle_restore: c_header.py:68-70, 242-245; assigning a double copies its bytes *)
  Definition restore (mcstas : bool) (p p0 : mem) : mem :=
    let p := fold_left (fun p x => put p (off x) (bytes p0 (off x) (sizeof "double"))) (restorable mcstas) p in
    put (put p (off "_absorbed") (enc_long 0)) (off "_restore") (enc_long 0).
  (** particle_getuservar_byid: c_header.py:72-73, 248-256; one case for every number *)
  Definition getuservar_byid (us : list decl) (m : mem) (id : nat) : D * nat :=
    match nth_error us id with Some d => (read_double m (d_name d), 0) | None => (zero, 1) end.
  (** particle_uservar_init: c_header.py:75-82, 259-261 *)
  Definition skipped (d : decl) : bool :=
    (negb (existsb (String.eqb (dtype d)) ["double"; "MCNUM"; "int"]) && match q_init (quals_of d) with None => true | Some _ => false end) || is_pointer d || is_array d.
  (** the value that is given to a user variable, c_header.py:75-82 *)
  Definition init_text (d : decl) : string := match q_init (quals_of d) with None => "0" | Some t => t end.
  (** particle_uservar_init, c_header.py:75-82, 259-261 *)
  Definition uservar_init (us : list decl) (m : mem) : mem :=
    fold_left (fun m d => if skipped d then m else put m (off (d_name d)) (conv d (init_text d))) us m.
  (** _get_particle_var: c_macros.py:21-35; the first line with the name returns *)
  Fixpoint get_particle_var (us : list decl) (token : string) : option nat :=
    match us with [] => None | d :: us => if d_name d =?s token then Some (off (d_name d)) else get_particle_var us token end.
End Structure.

(** c_header.py:20-23: the counters in struct particle_logic_struct; an instance is its name and its jumps, target and whether it iterates *)
Definition jump_members (l : list (string * list (string * bool))) : list string :=
  flat_map (fun i : string * list (string * bool) => flat_map (fun j : string * bool => if snd j then [("Jump_" ++ fst i ++ "_" ++ fst j)%string] else []) (snd i)) l.
