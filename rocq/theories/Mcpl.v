(** Splitting an instrument at an MCPL file: instr/instr.py:394-456 mcpl_split.
    Looking up a component by name (Reader, make_instance 386-390) and reading the text of
    an instrument parameter (InstrumentParameter.parse) are arbitrary functions.  The split
    point is given by name; warnings and log messages are left out. *)
From Coq Require Import List String Ascii Bool Arith ZArith QArith Qcanon Lia.
From Verif Require Import PyStr Expr ExprEq InstrModel.
Import ListNotations.
Local Open Scope string_scope.
Local Open Scope list_scope.
Local Open Scope nat_scope.

(** 406-409: the file name, in quotes; indexing an empty text raises *)
Definition mcpl_text (name : string) (filename : option string) : res string :=
  let f := match filename with Some f => f | None => (name ++ ".mcpl")%string end in
  match f with
  | EmptyString => Raise
  | String c _ =>
      let last := get (String.length f - 1) f in
      if Ascii.eqb c """" && (match last with Some l => Ascii.eqb l """" | None => false end) then Ok f
      else Ok ("""" ++ f ++ """")%string
  end.
(** assignment to Instr.flags *)
Definition with_flags (s : instr) (l : list string) : instr :=
  mkInstr (s_name s) (s_params s) (s_meta s) (s_comps s) (s_user s) (s_declare s) (s_init s) (s_save s) (s_final s) (s_groups s) l.
(** a component given by name or as an object *)
Inductive compref := Named (n : string) | Given (c : ctype).
(** 411: the parameter that refers to the instrument parameter *)
Definition filename_parameter : cpar := mkCpar "filename" (NVal (PStr "mcpl_filename") DUndef OParam).
(** instr.py:394-456: the parameter verbose of the MCPL components *)
Definition verbose_parameter : cpar := mkCpar "verbose" (NVal (PNum 0%Qc) DFloat OValue).
(** 423-426, 435-438 *)
Definition with_filename (ps : option (list cpar)) : list cpar :=
  match ps with None => [filename_parameter] | Some l => if cpar_present l "filename" then l else filename_parameter :: l end.
(** 439-440 *)
Definition with_verbose (l : list cpar) : list cpar := if cpar_present l "verbose" then l else verbose_parameter :: l.

Section Mcpl.
  Variable place : triple -> option string -> triple -> option string -> list node.
  Variable abs_position abs_angles : inst -> triple.
  (** the component and the flags it brings *)
  Variable lookup : string -> res (ctype * list string).
  Variable parse : string -> res ipar.

  (** make_instance 380-392 with a component that may have to be looked up *)
  Definition make (s : instr) (n : string) (c : compref) (i : inst) (o : option (list node)) (ps : list cpar) : res instr :=
    if existsb (fun x => i_name x =? n)%string (s_comps s) then Raise
    else do cf <- (match c with Named k => lookup k | Given t => Ok (t, []) end);
         make_instance place (with_flags s (s_flags s ++ snd cf)) n (fst cf) (i_at i) (i_at_rel i) (i_rot i) (i_rot_rel i) o ps None false.
  Definition mcpl_split (s : instr) (after : string) (filename : option string)
      (out : option compref) (out_ps : option (list cpar)) (inp : option compref) (in_ps : option (list cpar)) (remove : bool) : res (instr * instr) :=
    do text <- mcpl_text (s_name s) filename;
    do parts <- split_instr abs_position abs_angles s after remove;
    do par <- parse ("string mcpl_filename = " ++ text)%string;
    do first <- add_parameter (fst parts) par false;
    do second <- add_parameter (snd parts) par false;
    match rev (s_comps first), s_comps second with
    | fc :: before, sc :: rest =>
        let out := match out with Some c => c | None => Named "MCPL_output" end in
        let inp := match inp with Some c => c | None => Named "MCPL_input" end in
        do first' <- make (with_comps first (rev before)) (i_name fc) out fc (Some (i_orient fc)) (with_filename out_ps);
        do second' <- make (with_comps second rest) (i_name sc) inp sc None (with_verbose (with_filename in_ps));
        (* the added component moves to the front *)
        match rev (s_comps second') with
        | i :: r => Ok (first', with_comps second' (i :: rev r))
        | [] => Raise
        end
    | _, _ => Raise
    end.
End Mcpl.
