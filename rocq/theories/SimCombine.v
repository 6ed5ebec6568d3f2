(** Combining simulation descriptions, loader/simfile.py: the combine methods and
    combine_mccode_sims.

    The values, signal and statistics lines of a monitor are modelled by the numbers they
    spell; these are exact (the code: doubles, written with repr and read back).  None
    stands for a raised exception. *)
From Coq Require Import List String Bool Ascii ZArith Reals Lia Lra.
From Verif Require Import PyStr.
Import ListNotations.
Local Open Scope string_scope.
Local Open Scope list_scope.

(** f'{a} + {b}' unless b is in a *)
Definition plus_text (a b : string) : string := if contains b a then a else (a ++ " + " ++ b)%string.
(** the operator in of Python on lists *)
Definition mem (x : string) (l : list string) : bool := existsb (String.eqb x) l.

(** SimFileHeader, simfile.py:18-54 *)
Record header := mkHeader { h_desc : string; h_date : string; h_program : string }.
(** SimFileHeader.__contains__, simfile.py:39-42 *)
Definition header_in (other self : header) : bool :=
  contains (h_desc other) (h_desc self) && contains (h_date other) (h_date self) && contains (h_program other) (h_program self).
(** SimFileHeader.combine, simfile.py:44-54 *)
Definition header_combine (self other : header) : header :=
  if header_in other self then self else if header_in self other then other
  else mkHeader (plus_text (h_desc self) (h_desc other)) (plus_text (h_date self) (h_date other)) (plus_text (h_program self) (h_program other)).

(** dict.fromkeys(a) updated with b: the keys in order of appearance *)
Fixpoint add_keys (l b : list string) : list string :=
  match b with [] => l | x :: t => if mem x l then add_keys l t else add_keys (l ++ [x]) t end.
(** list(dict.fromkeys(a + b)) *)
Definition ordered_union (a b : list string) : list string := add_keys (add_keys [] a) b.

(** SimFileInstrument, 57-115 *)
Record instrument := mkInstrument { n_name : string; n_file : string; n_source : string; n_params : string;
                                    n_trace : bool; n_main : bool; n_runtime : bool }.
(** SimFileInstrument.__contains__, simfile.py:91-96 *)
Definition instrument_in (other self : instrument) : bool :=
  contains (n_name other) (n_name self) && contains (n_file other) (n_file self) && contains (n_source other) (n_source self) &&
  contains (n_params other) (n_params self) && Bool.eqb (n_trace other) (n_trace self) && Bool.eqb (n_main other) (n_main self) &&
  Bool.eqb (n_runtime other) (n_runtime self).
(** str.split at blanks *)
Definition words (s : string) : list string := map strip (split_char " "%char s).
(** SimFileInstrument.combine, simfile.py:98-115 *)
Definition instrument_combine (self other : instrument) : instrument :=
  if instrument_in other self then self else if instrument_in self other then other
  else mkInstrument (plus_text (n_name self) (n_name other)) (plus_text (n_file self) (n_file other)) (plus_text (n_source self) (n_source other))
         (join " " (ordered_union (words (n_params self)) (words (n_params other))))
         (n_trace self && n_trace other) (n_main self && n_main other) (n_runtime self && n_runtime other).

(** SimFileSimulation, 118-216 *)
Record simulation := mkSim { u_name : string; u_format : string; u_url : string; u_creator : string; u_instrument : string;
                             u_ncount : Z; u_trace : bool; u_grav : bool; u_seed : Z; u_dir : string; u_params : list string }.
(** SimFileSimulation.__contains__, simfile.py:169-175 *)
Definition sim_in (other self : simulation) : bool :=
  contains (u_name other) (u_name self) && contains (u_format other) (u_format self) && contains (u_url other) (u_url self) &&
  contains (u_creator other) (u_creator self) && contains (u_instrument other) (u_instrument self) &&
  Bool.eqb (u_trace other) (u_trace self) && Bool.eqb (u_grav other) (u_grav self) && contains (u_dir other) (u_dir self) &&
  forallb (fun p => mem p (u_params self)) (u_params other).
(** self == other *)
Definition sim_eq (self other : simulation) : bool :=
  (u_name other =?s u_name self) && (u_format other =?s u_format self) && (u_url other =?s u_url self) &&
  (u_creator other =?s u_creator self) && (u_instrument other =?s u_instrument self) &&
  Bool.eqb (u_trace other) (u_trace self) && Bool.eqb (u_grav other) (u_grav self) && (u_dir other =?s u_dir self) &&
  forallb (fun p => mem p (u_params self)) (u_params other).
(** simfile.py:185-216, a simulation with another number of particles *)
Definition with_ncount (s : simulation) (n : Z) : simulation :=
  mkSim (u_name s) (u_format s) (u_url s) (u_creator s) (u_instrument s) n (u_trace s) (u_grav s) (u_seed s) (u_dir s) (u_params s).
(** line 186 asks other == self, so other's parameters must contain self's *)
Definition sim_combine (self other : simulation) : simulation :=
  if sim_eq other self then with_ncount self (u_ncount self + u_ncount other)
  else if sim_in other self then self else if sim_in self other then other
  else mkSim (plus_text (u_name self) (u_name other)) (plus_text (u_format self) (u_format other)) (plus_text (u_url self) (u_url other))
         (plus_text (u_creator self) (u_creator other)) (plus_text (u_instrument self) (u_instrument other))
         (Z.min (u_ncount self) (u_ncount other)) (u_trace self && u_trace other) (u_grav self && u_grav other)
         (if (u_seed self =? u_seed other)%Z then u_seed self else (-1)%Z) (plus_text (u_dir self) (u_dir other))
         (ordered_union (u_params self) (u_params other)).

(** SimFileData, 219-346.  v_attr: the attributes that are neither Ncount nor numbers *)
Record monitor := mkMon { v_keywords : list string; v_attr : string -> option string; v_ncount : Z;
                          v_int : R; v_err : R; v_cnt : R;
                          v_signal : option (R * R * R);                            (* Min, Max, Mean *)
                          v_stats : option (option R * option R * option R * option R)  (* X0, dX, Y0, dY *) }.
(** the operator == of Python on texts or None *)
Definition opt_eqb (a b : option string) : bool :=
  match a, b with Some x, Some y => x =?s y | None, None => true | _, _ => false end.
(** simfile.py:285-293 *)
Definition skipped (k : string) : bool := mem k ["Date"; "Ncount"; "statistics"; "signal"; "values"].
(** SimFileData.is_repeat, simfile.py:285-293 *)
Definition is_repeat (self other : monitor) : bool :=
  forallb (fun k => skipped k || opt_eqb (v_attr self k) (v_attr other k)) (v_keywords self).
Local Open Scope R_scope.
(** (x*n + y*m)/(n + m); ZeroDivisionError *)
Definition weighted (x n y m : R) : option R := if Req_EM_T (n + m) 0 then None else Some ((x * n + y * m) / (n + m)).
(** simfile.py:295-346 *)
Definition weighted_sqrt (x n y m : R) : option R :=
  if Req_EM_T (n + m) 0 then None else Some (sqrt (x * n * (x * n) + y * m * (y * m)) / (n + m)).
(** simfile.py:295-346: a value that either file may lack *)
Definition both (f : R -> R -> option R) (a b : option R) : option (option R) :=
  match a, b with Some x, Some y => match f x y with Some z => Some (Some z) | None => None end | _, _ => Some None end.
(** math.sqrt raises for a negative argument *)
Definition py_sqrt (x : R) : option R := if Rlt_dec x 0 then None else Some (sqrt x).
(** simfile.py:295-346, the signal line *)
Definition combine_signal (n m : R) (a b : option (R * R * R)) : option (option (R * R * R)) :=
  match a, b with
  | Some (lo, hi, mean), Some (lo', hi', mean') =>
      match weighted mean n mean' m with Some mu => Some (Some (Rmin lo lo', Rmax hi hi', mu)) | None => None end
  | _, _ => Some None
  end.
(** simfile.py:295-346, the statistics line *)
Definition combine_stats (n m : R) (a b : option (option R * option R * option R * option R)) : option (option (option R * option R * option R * option R)) :=
  match a, b with
  | Some (x0, dx, y0, dy), Some (x0', dx', y0', dy') =>
      match both (fun x y => weighted x n y m) x0 x0', both (fun x y => weighted_sqrt x n y m) dx dx',
            both (fun x y => weighted x n y m) y0 y0', both (fun x y => weighted_sqrt x n y m) dy dy' with
      | Some a, Some b, Some c, Some d => Some (Some (a, b, c, d))
      | _, _, _, _ => None
      end
  | _, _ => Some None
  end.
(** SimFileData.combine, simfile.py:295-346 *)
Definition monitor_combine (self other : monitor) : option monitor :=
  if is_repeat self other then
    match py_sqrt (v_err self * v_err self + v_err other + v_err other),         (* line 316 *)
          combine_signal (v_cnt self) (v_cnt other) (v_signal self) (v_signal other),
          combine_stats (v_cnt self) (v_cnt other) (v_stats self) (v_stats other) with
    | Some e, Some sg, Some st =>
        Some (mkMon (v_keywords self) (v_attr self) (v_ncount self + v_ncount other)%Z (v_int self + v_int other) e (v_cnt self + v_cnt other) sg st)
    | _, _, _ => None
    end
  else None.

(** combine_mccode_sims, 409-442 *)
Record simfile := mkFile { f_header : header; f_instrument : instrument; f_sim : simulation; f_data : list monitor }.
(** simfile.py:409-442, the key of a monitor *)
Definition key : Type := (option string * option string)%type.
(** simfile.py:409-442 *)
Definition key_of (m : monitor) : key := (v_attr m "component", v_attr m "filename").
(** the operator == of Python on such keys *)
Definition key_eqb (a b : key) : bool := opt_eqb (fst a) (fst b) && opt_eqb (snd a) (snd b).
(** a key of a Python dict *)
Fixpoint find_key (d : list (key * monitor)) (k : key) : option monitor :=
  match d with [] => None | (a, v) :: t => if key_eqb a k then Some v else find_key t k end.
(** d[k] = v *)
Fixpoint put (d : list (key * monitor)) (k : key) (v : monitor) : list (key * monitor) :=
  match d with [] => [(k, v)] | (a, w) :: t => if key_eqb a k then (a, v) :: t else (a, w) :: put t k v end.
(** simfile.py:409-442, the dictionary of the first file *)
Definition first_data (l : list monitor) : list (key * monitor) := fold_left (fun d m => put d (key_of m) m) l [].
(** simfile.py:409-442, the monitors of a further file *)
Fixpoint add_data (d : list (key * monitor)) (l : list monitor) : option (list (key * monitor)) :=
  match l with
  | [] => Some d
  | m :: t => match find_key d (key_of m) with
              | None => add_data (put d (key_of m) m) t
              | Some w => match monitor_combine w m with Some c => add_data (put d (key_of m) c) t | None => None end
              end
  end.
(** simfile.py:409-442, the loop over the files *)
Fixpoint combine_loop (h : header) (i : instrument) (s : simulation) (d : list (key * monitor)) (l : list simfile) : option simfile :=
  match l with
  | [] => Some (mkFile h i s (map snd d))
  | f :: t => match add_data d (f_data f) with
              | Some d' => combine_loop (header_combine h (f_header f)) (instrument_combine i (f_instrument f)) (sim_combine s (f_sim f)) d' t
              | None => None
              end
  end.
(** simfile.py:409-442 *)
Definition combine_mccode_sims (l : list simfile) : option simfile :=
  match l with [] => None | f :: t => combine_loop (f_header f) (f_instrument f) (f_sim f) (first_data (f_data f)) t end.
