(** The text of monitor files: from_filename, to_filename and print_data of loader/datfile.py, on top of the parsed form in DatFile.v; axes and items of a file.

    Simplifications: the text is the one after newline translation, all characters are below 128.  How a double is printed and read is arbitrary ([show], [parse]).
    None stands for a raised exception, ragged rows raise (numpy from 1.24 on).  A file that is written in part before an exception is not told apart from one that is not begun. *)
From Coq Require Import List String Ascii Bool Arith ZArith QArith Qcanon Lia.
From Verif Require Import PyStr Flags DatFile TextLines.
Import ListNotations.
Local Open Scope string_scope.
Local Open Scope list_scope.
Local Open Scope nat_scope.

(** file.readlines(): lines with their newline *)
Fixpoint readlines (s : string) : list string :=
  match s with
  | EmptyString => []
  | String a t => if Ascii.eqb a nl then String nl "" :: readlines t
                  else match readlines t with [] => [String a ""] | l :: ls => String a l :: ls end
  end.
(** str.strip with a set of characters *)
Fixpoint lstrip_by (f : ascii -> bool) (s : string) : string := match s with EmptyString => "" | String a t => if f a then lstrip_by f t else s end.
(** str.strip with a set of characters, the end (datfile.py:28) *)
Fixpoint rstrip_by (f : ascii -> bool) (s : string) : string :=
  match s with EmptyString => "" | String a t => match rstrip_by f t with EmptyString => if f a then "" else String a "" | r => String a r end end.
(** str.strip with a set of characters, both ends (datfile.py:28) *)
Definition strip_by (f : ascii -> bool) (s : string) : string := rstrip_by f (lstrip_by f s).
(** ' #\n', datfile.py:28 *)
Definition hashy (a : ascii) : bool := Ascii.eqb a " " || Ascii.eqb a "#" || Ascii.eqb a nl.
(** x[0] == '#', datfile.py:28, 34; a line has a character *)
Definition is_header (x : string) : bool := match x with String a _ => Ascii.eqb a "#" | EmptyString => false end.
(** str.split() *)
Fixpoint fields (s : string) : list string :=
  match s with
  | EmptyString => [""]
  | String a t => if is_space a then "" :: fields t else match fields t with [] => [String a ""] | w :: ws => String a w :: ws end
  end.
(** a word of str.split() *)
Definition nonempty (s : string) : bool := match s with EmptyString => false | _ => true end.
(** str.split(), datfile.py:34 *)
Definition split_ws (s : string) : list string := filter nonempty (fields s).
(** a list comprehension in which every item may raise *)
Fixpoint all_some {A} (l : list (option A)) : option (list A) :=
  match l with [] => Some [] | x :: l => match x, all_some l with Some x, Some l => Some (x :: l) | _, _ => None end end.
(** the two dictionaries, datfile.py:29-32; a later entry replaces an earlier one *)
Definition meta_pair (x : string) : option (string * string) := match split_once ":" x with Some (k, v) => Some (strip k, strip v) | None => None end.
(** datfile.py:31-32 *)
Definition parm_pair (x : string) : option (string * string) :=
  match split_once ":" x with Some (_, r) => match split_once "=" r with Some (k, v) => Some (strip k, strip v) | None => None end | None => None end.
(** dict of pairs, datfile.py:29-32 *)
Definition to_dict (l : list (string * string)) : dict := fold_left (fun d (kv : string * string) => set d (fst kv) (VS (snd kv))) l [].
(** numpy.array of a list of lists *)
Definition array (rows : list (list Qc)) : option arr :=
  match rows with
  | [] => Some (mkArr [0] [])
  | r :: _ => if forallb (fun x => List.length x =? List.length r) rows then Some (mkArr [List.length rows; List.length r] (List.concat rows)) else None
  end.

(** the keys that are written, datfile.py:117-122, 160-165, 203-207 *)
Definition first_keys : list string := ["Format"; "URL"; "Creator"; "Instrument"; "Ncount"; "Trace"; "Gravitation"; "Seed"; "Directory"].
(** parts, the second list, datfile.py:117-122, 159-165, 202-207 *)
Definition second_keys (k : kind) : list string :=
  match k with
  | D0 => ["Date"; "type"; "Source"; "component"; "position"; "title"; "Ncount"; "filename"; "statistics"; "signal"; "values"; "yvar"; "ylabel"; "xlimits"; "variables"]
  | D1 => ["Date"; "type"; "Source"; "component"; "position"; "title"; "Ncount"; "filename"; "statistics"; "signal"; "values"; "xvar"; "yvar"; "xlabel"; "ylabel"; "xlimits"; "variables"]
  | D2 => ["Date"; "type"; "Source"; "component"; "position"; "title"; "Ncount"; "filename"; "statistics"; "signal"; "values"; "xvar"; "yvar"; "xlabel"; "ylabel"; "zvar"; "zlabel"; "xylimits"; "variables"]
  end.
(** datfile.py:50-51, 54-55; KeyError for a key that is not there *)
Definition key_lines (m : dict) (l : list string) : option (list string) :=
  all_some (map (fun k => match get m k with Some v => Some ("# " ++ k ++ ": " ++ str_of v)%string | None => None end) l).
(** datfile.py:52-53 *)
Definition param_line (kv : string * mval) : string := ("# Param: " ++ fst kv ++ "=" ++ str_of (snd kv))%string.
(** print_data of DatFile2D, datfile.py:209-214 *)
Definition block_labels : list string := ["Data"; "Errors"; "Events"].

Section Numbers.
  (** str(x) and float(x) *)
  Variable show : Qc -> string.
  Variable parse : string -> option Qc.

  (** datfile.py:34 *)
  Definition read_row (l : string) : option (list Qc) := all_some (map parse (split_ws (strip l))).
  (** from_filename, datfile.py:25-35, without the list of variables, which read_mccode_dat of DatFile.v computes *)
  Definition from_text (s : string) : option (dict * dict * arr) :=
    let lines := readlines s in
    let header := map (strip_by hashy) (filter is_header lines) in
    match all_some (map meta_pair (filter (fun x => negb (startswith "Param" x)) header)),
          all_some (map parm_pair (filter (startswith "Param") header)),
          all_some (map read_row (filter (fun x => negb (is_header x)) lines)) with
    | Some m, Some p, Some r => match array r with Some a => Some (to_dict m, to_dict p, a) | None => None end
    | _, _, _ => None
    end.
  (** read_mccode_dat, datfile.py:236-248 *)
  Definition read_text (s : string) : option dat := match from_text s with Some (m, p, a) => read_mccode_dat m p a | None => None end.

  (** a row as print_data writes it, datfile.py:113-114, 155-157 *)
  Definition row_line (r : list Qc) : string := join " " (map show r).
  (** print_data of DatFile2D, datfile.py:209-214; IndexError for a fourth variable *)
  Definition block_line (m : dict) (label n : string) : option string :=
    match get m "component", get m "filename" with
    | Some c, Some f => Some ("# " ++ label ++ " [" ++ str_of c ++ "/" ++ str_of f ++ "] " ++ n ++ ":")%string
    | _, _ => None
    end.
  (** the rows of one variable of a DatFile2D, datfile.py:209-214 *)
  Definition block_rows (ny nx i : nat) (l : list Qc) : list string := map (fun j => row_line (firstn nx (skipn ((i * ny + j) * nx) l))) (seq 0 ny).
  (** print_data of DatFile2D, datfile.py:209-214 *)
  Fixpoint blocks (m : dict) (nv ny nx i : nat) (l : list Qc) (vs : list string) : option (list string) :=
    match vs with
    | [] => Some []
    | n :: vs =>
        match nth_error block_labels i with
        | None => None
        | Some label =>
            match block_line m label n, (if i <? nv then Some (block_rows ny nx i l) else None), blocks m nv ny nx (S i) l vs with
            | Some h, Some rs, Some t => Some (h :: rs ++ t)
            | _, _, _ => None
            end
        end
    end.
  (** print_data, datfile.py:113-114, 155-157, 209-214; data of another number of dimensions than that of the kind is an exception here *)
  Definition data_lines (d : dat) : option (list string) :=
    let l := flat (data d) in
    match dkind d, shape (data d) with
    | D0, [_] => Some [row_line l]
    | D1, [nv; nx] => Some (map (fun j => row_line (column nx j l nv)) (seq 0 nx))
    | D2, [nv; ny; nx] => blocks (metadata d) nv ny nx 0 l (variables d)
    | _, _ => None
    end.
  (** to_filename, datfile.py:48-56 *)
  Definition write_text (d : dat) : option string :=
    match key_lines (metadata d) first_keys, key_lines (metadata d) (second_keys (dkind d)), data_lines d with
    | Some a, Some b, Some c => Some (unlines (a ++ map param_line (parameters d) ++ b ++ c))
    | _, _, _ => None
    end.
  (** write_combined_mccode_dats, datfile.py:302-304: the text of the output from those of the inputs *)
  Definition write_combined (files : list string) : option string :=
    match all_some (map read_text files) with
    | Some ds => match combine_mccode_dats ds with Some d => write_text d | None => None end
    | None => None
    end.
End Numbers.

(** * Items and axes *)
(** what d[item] gives, datfile.py:58-69: a row of the data, or the value of a parameter or of a key *)
Inductive item := Row (i : nat) | Value (v : mval).
(** datfile.py:60 *)
Fixpoint places (x : string) (l : list string) (i : nat) : list nat := match l with [] => [] | y :: l => (if y =?s x then [i] else []) ++ places x l (S i) end.
(** datfile.py:58-69 *)
Definition getitem (d : dat) (x : string) : option item :=
  match places x (variables d) 0 with
  | [i] => Some (Row i)
  | _ :: _ => None
  | [] => match get (parameters d) x with
          | Some v => Some (Value v)
          | None => match get (metadata d) x with Some v => Some (Value v) | None => None end
          end
  end.
(** numpy.linspace(a, b, n), n > 1 *)
Definition linspace (a b : Qc) (n : nat) : list Qc := map (fun i => a + Q2Qc (inject_Z (Z.of_nat i)) * ((b - a) / Q2Qc (inject_Z (Z.of_nat n - 1))))%Qc (seq 0 n).
(** the characters stripped from a unit, datfile.py:91 *)
Definition brackets (a : ascii) : bool := Ascii.eqb a "[" || Ascii.eqb a "]" || Ascii.eqb a " ".
(** the dictionary of datfile.py:96 (whose first key is spelled lenght) *)
Record axis_data := mkAxis { ax_length : nat; ax_label : string; ax_unit : string; ax_boundaries : list Qc }.
(** dim_metadata, datfile.py:88-96; IndexError without a blank, ZeroDivisionError for one bin; the numbers are exact *)
Definition dim_metadata (length : nat) (label_unit : string) (lower upper : Qc) : option axis_data :=
  match split_once " " label_unit with
  | None => None
  | Some (label, u) =>
      let u := strip_by brackets u in
      let u := if u =?s "\gms" then "microseconds" else u in
      if length =? 1 then None
      else let w := ((upper - lower) / Q2Qc (inject_Z (Z.of_nat length - 1)))%Qc in
           let two := Q2Qc (inject_Z 2) in
           Some (mkAxis length label u (linspace (lower - w / two) (upper + w / two) (S length)))
  end.
(** self[x] where the code needs a text: arrays and integers have no split *)
Definition item_text (d : dat) (x : string) : option string := match getitem d x with Some (Value (VS s)) => Some s | _ => None end.
(** the numbers of a metadata text, datfile.py:110-111, 151-153, 197-198 *)
Definition floats (parse : string -> option Qc) (s : string) : option (list Qc) := all_some (map parse (split_ws s)).
(** dim_metadata of the three kinds, datfile.py:110-111, 151-153, 197-200 *)
Definition axes (parse : string -> option Qc) (d : dat) : option (list axis_data) :=
  match dkind d, shape (data d) with
  | D0, _ => Some []
  | D1, _ :: n :: _ =>
      match item_text d "xlimits" with
      | Some s => match floats parse s, item_text d "xlabel" with
                  | Some [lo; hi], Some xl => match dim_metadata n xl lo hi with Some x => Some [x] | None => None end
                  | _, _ => None
                  end
      | None => None
      end
  | D2, _ :: ny :: nx :: _ =>
      match item_text d "xylimits" with
      | Some s => match floats parse s, item_text d "xlabel", item_text d "ylabel" with
                  | Some [xlo; xhi; ylo; yhi], Some xl, Some yl =>
                      match dim_metadata nx xl xlo xhi, dim_metadata ny yl ylo yhi with Some x, Some y => Some [x; y] | _, _ => None end
                  | _, _, _ => None
                  end
      | None => None
      end
  | _, _ => None
  end.
