(** Text of a simulation description, loader/simfile.py: to_file and parse.

    The text is what to_file prints; reading a file additionally turns every carriage return
    into a newline.  None stands for a raised exception.  Integers are decimal. *)
From Coq Require Import List String Ascii Bool Arith ZArith Lia.
From Verif Require Import PyStr Flags DatFile TextLines SimCombine.
Import ListNotations.
Local Open Scope string_scope.
Local Open Scope list_scope.
Local Open Scope nat_scope.

(** s.partition(m) without the middle part *)
Definition pcut (m s : string) : string * string := match cut m s with Some p => p | None => (s, "") end.

(** read_keywords, simfile.py:6-15 *)
Fixpoint read_zip (lines keywords : list string) : option (list string) :=
  match lines, keywords with
  | l :: ls, k :: ks => if fst (kv l) =?s k then match read_zip ls ks with Some vs => Some (snd (kv l) :: vs) | None => None end else None
  | _, _ => Some []
  end.
(** simfile.py:6-15 *)
Definition read_keywords (lines keywords : list string) : option (list string) :=
  if List.length lines <? List.length keywords then None else read_zip lines keywords.
(** simfile.py:67-69, the lines of a section *)
Definition lines_of (contents : string) : list string := split_char nl (strip contents).
(** simfile.py:154-167, how a truth value is written *)
Definition yes (b : bool) : string := if b then "yes" else "no".

(** SimFileHeader, 24-37 *)
Definition header_parse (contents : string) : option header :=
  let lines := lines_of contents in
  if negb (List.length lines =? 3) then None
  else match read_keywords (tl lines) ["Date"; "Program"] with
       | Some [date; program] => Some (mkHeader (strip (hd "" lines)) date program)
       | _ => None
       end.
(** SimFileHeader.to_file, simfile.py:34-37 *)
Definition header_lines (h : header) : list string := [h_desc h; "Date: " +++ h_date h; "Program: " +++ h_program h].

(** SimFileInstrument, 66-90 *)
Definition instrument_keywords : list string := ["File"; "Source"; "Parameters"; "Trace_enabled"; "Default_main"; "Embedded_runtime"].
(** SimFileInstrument.parse, simfile.py:67-79 *)
Definition instrument_parse (contents : string) : option instrument :=
  let lines := lines_of contents in
  if negb (List.length lines =? 7) then None
  else match read_keywords (tl lines) instrument_keywords with
       | Some [file; source; parameters; trace; default; embed] =>
           Some (mkInstrument (strip (hd "" lines)) file source parameters (trace =?s "yes") (default =?s "yes") (embed =?s "yes"))
       | _ => None
       end.
(** SimFileInstrument.to_file, simfile.py:81-89 *)
Definition instrument_lines (n : instrument) : list string :=
  ["begin instrument: " +++ n_name n; "  File: " +++ n_file n; "  Source: " +++ n_source n; "  Parameters: " +++ n_params n;
   "  Trace_enabled: " +++ yes (n_trace n); "  Default_main: " +++ yes (n_main n); "  Embedded_runtime: " +++ yes (n_runtime n); "end instrument"].

(** SimFileSimulation, 132-168 *)
Definition simulation_keywords : list string := ["Format"; "URL"; "Creator"; "Instrument"; "Ncount"; "Trace"; "Gravitation"; "Seed"; "Directory"].
(** SimFileSimulation.parse, simfile.py:133-152 *)
Definition simulation_parse (contents : string) : option simulation :=
  let lines := lines_of contents in
  if List.length lines <? 10 then None
  else match read_keywords (firstn 9 (tl lines)) simulation_keywords with
       | Some [format; url; creator; instrument; ncount; trace; gravitation; seed; directory] =>
           match py_int ncount, py_int seed with
           | Some n, Some s => Some (mkSim (strip (hd "" lines)) format url creator instrument n (trace =?s "yes") (gravitation =?s "yes") s directory
                                       (map (fun l => snd (kv l)) (skipn 10 lines)))
           | _, _ => None
           end
       | _ => None
       end.
(** SimFileSimulation.to_file, simfile.py:154-167 *)
Definition simulation_lines (s : simulation) : list string :=
  ["begin simulation: " +++ u_name s; "  Format: " +++ u_format s; "  URL: " +++ u_url s; "  Creator: " +++ u_creator s; "  Instrument: " +++ u_instrument s;
   "  Ncount: " +++ str_Z (u_ncount s); "  Trace: " +++ yes (u_trace s); "  Gravitation: " +++ yes (u_grav s); "  Seed: " +++ str_Z (u_seed s);
   "  Directory: " +++ u_dir s] ++ map (fun p => "  Param: " +++ p) (u_params s) ++ ["end simulation"].

(** SimFileData, 219-282: the keywords and the attributes that are not None *)
Record datum := mkDatum { t_keywords : list string; t_fields : dict }.
(** SimFileData.parse, simfile.py:244-271 *)
Definition first_keywords : list string := ["Date"; "type"; "Source"; "component"; "position"; "title"; "Ncount"].
(** SimFileData.parse, simfile.py:244-271 *)
Definition second_keywords : list string := ["statistics"; "signal"; "values"].
(** SimFileData.parse, simfile.py:244-271 *)
Definition keywords_for (n : nat) : option (list string) :=
  match n with
  | 12 => Some (first_keywords ++ second_keywords ++ ["xylimits"; "variables"])
  | 13 => Some (first_keywords ++ ["filename"] ++ second_keywords ++ ["xylimits"; "variables"])
  | 17 => Some (first_keywords ++ ["filename"] ++ second_keywords ++ ["xvar"; "yvar"; "xlabel"; "ylabel"; "xlimits"; "variables"])
  | 19 => Some (first_keywords ++ ["filename"] ++ second_keywords ++ ["xvar"; "yvar"; "xlabel"; "ylabel"; "zvar"; "zlabel"; "xylimits"; "variables"])
  | _ => None
  end.
(** SimFileData.parse, simfile.py:244-271 *)
Definition data_parse (contents : string) : option datum :=
  let lines := lines_of contents in
  match keywords_for (List.length lines) with
  | None => None
  | Some keywords =>
      match read_keywords lines keywords with
      | None => None
      | Some values =>
          let collected := combine keywords (map VS values) in
          match get collected "Ncount" with
          | Some v => match int_of v with Some n => Some (mkDatum keywords (set collected "Ncount" (VI n))) | None => None end
          | None => None
          end
      end
  end.
(** SimFileData.to_file, simfile.py:273-278 *)
Definition data_lines (d : datum) : list string :=
  ["begin data"] ++ flat_map (fun k => match get (t_fields d) k with Some v => ["  " +++ k +++ ": " +++ str_of v] | None => [] end) (t_keywords d) ++ ["end data"].

(** SimFile, 349-402 *)
Record simtext := mkText { x_header : header; x_instrument : instrument; x_sim : simulation; x_data : list datum }.
(** the loop 380-384; the fuel is the length of the text *)
Fixpoint data_parts (fuel : nat) (rest : string) : option (list string) :=
  match rest with
  | EmptyString => Some []
  | _ => match fuel with
         | O => None
         | S fuel =>
             let '(d, rest') := pcut "end data" rest in
             let d := strip (snd (pcut "begin data" d)) in
             match data_parts fuel rest' with
             | Some ds => Some (if d =?s "" then ds else d :: ds)
             | None => None
             end
         end
  end.
(** a list comprehension in which every item may raise *)
Fixpoint traverse {A B} (f : A -> option B) (l : list A) : option (list B) :=
  match l with [] => Some [] | x :: t => match f x, traverse f t with Some y, Some ys => Some (y :: ys) | _, _ => None end end.
(** SimFile.parse, simfile.py:373-391 *)
Definition sim_parse (contents : string) : option simtext :=
  let '(h, rest) := pcut "begin instrument: " contents in
  let '(i, rest) := pcut "begin simulation: " rest in
  let '(i, _) := pcut "end instrument" i in
  let '(s, rest) := pcut "end simulation" rest in
  match data_parts (S (String.length rest)) rest with
  | None => None
  | Some ds =>
      match header_parse h, instrument_parse i, simulation_parse s, traverse data_parse ds with
      | Some h, Some i, Some s, Some ds => Some (mkText h i s ds)
      | _, _, _, _ => None
      end
  end.
(** SimFile.to_file, simfile.py:393-402 *)
Definition sim_lines (f : simtext) : list string :=
  header_lines (x_header f) ++ [""] ++ instrument_lines (x_instrument f) ++ [""] ++ simulation_lines (x_sim f) ++ [""] ++
  flat_map (fun d => data_lines d ++ [""]) (x_data f).
(** SimFile.to_file, simfile.py:393-402, as text *)
Definition to_file (f : simtext) : string := unlines (sim_lines f).
