(** The text of a value or of a range on the command line: MRange.from_str, Singular.from_str and
    _MRange_or_Singular, run/range.py:55-76, 125-139, 193-196.

    Simplifications: characters are ASCII; numbers are exact, so that neither the rounding of float
    nor its overflow to infinity nor the limit on the digits that int accepts is modelled. *)
From Coq Require Import List String Ascii Bool ZArith QArith Lia.
From Verif Require Import PyStr TextLines DatFile.
Import ListNotations.
Local Open Scope string_scope.
Local Open Scope list_scope.
Local Open Scope Z_scope.

(** numbers of Python: int, float, and the floats that are not finite *)
Inductive num := PInt (z : Z) | PFloat (q : Q) | PInf (neg : bool) | PNan.
(** what Singular.from_str, run/range.py:125-139, makes of a text *)
Inductive value := Num (x : num) | Text (s : string).
(** MRange and Singular, run/range.py:10-13, 88-90; a Singular made from text has no maximum *)
Inductive entry := ERange (start stop step : num) | ESing (v : value).

(** the characters 0 to 9 *)
Definition digit (c : ascii) : bool := (48 <=? nat_of_ascii c)%nat && (nat_of_ascii c <=? 57)%nat.
(** the number that such a character stands for *)
Definition digit_value (c : ascii) : Z := Z.of_nat (nat_of_ascii c - 48).

(** int and float of Python drop an underscore between two digits; any other raises *)
Fixpoint unders (prev : bool) (s : string) : option string :=
  match s with
  | EmptyString => Some ""
  | String c r =>
      if Ascii.eqb c "_" then
        if prev && match r with String d _ => digit d | EmptyString => false end then unders false r else None
      else option_map (String c) (unders (digit c) r)
  end.
(** int and float of Python: an optional sign, [true] for minus *)
Definition sign (s : string) : bool * string :=
  match s with
  | String c r => if Ascii.eqb c "-" then (true, r) else if Ascii.eqb c "+" then (false, r) else (false, s)
  | EmptyString => (false, s)
  end.
(** int and float of Python: the digits at the start; their value behind [acc], their count added to [n], the rest *)
Fixpoint digits (acc n : Z) (s : string) : Z * Z * string :=
  match s with
  | String c r => if digit c then digits (acc * 10 + digit_value c) (n + 1) r else (acc, n, s)
  | EmptyString => (acc, n, s)
  end.
(** the number with a sign *)
Definition signed (neg : bool) (z : Z) : Z := if neg then - z else z.
(** int and float of Python: a sign and at least one digit, nothing else *)
Definition whole (s : string) : option Z :=
  let '(neg, u) := sign s in
  let '(v, n, r) := digits 0 0 u in
  if (0 <? n) && (r =?s "") then Some (signed neg v) else None.
(** int(s) of Python *)
Definition py_int (s : string) : option Z := match unders false (strip s) with Some t => whole t | None => None end.
(** float of Python: the part behind the digits *)
Definition exponent (s : string) : option Z :=
  match s with
  | EmptyString => Some 0
  | String c r => if Ascii.eqb c "e" || Ascii.eqb c "E" then whole r else None
  end.
(** m times ten to the e *)
Definition scale (m e : Z) : Q := if 0 <=? e then inject_Z (m * 10 ^ e) else (m # Z.to_pos (10 ^ (- e)))%Q.
(** float of Python: a point and the digits behind it *)
Definition fraction (v : Z) (s : string) : Z * Z * string :=
  match s with String c r => if Ascii.eqb c "." then digits v 0 r else (v, 0, s) | EmptyString => (v, 0, s) end.
(** float(s) of Python, without white space and underscores *)
Definition float_of (s : string) : option num :=
  let '(neg, u) := sign s in
  if (lower u =?s "inf") || (lower u =?s "infinity") then Some (PInf neg)
  else if lower u =?s "nan" then Some PNan
  else
    let '(v, n, r) := digits 0 0 u in
    let '(w, k, r') := fraction v r in
    if n + k =? 0 then None
    else match exponent r' with Some e => Some (PFloat (scale (signed neg w) (e - k))) | None => None end.
(** float(s) of Python *)
Definition py_float (s : string) : option num := match unders false (strip s) with Some t => float_of t | None => None end.

(** float_or_int, run/range.py:60-65; None: ValueError *)
Definition float_or_int (s : string) : option num :=
  match py_int s with Some z => Some (PInt z) | None => py_float s end.
(** float_or_int_or_str, run/range.py:127-135 *)
Definition value_of (s : string) : value := match float_or_int s with Some x => Num x | None => Text s end.

(** the operator == of Python on numbers *)
Definition num_eqb (a b : num) : bool :=
  match a, b with
  | PInt x, PInt y => x =? y
  | PInt x, PFloat y => Qeq_bool (inject_Z x) y
  | PFloat x, PInt y => Qeq_bool x (inject_Z y)
  | PFloat x, PFloat y => Qeq_bool x y
  | PInf x, PInf y => Bool.eqb x y
  | _, _ => false
  end.
(** MRange.__init__, run/range.py:10-18; None: ValueError or ZeroDivisionError *)
Definition mk_range (start stop step : num) : option entry :=
  if num_eqb start stop then None else if num_eqb step (PInt 0) then None else Some (ERange start stop step).
(** run/range.py:76: the three texts are turned into numbers *)
Definition range_of (start stop step : string) : option entry :=
  match float_or_int start, float_or_int stop, float_or_int step with
  | Some a, Some b, Some c => mk_range a b c
  | _, _, _ => None
  end.
(** the sign between the parts of a range *)
Definition colon : ascii := ":".
(** MRange.from_str, run/range.py:55-76; None: ValueError *)
Definition range_from_str (s : string) : option entry :=
  match split_char colon s with
  | [a] => range_of a a "1"
  | [a; b] => range_of a b "1"
  | [a; b; c] => range_of a c b
  | _ => None
  end.
(** Singular.from_str, run/range.py:125-139 *)
Definition single_from_str (s : string) : option entry := if has_char colon s then None else Some (ESing (value_of s)).
(** _MRange_or_Singular, run/range.py:193-196 *)
Definition entry_of (s : string) : option entry := if has_char colon s then range_from_str s else single_from_str s.

(** str of numbers: int exactly; the shortest text of a float is given *)
Definition str_num (repr : Q -> string) (x : num) : string :=
  match x with PInt z => str_Z z | PFloat q => repr q | PInf neg => if neg then "-inf" else "inf" | PNan => "nan" end.
(** str of a Singular or of an MRange, run/range.py:46-47, 95-96 *)
Definition str_entry (repr : Q -> string) (e : entry) : string :=
  match e with
  | ERange a b c => (str_num repr a ++ ":" ++ str_num repr c ++ ":" ++ str_num repr b)%string
  | ESing (Num x) => str_num repr x
  | ESing (Text s) => s
  end.
