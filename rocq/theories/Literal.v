(** Literals of instrument and component files: grammar/c99.g4:4-15, 165-225, common/visitor.py:21-22, 44-48, 142-144,
    common/expression.py:738-756.  A text is a list of code points. *)
From Coq Require Import List Bool NArith ZArith QArith Lia.
From Verif Require Import CText.
Import ListNotations.
Local Open Scope list_scope.
Local Open Scope N_scope.

(** * Numbers *)
(** what a Value holds that was made from a number: an int, a float, or the text that could not be converted *)
Section Held.
Variable F : Type.                                   (* doubles *)
Inductive held := HInt (n : N) | HFloat (f : F) | HText (s : list N).

(** a decimal digit *)
Definition is_digit (c : N) : bool := (48 <=? c) && (c <=? 57).
(** the value of decimal digits *)
Fixpoint dec_value (acc : N) (l : list N) : option N :=
  match l with [] => Some acc | c :: r => if is_digit c then dec_value (acc * 10 + (c - 48)) r else None end.
(** Python's int() of a text.  Signs, blanks and underscores, which int() also takes, are in no IntegerLiteral (c99.g4:4-9), and texts with
    more than 4300 digits, which it refuses, are left out. *)
Definition py_int (l : list N) : option N := match l with [] => None | _ => dec_value 0 l end.
(** expression.py:746-752 Value.int, with visitExpressionInteger (visitor.py:44-45) *)
Definition visit_int (l : list N) : held := match py_int l with Some n => HInt n | None => HText l end.

(** digits up to the first character that is none: their value, their number, the rest *)
Fixpoint take_dec (acc : N) (n : nat) (l : list N) : N * nat * list N :=
  match l with [] => (acc, n, []) | c :: r => if is_digit c then take_dec (acc * 10 + (c - 48)) (S n) r else (acc, n, l) end.
(** the number (digits of [m]) * 10^e *)
Definition scaled (m : N) (e : Z) : Q := if (0 <=? e)%Z then inject_Z (Z.of_N m * 10 ^ e) else (Z.of_N m # Z.to_pos (10 ^ (- e)))%Q.
(** Python's float() of a text: [digits] [ . [digits] ] [ e [sign] digits ], at least one digit before the exponent.
    Signs, blanks, underscores, inf and nan, which it also takes, are in no FloatingLiteral (c99.g4:11-14). *)
Definition py_exponent (l : list N) : option Z :=
  match l with
  | [] => Some 0%Z
  | c :: r =>
    if (c =? 101) || (c =? 69) then
      let '(neg, r) := match r with s :: r' => if s =? 43 then (false, r') else if s =? 45 then (true, r') else (false, r) | [] => (false, r) end in
      let '(v, n, q) := take_dec 0 0 r in
      match n, q with S _, [] => Some (if neg then - Z.of_N v else Z.of_N v)%Z | _, _ => None end
    else None
  end.
(** float(s) of Python *)
Definition py_float (l : list N) : option Q :=
  let '(v, n, r) := take_dec 0 0 l in
  let '(v', k, r') := match r with c :: q => if c =? 46 then take_dec v 0 q else (v, O, r) | [] => (v, O, r) end in
  match (n + k)%nat with
  | O => None
  | _ => match py_exponent r' with Some e => Some (scaled v' (e - Z.of_nat k)) | None => None end
  end.
Variable near : Q -> F.                              (* rounding to a double *)
Variable show : F -> list N.                         (* Python's str of a float *)
(** expression.py:738-744 Value.float, with visitExpressionFloat (visitor.py:21-22) *)
Definition visit_float (l : list N) : held := match py_float l with Some q => HFloat (near q) | None => HText l end.

(** decimal digits of a number, Python's str of an int *)
Fixpoint dec_fuel (fuel : nat) (n : N) (tail : list N) : list N :=
  match fuel with
  | O => tail
  | S f => let t := (48 + n mod 10) :: tail in if n <? 10 then t else dec_fuel f (n / 10) t
  end.
(** str(n) of Python *)
Definition dec (n : N) : list N := dec_fuel (S (N.to_nat (N.log2 n))) n [].
(** expression.py: Value._str_repr_ 710-711 *)
Definition written (h : held) : list N := match h with HInt n => dec n | HFloat f => show f | HText s => s end.

(** * Arithmetic with literals that were kept as text
    Both values are constants with a numeric type; the texts are compared with 0 and 1 (is_zero 811-817, is_value 819-820: a text equals no
    number), then Python's operators are applied to what the values hold. *)
Inductive outcome := Done (h : held) | TypeErr.
(** s * n of Python *)
Definition repeated (n : N) (s : list N) : list N := N.iter n (app s) [].
(** expression.py: Value.__mul__ 870-885 of an integer and a text, in either order *)
Definition mul (n : N) (s : list N) : outcome := if n =? 0 then Done (HInt 0) else if n =? 1 then Done (HText s) else Done (HText (repeated n s)).
(** expression.py: Value.__add__ 840-853 of two texts; of an integer and a text, in either order *)
Definition add_texts (s t : list N) : outcome := Done (HText (s ++ t)).
(** Value.__add__, expression.py:840-853, of an integer and a text *)
Definition add (n : N) (s : list N) : outcome := if n =? 0 then Done (HText s) else TypeErr.
(** expression.py: Value.__neg__ 917-918 of a text *)
Definition neg_text (s : list N) : outcome := TypeErr.
End Held.
Arguments HInt {F}. Arguments HFloat {F}. Arguments HText {F}. Arguments Done {F}. Arguments TypeErr {F}.
Arguments mul {F}. Arguments add_texts {F}. Arguments add {F}. Arguments neg_text {F}. Arguments visit_int {F}. Arguments written {F}. Arguments visit_float {F}.

(** * Texts *)
(** Python's strip of double quotes *)
Fixpoint lstrip (l : list N) : list N := match l with c :: r => if c =? 34 then lstrip r else l | [] => [] end.
(** str.strip of double quotes *)
Definition strip (l : list N) : list N := rev (lstrip (rev (lstrip l))).
(** visitExpressionString, visitor.py:142-144 *)
Definition visit_strings (ls : list (list N)) : list N := 34 :: flat_map strip ls ++ [34].
