(** The table of instrument parameters in the generated C, translators/c_decls.py:62-81.

    Simplifications: parameters are those of InstrChars.v (a name, an optional unit, a type and an optional default value), as made by the reader of instrument files, instr/visitor.py:54-75;
    parameters that hold Python lists are left out. *)
From Coq Require Import List String Ascii Bool NArith QArith Qcanon ZArith Arith Lia.
From Verif Require Import PyStr Expr ExprSem Print Lexer ExprChars InstrChars.
Import ListNotations.
Local Open Scope string_scope.
Local Open Scope list_scope.
Local Open Scope nat_scope.

(** the double quote *)
Definition dq : string := String dquote "".
(** str.endswith of a character *)
Fixpoint last_is (c : ascii) (s : string) : bool := match s with EmptyString => false | String d EmptyString => Ascii.eqb d c | String _ r => last_is c r end.
(** str.startswith of a character *)
Definition first_is (c : ascii) (s : string) : bool := match s with EmptyString => false | String d _ => Ascii.eqb d c end.
(** nps, c_decls.py:63-69; the text that replaces a lone quote is the same text, since Python reads the escaped quote as a quote *)
Definition nps (x : option string) : string :=
  let z := match x with None => "" | Some z => z end in
  let z := if z =?s dq then dq else z in
  if negb (z =?s "") && first_is dquote z && last_is dquote z then z else dq ++ z ++ dq.
(** Value.mccode_c_type_name and Expr.mccode_c_type_name, common/expression.py:973-985, 1294-1298, of what Expr.float, Expr.int and Expr.str return, expression.py:1051-1079; operations have no such attribute *)
Definition kind_name (k : kind) : string := match k with KFloat => "instr_type_double" | KInt => "instr_type_int" | KStr => "instr_type_string" end.
(** Expr.mccode_c_type_name, common/expression.py:1294-1298 *)
Definition type_name (p : par) : res string :=
  match p_value p with None | Some (NVal _ _ _) | Some (NExpr [NVal _ _ _]) => Ok (kind_name (p_kind p)) | Some _ => Raise end.
Section Table.
  Variable num : Qc -> string.
  (** str of the default value, expression.py:710-714, 1027-1028: a missing one is the word None *)
  Definition value_str (p : par) : string := match p_value p with None => "None" | Some e => show num e end.
  (** one_line, c_decls.py:71-72 *)
  Definition row (p : par) : res string :=
    do t <- type_name p;
    Ok ("  {" ++ dq ++ p_name p ++ dq ++ ", &(_instrument_var._parameters." ++ p_name p ++ "), " ++ t ++ ", " ++ nps (Some (value_str p)) ++ ", " ++ nps (p_unit p) ++ "},")%string.
  (** the rows one after the other, c_decls.py:62-81 *)
  Fixpoint rows (l : list par) : res (list string) := match l with [] => Ok [] | p :: l => do r <- row p; do rs <- rows l; Ok (r :: rs) end.
  (** c_decls.py:74-78 *)
  Definition table (l : list par) : res (list string) :=
    do rs <- rows l;
    Ok (("int numipar = " ++ str_nat (List.length l) ++ ";")%string :: "struct mcinputtable_struct mcinputtable[] = {" :: rs ++ [("  {NULL, NULL, instr_type_double, " ++ dq ++ dq ++ ", " ++ dq ++ dq ++ "}")%string; "};"]).
End Table.
