(** axes_euler_angles, instr/orientation.py:419-428, where angles are parameters of the instrument: the
    entries of the matrix are expressions, and so are the angles found.  The value of what is found is that
    of the expression in the generated C program, where instr.py:374 puts it as an angle in degrees.
    Simplifications: an angle is a number or one of any number of names; of an operation other than sin, cos
    and the minus sign only the value is kept; products and sums with the numbers 0, 1 and -1 are simplified as
    Expr does, and all other ones are operations of which only the value is kept. *)
From Coq Require Import Bool Reals List Arith Lra Lia.
From Verif Require Import Orient Placement Euler.
Local Open Scope R_scope.

(** an expression in one name (Value or UnaryOp of it) or an operation, common/expression.py:537-572 *)
Inductive entry := Num (r : R) | Name (a : nat) | Sin (a : nat) | Cos (a : nat) | Neg (e : entry) | Oper (r : R).
(** the value, the names having these values; sin and cos are those of C and take radian *)
Fixpoint value (env : nat -> R) (e : entry) : R :=
  match e with
  | Num r => r
  | Name a => env a
  | Sin a => sin (env a)
  | Cos a => cos (env a)
  | Neg e => - value env e
  | Oper r => r
  end.
(** Expr.is_op *)
Definition is_op (e : entry) : bool := match e with Num _ | Name _ => false | _ => true end.
(** e.is_value(0) and the like *)
Definition is_number (e : entry) (x : R) : bool := match e with Num r => if Req_EM_T r x then true else false | _ => false end.
(** __neg__, expression.py:574-578, 917-918 *)
Definition neg (e : entry) : entry := match e with Num r => Num (- r) | Neg e => e | _ => Neg e end.
(** products, expression.py:254-261 and 870-885: 0, 1 and -1 are simplified *)
Definition mul (env : nat -> R) (a b : entry) : entry :=
  if is_number a 0 || is_number b 0 then Num 0
  else if is_number a 1 then b else if is_number a (-1) then neg b
  else if is_number b 1 then a else if is_number b (-1) then neg a
  else match a, b with Num x, Num y => Num (x * y) | _, _ => Oper (value env a * value env b) end.
(** sums, expression.py:244-247 and 842-853 *)
Definition add (env : nat -> R) (a b : entry) : entry :=
  if is_number a 0 then b else if is_number b 0 then a
  else match a, b with Num x, Num y => Num (x + y) | _, _ => Oper (value env a + value env b) end.
(** a matrix of expressions, orientation.py:167-175 *)
Record smatrix := mkSM { sxx : entry; sxy : entry; sxz : entry; syx : entry; syy : entry; syz : entry; szx : entry; szy : entry; szz : entry }.
(** the product of two, row by column, orientation.py:186-193 *)
Definition smul (env : nat -> R) (a b : smatrix) : smatrix :=
  let dot u v w x y z := add env (add env (mul env u x) (mul env v y)) (mul env w z) in
  mkSM (dot (sxx a) (sxy a) (sxz a) (sxx b) (syx b) (szx b)) (dot (sxx a) (sxy a) (sxz a) (sxy b) (syy b) (szy b)) (dot (sxx a) (sxy a) (sxz a) (sxz b) (syz b) (szz b))
       (dot (syx a) (syy a) (syz a) (sxx b) (syx b) (szx b)) (dot (syx a) (syy a) (syz a) (sxy b) (syy b) (szy b)) (dot (syx a) (syy a) (syz a) (sxz b) (syz b) (szz b))
       (dot (szx a) (szy a) (szz a) (sxx b) (syx b) (szx b)) (dot (szx a) (szy a) (szz a) (sxy b) (syy b) (szy b)) (dot (szx a) (szy a) (szz a) (sxz b) (syz b) (szz b)).
(** cos_value and sin_value, orientation.py:334-356, of a number or a name in degrees *)
Definition s_cos (e : entry) : entry := match e with Num r => Num (cos_value r) | Name a => Cos a | _ => e end.
(** sin_value, orientation.py:347-356 *)
Definition s_sin (e : entry) : entry := match e with Num r => Num (sin_value r) | Name a => Sin a | _ => e end.
(** RotationX, RotationY: orientation.py:654-658, 675-679 *)
Definition sX (e : entry) : smatrix := mkSM (Num 1) (Num 0) (Num 0) (Num 0) (s_cos e) (s_sin e) (Num 0) (neg (s_sin e)) (s_cos e).
(** orientation.py:675-679 *)
Definition sY (e : entry) : smatrix := mkSM (s_cos e) (Num 0) (neg (s_sin e)) (Num 0) (Num 1) (Num 0) (s_sin e) (Num 0) (s_cos e).
(** the matrix of ROTATED (x, y, 0): first x, then y *)
Definition turned (env : nat -> R) (x y : entry) : smatrix := smul env (sY y) (sX x).

(** atan2_value, orientation.py:359-372, with binary_expr, expression.py:1357-1373, and of the list the first,
    orientation.py:424-426: the value of the angle *)
Definition s_atan2 (env : nat -> R) (va vb : entry) : R :=
  if is_number va 0 then (if is_op vb then 0 else if Rlt_dec 0 (value env vb) then 0 else 180)
  else if is_number vb 0 then (if is_op va then -90 else if Rlt_dec 0 (value env va) then 90 else -90)
  else match va, vb with
       | Num y, Num x => atan2_degree y x
       | Sin a, Cos b => if Nat.eqb a b then env a else atan2 (value env va) (value env vb)
       | _, _ => atan2 (value env va) (value env vb)
       end.
(** cos_from_sin_value, orientation.py:375-386 *)
Fixpoint s_cos_from_sin (env : nat -> R) (e : entry) : entry :=
  match e with
  | Num r => Num (cos_from_sin r)
  | Neg e => s_cos_from_sin env e
  | Sin a => Cos a
  | _ => Oper (sqrt (1 - value env e * value env e))
  end.
(** axes_euler_angles, orientation.py:419-428 *)
Definition s_euler (env : nat -> R) (m : smatrix) : V3 :=
  mkV (s_atan2 env (neg (szy m)) (szz m)) (s_atan2 env (szx m) (s_cos_from_sin env (szx m))) (s_atan2 env (neg (syx m)) (sxx m)).
