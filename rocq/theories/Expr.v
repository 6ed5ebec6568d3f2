(** Expression trees of /repo/src/mccode_antlr/common/expression.py.

    Modelled: DataType (107-184), Op (194-291), TrinaryOp (294-380), BinaryOp
    (383-534), UnaryOp (537-635), Value (638-1016) and Expr (1023-1339): the
    arithmetic operators with every shortcut they take, negation, abs, round,
    as_type, simplify, evaluate, depends_on, verify_parameters, and the way Expr
    objects end up nested inside nodes and inside Values.

    Simplifications: Python numbers are exact rationals (Qc), so overflow, NaN and
    rounding are absent; values holding None or a Python list are absent; shape
    types are absent (they do not influence arithmetic); arithmetic between two
    string constants raises (Python would concatenate or repeat them). *)
From Coq Require Import List String Ascii Bool QArith Qcanon Qround ZArith Lia.
From Verif Require Import PyStr.
Import ListNotations.
Local Open Scope list_scope.
Local Open Scope Qc_scope.

(** * Results: value, Python exception, or recursion budget exhausted *)
Inductive res (A : Type) : Type := Ok (a : A) | Raise | Fuel.
Arguments Ok {A} a. Arguments Raise {A}. Arguments Fuel {A}.

(** an exception is passed on *)
Definition rbind {A B} (x : res A) (f : A -> res B) : res B :=
  match x with Ok a => f a | Raise => Raise | Fuel => Fuel end.
Notation "'do' x <- e ; k" := (rbind e (fun x => k))
  (at level 200, x name, e at level 100, k at level 200).

(** a list comprehension in which every item may raise *)
Definition rmap {A B} (f : A -> res B) : list A -> res (list B) :=
  fix go l := match l with
              | [] => Ok []
              | x :: t => do y <- f x; do ys <- go t; Ok (y :: ys)
              end.

(** * Types *)
(** DataType, expression.py:107-111 *)
Inductive dtype := DUndef | DFloat | DInt | DStr.
(** ObjectType, expression.py:38-43 *)
Inductive otype := OValue | OInit | OId | OFunc | OParam.
(** what a plain Value holds; identifiers and quoted strings are Python str *)
Inductive payload := PNum (q : Qc) | PStr (s : string).

(** binary operator names, expression.py:413-447 *)
Inductive binop := BAdd | BSub | BMul | BDiv | BFloor | BPow | BMod | BShl | BShr
 | BLt | BGt | BLe | BGe | BNeq | BEq | BOr | BAnd
 | BCall | BStruct | BPtr | BItem | BNamed (s : string).
(** unary operator names, expression.py:556-563 *)
Inductive unop := UNeg | UPos | UGroup | UNot | UAbs | URound | UNamed (s : string).

(** A node is anything that can occur where the code expects a Value or an Op:
    [NRaw] a plain Python number, [NVal] a Value holding a number or a str, [NBox]
    a Value holding an Expr (made by Value.best, expression.py:771-779, when it is
    handed an Expr), [NUn]/[NBin]/[NTri] the operations, [NExpr] an Expr object
    (made by simplify, expression.py:358-360, 498, 503). *)
Inductive node :=
| NRaw (q : Qc)
| NVal (p : payload) (d : dtype) (o : otype)
| NBox (d : dtype) (l : list node)
| NUn (op : unop) (d : dtype) (a : list node)
| NBin (op : binop) (d : dtype) (l r : list node)
| NTri (d : dtype) (f s t : list node)
| NExpr (l : list node).

Section NodeInd.
  Variable P : node -> Prop.
  Hypothesis HRaw : forall q, P (NRaw q).
  Hypothesis HVal : forall p d o, P (NVal p d o).
  Hypothesis HBox : forall d l, Forall P l -> P (NBox d l).
  Hypothesis HUn : forall op d a, Forall P a -> P (NUn op d a).
  Hypothesis HBin : forall op d l r, Forall P l -> Forall P r -> P (NBin op d l r).
  Hypothesis HTri : forall d f s t, Forall P f -> Forall P s -> Forall P t -> P (NTri d f s t).
  Hypothesis HExpr : forall l, Forall P l -> P (NExpr l).
  (** proof helper: induction over nodes *)
  Fixpoint node_ind' (n : node) : P n :=
    let all := fix all l : Forall P l :=
      match l with [] => Forall_nil P | x :: t => Forall_cons x (node_ind' x) (all t) end in
    match n with
    | NRaw q => HRaw q
    | NVal p d o => HVal p d o
    | NBox d l => HBox d l (all l)
    | NUn op d a => HUn op d a (all a)
    | NBin op d l r => HBin op d l r (all l) (all r)
    | NTri d f s t => HTri d f s t (all f) (all s) (all t)
    | NExpr l => HExpr l (all l)
    end.
End NodeInd.

(** * Decidable equalities *)
Definition dtype_eqb (a b : dtype) : bool :=
  match a, b with DUndef, DUndef | DFloat, DFloat | DInt, DInt | DStr, DStr => true | _, _ => false end.
Lemma dtype_eqb_eq a b : dtype_eqb a b = true <-> a = b.
Proof. destruct a, b; simpl; split; congruence. Qed.

(** the operator == of Python on numbers *)
Definition Qc_eqb (a b : Qc) : bool := if Qc_eq_dec a b then true else false.
Lemma Qc_eqb_eq a b : Qc_eqb a b = true <-> a = b.
Proof. unfold Qc_eqb; destruct (Qc_eq_dec a b); split; congruence. Qed.
(** the operator < of Python on numbers *)
Definition Qc_ltb (a b : Qc) : bool := if Qclt_le_dec a b then true else false.
Lemma Qc_ltb_lt a b : Qc_ltb a b = true <-> (a < b)%Qc.
Proof.
  unfold Qc_ltb; destruct (Qclt_le_dec a b); split; auto; try congruence.
  intro H. exfalso. exact (Qclt_not_le _ _ H q).
Qed.

(** * Data types *)
(** DataType.__add__ (= __sub__ = __mul__), expression.py:121-133 *)
Definition dt_add (a b : dtype) : dtype :=
  match a with
  | DUndef => b
  | _ => match b with
         | DUndef => a
         | _ => if dtype_eqb a b then a
                else match a, b with
                     | DFloat, DInt | DInt, DFloat => DFloat
                     | _, _ => DStr
                     end
         end
  end.
(** DataType.__truediv__, expression.py:135-138 *)
Definition dt_div (a b : dtype) : res dtype :=
  match a, b with DStr, _ | _, DStr => Raise | _, _ => Ok DFloat end.
(** DataType.__floordiv__, expression.py:140-141 *)
Definition dt_floordiv (a b : dtype) : dtype := DInt.
(** DataType.compatible, expression.py:113-118 *)
Definition dt_compatible (a b : dtype) : bool :=
  match a, b with
  | DUndef, _ | _, DUndef => true
  | DFloat, DInt | DInt, DFloat => true
  | _, _ => dtype_eqb a b
  end.

(** whether the data type is that of texts *)
Definition is_strt (d : dtype) : bool := dtype_eqb d DStr.

(** data_type attribute of a node; Expr.data_type raises unless singular,
    expression.py:1301-1305; a Python number has no such attribute *)
Fixpoint dt_of (n : node) : res dtype :=
  match n with
  | NRaw _ => Raise
  | NVal _ d _ => Ok d
  | NBox d _ => Ok d
  | NUn _ d _ => Ok d
  | NBin _ d _ _ => Ok d
  | NTri d _ _ _ => Ok d
  | NExpr [x] => dt_of x
  | NExpr _ => Raise
  end.

(** list(dict.fromkeys(x.data_type for x in l)) must have exactly one element,
    expression.py:306-310, 400-404, 546-548 *)
Definition one_dt (l : list node) : res dtype :=
  do ds <- rmap dt_of l;
  match ds with
  | [] => Raise
  | d :: t => if forallb (dtype_eqb d) t then Ok d else Raise
  end.

(** left/right normalisation: an Expr is replaced by its list, anything else by a
    one-element list; expression.py:298-299, 386-393, 540-543 *)
Definition as_list (n : node) : list node :=
  match n with NExpr l => l | _ => [n] end.

(** UnaryOp.__init__, expression.py:538-550 *)
Definition mk_un (op : unop) (a : list node) : res node :=
  do d <- one_dt a; Ok (NUn op d a).
(** BinaryOp.__init__, expression.py:384-406 *)
Definition mk_bin (op : binop) (l r : list node) : res node :=
  match op with
  | BCall | BStruct | BPtr | BItem => Ok (NBin op DUndef l r)
  | _ => do a <- one_dt l; do b <- one_dt r; Ok (NBin op (dt_add a b) l r)
  end.
(** TrinaryOp.__init__, expression.py:295-311 *)
Definition mk_tri (f s t : list node) : res node :=
  do a <- one_dt s; do b <- one_dt t; Ok (NTri (dt_add a b) f s t).

(** * Value *)
(** Value.__init__ with object_type=None, expression.py:639-650 *)
Definition mk_value (p : payload) (d : dtype) : node :=
  match p with
  | PStr _ => NVal p d (if is_strt d then OValue else OId)
  | PNum _ => NVal p d OValue
  end.

(** whether a number is an int of Python; a float with an integral value is one here *)
Definition Qc_is_int (q : Qc) : bool := (Qden (this q) =? 1)%positive.

(** Value.best of a number, expression.py:777-779 *)
Definition best_num (q : Qc) : node := NVal (PNum q) (if Qc_is_int q then DInt else DFloat) OValue.
(** Value.best of anything the operators can receive; an Expr is neither str, int nor
    float and becomes a float typed Value holding the Expr *)
Definition coerce (n : node) : node :=
  match n with
  | NRaw q => best_num q
  | NExpr l => NBox DFloat l
  | _ => n
  end.

(** Value.is_id, expression.py:782-784 *)
Definition ot_is_id (o : otype) : bool := match o with OId | OParam => true | _ => false end.

(** isinstance(x, Op) *)
Definition is_op (n : node) : bool :=
  match n with NUn _ _ _ | NBin _ _ _ _ | NTri _ _ _ _ => true | _ => false end.

(** [n == q] for a Python number q: Value.__eq__ 930-934, the __eq__ of the
    operations (False for anything that is not the same kind of operation),
    Expr.__eq__ 1231-1239 *)
Fixpoint eq_num (n : node) (q : Qc) : bool :=
  match n with
  | NRaw q' => Qc_eqb q' q
  | NVal (PNum q') _ _ => Qc_eqb q' q
  | NVal (PStr _) _ _ => false
  | NBox _ [x] => eq_num x q
  | NBox _ _ => false
  | NExpr [x] => eq_num x q
  | NExpr _ => false
  | NUn _ _ _ | NBin _ _ _ _ | NTri _ _ _ _ => false
  end.

(** the str is empty once the double quotes are stripped *)
Fixpoint only_quotes (s : string) : bool :=
  match s with
  | EmptyString => true
  | String c t => Ascii.eqb c """"%char && only_quotes t
  end.

(** is_zero: Value 810-817, Op 210-211, Expr 1108-1109; Python numbers have none *)
Fixpoint is_zero (n : node) : res bool :=
  match n with
  | NRaw _ => Raise
  | NVal p d o =>
      if ot_is_id o then Ok false
      else if (match o with OValue => true | _ => false end) && is_strt d
      then match p with PStr s => Ok (only_quotes s) | PNum _ => Raise end
      else match p with PNum q => Ok (Qc_eqb q 0) | PStr _ => Ok false end
  | NBox d l =>
      if is_strt d then Raise
      else match l with [x] => Ok (eq_num x 0) | _ => Ok false end
  | NUn _ _ _ | NBin _ _ _ _ | NTri _ _ _ _ => Ok false
  | NExpr [x] => is_zero x
  | NExpr _ => Ok false
  end.

(** is_value(q) for a number q: Value 819-820, Op 229-230, Expr 1127-1128 *)
Fixpoint is_value (n : node) (q : Qc) : res bool :=
  match n with
  | NRaw _ => Raise
  | NVal p _ o => Ok (negb (ot_is_id o) && eq_num n q)
  | NBox _ _ => Ok (eq_num n q)
  | NUn _ _ _ | NBin _ _ _ _ | NTri _ _ _ _ => Ok false
  | NExpr [x] => is_value x q
  | NExpr _ => Ok false
  end.

(** truth of [n < 0]: Value.__lt__ 936-940 (a comparison with an identifier builds a
    BinaryOp, which is true), Expr.__lt__ 1241-1249; the operations do not define it *)
Fixpoint lt_zero (n : node) : res bool :=
  match n with
  | NRaw q => Ok (Qc_ltb q 0)
  | NVal p _ o =>
      if ot_is_id o then Ok true
      else match p with PNum q => Ok (Qc_ltb q 0) | PStr _ => Raise end
  | NBox _ [x] => lt_zero x
  | NBox _ _ => Ok false
  | NUn _ _ _ | NBin _ _ _ _ | NTri _ _ _ _ => Raise
  | NExpr [x] => lt_zero x
  | NExpr _ => Ok false
  end.

(** __neg__: Op 281-282, UnaryOp 574-578, Value 917-918, Expr 1219-1220.
    A negated list of length other than one (never built by the code) raises here. *)
Fixpoint neg (n : node) : res node :=
  match n with
  | NRaw q => Ok (NRaw (- q))
  | NVal p d o =>
      if ot_is_id o || is_strt d then mk_un UNeg [n]
      else match p with PNum q => Ok (mk_value (PNum (- q)) d) | PStr _ => Raise end
  | NBox d l =>
      if is_strt d then mk_un UNeg [n]
      else do l' <- rmap neg l; Ok (NBox d l')
  | NUn UNeg _ a => match a with [x] => Ok x | _ => Raise end
  | NUn _ _ _ | NBin _ _ _ _ | NTri _ _ _ _ => mk_un UNeg [n]
  | NExpr l => do l' <- rmap neg l; Ok (NExpr l')
  end.

(** abs *)
Definition Qc_abs (q : Qc) : Qc := if Qclt_le_dec q 0 then (- q)%Qc else q.

(** __abs__: Op 287-288, UnaryOp 580-584, Value 923-924, Expr 1225-1226 *)
Fixpoint nabs (n : node) : res node :=
  match n with
  | NRaw q => Ok (NRaw (Qc_abs q))
  | NVal p d o =>
      if ot_is_id o || is_strt d then mk_un UAbs [n]
      else match p with PNum q => Ok (mk_value (PNum (Qc_abs q)) d) | PStr _ => Raise end
  | NBox d l =>
      if is_strt d then mk_un UAbs [n]
      else do l' <- rmap nabs l; Ok (NBox d l')
  | NUn UAbs _ _ => Ok n
  | NUn _ _ _ | NBin _ _ _ _ | NTri _ _ _ _ => mk_un UAbs [n]
  | NExpr l => do l' <- rmap nabs l; Ok (NExpr l')
  end.

(** Python's round: half to even *)
Definition Qround_even (q : Q) : Z :=
  let f := Qfloor q in
  match Qcompare (q - inject_Z f) (1 # 2) with
  | Lt => f
  | Gt => (f + 1)%Z
  | Eq => if Z.even f then f else (f + 1)%Z
  end.
(** a number of Python made from an int *)
Definition Z2Qc (z : Z) : Qc := Q2Qc (inject_Z z).
(** round *)
Definition Qc_round (q : Qc) : Qc := Z2Qc (Qround_even (this q)).
(** floor *)
Definition Qc_floor (q : Qc) : Qc := Z2Qc (Qfloor (this q)).

(** __round__: BinaryOp 469-470, UnaryOp 591-592, Value 926-928, Expr 1228-1229;
    TrinaryOp has none *)
Fixpoint nround (n : node) : res node :=
  match n with
  | NRaw q => Ok (NRaw (Qc_round q))
  | NVal p d o =>
      if ot_is_id o || is_strt d then mk_un URound [n]
      else match p with PNum q => Ok (mk_value (PNum (Qc_round q)) d) | PStr _ => Raise end
  | NBox d l =>
      if is_strt d then mk_un URound [n]
      else do l' <- rmap nround l; Ok (NBox d l')
  | NUn _ DInt _ | NBin _ DInt _ _ => Ok n
  | NUn _ _ _ | NBin _ _ _ _ => mk_un URound [n]
  | NTri _ _ _ _ => Raise
  | NExpr l => do l' <- rmap nround l; Ok (NExpr l')
  end.

(** as_type: Value 837-838, UnaryOp 552-554, BinaryOp 408-411, TrinaryOp 313-317;
    Expr has no as_type *)
Fixpoint as_type (d : dtype) (n : node) : res node :=
  match n with
  | NRaw _ => Raise
  | NVal p _ o => Ok (NVal p d o)
  | NBox _ l => Ok (NBox d l)
  | NUn op _ a => do a' <- rmap (as_type d) a; mk_un op a'
  | NBin op _ l r => do l' <- rmap (as_type d) l; do r' <- rmap (as_type d) r; mk_bin op l' r'
  | NTri _ f s t =>
      do f' <- rmap (as_type d) f; do s' <- rmap (as_type d) s; do t' <- rmap (as_type d) t;
      mk_tri f' s' t'
  | NExpr _ => Raise
  end.

(** * Binary arithmetic *)
Inductive aop := AAdd | ASub | AMul | ADiv | AFloor | APow.

(** the operation that stands for an operator of Python *)
Definition bop_of (o : aop) : binop :=
  match o with AAdd => BAdd | ASub => BSub | AMul => BMul | ADiv => BDiv | AFloor => BFloor | APow => BPow end.

(** arithmetic of two Python numbers; only those the code reaches *)
Definition raw_op (o : aop) (a b : Qc) : res Qc :=
  match o with
  | AAdd => Ok (a + b)%Qc
  | ASub => Ok (a - b)%Qc
  | AMul => Ok (a * b)%Qc
  | ADiv => if Qc_eqb b 0 then Raise else Ok (a / b)%Qc
  | AFloor => if Qc_eqb b 0 then Raise else Ok (Qc_floor (a / b)%Qc)
  | APow => Raise
  end.

(** Value.is_id, expression.py:782-784, of any node *)
Definition is_id (n : node) : bool :=
  match n with NVal _ _ o => ot_is_id o | _ => false end.

(** the Python object held by a Value *)
Definition held (n : node) : res node :=
  match n with
  | NVal (PNum q) _ _ => Ok (NRaw q)
  | NBox _ l => Ok (NExpr l)
  | _ => Raise
  end.
(** Value(obj, d) *)
Definition hold (n : node) (d : dtype) : res node :=
  match n with
  | NRaw q => Ok (mk_value (PNum q) d)
  | NExpr l => Ok (NBox d l)
  | _ => Raise
  end.

Section ValueOps.
  (** recursive use of the Python operators *)
  Variable rec : aop -> node -> node -> res node.

  (** Value(self.value OP other.value, pdt) *)
  Definition fold_const (o : aop) (a b : node) (d : dtype) : res node :=
    do x <- held a; do y <- held b; do r <- rec o x y; hold r d.

  (** Value.__add__ 840-853 and Value.__sub__ 855-868; [b] is coerced already *)
  Definition value_addsub (minus : bool) (a b : node) : res node :=
    let op := if minus then ASub else AAdd in
    let anti := if minus then AAdd else ASub in
    do za <- is_zero a;
    if za then (if minus then neg b else Ok b) else
    do zb <- is_zero b;
    if zb then Ok a else
    match b with
    | NUn UNeg _ [x] => rec anti a x
    | _ =>
      do flip <- (if is_id a
                  then match b with
                       | NVal (PNum _) _ _ | NBox _ _ => lt_zero b
                       | _ => Ok false
                       end
                  else Ok false);
      if flip then do y <- held b; do y' <- neg y; rec anti a y' else
      if is_op b || is_id a || is_id b then mk_bin (bop_of op) [a] [b] else
      do da <- dt_of a; do db <- dt_of b;
      let pdt := dt_add da db in
      if is_strt pdt then mk_bin (bop_of op) [a] [b] else fold_const op a b pdt
    end.

  (** Value.__mul__ 870-885 *)
  Definition value_mul (a b : node) : res node :=
    do da <- dt_of a; do db <- dt_of b;
    let pdt := dt_add da db in
    do za <- is_zero a; do zb <- (if za then Ok true else is_zero b);
    if zb then Ok (mk_value (PNum 0) (if is_strt pdt then DInt else pdt)) else
    do a1 <- is_value a 1; if a1 then as_type pdt b else
    do am <- is_value a (- (1)); if am then do b' <- neg b; as_type pdt b' else
    do b1 <- is_value b 1; if b1 then as_type pdt a else
    do bm <- is_value b (- (1)); if bm then do a' <- neg a; as_type pdt a' else
    if is_op b || is_id a || is_id b then mk_bin BMul [a] [b] else
    if is_strt pdt then mk_bin BMul [a] [b] else fold_const AMul a b pdt.

  (** Value.__truediv__ 887-900 *)
  Definition value_div (a b : node) : res node :=
    do da <- dt_of a; do db <- dt_of b; do pdt <- dt_div da db;
    do za <- is_zero a;
    if za then Ok (mk_value (PNum 0) (if is_strt pdt then DInt else pdt)) else
    do b1 <- is_value b 1; if b1 then as_type pdt a else
    do bm <- is_value b (- (1)); if bm then do a' <- neg a; as_type pdt a' else
    do zb <- is_zero b; if zb then Raise else
    if is_op b || is_id a || is_id b then mk_bin BDiv [a] [b] else
    if is_strt pdt then mk_bin BDiv [a] [b] else fold_const ADiv a b pdt.

  (** Value.int(round(self.value)): round of a str raises, round of an Expr is an Expr,
      which int() refuses *)
  Definition int_round (a : node) : res node :=
    match a with NVal (PNum q) _ _ => Ok (NVal (PNum (Qc_round q)) DInt OValue) | _ => Raise end.

  (** Value.__floordiv__ 902-915 *)
  Definition value_floordiv (a b : node) : res node :=
    do da <- dt_of a; do db <- dt_of b;
    do za <- is_zero a;
    if za then Ok (mk_value (PNum 0) DInt) else
    do b1 <- is_value b 1; if b1 then int_round a else
    do bm <- is_value b (- (1)); if bm then do a' <- int_round a; neg a' else
    do zb <- is_zero b; if zb then Raise else
    if is_op b || is_id a || is_id b then mk_bin BFloor [a] [b] else
    match a, b with
    | NVal (PNum x) _ _, NVal (PNum y) _ _ =>
        do q <- raw_op AFloor x y; Ok (NVal (PNum q) DInt OValue)
    | _, _ => Raise
    end.

  (** Value.__pow__ 960-967 *)
  Definition value_pow (a b : node) : res node :=
    do za <- is_zero a; if za then Ok a else
    do a1 <- is_value a 1; if a1 then Ok a else
    do zb <- is_zero b; if zb then (do da <- dt_of a; Ok (mk_value (PNum 1) da)) else
    mk_bin BPow [a] [b].

  (** the operators of Value: those below, expression.py:840-967 *)
  Definition value_op (o : aop) (a b : node) : res node :=
    match o with
    | AAdd => value_addsub false a b
    | ASub => value_addsub true a b
    | AMul => value_mul a b
    | ADiv => value_div a b
    | AFloor => value_floordiv a b
    | APow => value_pow a b
    end.
End ValueOps.

(** Op.__add__ ... Op.__floordiv__, expression.py:244-279; an Op has no __pow__ *)
Definition op_op (o : aop) (a b : node) : res node :=
  match o with
  | AAdd | ASub =>
      do zb <- is_zero b; if zb then Ok a else mk_bin (bop_of o) [a] (as_list b)
  | AMul =>
      do zb <- is_zero b; if zb then Ok b else
      do b1 <- is_value b 1; if b1 then Ok a else
      do bm <- is_value b (- (1)); if bm then neg a else mk_bin BMul [a] (as_list b)
  | ADiv | AFloor =>
      do zb <- is_zero b; if zb then Raise else
      do b1 <- is_value b 1; if b1 then Ok a else
      do bm <- is_value b (- (1)); if bm then neg a else mk_bin (bop_of o) [a] (as_list b)
  | APow => Raise
  end.

(** Expr._prep_numeric_operation, expression.py:1172-1181 *)
Definition strip1 (n : node) : node := match n with NExpr [y] => y | _ => n end.

(** the Python operators applied to any two objects; Expr.__add__ ... __rpow__,
    expression.py:1183-1217 *)
Fixpoint py_op (fuel : nat) (o : aop) (a b : node) : res node :=
  match fuel with
  | O => Fuel
  | S fuel =>
      match a with
      | NRaw q =>
          match b with
          | NRaw q' => do r <- raw_op o q q'; Ok (NRaw r)
          | NExpr [y] => do r <- py_op fuel o (best_num q) y; Ok (NExpr [r])
          | _ => Raise
          end
      | NExpr [x] => do r <- py_op fuel o x (strip1 b); Ok (NExpr [r])
      | NExpr _ => Raise
      | NVal _ _ _ | NBox _ _ => value_op (py_op fuel) o a (coerce b)
      | NUn _ _ _ | NBin _ _ _ _ | NTri _ _ _ _ => op_op o a b
      end
  end.

(** budget: the total size of both operands *)
Fixpoint size (n : node) : nat :=
  let sz := fix sz l := match l with [] => O | x :: t => (size x + sz t)%nat end in
  S (match n with
     | NRaw _ | NVal _ _ _ => O
     | NBox _ l => sz l
     | NUn _ _ a => sz a
     | NBin _ _ l r => (sz l + sz r)%nat
     | NTri _ f s t => (sz f + sz s + sz t)%nat
     | NExpr l => sz l
     end).
(** the operators of Python on nodes *)
Definition apply_op (o : aop) (a b : node) : res node :=
  py_op (4 * (size a + size b) + 4)%nat o a b.

(** * simplify *)
(** is_constant: Value 787-788, Op 218-219, Expr 1143-1144 *)
Definition is_constant (n : node) : bool :=
  match n with
  | NVal _ _ o => negb (ot_is_id o)
  | NBox _ _ => true
  | NExpr [NVal _ _ o] => negb (ot_is_id o)
  | NExpr [NBox _ _] => true
  | _ => false
  end.

(** the decision part of BinaryOp.simplify 497-515, given the simplified operands *)
Definition simplify_bin (op : binop) (l r : list node) : res node :=
  do lid <- match l with
            | [x] => match op with
                     | BAdd => is_zero x
                     | BMul => is_value x 1
                     | _ => Ok false
                     end
            | _ => Ok false
            end;
  if lid then Ok (NExpr r) else
  do rid <- match r with
            | [y] => match op with
                     | BAdd | BSub => is_zero y
                     | BMul | BDiv => is_value y 1
                     | _ => Ok false
                     end
            | _ => Ok false
            end;
  if rid then Ok (NExpr l) else
  match l, r with
  | [x], [y] =>
      if is_constant x && is_constant y then
        match op with
        | BAdd => apply_op AAdd x y
        | BSub => apply_op ASub x y
        | BMul => apply_op AMul x y
        | BDiv => apply_op ADiv x y
        | _ => mk_bin op l r
        end
      else mk_bin op l r
  | _, _ => mk_bin op l r
  end.

(** the decision part of TrinaryOp.simplify 354-361 *)
Definition simplify_tri (f s t : list node) : res node :=
  match f with
  | [x] =>
      do tr <- is_value x 1; do fa <- is_value x 0;
      if tr && negb fa then Ok (NExpr s) else
      if fa && negb tr then Ok (NExpr t) else mk_tri f s t
  | _ => mk_tri f s t
  end.

(** the decision part of UnaryOp.simplify 613-617 *)
Definition simplify_un (op : unop) (a : list node) : res node :=
  match op, a with
  | UGroup, [NVal p d o] => Ok (NVal p d o)
  | UGroup, [NBox d l] => Ok (NBox d l)
  | _, _ => mk_un op a
  end.

(** simplify: Value 987, UnaryOp 613, BinaryOp 494, TrinaryOp 354, Expr 1324 *)
Fixpoint simplify (n : node) : res node :=
  match n with
  | NRaw _ => Raise
  | NVal _ _ _ | NBox _ _ => Ok n
  | NUn op _ a => do a' <- rmap simplify a; simplify_un op a'
  | NBin op _ l r => do l' <- rmap simplify l; do r' <- rmap simplify r; simplify_bin op l' r'
  | NTri _ f s t =>
      do f' <- rmap simplify f; do s' <- rmap simplify s; do t' <- rmap simplify t;
      simplify_tri f' s' t'
  | NExpr l => do l' <- rmap simplify l; Ok (NExpr l')
  end.

(** * evaluate, depends_on, verify_parameters *)
Fixpoint lookup (known : list (string * node)) (x : string) : option node :=
  match known with
  | [] => None
  | (k, v) :: t => if (k =? x)%string then Some v else lookup t x
  end.

(** evaluate: Value 990-996, UnaryOp 619-621, BinaryOp 517-519, TrinaryOp 363-365,
    Expr 1328-1329 *)
Fixpoint evaluate (known : list (string * node)) (n : node) : res node :=
  match n with
  | NRaw _ => Raise
  | NVal (PStr s) d o =>
      if ot_is_id o then
        match lookup known s with
        | Some v => Ok (strip1 v)
        | None => Ok n
        end
      else Ok n
  | NVal (PNum _) _ _ | NBox _ _ => Ok n
  | NUn op _ a =>
      do a' <- rmap (evaluate known) a; do m <- mk_un op a'; simplify m
  | NBin op _ l r =>
      do l' <- rmap (evaluate known) l; do r' <- rmap (evaluate known) r;
      do m <- mk_bin op l' r'; simplify m
  | NTri _ f s t =>
      do f' <- rmap (evaluate known) f; do s' <- rmap (evaluate known) s;
      do t' <- rmap (evaluate known) t; do m <- mk_tri f' s' t'; simplify m
  | NExpr l => do l' <- rmap (evaluate known) l; simplify (NExpr l')
  end.

(** depends_on: Value 998-999, UnaryOp 623, BinaryOp 521, TrinaryOp 367, Expr 1331 *)
Fixpoint depends_on (x : string) (n : node) : bool :=
  match n with
  | NRaw _ => false
  | NVal (PStr s) _ o => ot_is_id o && (s =? x)%string
  | NVal (PNum _) _ _ => false
  | NBox _ _ => false
  | NUn _ _ a => existsb (depends_on x) a
  | NBin _ _ l r => existsb (depends_on x) l || existsb (depends_on x) r
  | NTri _ f s t => existsb (depends_on x) f || existsb (depends_on x) s || existsb (depends_on x) t
  | NExpr l => existsb (depends_on x) l
  end.

(** verify_parameters: Value 1014-1016, UnaryOp 633, BinaryOp 531, TrinaryOp 377,
    Expr 1337 (in place in the code, as a new tree here) *)
Fixpoint verify (names : list string) (n : node) : node :=
  match n with
  | NVal (PStr s) d o =>
      if ot_is_id o && existsb (String.eqb s) names then NVal (PStr s) d OParam else n
  | NRaw _ | NVal (PNum _) _ _ | NBox _ _ => n
  | NUn op d a => NUn op d (map (verify names) a)
  | NBin op d l r => NBin op d (map (verify names) l) (map (verify names) r)
  | NTri d f s t => NTri d (map (verify names) f) (map (verify names) s) (map (verify names) t)
  | NExpr l => NExpr (map (verify names) l)
  end.
