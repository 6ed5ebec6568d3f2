(** From parse trees to expressions, and the evaluation of assignments.

    common/visitor.py:12-144 (the visitors of expressions), translators/c_listener.py:404-454 (EvalCVisitor and
    evaluate_c_defined_variables), and the operators of Expr that the visitors use (common/expression.py:1172-1220).

    Simplifications: the parse tree of the grammar (McCommon.g4:39-68) is the input, PREVIOUS and MYSELF are left out; numbers are
    exact; objects are not shared, so that setting the data type of one result does not show in another result made of the same
    Value object; variables known without a value (Value(None)) are left out. *)
From Coq Require Import List String Ascii Bool QArith Qcanon ZArith Arith Lia.
From Verif Require Import PyStr Expr ExprSem.
Import ListNotations.
Local Open Scope string_scope.
Local Open Scope list_scope.

(** * Parse trees *)
(** McCommon.g4:39-68, one constructor for alternatives with the same visitor pattern; [XNum] with the type of its literal *)
Inductive tree :=
| XNum (q : Qc) (d : dtype)
| XStr (s : string)
| XId (s : string)
| XArrow (s : string) (e : tree)
| XDot (s : string) (e : tree)
| XAt (s : string) (e : tree)
| XCall (s : string) (args : list tree)
| XGroup (e : tree)
| XSign (minus : bool) (e : tree)
| XArith (o : aop) (l r : tree)
| XBin (op : binop) (l r : tree)
| XNot (e : tree)
| XIf (c a b : tree).

Section TreeInd.
  Variable P : tree -> Prop.
  Hypothesis HNum : forall q d, P (XNum q d).
  Hypothesis HStr : forall s, P (XStr s).
  Hypothesis HId : forall s, P (XId s).
  Hypothesis HArrow : forall s e, P e -> P (XArrow s e).
  Hypothesis HDot : forall s e, P e -> P (XDot s e).
  Hypothesis HAt : forall s e, P e -> P (XAt s e).
  Hypothesis HCall : forall s l, Forall P l -> P (XCall s l).
  Hypothesis HGroup : forall e, P e -> P (XGroup e).
  Hypothesis HSign : forall b e, P e -> P (XSign b e).
  Hypothesis HArith : forall o l r, P l -> P r -> P (XArith o l r).
  Hypothesis HBin : forall o l r, P l -> P r -> P (XBin o l r).
  Hypothesis HNot : forall e, P e -> P (XNot e).
  Hypothesis HIf : forall c a b, P c -> P a -> P b -> P (XIf c a b).
  (** proof helper: induction over parse trees *)
  Fixpoint tree_ind' (t : tree) : P t :=
    match t with
    | XNum q d => HNum q d
    | XStr s => HStr s
    | XId s => HId s
    | XArrow s e => HArrow s e (tree_ind' e)
    | XDot s e => HDot s e (tree_ind' e)
    | XAt s e => HAt s e (tree_ind' e)
    | XCall s l => HCall s l ((fix all l : Forall P l := match l with [] => Forall_nil P | x :: r => Forall_cons x (tree_ind' x) (all r) end) l)
    | XGroup e => HGroup e (tree_ind' e)
    | XSign b e => HSign b e (tree_ind' e)
    | XArith o l r => HArith o l r (tree_ind' l) (tree_ind' r)
    | XBin o l r => HBin o l r (tree_ind' l) (tree_ind' r)
    | XNot e => HNot e (tree_ind' e)
    | XIf c a b => HIf c a b (tree_ind' c) (tree_ind' a) (tree_ind' b)
    end.
End TreeInd.

(** * Operators of Expr *)
(** an Expr is its list of nodes, expression.py:1024-1025 *)
Definition expr := list node.
(** Expr.__add__ ... __truediv__, __pow__, expression.py:1172-1199 *)
Definition e_op (o : aop) (l r : expr) : res expr :=
  match l with
  | [x] => do n <- apply_op o x (match r with [y] => y | _ => NExpr r end); Ok [n]
  | _ => Raise
  end.
(** Expr.__neg__, expression.py:1219-1220 *)
Definition e_neg (l : expr) : res expr := rmap neg l.
(** an Expr with one node *)
Definition one (r : res node) : res expr := do n <- r; Ok [n].

(** * The visitors *)
Section Visit.
  (** visitExpressionIdentifier *)
  Variable ident : string -> expr.
  (** Value.id, an identifier *)
  Definition idv (s : string) : node := NVal (PStr s) DUndef OId.
  Fixpoint visit (t : tree) : res expr :=
    match t with
    | XNum q d => Ok [NVal (PNum q) d OValue]                                 (* visitExpressionZero, Integer, Float: 21-22, 44-48 *)
    | XStr s => Ok [NVal (PStr s) DStr OValue]                                (* visitExpressionString: 142-144 *)
    | XId s => Ok (ident s)
    | XArrow s e => do v <- visit e; one (mk_bin BPtr [idv s] v)              (* 24-26 *)
    | XDot s e => do v <- visit e; one (mk_bin BStruct [idv s] v)             (* 28-30 *)
    | XAt s e => do v <- visit e; one (mk_bin BItem [idv s] v)                (* 32-34 *)
    | XCall s l =>                                                            (* 59-63; the first node of each argument *)
        do vs <- (fix go l := match l with
                              | [] => Ok []
                              | x :: r => do v <- visit x; match v with [] => Raise | n :: _ => do ns <- go r; Ok (n :: ns) end
                              end) l;
        one (mk_bin BCall [NVal (PStr s) DUndef OFunc] vs)
    | XGroup e => do v <- visit e; one (mk_un UGroup v)                       (* 18-19 *)
    | XSign minus e => do v <- visit e; if minus then e_neg v else Ok v       (* 12-16 *)
    | XArith o l r => do x <- visit l; do y <- visit r; e_op o x y            (* 50-57, 65-68 *)
    | XBin op l r => do x <- visit l; do y <- visit r; one (mk_bin op x y)    (* 70-83, 97-105, 112-140 *)
    | XNot e => do v <- visit e; one (mk_un UNot v)                           (* 90-95 *)
    | XIf c a b => do x <- visit c; do y <- visit a; do z <- visit b; one (mk_tri x y z)   (* 107-110 *)
    end.
End Visit.

(** common/visitor.py:36-42: a name of an instrument parameter, or any other name *)
Definition ident_instr (params : list (string * dtype)) (s : string) : expr :=
  match find (fun p => fst p =?s s) params with Some (_, d) => [NVal (PStr s) d OParam] | None => [idv s] end.

(** * Assignments *)
(** Python's dict of the values found so far *)
Definition dict := list (string * expr).
(** found.get(name), c_listener.py:404-408 *)
Fixpoint get (d : dict) (s : string) : option expr :=
  match d with [] => None | (k, v) :: r => if k =?s s then Some v else get r s end.
(** found[name] = value, c_listener.py:414-419 *)
Fixpoint put (d : dict) (s : string) (v : expr) : dict :=
  match d with [] => [(s, v)] | (k, w) :: r => if k =?s s then (k, v) :: r else (k, w) :: put r s v end.
(** EvalCVisitor.visitExpressionIdentifier, c_listener.py:421-427 *)
Definition ident_found (found : dict) (s : string) : expr := match get found s with Some v => v | None => [idv s] end.
(** EvalCVisitor.visitAssignment 414-419 for every statement, 442-446 *)
Definition assignment := (string * tree)%type.
(** EvalCVisitor.visitAssignment, c_listener.py:414-419, for every statement *)
Fixpoint assign_all (found : dict) (p : list assignment) : res dict :=
  match p with
  | [] => Ok found
  | (x, e) :: r => do v <- visit (ident_found found) e; assign_all (put found x v) r
  end.
(** the setter of data_type: Value 693-695, an attribute of the operations, Expr 1306-1310 *)
Fixpoint set_dt (d : dtype) (n : node) : res node :=
  match n with
  | NRaw q => Raise
  | NVal p _ o => Ok (NVal p d o)
  | NBox _ l => Ok (NBox d l)
  | NUn op _ a => Ok (NUn op d a)
  | NBin op _ l r => Ok (NBin op d l r)
  | NTri _ f s t => Ok (NTri d f s t)
  | NExpr [x] => do y <- set_dt d x; Ok (NExpr [y])
  | NExpr _ => Raise
  end.
(** evaluate_c_defined_variables: get_found 448-452 *)
Definition get_found (found : dict) (x : string) (d : dtype) : res expr :=
  do e <- rmap simplify (ident_found found x); match e with [n] => one (set_dt d n) | _ => Ok e end.
(** c_listener.py:430-454; the second result is what the dictionary [known] of the caller holds afterwards (441: it is not copied) *)
Definition evaluate_c (vars : list (string * dtype)) (p : list assignment) (known : dict) : res (dict * dict) :=
  do found <- assign_all known p;
  do l <- rmap (fun v => do e <- get_found found (fst v) (snd v); Ok (fst v, e)) vars;
  Ok (l, found).
