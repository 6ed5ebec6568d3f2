(** Reading the parameters of a component definition: comp/visitor.py:42-44 (the category), 61-134 (the lists of parameters and the forms
    of a parameter, grammar/McComp.g4:58-73), common/visitor.py:36-42, 85-88, 142-144 (names, lists and texts as values),
    expression.py:1051-1079 (Expr.float, Expr.int, Expr.str), comp/comp.py:42-67 (adding them).
    Simplified: an operation in a default is the node that visiting it gives; OUTPUT parameters, which nothing uses, are left out. *)
From Coq Require Import List String Ascii Bool QArith Qcanon ZArith Arith Lia.
From Verif Require Import PyStr Expr ExprSem Print Setpos.
Import ListNotations.
Local Open Scope string_scope.
Local Open Scope list_scope.
Local Open Scope nat_scope.

(** an expression: a number written as integer or not, a name, a text with its quotes, an operation *)
Inductive raw := RNum (d : dtype) (q : Qc) | RName (s : string) | RText (s : string) | ROp (n : node).
(** what may stand after the sign of a vector: NULL or 0, a name, a list *)
Inductive vdefault := VNull | VName (s : string) | VList (l : list raw).
(** component_parameter, McComp.g4:65-73; the default of a text is NULL or 0, or a literal with its quotes *)
Inductive decl :=
| Double (n : string) (d : option raw)
| Int (n : string) (d : option raw)
| Text (n : string) (d : option (option string))
| Vector (n : string) (d : option vdefault)
| Symbol (n : string) (d : raw)
| DoubleArray (n : string) (d : option vdefault)
| IntArray (n : string) (d : option vdefault).
(** the name in a declaration, McComp.g4:65-73 *)
Definition decl_name (d : decl) : string :=
  match d with Double n _ | Int n _ | Text n _ | Vector n _ | Symbol n _ | DoubleArray n _ | IntArray n _ => n end.

(** visitExpressionIdentifier, common/visitor.py:36-42: a name that is a parameter of what is being read *)
Definition visit_name (c : ctype) (s : string) : node :=
  match get_parameter c [] s with Some v => NVal (PStr s) (data v) OParam | None => NVal (PStr s) DUndef OId end.
(** the visitor of expressions, common/visitor.py:36-42, on these expressions *)
Definition visit (c : ctype) (r : raw) : node :=
  match r with RNum d q => NVal (PNum q) d OValue | RName s => visit_name c s | RText s => NVal (PStr s) DStr OValue | ROp n => n end.
(** setting data_type, expression.py:1055-1058 *)
Definition retag (d : dtype) (n : node) : node :=
  match n with
  | NVal p _ o => NVal p d o
  | NUn u _ l => NUn u d l
  | NBin b _ l r => NBin b d l r
  | NTri _ a b c => NTri d a b c
  | _ => n
  end.
(** Expr.float and Expr.int of what an expression gave, or of None *)
Definition number (d : dtype) (c : ctype) (v : option raw) : pv := match v with Some r => Exp (retag d (visit c r)) Scalar | None => Absent d Scalar end.
(** visitInitializerlist, common/visitor.py:85-88: the value attribute, which an operation does not have *)
Definition element (c : ctype) (r : raw) : res elem :=
  match visit c r with NVal (PNum q) _ _ => Ok (ENum q) | NVal (PStr s) _ _ => Ok (EName s) | _ => Raise end.
(** visitInitializerlist, common/visitor.py:85-88, for all elements *)
Fixpoint elements (c : ctype) (l : list raw) : res (list elem) :=
  match l with
  | [] => Ok []
  | r :: t => match element c r with Ok e => match elements c t with Ok es => Ok (e :: es) | x => x end | Raise => Raise | Fuel => Fuel end
  end.
(** visitComponentParameterVector, comp/visitor.py:99-112: a text is an identifier here (expression.py:643-644) *)
Definition vector (d : dtype) (c : ctype) (v : option vdefault) : res pv :=
  match v with
  | Some (VList l) => match elements c l with Ok es => Ok (Items d es) | Raise => Raise | Fuel => Fuel end
  | Some (VName s) => Ok (Exp (NVal (PStr s) d OId) Vec)
  | Some VNull => Ok (Exp (NVal (PStr "NULL") d OId) Vec)
  | None => Ok (Absent d Vec)
  end.
(** the visitors of the forms, comp/visitor.py:76-134; a context has no method assign (it is Assign), so that every array of integers
    raises (line 124) *)
Definition read (c : ctype) (d : decl) : res param :=
  match d with
  | Double n v => Ok (mkPar n (number DFloat c v))
  | Int n v => Ok (mkPar n (number DInt c v))
  | Text n v => Ok (mkPar n (match v with None => Absent DStr Scalar | Some None => Exp (NVal (PStr "NULL") DStr OValue) Scalar | Some (Some s) => Exp (NVal (PStr s) DStr OValue) Scalar end))
  | Vector n v | DoubleArray n v => match vector DFloat c v with Ok x => Ok (mkPar n x) | Raise => Raise | Fuel => Fuel end
  | Symbol _ _ => Raise
  | IntArray _ _ => Raise
  end.
(** visitComponent_parameters, comp/visitor.py:73-74: all of a list, before any is added *)
Fixpoint read_all (c : ctype) (l : list decl) : res (list param) :=
  match l with
  | [] => Ok []
  | d :: t => match read c d with Ok p => match read_all c t with Ok ps => Ok (p :: ps) | x => x end | Raise => Raise | Fuel => Fuel end
  end.
(** parameter_name_used, comp.py:52-59 *)
Definition used (c : ctype) (n : string) : bool := existsb (fun x => p_name x =?s n) (t_define c) || existsb (fun x => p_name x =?s n) (t_setting c).
(** add_define and add_setting, comp.py:61-67 *)
Fixpoint add_define (c : ctype) (l : list param) : res ctype :=
  match l with [] => Ok c | p :: t => if used c (p_name p) then Raise else add_define (mkType (t_define c ++ [p]) (t_setting c)) t end.
(** add_setting for parameter after parameter, comp.py:65-67 *)
Fixpoint add_setting (c : ctype) (l : list param) : res ctype :=
  match l with [] => Ok c | p :: t => if used c (p_name p) then Raise else add_setting (mkType (t_define c) (t_setting c ++ [p])) t end.
(** component_parameter_set, McComp.g4:58, comp/visitor.py:61-67: from the parameters there are, which are those of the other definition
    for a COPY *)
Definition read_parameters (c : ctype) (defs sets : list decl) : res ctype :=
  match read_all c defs with
  | Ok ds => match add_define c ds with
             | Ok c1 => match read_all c1 sets with Ok ss => add_setting c1 ss | Raise => Raise | Fuel => Fuel end
             | e => e end
  | Raise => Raise | Fuel => Fuel
  end.

(** visitCategory, comp/visitor.py:42-44: a context has no method Identifer, so that a name raises *)
Inductive category := CatText (literal : string) | CatName (s : string).
(** visitCategory, comp/visitor.py:42-44 *)
Definition read_category (unquote : string -> string) (c : category) : res string := match c with CatText s => Ok (unquote s) | CatName _ => Raise end.
