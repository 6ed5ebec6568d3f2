(** Reading only the parameters of an instrument file, and reading the whole file.
    loader/loader.py:9-14 (parse_mccode_instr_parameters), instr/visitor.py:384-435 (InstrParametersVisitor) beside
    instr/visitor.py:27-107, 371-381 (the same parts of InstrVisitor), common/visitor.py:5-144, expression.py:1051-1079,
    instr/instr.py:124-135, grammar/McInstr.g4:20-26, 37-44.

    Simplifications.  The parse tree is the input.  PREVIOUS and MYSELF in an expression are names with this spelling (the
    grammar gives no name this spelling).  A component instance is its name, all expressions and all lists of values that stand
    in it, and whether anything else in it stops InstrVisitor; an included file is the instrument read from it.  An instrument
    that is itself included (destination) is left out. *)
From Coq Require Import List String Bool Arith Lia.
From Verif Require Import PyStr Expr ExprSem Visit.
Import ListNotations.
Local Open Scope string_scope.
Local Open Scope list_scope.

(** ** expressions *)
(** common/visitor.py:5-144 as in Visit.v, with names that may raise *)
Section Visit.
  Variable ident : string -> res expr.
  (** common/visitor.py:5-144 *)
  Fixpoint visitR (t : tree) : res expr :=
    match t with
    | XNum q d => Ok [NVal (PNum q) d OValue]
    | XStr s => Ok [NVal (PStr s) DStr OValue]
    | XId s => ident s
    | XArrow s e => do v <- visitR e; one (mk_bin BPtr [idv s] v)
    | XDot s e => do v <- visitR e; one (mk_bin BStruct [idv s] v)
    | XAt s e => do v <- visitR e; one (mk_bin BItem [idv s] v)
    | XCall s l =>
        do vs <- (fix go l := match l with
                              | [] => Ok []
                              | x :: r => do v <- visitR x; match v with [] => Raise | n :: _ => do ns <- go r; Ok (n :: ns) end
                              end) l;
        one (mk_bin BCall [NVal (PStr s) DUndef OFunc] vs)
    | XGroup e => do v <- visitR e; one (mk_un UGroup v)
    | XSign minus e => do v <- visitR e; if minus then e_neg v else Ok v
    | XArith o l r => do x <- visitR l; do y <- visitR r; e_op o x y
    | XBin op l r => do x <- visitR l; do y <- visitR r; one (mk_bin op x y)
    | XNot e => do v <- visitR e; one (mk_un UNot v)
    | XIf c a b => do x <- visitR c; do y <- visitR a; do z <- visitR b; one (mk_tri x y z)
    end.
  (** visitInitializerlist, common/visitor.py:85-88: an operation has no attribute value *)
  Definition element (t : tree) : res payload := do v <- visitR t; match v with NVal p _ _ :: _ => Ok p | _ => Raise end.
End Visit.

(** ** parameters *)
(** instrument_parameter, McInstr.g4:38-42; the default of a text is NULL or 0, or a literal with its quotes *)
Inductive decl :=
| Double (n : string) (u : option string) (v : option tree)
| Int (n : string) (u : option string) (v : option tree)
| Text (n : string) (u : option string) (v : option (option string)).
(** InstrumentParameter, common/parameters.py:6-10; a value that is None has only its type *)
Inductive value := VNone (d : dtype) | VExp (e : expr).
(** InstrumentParameter, common/parameters.py:6-10 *)
Record par := mkPar { p_name : string; p_unit : option string; p_value : value }.
(** Expr.data_type, expression.py:1300-1304 *)
Definition p_type (p : par) : res dtype :=
  match p_value p with VNone d => Ok d | VExp [n] => dt_of n | VExp _ => Raise end.
(** Expr.float and Expr.int, expression.py:1051-1069 *)
Definition typed (d : dtype) (v : option expr) : res value :=
  match v with None => Ok (VNone d) | Some e => do l <- rmap (set_dt d) e; Ok (VExp l) end.
(** the visitor on an expression that may be missing *)
Definition opt_visit (ident : string -> res expr) (v : option tree) : res (option expr) :=
  match v with None => Ok None | Some t => do e <- visitR ident t; Ok (Some e) end.
(** visitInstrumentParameterDouble, -Integer, -String: instr/visitor.py:54-72 and 402-420, alike in both visitors *)
Definition read_decl (ident : string -> res expr) (d : decl) : res par :=
  match d with
  | Double n u v => do e <- opt_visit ident v; do x <- typed DFloat e; Ok (mkPar n u x)
  | Int n u v => do e <- opt_visit ident v; do x <- typed DInt e; Ok (mkPar n u x)
  | Text n u None => Ok (mkPar n u (VNone DStr))
  | Text n u (Some None) => Ok (mkPar n u (VExp [NVal (PStr "NULL") DStr OValue]))
  | Text n u (Some (Some s)) => Ok (mkPar n u (VExp [NVal (PStr s) DStr OValue]))
  end.
(** Instr.add_parameter, instr.py:124-128 *)
Definition present (ps : list par) (n : string) : bool := existsb (fun p => n =?s p_name p) ps.
(** instr.py:124-128 *)
Definition add_parameter (ps : list par) (p : par) : res (list par) := if present ps (p_name p) then Raise else Ok (ps ++ [p]).
(** instr.py:124-128 with ignore_repeated *)
Definition add_new (ps : list par) (p : par) : list par := if present ps (p_name p) then ps else ps ++ [p].
(** visitExpressionIdentifier, common/visitor.py:36-42, with Instr.get_parameter, instr.py:130-135 *)
Definition identifier (ps : list par) (s : string) : res expr :=
  match find (fun p => s =?s p_name p) ps with
  | Some p => do d <- p_type p; Ok [NVal (PStr s) d OParam]
  | None => Ok [idv s]
  end.
(** names of InstrParametersVisitor: there is no component, and no attribute destination or current_instance,
    instr/visitor.py:386-387, 425-435 *)
Definition only_ident (ps : list par) (s : string) : res expr :=
  if s =?s "PREVIOUS" then Raise else if s =?s "MYSELF" then Raise else identifier ps s.
(** names of InstrVisitor, instr/visitor.py:371-381: the attribute current_instance is set nowhere *)
Definition full_ident (ps : list par) (cs : list string) (s : string) : res expr :=
  if s =?s "PREVIOUS" then match rev cs with n :: _ => Ok [NVal (PStr n) DStr OValue] | [] => Raise end
  else if s =?s "MYSELF" then Raise else identifier ps s.
(** visitInstrument_parameters, instr/visitor.py:37-43 and 398-400 *)
Fixpoint read_decls (ident : list par -> string -> res expr) (ps : list par) (l : list decl) : res (list par) :=
  match l with
  | [] => Ok ps
  | d :: t => do p <- read_decl (ident ps) d; do ps' <- add_parameter ps p; read_decls ident ps' t
  end.

(** ** files *)
Inductive item :=
| Comp (name : string) (es : list tree) (ls : list (list tree)) (stops : bool)
| Incl (ps : list par) (cs : list string).
(** an instrument file: its parameters and what follows *)
Record file := mkFile { f_params : list decl; f_trace : list item }.

(** the visitor on expressions and on lists of them, without keeping the results *)
Definition visit_exprs (ident : string -> res expr) (es : list tree) (ls : list (list tree)) : res unit :=
  do a <- rmap (visitR ident) es; do b <- rmap (rmap (element ident)) ls; Ok tt.
(** visitChildren of everything else: all expressions are visited, nothing is kept; instr/visitor.py:389-396, loader.py:9-14 *)
Fixpoint visit_items (ps : list par) (l : list item) : res unit :=
  match l with
  | [] => Ok tt
  | Comp _ es ls _ :: t => do a <- visit_exprs (only_ident ps) es ls; visit_items ps t
  | Incl _ _ :: t => visit_items ps t
  end.
(** InstrParametersVisitor, instr/visitor.py:389-396, loader.py:9-14 *)
Definition read_only (f : file) : res (list par) :=
  do ps <- read_decls only_ident [] (f_params f); do u <- visit_items ps (f_trace f); Ok ps.

(** InstrVisitor: component instances and included files, instr/visitor.py:80-107, 109-157; the names of the components *)
Fixpoint read_items (ps : list par) (cs : list string) (l : list item) : res (list par * list string) :=
  match l with
  | [] => Ok (ps, cs)
  | Comp n es ls stops :: t =>
      do a <- visit_exprs (full_ident ps cs) es ls;
      if stops || existsb (fun c => c =?s n) cs then Raise else read_items ps (cs ++ [n]) t
  | Incl ps' cs' :: t =>
      if existsb (fun n => existsb (fun c => c =?s n) cs) cs' then Raise else read_items (fold_left add_new ps' ps) (cs ++ cs') t
  end.
(** InstrVisitor, instr/visitor.py:80-107, 109-157 *)
Definition read_full (f : file) : res (list par * list string) :=
  do ps <- read_decls (fun ps => full_ident ps []) [] (f_params f); read_items ps [] (f_trace f).
