(** Instrument parameters and particle variables added in Python: Assembler.parameter, parameters, ensure_user_var of
    /repo/src/mccode_antlr/assembler/assembler.py:93-153, with InstrumentParameter of common/parameters.py:6-45, Value.best of
    common/expression.py:771-779 and the C types of expression.py:974-985.

    Simplifications: a unit is a text or None (any object is stored by the code); the shape of an expression made by the user is scalar;
    dictionaries have text keys; text given for a parameter is read by the reader of InstrChars.v, where the code's parser would repair
    an erroneous text and go on. *)
From Coq Require Import List String Ascii Bool NArith QArith Qcanon ZArith Arith Lia.
From Verif Require Import PyStr Expr Lexer ExprChars InstrModel InstrChars.
Import ListNotations.
Local Open Scope string_scope.
Local Open Scope list_scope.
Local Open Scope nat_scope.

(** what can be given for a parameter *)
Inductive arg :=
| ANone
| AInt (z : Z)
| AFloat (q : Qc)
| AText (s : string)
| ASeq (l : list arg)              (* a list or a tuple *)
| ADict (l : list (string * arg))
| AExpr (n : node).
(** ShapeType, expression.py:75-78 *)
Inductive shape := Scalar | Vector | Unknown.
(** what the value of a parameter holds *)
Inductive held := HNone | HNode (n : node) | HSeq (l : list arg).
(** InstrumentParameter, parameters.py:6-10, with the data type and the shape of its value *)
Record ap := mkAp { a_name : string; a_unit : option string; a_dt : dtype; a_shape : shape; a_held : held }.

(** value[-1], expression.py:772 *)
Fixpoint last_char (s : string) : option ascii := match s with EmptyString => None | String c EmptyString => Some c | String _ r => last_char r end.
(** value[0] == '"' and value[-1] == '"' of a text that is not empty, expression.py:772 *)
Definition in_quotes (s : string) : bool :=
  match s, last_char s with String c _, Some d => Ascii.eqb c dquote && Ascii.eqb d dquote | _, _ => false end.
(** d[k] of a dict that is given as value, assembler.py:117-122 *)
Definition lookup (k : string) (l : list (string * arg)) : option arg := option_map snd (find (fun p => fst p =?s k) l).

(** Expr.best, expression.py:1096-1097, with Value.best, expression.py:771-779 and the default object and shape types of Value.__init__, 639-647; value[0] of an empty text raises *)
Definition best (v : arg) : res (dtype * shape * held) :=
  match v with
  | AText "" => Raise
  | AText s => if in_quotes s then Ok (DStr, Scalar, HNode (NExpr [NVal (PStr s) DStr OValue])) else Ok (DUndef, Unknown, HNode (NExpr [NVal (PStr s) DUndef OId]))
  | AInt z => Ok (DInt, Scalar, HNode (NExpr [NVal (PNum (Z2Qc z)) DInt OValue]))
  | AFloat q => if Qc_is_int q then Ok (DInt, Scalar, HNode (NExpr [NVal (PNum q) DInt OValue])) else Ok (DFloat, Scalar, HNode (NExpr [NVal (PNum q) DFloat OValue]))
  | ANone => Ok (DFloat, Scalar, HNone)
  | ASeq l => Ok (DFloat, Vector, HSeq l)
  | ADict l => Ok (DFloat, Vector, HSeq (map (fun p => AText (fst p)) l))
  | AExpr n => Ok (match dt_of n with Ok d => d | _ => DUndef end, Scalar, HNode n)
  end.
(** the value and the unit, assembler.py:117-122 *)
Definition unit_of (u : arg) : res (option string) := match u with AText s => Ok (Some s) | ANone => Ok None | _ => Raise end.
(** the value and the unit of a keyword argument, assembler.py:117-122 *)
Definition split_given (v : arg) : res (arg * option string) :=
  match v with
  | ADict l => match lookup "unit" l, lookup "value" l with
               | Some u, Some v' => do u' <- unit_of u; Ok (v', u')
               | _, _ => Ok (v, Some "")
               end
  | ASeq [v'; AText u] => Ok (v', Some u)
  | _ => Ok (v, Some "")
  end.
(** assembler.py:123 *)
Definition entry (name : string) (v : arg) : res ap :=
  do vu <- split_given v; do b <- best (fst vu); Ok (mkAp name (snd vu) (fst (fst b)) (snd (fst b)) (snd b)).

(** Instr.add_parameter, instr.py:124-128, with parameter_name_present, parameters.py:78-80 *)
Definition present (ps : list ap) (n : string) : bool := existsb (fun p => n =?s a_name p) ps.
(** Instr.add_parameter, instr.py:124-128 *)
Definition add (ignore_repeated : bool) (ps : list ap) (a : ap) : res (list ap) :=
  if negb (present ps (a_name a)) then Ok (ps ++ [a]) else if negb ignore_repeated then Raise else Ok ps.

(** the type of a default value read from text: Expr.float, int, str of instr/visitor.py:54-72 *)
Definition of_kind (k : kind) : dtype := match k with KFloat => DFloat | KInt => DInt | KStr => DStr end.
(** a parameter read from text, instr/visitor.py:54-72, seen as an object *)
Definition from_par (p : par) : ap :=
  mkAp (p_name p) (p_unit p) (of_kind (p_kind p)) Scalar (match p_value p with Some e => HNode e | None => HNone end).
(** InstrumentParameter.parse, parameters.py:38-45: the rule instrument_parameter has no end of text behind it (McInstr.g4:39-43), what follows is not looked at *)
Definition parse (s : string) : res ap := match lex s with Some l => match q_par l with Some (p, _) => Ok (from_par p) | None => Raise end | None => Raise end.
(** a positional argument *)
Inductive pos := PText (s : string) | PPar (a : ap).
(** the positional arguments of Assembler.parameters, assembler.py:108-113 *)
Definition par_of (p : pos) : res ap := match p with PText s => parse s | PPar a => Ok a end.

(** One thing to do after the other, up to the first that raises; what was added before stays.  The parameters and whether all was done. *)
Fixpoint each {A} (f : list ap -> A -> res (list ap)) (ps : list ap) (l : list A) : list ap * bool :=
  match l with
  | [] => (ps, true)
  | a :: t => match f ps a with Ok ps' => each f ps' t | _ => (ps, false) end
  end.
(** Assembler.parameter, assembler.py:93-105 *)
Definition parameter (ignore_repeated : bool) (ps : list ap) (p : pos) : res (list ap) := do a <- par_of p; add ignore_repeated ps a.
(** a keyword argument; [inr] is an InstrumentParameter, stored under its own name, assembler.py:115-124 *)
Definition keyword_argument (ps : list ap) (kv : string * (arg + ap)) : res (list ap) :=
  match snd kv with inr a => add false ps a | inl v => do a <- entry (fst kv) v; add false ps a end.
(** Assembler.parameters, assembler.py:107-124 *)
Definition parameters (ps : list ap) (pars : list pos) (pairs : list (string * (arg + ap))) : list ap * bool :=
  let '(ps, ok) := each (parameter false) ps pars in if ok then each keyword_argument ps pairs else (ps, false).

(** Value.mccode_c_type_name, expression.py:974-985 *)
Definition c_type_name (a : ap) : res string :=
  match a_dt a, a_shape a with
  | DFloat, Scalar => Ok "instr_type_double"
  | DInt, Scalar => Ok "instr_type_int"
  | DStr, Scalar => Ok "instr_type_string"
  | DFloat, Vector | DInt, Vector => Ok "instr_type_vector"
  | _, _ => Raise
  end.
(** what InstrumentParameter.to_file, parameters.py:12-26, writes as a parameter of a type known to the grammar; Value.is_str, expression.py:795-796 *)
Definition is_id (h : held) : bool := match h with HNode (NVal _ _ o) | HNode (NExpr [NVal _ _ o]) => ot_is_id o | _ => false end.
(** the same parameter as Print.v and InstrParams.v write it, parameters.py:12-26 *)
Definition to_par (a : ap) : option par :=
  match a_shape a, a_held a with
  | Vector, _ | _, HSeq _ => None
  | _, h => Some (mkPar (a_name a) (a_unit a)
                    (if dtype_eqb (a_dt a) DStr && negb (is_id h) then KStr else if dtype_eqb (a_dt a) DInt then KInt else KFloat)
                    (match h with HNode n => Some n | _ => None end))
  end.

(** * Particle variables *)
Section UserVars.
  (** extract_c_declared_variables, translators/c_listener.py:383-387: names and types of the variables a block of C declares *)
  Variable declared : string -> list (string * string).
  (** Assembler.ensure_user_var, assembler.py:135-153; the blocks of instrument.user *)
  Definition ensure_user_var (user : list string) (s : string) : res (list string) :=
    match declared s with
    | [] => Raise
    | (n, _) :: _ => if existsb (fun b => existsb (fun v => fst v =?s n) (declared b)) user then Ok user else Ok (user ++ [s])
    end.
End UserVars.
