(** The generated function that stores the parameters of a component instance.

    translators/c_initialise.py:102-211 (cogen_comp_setpos: parameter_line and the initial values of DECLARE variables),
    translators/c_decls.py:158-176 (the members of the parameter structure), and the attributes of common/expression.py:638-1016
    (Value), 1023-1339 (Expr) that these ask for.

    Simplifications: text is a list of tokens as in Print.v; the elements of an initialiser list are numbers and names (the value
    attribute of anything else is not C text); the Expr of a parameter holds one node; the lines that copy the names of the
    instance and of its type, the placement (Placement.v) and the NeXus output are left out.  The C side gives a meaning to the
    statements that occur: zero-initialised static structures, stracpy (copy at most n characters, stop after the terminating zero;
    it belongs to the run time library, which is not part of the repository, so this meaning is assumed), calloc, assignment with
    conversion to int or double. *)
From Coq Require Import List String Ascii Bool QArith Qcanon Qround ZArith Arith Lia.
From Verif Require Import PyStr Expr ExprSem Print.
Import ListNotations.
Local Open Scope string_scope.
Local Open Scope list_scope.
Local Open Scope nat_scope.

(** * Parameter values *)
(** ShapeType, expression.py:75-78 *)
Inductive shape := Unknown | Scalar | Vec.
(** visitInitializerlist, common/visitor.py:85-88: the bare value of each element, a number or a str *)
Inductive elem := ENum (q : Qc) | EName (s : string).
(** the Expr of a parameter: a Value holding None, an expression, or a Value holding a Python list *)
Inductive pv := Absent (d : dtype) (sh : shape) | Exp (n : node) (sh : shape) | Items (d : dtype) (l : list elem).

(** Value.is_vector, common/expression.py:638-1020 *)
Definition is_vec (sh : shape) : bool := match sh with Vec => true | _ => false end.
(** Op.is_str, expression.py:225-227, Value.is_str 794-796: an identifier is never a string *)
Definition is_str (v : pv) : bool :=
  match v with
  | Absent d _ => is_strt d
  | Exp (NVal _ d OValue) _ => is_strt d
  | Exp (NUn _ d _) _ | Exp (NBin _ d _ _) _ | Exp (NTri d _ _ _) _ => is_strt d
  | _ => false
  end.
(** Value.is_id, expression.py:781-784, Op.is_id 213-215 *)
Definition is_id (v : pv) : bool := match v with Exp (NVal _ _ o) _ => ot_is_id o | _ => false end.
(** Value.is_op, expression.py:806-808, Op.is_op 205-207 *)
Definition is_op (v : pv) : bool := match v with Exp (NUn _ _ _) _ | Exp (NBin _ _ _ _) _ | Exp (NTri _ _ _ _) _ => true | _ => false end.
(** Value.is_vector, expression.py:826-828, Op.is_vector 236-238 *)
Definition is_vector (v : pv) : bool :=
  match v with Absent _ sh => is_vec sh | Exp (NVal _ _ _) sh => is_vec sh | Items _ _ => true | _ => false end.
(** Expr.has_value, expression.py:1146-1148, is_constant 1142-1144: a Value that is no identifier, and not None *)
Definition has_value (v : pv) : bool := match v with Exp (NVal _ _ o) _ => negb (ot_is_id o) | Items _ _ => true | _ => false end.
(** Expr.data_type, common/expression.py:1300-1304 *)
Definition data (v : pv) : dtype :=
  match v with Absent d _ => d | Items d _ => d | Exp (NVal _ d _) _ => d | Exp (NUn _ d _) _ => d | Exp (NBin _ d _ _) _ => d | Exp (NTri d _ _ _) _ => d | _ => DUndef end.
(** Expr.shape_type, common/expression.py:1312-1316 *)
Definition shape_of (v : pv) : shape := match v with Absent _ sh => sh | Exp (NVal _ _ _) sh => sh | Items _ _ => Vec | _ => Scalar end.

(** ComponentParameter.compatible_value, parameters.py:69-70, Expr.compatible, expression.py:1168-1170, and Value.compatible 730-736, of
    the default and a given expression.  Unary and binary operations and strings are always accepted, a conditional expression counts
    as a float scalar (it is handed to Value.best, 771-779); an operation has no such method *)
Definition sh_compatible (a b : shape) : bool := match a, b with Unknown, _ | _, Unknown | Scalar, Scalar | Vec, Vec => true | _, _ => false end.
(** Value.compatible, common/expression.py:730-736 *)
Definition compatible (default v : pv) : res bool :=
  if is_op default then Raise else
  Ok match v with
     | Exp (NUn _ _ _) _ | Exp (NBin _ _ _ _) _ => true
     | Exp (NTri _ _ _ _) _ => dt_compatible (data default) DFloat && sh_compatible (shape_of default) Scalar
     | _ => is_str v || (dt_compatible (data default) (data v) && sh_compatible (shape_of default) (shape_of v))
     end.

(** the text of a value with the given form of names (format 'p', expression.py:705-708, 716-722, 1030-1032; or __str__); a missing value
    is the word None; the text of a Python list is not C and is represented by a pair of brackets *)
Definition pfx : string := "_instrument_var._parameters.".
(** str of the value, common/expression.py:800-830 *)
Definition text (nm : otype -> string -> string) (v : pv) : list tok :=
  match v with Absent _ _ => [TId "None"] | Exp n _ => print nm true n | Items _ _ => [TLB; TRB] end.
(** an element of an initialiser list as text *)
Definition elem_text (e : elem) : list tok := match e with ENum q => num_toks q | EName s => [TId s] end.

(** * The structure *)
(** members: char name[16384], double or int, a pointer to these, char pointers *)
Inductive ftype := FText | FNum (d : dtype) | FVec (d : dtype) | FChars (sh : shape).
(** mccode_c_type, expression.py:80-82, 175-183, 969-971, 1286-1292: operations have none, the undefined data type raises *)
Definition c_type (v : pv) : res ftype :=
  if is_op v then Raise else
  match data v with
  | DUndef => Raise
  | DStr => Ok (FChars (shape_of v))
  | d => Ok (if is_vec (shape_of v) then FVec d else FNum d)
  end.
(** component_type_declaration, c_decls.py:158-176 *)
Definition member (default : pv) : res ftype :=
  match c_type default with Ok t => Ok (if is_str default then FText else t) | e => e end.

(** * The statements *)
Inductive stmt :=
| CopyIf (ts : list tok)               (* if (e && strlen(e)) stracpy(f, e, 16384); else f[0] = 0; *)
| Copy (literal : string) (n : nat)    (* stracpy(f, literal, n); *)
| Terminate                            (* f[0] = 0; *)
| Calloc (t : ftype) (n : nat)         (* f = calloc(sizeof(t), n); *)
| Element (i : nat) (ts : list tok)    (* f[i] = e; *)
| Assign (ts : list tok)               (* f = e; *)
| NotC.                                (* text that is not C *)
Fixpoint elements (i : nat) (l : list (list tok)) : list stmt := match l with [] => [] | x :: t => Element i x :: elements (S i) t end.
(** parameter_line, c_initialise.py:105-150; len of a number raises; the type in calloc is that of the loop variable par, which is the
    default the line is made for *)
Definition parameter_line (default p : pv) : res (list stmt) :=
  let value := text (prefixed pfx) p in
  if is_str default || is_str p then
    if is_id p || is_op p then Ok [CopyIf value]
    else match p with
         | Exp (NVal (PStr s) _ _) _ => if (s =?s "0") || (s =?s "NULL") || (s =?s """""") then Ok [Terminate] else Ok [Copy s (String.length s - 1)]
         | Exp (NVal (PNum _) _ _) _ => Raise
         | Absent _ _ => Ok [Terminate]
         | _ => Ok [NotC]
         end
  else if is_vector default || is_vector p then
    match p with
    | Items _ l => match c_type default with Ok t => Ok (Calloc t (List.length l) :: elements 0 (map elem_text l)) | Raise => Raise | Fuel => Fuel end
    | _ => if is_id p then Ok [Assign value] else Ok [Assign (if has_value p then value else [TId "NULL"])]
    end
  else if is_id p || is_op p then Ok [Assign value]
  else Ok [Assign (if has_value p then text plain p else [TNum 0%Qc])].

(** DECLARE variables, c_initialise.py:198-211: of CDeclarator, c_listener.py:100-125, the name, is_pointer, is_array and the text of the
    initial value *)
Record declared := mkDecl { dv_name : string; dv_pointer : bool; dv_array : bool; dv_init : option (list ascii) }.
(** str.strip of a set of characters, str.split of a character *)
Fixpoint lstrip (cs : list ascii) (l : list ascii) : list ascii := match l with [] => [] | c :: r => if existsb (Ascii.eqb c) cs then lstrip cs r else l end.
(** str.strip *)
Definition strip (cs l : list ascii) : list ascii := rev (lstrip cs (rev (lstrip cs l))).
(** str.split *)
Fixpoint split_on (c : ascii) (cur : list ascii) (l : list ascii) : list (list ascii) :=
  match l with [] => [rev cur] | x :: r => if Ascii.eqb x c then rev cur :: split_on c [] r else split_on c (x :: cur) r end.
(** the characters of str.strip() *)
Definition blanks : list ascii := [" "%char; "009"%char; "010"%char; "011"%char; "012"%char; "013"%char].
(** the lines written: element and text *)
Inductive dstmt := DElem (i : nat) (t : list ascii) | DAssign (t : list ascii).
(** c_initialise.py:180-211, the lines for the elements *)
Fixpoint delems (i : nat) (l : list (list ascii)) : list dstmt := match l with [] => [] | x :: r => DElem i x :: delems (S i) r end.
(** c_initialise.py:180-211 *)
Definition declared_lines (d : declared) : list dstmt :=
  let init := match dv_init d with Some t => Some t | None => if dv_pointer d then Some (list_ascii_of_string "NULL") else None end in
  match init with
  | None => []
  | Some t => if dv_array d then delems 0 (map (strip blanks) (split_on ","%char [] (strip ["{"%char; "}"%char] t))) else [DAssign t]
  end.

(** * A component instance *)
Record param := mkPar { p_name : string; p_value : pv }.
(** Comp, comp/comp.py:14-30 *)
Record ctype := mkType { t_define : list param; t_setting : list param }.
(** the parameter of that name *)
Definition lookup (l : list param) (n : string) : option pv := option_map p_value (find (fun x => p_name x =?s n) l).
(** Instance.get_parameter, instr/instance.py:162-166, and Comp.get_parameter, comp/comp.py:42-47 *)
Definition get_parameter (c : ctype) (ps : list param) (n : string) : option pv :=
  match lookup ps n with Some v => Some v | None => match lookup (t_define c) n with Some v => Some v | None => lookup (t_setting c) n end end.
(** the loop over the SETTING parameters, c_initialise.py:193-195 *)
Fixpoint setting_lines (c : ctype) (ps : list param) (l : list param) : res (list (string * stmt)) :=
  match l with
  | [] => Ok []
  | x :: r => match match get_parameter c ps (p_name x) with None => Ok [] | Some v => parameter_line (p_value x) v end with
              | Ok ss => match setting_lines c ps r with Ok rest => Ok (map (fun s => (p_name x, s)) ss ++ rest) | e => e end
              | Raise => Raise | Fuel => Fuel end
  end.
(** c_decls.py:158-176 *)
Fixpoint members (l : list param) : res (list (string * ftype)) :=
  match l with
  | [] => Ok []
  | x :: r => match member (p_value x) with Ok t => match members r with Ok rest => Ok ((p_name x, t) :: rest) | e => e end | Raise => Raise | Fuel => Fuel end
  end.

(** * C *)
Inductive ptr := Null | Points (v : val) | Fresh (l : list Qc).
(** the values of members of a C structure *)
Inductive cval := CDouble (q : Qc) | CInt (z : Z) | CText (s : string) | CPtr (p : ptr).
(** the value before the first assignment *)
Definition zero_of (t : ftype) : cval :=
  match t with FText => CText "" | FNum DInt => CInt 0 | FNum _ => CDouble 0%Qc | FVec _ | FChars _ => CPtr Null end.
(** conversion of a number to int drops the fraction *)
Definition to_int (q : Qc) : Z := Z.quot (Qnum (this q)) (Z.pos (Qden (this q))).
(** the conversion of a number by an assignment in C *)
Definition convert (d : dtype) (q : Qc) : cval := match d with DInt => CInt (to_int q) | _ => CDouble q end.
(** the conversion of a number by an assignment to an element in C *)
Definition convert_elem (d : dtype) (q : Qc) : Qc := match d with DInt => Z2Qc (to_int q) | _ => q end.
(** 16384 *)
Definition room (n : nat) : Prop := (Z.of_nat n < 16384)%Z.
(** assignment to an element *)
Fixpoint update {A} (i : nat) (x : A) (l : list A) : list A := match l, i with [], _ => [] | _ :: r, 0 => x :: r | y :: r, S j => y :: update j x r end.
Section C.
  Variable IB : binop -> list val -> list val -> option val.
  Variable IU : unop -> list val -> option val.
  (** what the names of the generated program stand for; a null pointer is the number 0, a char pointer the text it points to *)
  Variable env : string -> option val.
  (** the text denoted by a string literal; None if the text is no literal *)
  Variable lit : string -> option string.
  (** specification: the value of an expression of C *)
  Definition value (ts : list tok) (v : val) : Prop := exists n, reads c_table ts n /\ den IB IU env false n = Some [v].
  (** one statement on the member of the given type; statements that do not compile, crash or write outside the member have no
      successor *)
  Inductive step : ftype -> stmt -> cval -> cval -> Prop :=
  | st_copy_if ts o s : value ts (VS s) -> s <> "" -> room (String.length s) -> step FText (CopyIf ts) (CText o) (CText s)
  | st_copy_if_empty ts o v : value ts v -> v = VS "" \/ v = VN 0%Qc -> step FText (CopyIf ts) (CText o) (CText "")
  | st_copy t n s o : lit t = Some s -> String.length s < n -> room (String.length s) -> step FText (Copy t n) (CText o) (CText s)
  | st_copy_cut t n s : lit t = Some s -> n <= String.length s -> room n -> step FText (Copy t n) (CText "") (CText (String.substring 0 n s))
  | st_terminate o : step FText Terminate (CText o) (CText "")
  | st_calloc d t n p : step (FVec d) (Calloc t n) (CPtr p) (CPtr (Fresh (repeat 0%Qc n)))
  | st_element d i ts q l : value ts (VN q) -> i < List.length l -> step (FVec d) (Element i ts) (CPtr (Fresh l)) (CPtr (Fresh (update i (convert_elem d q) l)))
  | st_assign d ts q c : value ts (VN q) -> step (FNum d) (Assign ts) c (convert d q)
  | st_assign_null d ts c : value ts (VN 0%Qc) -> step (FVec d) (Assign ts) c (CPtr Null)
  | st_assign_ptr d ts c v : value ts v -> v <> VN 0%Qc -> step (FVec d) (Assign ts) c (CPtr (Points v)).
  (** all statements of a function on the members of one structure *)
  Definition state := string -> option cval.
  (** assignment to a member *)
  Definition set_ (s : state) (n : string) (c : cval) : state := fun m => if m =?s n then Some c else s m.
  (** the statements one after the other *)
  Inductive runs (tys : list (string * ftype)) : list (string * stmt) -> state -> state -> Prop :=
  | r_nil s : runs tys [] s s
  | r_cons f x r s t c c' s' : In (f, t) tys -> s f = Some c -> step t x c c' -> runs tys r (set_ s f c') s' -> runs tys ((f, x) :: r) s s'.
End C.
