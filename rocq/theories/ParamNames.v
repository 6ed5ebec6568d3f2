(** Which names of the generated C program are taken for instrument parameters: an identifier of an expression
    carries a mark, and only marked ones are written as members of _instrument_var._parameters.
    Modelled: visitExpressionIdentifier and the accesses of common/visitor.py, component instances and included files
    of instr/visitor.py, Assembler.component and Assembler.parameter, Expr.parse, and verify_instance_parameters, which
    every translation to C begins with.
    Simplifications: operations are kept as they are written (Expr leaves some out, see Expr.v); an access to a member names the member
    only; parameters are names; files that are included do not include others; instances are not copies of others. *)
From Coq Require Import List String Ascii Bool QArith Qcanon.
From Verif Require Import PyStr Expr ExprFacts.
Import ListNotations.
Local Open Scope list_scope.
Local Open Scope string_scope.
Local Open Scope list_scope.

(** expressions of a file or a text, as they are written *)
Inductive source :=
| SNumber (q : Qc)
| SName (s : string)
| SMember (pointer : bool) (s m : string)
| SItem (s : string) (e : source)
| SCall (f : string) (e : source)
| SUnary (op : unop) (e : source)
| SBinary (op : binop) (a b : source)
| SChoice (a b c : source).

(** obj.state.get_parameter(name, None) is not None, common/visitor.py:39-40, instr/instr.py:130-135 *)
Definition known (names : list string) (s : string) : bool := existsb (String.eqb s) names.
(** the Value of a name, common/visitor.py:36-42; the type of the parameter is left out *)
Definition named (names : list string) (s : string) : node := NVal (PStr s) DUndef (if known names s then OParam else OId).
(** the expression that the visitor makes, common/visitor.py:12-140: the name before an access is a mere identifier (24-34) and the
    member is read as any other expression *)
Fixpoint visit (names : list string) (e : source) : node :=
  match e with
  | SNumber q => NVal (PNum q) DFloat OValue
  | SName s => named names s
  | SMember p s m => NBin (if p then BPtr else BStruct) DUndef [NVal (PStr s) DUndef OId] [named names m]
  | SItem s e => NBin BItem DUndef [NVal (PStr s) DUndef OId] [visit names e]
  | SCall f e => NBin BCall DUndef [NVal (PStr f) DUndef OFunc] [visit names e]
  | SUnary op e => NUn op DUndef [visit names e]
  | SBinary op a b => NBin op DUndef [visit names a] [visit names b]
  | SChoice a b c => NTri DUndef [visit names a] [visit names b] [visit names c]
  end.
(** Expr.parse, expression.py:1044-1049: the visitor has an instrument without parameters *)
Definition parse (e : source) : node := visit [] e.

(** the expressions of an instance, instr/instance.py:21-35 *)
Record inst (A : Type) := mkInst { values : list A; at_ : list A; rotated : list A; splits : list A; whens : list A; jumps : list A }.
Arguments mkInst {A}. Arguments values {A}. Arguments at_ {A}. Arguments rotated {A}. Arguments splits {A}. Arguments whens {A}. Arguments jumps {A}.
(** visitComponent_instance, instr/visitor.py:109-155 *)
Definition visit_inst (names : list string) (i : inst source) : inst node :=
  mkInst (map (visit names) (values i)) (map (visit names) (at_ i)) (map (visit names) (rotated i)) (map (visit names) (splits i)) (map (visit names) (whens i)) (map (visit names) (jumps i)).
(** the names of the parameters and the instances, instr/instr.py:21-34 *)
Record instr := mkInstr { names_of : list string; insts_of : list (inst node) }.
(** Instr.add_parameter with ignore_repeated, instr/instr.py:124-128 *)
Definition add_parameter (names : list string) (s : string) : list string := if known names s then names else names ++ [s].

(** what TRACE of a file consists of *)
Inductive item := Component (i : inst source) | Include (names : list string) (is_ : list (inst source)).
(** instr/visitor.py:80-106, 109-155: an included file is read by itself, and its parameters are added *)
Definition read_item (s : instr) (it : item) : instr :=
  match it with
  | Component i => mkInstr (names_of s) (insts_of s ++ [visit_inst (names_of s) i])
  | Include ns l => mkInstr (fold_left add_parameter ns (names_of s)) (insts_of s ++ map (visit_inst ns) l)
  end.
(** visitProg, instr/visitor.py:27-35: the parameters come first *)
Definition read_file (names : list string) (l : list item) : instr := fold_left read_item l (mkInstr names []).

(** what is asked of an Assembler; the expressions of a component were made by Expr.parse *)
Inductive step := AddParameter (s : string) | AddComponent (i : inst source).
(** Instr.check_expr, instr/instr.py:495-501 *)
Definition check_expr (names : list string) (n : node) : node := verify names n.
(** Value.best of a text, expression.py:771-776: what is not in quotes is one name *)
Definition best (s : string) : node :=
  NVal (PStr s) (if startswith """" s && endswith """" s then DStr else DUndef) (if startswith """" s && endswith """" s then OValue else OId).
(** a coordinate that is given to an Assembler as a text, assembler/assembler.py:41 with instr/instr.py:495-499; None: value[0] of
    an empty text raises *)
Definition coordinate (names : list string) (s : string) : option node := if String.eqb s "" then None else Some (check_expr names (best s)).
(** Assembler.component, assembler/assembler.py:23-51, 53-91, and Assembler.parameter, 93-105: only positions and
    orientations are checked, with the parameters there are *)
Definition assemble_step (s : instr) (st : step) : instr :=
  match st with
  | AddParameter p => mkInstr (add_parameter (names_of s) p) (insts_of s)
  | AddComponent i =>
      mkInstr (names_of s) (insts_of s ++ [mkInst (map parse (values i)) (map (fun e => check_expr (names_of s) (parse e)) (at_ i))
        (map (fun e => check_expr (names_of s) (parse e)) (rotated i)) (map parse (splits i)) (map parse (whens i)) (map parse (jumps i))])
  end.
(** a whole program with an Assembler, which starts with an instrument without parameters *)
Definition assemble (l : list step) : instr := fold_left assemble_step l (mkInstr [] []).

(** verify_instance_parameters, instr/instr.py:489-493 and instr/instance.py:155-160, called by translators/target.py:31: the values of parameters only *)
Definition verify_inst (names : list string) (i : inst node) : inst node :=
  mkInst (map (verify names) (values i)) (at_ i) (rotated i) (splits i) (whens i) (jumps i).
(** translators/target.py:31 *)
Definition translated (s : instr) : list (inst node) := map (verify_inst (names_of s)) (insts_of s).

(** the start of a parameter in the C program, expression.py:705-708 *)
Definition prefix_ : string := "_instrument_var._parameters.".
(** the names in the C text of an expression, from left to right: special_str, expression.py:705-708, 716-722, by the format p of
    translators/c_initialise.py:34, 114 and c_raytrace.py:47, 92, 102, 111 *)
Definition written (n : node) : list string := map (fun p : string * bool => if snd p then (prefix_ ++ fst p)%string else fst p) (idents n).
