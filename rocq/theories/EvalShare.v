(** The objects shared by the results of evaluating assignments (C56): src/mccode_antlr/translators/c_listener.py:403-454.

    Visit.v evaluates assignments with expressions as values; here the Value objects have an identity, so that the data type
    set on one result shows in every result that holds the same object.  Simplification: only statements that assign a
    number or a variable, possibly with a + sign and in brackets; operations make new objects. *)
From Coq Require Import List String Ascii Bool QArith Qcanon Arith Lia.
From Verif Require Import PyStr Expr.
Import ListNotations.
Local Open Scope string_scope.
Local Open Scope list_scope.
Local Open Scope nat_scope.

(** A Value: what it holds and its data type, expression.py:638-650; the heap of all of them, an object is its place in it *)
Definition cell := (payload * dtype)%type.
(** all objects that there are *)
Definition heap := list cell.
(** The right sides of assignments *)
Inductive rhs := RNum (q : Qc) (d : dtype) | RName (s : string) | RPlus (r : rhs) | RGroup (r : rhs).
(** An Expr of one item: a Value object, or UnaryOp('__group__', ...) of one *)
Inductive item := Obj (a : nat) | Grp (i : item).

(** the dict of found values, c_listener.py:404-408 *)
Definition found_in := list (string * item).
(** found[name], c_listener.py:404-408 *)
Fixpoint at_name (f : found_in) (s : string) : option item :=
  match f with [] => None | (k, v) :: r => if k =?s s then Some v else at_name r s end.
(** found[name] = value, c_listener.py:414-419 *)
Fixpoint set_name (f : found_in) (s : string) (v : item) : found_in :=
  match f with [] => [(s, v)] | (k, w) :: r => if k =?s s then (k, v) :: r else (k, w) :: set_name r s v end.

(** Value(...): a new object *)
Definition new (h : heap) (c : cell) : item * heap := (Obj (List.length h), h ++ [c]).
(** c_listener.py:421-427 for names: the Expr found is returned itself; common/visitor.py:12-16 a + sign returns its operand
    itself, 18-19 brackets, 21-22, 44-48 numbers *)
Fixpoint visit_item (f : found_in) (h : heap) (r : rhs) : item * heap :=
  match r with
  | RNum q d => new h (PNum q, d)
  | RName s => match at_name f s with Some i => (i, h) | None => new h (PStr s, DUndef) end
  | RPlus r => visit_item f h r
  | RGroup r => let (i, h') := visit_item f h r in (Grp i, h')
  end.
(** c_listener.py:414-419 for every statement, 442-446 *)
Fixpoint assign_items (f : found_in) (h : heap) (p : list (string * rhs)) : found_in * heap :=
  match p with
  | [] => (f, h)
  | (x, r) :: p' => let (i, h') := visit_item f h r in assign_items (set_name f x i) h' p'
  end.
(** expression.py:987-988 Value.simplify returns self, 613-617 UnaryOp.simplify returns the value in brackets *)
Fixpoint simplify_item (i : item) : nat := match i with Obj a => a | Grp i => simplify_item i end.
(** expression.py:693-695 and 1306-1310: the setter of data_type *)
Fixpoint set_type (h : heap) (a : nat) (d : dtype) : heap :=
  match h, a with
  | [], _ => []
  | (p, _) :: r, O => (p, d) :: r
  | c :: r, S a => c :: set_type r a d
  end.
(** get_found, c_listener.py:448-452 *)
Definition found_object (f : found_in) (h : heap) (x : string) (d : dtype) : nat * heap :=
  let (i, h') := match at_name f x with Some i => (i, h) | None => new h (PStr x, DUndef) end in
  (simplify_item i, set_type h' (simplify_item i) d).
(** the dict of the results, c_listener.py:454 *)
Fixpoint results (f : found_in) (h : heap) (vars : list (string * dtype)) : list (string * nat) * heap :=
  match vars with
  | [] => ([], h)
  | (x, d) :: r => let (a, h1) := found_object f h x d in let (l, h2) := results f h1 r in ((x, a) :: l, h2)
  end.
(** evaluate_c_defined_variables, c_listener.py:430-454 *)
Definition evaluate_shared (vars : list (string * dtype)) (p : list (string * rhs)) (known : found_in) (h : heap) : list (string * nat) * heap :=
  let (f, h') := assign_items known h p in results f h' vars.
