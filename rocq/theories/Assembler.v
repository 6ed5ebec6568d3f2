(** Interactive assembly: the at and rotate arguments of Assembler.component. *)
From Coq Require Import List String Bool Arith Lia.
From Verif Require Import PyStr Expr InstrModel Refs.
Import ListNotations.
Local Open Scope string_scope.
Local Open Scope list_scope.
Local Open Scope nat_scope.

Section Assembler.
(** expressions, the plain Python objects without a length that an argument may hold, and the types the reader knows *)
Variables (E O : Type).
Variable known : string -> bool.
(** an argument: None, an Instance, a text, an object without __len__, or a tuple or list *)
Inductive pyval := PNone | PInst (i : rinst) | PStr (s : string) | PObj (o : O) | PSeq (l : list pyval).
(** Instr.check_expr, instr/instr.py:495-502: any function; Expr.best may raise *)
Variable check_expr : pyval -> res E.
(** Expr.float(0) *)
Variable zero_float : E.

(** len(x), assembler/assembler.py:31-38 *)
Definition py_len (v : pyval) : option nat := match v with PStr s => Some (String.length s) | PSeq l => Some (List.length l) | _ => None end.
(** iterating over a text gives its characters *)
Definition py_items (v : pyval) : list pyval := match v with PSeq l => l | PStr s => map (fun c => PStr (String c "")) (list_ascii_of_string s) | _ => [] end.
(** assembler/assembler.py:31-38: the reference; Instance objects are taken as they are *)
Definition resolve (st : list rinst) (r : pyval) : res (option rinst) :=
  match r with
  | PNone => Ok None
  | PInst i => Ok (Some i)
  | PStr s => if lower s =?s "absolute" then Ok None else rbind (r_get st s) (fun x => Ok (Some x))
  | _ => Raise
  end.
(** the three coordinates, assembler/assembler.py:31-38 *)
Definition coords (v : pyval) : res (E * E * E) :=
  match py_len v with
  | Some 3 => match py_items v with
              | [x; y; z] => rbind (check_expr x) (fun x => rbind (check_expr y) (fun y => rbind (check_expr z) (fun z => Ok (x, y, z))))
              | _ => Raise
              end
  | _ => Raise
  end.
(** assembler.py:23-42 _handle_at_rotate *)
Definition handle_at_rotate (st : list rinst) (a : pyval) : res (E * E * E * option rinst) :=
  match a with
  | PNone => Ok (zero_float, zero_float, zero_float, None)
  | _ =>
      let a := match py_len a with Some 3 => PSeq [a; PStr "ABSOLUTE"] | _ => a end in
      match py_len a with
      | Some 2 => match py_items a with
                  | [v; ref] => rbind (resolve st ref) (fun r => rbind (coords v) (fun c => Ok (c, r)))
                  | _ => Raise
                  end
      | _ => Raise
      end
  end.
(** assembler.py:48-50 _handle_rotate: [ref or at_ref] *)
Definition handle_rotate (st : list rinst) (a : pyval) (at_ref : option rinst) : res (E * E * E * option rinst) :=
  rbind (handle_at_rotate st a) (fun '(c, r) => Ok (c, match r with Some x => Some x | None => at_ref end)).

(** an instance with its coordinates *)
Record ainst := mkA { a_inst : rinst; a_at : E * E * E; a_rot : E * E * E }.
(** a call; [c_params]: whether set_parameters succeeds *)
Record call := mkCall { c_name : string; c_type : string; c_at : pyval; c_rotate : pyval; c_params : bool }.
(** assembler.py:52-90 component, up to add_component (instr/instr.py:119-122) *)
Definition place (st : list ainst) (c : call) : res (list ainst) :=
  if known (c_type c) then
    rbind (handle_at_rotate (map a_inst st) (c_at c)) (fun '(va, ra) =>
    rbind (handle_rotate (map a_inst st) (c_rotate c) ra) (fun '(vr, rr) =>
      let x := mkR (c_name c) (c_type c) false (option_map r_name ra) (option_map r_name rr) in
      if existsb (fun y => r_name y =?s c_name c) (map a_inst st) then Raise else Ok (st ++ [mkA x va vr])))
  else Raise.
(** the whole call: what the instrument is afterwards and whether an exception left the function; assembler.py:87-89 *)
Definition component (st : list ainst) (c : call) : list ainst * bool :=
  match place st c with Ok st' => (st', negb (c_params c)) | _ => (st, true) end.
(** calls one after the other, until one raises *)
Fixpoint program (st : list ainst) (l : list call) : res (list ainst) :=
  match l with [] => Ok st | c :: t => rbind (place st c) (fun st' => if c_params c then program st' t else Raise) end.
End Assembler.
Arguments PNone {O}. Arguments PInst {O}. Arguments PStr {O}. Arguments PObj {O}. Arguments PSeq {O}.
Arguments mkA {E}. Arguments a_inst {E}. Arguments a_at {E}. Arguments a_rot {E}. Arguments mkCall {O}. Arguments c_name {O}. Arguments c_type {O}. Arguments c_at {O}. Arguments c_rotate {O}. Arguments c_params {O}.
