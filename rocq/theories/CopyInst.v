(** COMPONENT statements that start from another instance (COPY), and the JUMP objects that
    the two then share: instr/visitor.py:109-173 (the statement, its name and type), 209-250
    (SPLIT to JUMP), instr/instance.py:88-97 (from_instance), 111-113, 115-153, 176-218 (the
    setters), instr/jump.py:5-11, translators/target.py:219-230.

    Simplifications.  The parse tree is the input.  The AT and ROTATED clauses are left out
    (Refs.v, InstrModel.v).  Whether a value suits a parameter and what is stored for it are
    arbitrary functions.  A Jump object is a place in a list of objects: an instance holds
    places, and two instances that hold the same place share the object.  All other values
    are never changed after the instance is made, so sharing them cannot be seen. *)
From Coq Require Import List String Ascii Bool Arith ZArith Lia.
From Verif Require Import PyStr Expr InstrModel Refs JumpTargets.
From Verif Require InstanceText.
Import InstanceText (blank).
Import ListNotations.
Local Open Scope string_scope.
Local Open Scope list_scope.
Local Open Scope nat_scope.

(** a Jump object, instr/jump.py:5-11, with its condition *)
Record obj := mkObj { o_jump : pjump; o_cond : node }.
(** Instance, instr/instance.py:21-35, without placement and mode *)
Record cinst := mkC {
  c_name : string; c_type : ctype; c_params : list cpar; c_removable : bool; c_cpu : bool;
  c_split : option node; c_when : option node; c_group : option string; c_extend : list string;
  c_jump : list nat; c_meta : list meta }.

(** jumpname, grammar/McInstr.g4:104-109 *)
Inductive jname := JPrev (n : option nat) | JMyself | JNext (n : option nat) | JId (s : string).
(** a JUMP as it is written, McInstr.g4:104-109 *)
Record wjump := mkWj { w_name : jname; w_iter : bool; w_cond : node }.
(** component_type, grammar/McInstr.g4:79-82, with the definition get_component finds *)
Inductive stype := SName (c : ctype) | SCopy (r : cref).
(** component_instance, grammar/McInstr.g4:63-65; [s_split]: Some None is SPLIT without a
    number; a metadata statement is its mime type, name and text *)
Record stmt := mkSt {
  s_name : dname; s_type : stype; s_pars : list (string * node); s_removable : bool; s_cpu : bool;
  s_split : option (option node); s_when : option node; s_group : option string; s_extend : option string;
  s_jumps : list wjump; s_meta : list (string * string * string) }.

(** visitJumpPrevious, visitJumpMyself, visitJumpNext, visitJumpIdentifier, visitor.py:239-250;
    int of the number's parse tree, lines 241 and 248, is a TypeError *)
Definition jump_name (j : jname) : res (string * Z) :=
  match j with
  | JPrev None => Ok ("PREVIOUS", (-1)%Z)
  | JMyself => Ok ("MYSELF", 0%Z)
  | JNext None => Ok ("NEXT", 1%Z)
  | JId s => Ok (s, 0%Z)
  | JPrev (Some _) | JNext (Some _) => Raise
  end.
(** visitJump, visitor.py:233-237 *)
Definition jump_of (w : wjump) : res obj :=
  do n <- jump_name (w_name w) ; Ok (mkObj (mkPj (fst n) (snd n) (w_iter w) (-1)) (w_cond w)).
(** visitJumps, visitor.py:230-231 *)
Fixpoint jumps_of (l : list wjump) : res (list obj) :=
  match l with
  | [] => Ok []
  | w :: t => do o <- jump_of w ; do os <- jumps_of t ; Ok (o :: os)
  end.
(** the number of iterations that is assumed, visitor.py:230-231 *)
Definition int10 : node := NExpr [NVal (PNum (Qcanon.Q2Qc (QArith_base.inject_Z 10))) DInt OValue].
(** visitSplit, visitor.py:209-210; Expr.int(10) *)
Definition split_of (old : option node) (s : option (option node)) : option node :=
  match s with None => old | Some None => Some int10 | Some (Some e) => Some e end.

Section Read.
  Variable compatible : cpar -> node -> bool.
  Variable convert : cpar -> node -> res node.

  (** visitComponent_ref for COPY, visitor.py:253-271, get_component and last_component as
      in Refs.v *)
  Definition get_ (l : list cinst) (n : string) : res cinst :=
    if n =?s "PREVIOUS" then match rev l with x :: _ => Ok x | [] => Raise end
    else match find (fun x => c_name x =?s n) l with Some x => Ok x | None => Raise end.
  (** Instr.last_component, instr.py:140-150 *)
  Definition last_ (l : list cinst) (count : nat) : res cinst :=
    if List.length l <? count then Raise else py_neg_index l count.
  (** Instr.get_component, instr.py:152-158, here or in the including instrument *)
  Definition named (dest : option (list cinst)) (st : list cinst) (n : string) : res cinst :=
    if existsb (fun x => c_name x =?s n) st then get_ st n
    else match dest with Some d => get_ d n | None => Raise end.
  (** visitComponent_ref for COPY, visitor.py:253-271 *)
  Definition original (dest : option (list cinst)) (st : list cinst) (r : cref) : res cinst :=
    match r with
    | CPrev n =>
        let count := match n with None => 1 | Some c => c end in
        if count <=? List.length st then last_ st count
        else match dest with
             | Some d => last_ d (count - List.length st)
             | None => named dest st "None"
             end
    | CName n => named dest st n
    end.
  (** visitInstanceNameCopyIdentifier, visitInstanceNameCopy, visitInstanceNameIdentifier,
      visitor.py:159-166 *)
  Definition instance_name (st : list cinst) (n : dname) : string :=
    match n with
    | NId s => s
    | NCopyId s => (s ++ "_" ++ str_nat (List.length st + 1))%string
    | NCopy => ("Comp_" ++ str_nat (List.length st + 1))%string
    end.
  (** Instance(name, comp, ...), visitor.py:127, and __post_init__, instance.py:111-113 *)
  Definition fresh (n : string) (c : ctype) : cinst :=
    mkC n c [] false (negb (ct_acc c)) None None None [] [] [].
  (** from_instance, instance.py:88-97: REMOVABLE, CPU and SPLIT are not among the copied
      fields *)
  Definition from_instance (n : string) (o : cinst) : cinst :=
    mkC n (c_type o) (c_params o) false (negb (ct_acc (c_type o))) None (c_when o) (c_group o) (c_extend o) (c_jump o) (c_meta o).
  (** the loop over the stated parameters, visitor.py:128-130; the first refused one ends
      the reading *)
  Fixpoint set_all (c : ctype) (over : bool) (ps : list cpar) (l : list (string * node)) : res (list cpar) :=
    match l with
    | [] => Ok ps
    | (n, v) :: t => let '(ps', ok) := set_parameter node compatible convert c ps n v over true in
                     if ok then set_all c over ps' t else Raise
    end.
  (** WHEN, instance.py:189-196 *)
  Definition set_when (old : option node) (w : option node) : res (option node) :=
    match w with None => Ok old | Some e => if is_constant e then Raise else Ok (Some e) end.
  (** EXTEND, instance.py:201-206, with blocks_to_raw_c, common/block.py:49-53 *)
  Definition set_extend (old : list string) (b : option string) : list string :=
    match b with None => old | Some t => if blank t then [] else [t] end.
  (** JUMP, instance.py:208-213: the written jumps become new objects *)
  Definition set_jumps (h : list obj) (old : list nat) (l : list wjump) : res (list obj * list nat) :=
    match l with
    | [] => Ok (h, old)
    | _ => do os <- jumps_of l ; Ok (h ++ os, seq (List.length h) (List.length os))
    end.
  (** visitor.py:145-150 with add_metadata, instance.py:215-218 *)
  Definition set_meta (n : string) (old : list meta) (l : list (string * string * string)) : list meta :=
    fold_left (fun ms m => let '(mime, k, v) := m in add_metadata ms (mkMeta n k mime v)) l old.

  (** visitComponent_instance, visitor.py:109-157 *)
  Definition component (dest : option (list cinst)) (s : list obj * list cinst) (d : stmt) : res (list obj * list cinst) :=
    let '(h, st) := s in
    let name := instance_name st (s_name d) in
    do b <- (match s_type d with
             | SName c => Ok (fresh name c, false)
             | SCopy r => do o <- original dest st r ; Ok (from_instance name o, true)
             end) ;
    let '(x, is_ref) := b in
    do ps <- set_all (c_type x) is_ref (c_params x) (s_pars d) ;
    do w <- set_when (c_when x) (s_when d) ;
    do hj <- set_jumps h (c_jump x) (s_jumps d) ;
    let '(h', js) := hj in
    let y := mkC name (c_type x) ps (c_removable x || s_removable d) (c_cpu x || s_cpu d) (split_of (c_split x) (s_split d)) w
                 (match s_group d with None => c_group x | Some g => Some g end)
                 (set_extend (c_extend x) (s_extend d)) js (set_meta name (c_meta x) (s_meta d)) in
    if match dest with None => true | Some _ => negb (c_removable y) end
    then if existsb (fun z => c_name z =?s name) st then Raise else Ok (h', st ++ [y])
    else Ok (h', st).
  (** visitComponent_instance, visitor.py:109-157, for statement after statement *)
  Fixpoint read (dest : option (list cinst)) (s : list obj * list cinst) (l : list stmt) : res (list obj * list cinst) :=
    match l with
    | [] => Ok s
    | d :: t => do s' <- component dest s d ; read dest s' t
    end.
End Read.

(** set_jump_absolute_targets, target.py:219-230, on objects: the loop over the pairs of
    line 220; [None] is the IndexError of line 227 *)
Fixpoint put (h : list obj) (r : nat) (j : pjump) : list obj :=
  match h, r with
  | [], _ => []
  | o :: t, 0 => mkObj j (o_cond o) :: t
  | o :: t, S r => o :: put t r j
  end.
(** the loop of set_jump_absolute_targets, target.py:219-230 *)
Fixpoint resolve (names : list string) (l : list (nat * nat)) (h : list obj) : option (list obj) :=
  match l with
  | [] => Some h
  | (i, r) :: t => match nth_error h r with
                   | None => None
                   | Some o => match set_target names i (o_jump o) with
                               | None => None
                               | Some j => resolve names t (put h r j)
                               end
                   end
  end.
(** the pairs of an instance and its jump, target.py:220 *)
Fixpoint pairs (i : nat) (st : list cinst) : list (nat * nat) :=
  match st with [] => [] | x :: t => map (fun r => (i, r)) (c_jump x) ++ pairs (S i) t end.
(** set_jump_absolute_targets, target.py:219-230 *)
Definition set_absolute (s : list obj * list cinst) : option (list obj) :=
  resolve (map c_name (snd s)) (pairs 0 (snd s)) (fst s).
(** the component a jump of a component goes to in the generated program *)
Definition goes_to (h : list obj) (r : nat) : option Z := option_map (fun o => pj_abs (o_jump o)) (nth_error h r).
