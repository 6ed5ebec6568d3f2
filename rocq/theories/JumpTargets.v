(** set_jump_absolute_targets, translators/target.py:219-230. *)
From Coq Require Import List String Bool Arith ZArith Lia.
From Verif Require Import PyStr.
Import ListNotations.
Local Open Scope string_scope.
Local Open Scope list_scope.
Local Open Scope nat_scope.

(** Jump, instr/jump.py:5-11, without its condition *)
Record pjump := mkPj { pj_target : string; pj_rel : Z; pj_iter : bool; pj_abs : Z }.
(** the first index with this name, translators/target.py:227 *)
Fixpoint find_name (i : nat) (n : string) (names : list string) : option nat :=
  match names with [] => None | x :: t => if String.eqb n x then Some i else find_name (S i) n t end.
(** None: IndexError of [...][0], line 227 *)
Definition set_target (names : list string) (index : nat) (j : pjump) : option pjump :=
  if (-1 <? pj_abs j)%Z then Some j
  else if (pj_rel j =? 0)%Z && negb (lower (pj_target j) =?s "myself")
  then match find_name 0 (pj_target j) names with
       | Some t => Some (mkPj (pj_target j) (Z.of_nat t - Z.of_nat index) (pj_iter j) (Z.of_nat t))
       | None => None
       end
  else Some (mkPj (pj_target j) (pj_rel j) (pj_iter j) (Z.of_nat index + pj_rel j)).
(** the jumps of one instance, target.py:219-230 *)
Fixpoint set_targets_of (names : list string) (index : nat) (js : list pjump) : option (list pjump) :=
  match js with
  | [] => Some []
  | j :: t => match set_target names index j, set_targets_of names index t with
              | Some a, Some b => Some (a :: b) | _, _ => None end
  end.
(** the instances one after the other, target.py:219-230 *)
Fixpoint set_from (names : list string) (index : nat) (cs : list (string * list pjump)) : option (list (string * list pjump)) :=
  match cs with
  | [] => Some []
  | (n, js) :: t => match set_targets_of names index js, set_from names (S index) t with
                    | Some a, Some b => Some ((n, a) :: b) | _, _ => None end
  end.
(** target.py:219-230 *)
Definition set_jump_absolute_targets (cs : list (string * list pjump)) : option (list (string * list pjump)) :=
  set_from (map fst cs) 0 cs.
