(** The per-particle trace loop written by cogen_raytrace, translators/c_raytrace.py:1-163,
    and the per-particle part of cogen_funnel, 245-433.

    The generator is modelled as a function from the list of component instances to a
    small imperative program, one instruction for one group of emitted lines; the meaning
    of the instructions is that of the emitted C.  What the C code of a component does to a
    particle (class_<type>_trace with its TRACE and EXTEND blocks), the coordinate changes,
    the conditions of WHEN and JUMP and the number of SPLIT are arbitrary functions, given
    as section variables: they may depend on the component, on the physical state of the
    particle, its weight, its user variables and its random number state.

    Simplified: the counters _absorbed, _scattered are booleans; a component does not
    change _index, flag_nocoordschange or the jump counters of the particle; DEBUG macros,
    SIG_MESSAGE and OpenACC pragmas do nothing; NOSPLIT is not defined; the value a JUMP
    ITERATE condition is compared with is an integer; the random state backed up over SPLIT
    is the whole state. *)
From Coq Require Import List String Bool Arith ZArith QArith Qcanon Lia.
From Verif Require Import PyStr.
Import ListNotations.
Local Open Scope string_scope.
Local Open Scope list_scope.
Local Open Scope nat_scope.

(** * What the generator looks at *)
(** Jump, instr/jump.py:5-11, after set_jump_absolute_targets *)
Record rjump := mkRj { rj_target : string; rj_iter : bool; rj_abs : Z }.
(** the fields of Instance the generator uses; rc_code is
    len(comp.type.trace) or len(comp.extend), c_raytrace.py:89 *)
Record rcomp := mkRc { rc_name : string; rc_code : bool; rc_when : bool; rc_group : option string;
                       rc_jumps : list rjump; rc_split : bool }.

(** detect_skipable_transforms, translators/target.py:201-217.  None is an IndexError; a
    negative index counts from the end. *)
Definition can_skip (c : rcomp) : bool :=
  negb (rc_code c) && match rc_jumps c with [] => true | _ => false end.
(** translators/target.py:201-217, the absolute targets of all jumps *)
Definition all_targets (cs : list rcomp) : list Z := map rj_abs (flat_map rc_jumps cs).
(** translators/target.py:201-217: a jump leads to the component *)
Definition targeted (cs : list rcomp) (i : nat) : bool :=
  existsb (fun a => (a =? Z.of_nat i)%Z || (a + Z.of_nat (List.length cs) =? Z.of_nat i)%Z) (all_targets cs).
(** translators/target.py:201-217: no IndexError *)
Definition targets_in_range (cs : list rcomp) : bool :=
  forallb (fun a => (- Z.of_nat (List.length cs) <=? a)%Z && (a <? Z.of_nat (List.length cs))%Z) (all_targets cs).
(** translators/target.py:201-217, the entry of one component *)
Definition skips (cs : list rcomp) (i : nat) : bool :=
  match nth_error cs i with Some c => can_skip c && negb (targeted cs i) | None => false end.
(** translators/target.py:201-217 detect_skipable_transforms *)
Definition ok_to_skip (cs : list rcomp) : option (nat -> bool) :=
  if targets_in_range cs then Some (skips cs) else None.

(** source.groups[...], filled by determine_groups, instr/instr.py:200-209 (C20): the
    positions of the members; Group.is_leader, last_id, instr/group.py:15-24 *)
Definition in_group (g : string) (c : rcomp) : bool :=
  match rc_group c with Some h => String.eqb h g | None => false end.
(** instr/instr.py:200-209: the positions of the members of a group *)
Fixpoint ids_from (i : nat) (g : string) (cs : list rcomp) : list nat :=
  match cs with
  | [] => []
  | c :: t => (if in_group g c then [i] else []) ++ ids_from (S i) g t
  end.
(** instr/group.py:10-34, Group.ids *)
Definition ids (g : string) (cs : list rcomp) : list nat := ids_from 0 g cs.
(** instr/group.py:15-16, c_raytrace.py:75: the first of the group *)
Definition is_leader (l : list nat) (i : nat) : bool := match l with j :: _ => Nat.eqb j i | [] => false end.
(** instr/group.py:23-24, c_raytrace.py:121: the last position of the group *)
Definition last_id (l : list nat) : nat := fold_right max 0 l.

(** * The emitted program *)
Inductive istmt :=
| ISave                                              (* line 78 *)
| ISaveCoords (i : nat)                              (* line 82 *)
| ITrace (i : nat) (guarded : bool)                  (* lines 91-94 *)
| IRestore                                           (* lines 95-96 *)
| IJump (i k : nat) (target : Z)                     (* lines 110-115 *)
| IIter (i k : nat) (counter : string) (target : Z)  (* lines 101-108 *)
| IGroup (exit : Z) (last : bool)                    (* lines 122-132 *)
| INext.                                             (* line 134 *)
(** ISplit opens a loop which is closed at the end of the program, lines 39-56, 139-147 *)
Inductive item := Split (i : nat) | Coords (i : nat) | Comp (i : nat) (body : list istmt).

(** c_raytrace.py:102, the name of the counter of an iteration *)
Definition counter_name (comp target : string) : string := ("Jump_" ++ comp ++ "_" ++ target)%string.
(** c_raytrace.py:98-115 *)
Fixpoint gen_jumps (i k : nat) (name : string) (js : list rjump) : list istmt :=
  match js with
  | [] => []
  | j :: t => (if rj_iter j then IIter i k (counter_name name (rj_target j)) (rj_abs j) else IJump i k (rj_abs j))
              :: gen_jumps i (S k) name t
  end.
(** c_raytrace.py:71-135, the lines between the braces of one component *)
Definition gen_body (all : list rcomp) (skip : nat -> bool) (i : nat) (c : rcomp) : list istmt :=
  (match rc_group c with
   | None => if skip i then [] else [ISave]
   | Some g => if is_leader (ids g all) i then (if skip i then [] else [ISave]) else [ISaveCoords i]
   end) ++
  (if rc_code c then [ITrace i (rc_when c); IRestore] else []) ++
  gen_jumps i 0 (rc_name c) (rc_jumps c) ++
  (match rc_group c with
   | None => []
   | Some g => [IGroup (1 + Z.of_nat (last_id (ids g all))) (Nat.eqb i (last_id (ids g all)))]
   end) ++ [INext].
(** c_raytrace.py:39-137, all lines of one component *)
Definition gen_comp (all : list rcomp) (skip : nat -> bool) (i : nat) (c : rcomp) : list item :=
  (if rc_split c then [Split i] else []) ++ (if skip i then [] else [Coords i]) ++ [Comp i (gen_body all skip i c)].
(** c_raytrace.py:36-137, the loop over the components *)
Fixpoint gen_from (all : list rcomp) (skip : nat -> bool) (i : nat) (cs : list rcomp) : list item :=
  match cs with [] => [] | c :: t => gen_comp all skip i c ++ gen_from all skip (S i) t end.
(** c_raytrace.py:1-163 *)
Definition cogen_raytrace (cs : list rcomp) (skip : nat -> bool) : list item := gen_from cs skip 0 cs.

(** * Running it *)
Section Run.
Context {Ph Uv Rng : Type}.
(** what user code sees: position, velocity, spin, time (Ph), the weight p, user
    variables, random state *)
Record core := mkCore { ph : Ph; wt : Qc; uv : Uv; rng : Rng }.
(** what the code of a component leaves behind: macros ABSORB, SCATTER, RESTORE of c_trace.py:23-52 *)
Record outcome := mkOut { o_core : core; o_absorbed : bool; o_scattered : bool; o_restore : bool }.

Variable act : nat -> core -> outcome.      (* class_..._trace of component i *)
Variable tr : nat -> Ph -> Ph.              (* coordinates of component i from the ones before *)
Variable when_c : nat -> core -> bool.      (* its WHEN *)
Variable jump_c : nat -> nat -> core -> bool.   (* its k-th JUMP, WHEN *)
Variable iter_c : nat -> nat -> core -> Z.      (* its k-th JUMP, ITERATE *)
Variable split_c : nat -> core -> Z.            (* its SPLIT *)

(** _class_particle, c_header.py:133-153 *)
Record particle := mkP { pc : core; absorbed : bool; scattered : bool; restore : bool;
                         index : Z; nocoords : bool; cnt : string -> Z }.
(** the particle, _particle_save, and the calls of component code so far *)
Record rstate := mkS { pt : particle; save : particle; log : list (nat * core) }.

(** assignment to what user code sees *)
Definition set_core (p : particle) (c : core) : particle :=
  mkP c (absorbed p) (scattered p) (restore p) (index p) (nocoords p) (cnt p).
(** assignment to _particle->_index *)
Definition set_index (p : particle) (z : Z) : particle :=
  mkP (pc p) (absorbed p) (scattered p) (restore p) z (nocoords p) (cnt p).
(** assignment to _particle->_absorbed *)
Definition set_absorbed (p : particle) (b : bool) : particle :=
  mkP (pc p) b (scattered p) (restore p) (index p) (nocoords p) (cnt p).
(** assignment to the flag of c_raytrace.py:26-31 *)
Definition set_nocoords (p : particle) (b : bool) : particle :=
  mkP (pc p) (absorbed p) (scattered p) (restore p) (index p) b (cnt p).
(** assignment to a counter of c_raytrace.py:26-31 *)
Definition set_cnt (p : particle) (k : string) (z : Z) : particle :=
  mkP (pc p) (absorbed p) (scattered p) (restore p) (index p) (nocoords p)
      (fun x => if String.eqb x k then z else cnt p x).
(** particle_restore, c_header.py:239-245 and c_particle.py *)
Definition core_restore (c c0 : core) : core := mkCore (ph c0) (wt c0) (uv c) (rng c).
(** c_header.py:239-245 *)
Definition particle_restore (p p0 : particle) : particle :=
  mkP (core_restore (pc p) (pc p0)) false (scattered p) false (index p) (nocoords p) (cnt p).
(** the change of coordinates, c_raytrace.py:59-70 *)
Definition core_tr (i : nat) (c : core) : core := mkCore (tr i (ph c)) (wt c) (uv c) (rng c).
(** assignment to the particle *)
Definition with_pt (s : rstate) (p : particle) : rstate := mkS p (save s) (log s).

Definition run1 (x : istmt) (s : rstate) : rstate :=
  let p := pt s in
  match x with
  | ISave => mkS p p (log s)
  | ISaveCoords i => mkS p (set_core (save s) (core_tr i (pc (save s)))) (log s)
  | ITrace i guarded =>
      if negb guarded || when_c i (pc p)
      then let o := act i (pc p) in        (* starts with ABSORBED=SCATTERED=RESTORE=0, c_trace.py:115 *)
           mkS (mkP (o_core o) (o_absorbed o) (o_scattered o) (o_restore o) (index p) (nocoords p) (cnt p))
               (save s) (log s ++ [(i, pc p)])
      else s
  | IRestore => if restore p then with_pt s (particle_restore p (save s)) else s
  | IJump i k t => if jump_c i k (pc p) then with_pt s (set_nocoords (set_index p t) true) else s
  | IIter i k n t =>
      let c := (cnt p n + 1)%Z in
      if (c <? iter_c i k (pc p))%Z then with_pt s (set_nocoords (set_index (set_cnt p n c) t) true)
      else with_pt s (set_cnt p n 0%Z)
  | IGroup e last =>
      if scattered p then with_pt s (set_index p e)
      else if last then with_pt s (set_absorbed p true)
      else with_pt s (particle_restore p (save s))
  | INext => with_pt s (set_index p (index p + 1)%Z)
  end.
(** the instructions of one component, one after the other *)
Definition run_body (l : list istmt) (s : rstate) : rstate := fold_left (fun s x => run1 x s) l s.

(** lines 59-70; the two cases of 62-68 are the same coordinate change (C15) *)
Definition run_coords (i : nat) (s : rstate) : rstate :=
  if nocoords (pt s) then s else with_pt s (set_core (pt s) (core_tr i (pc (pt s)))).
(** lines 71-74 *)
Definition run_comp (i : nat) (body : list istmt) (s : rstate) : rstate :=
  if negb (absorbed (pt s)) && (index (pt s) =? 1 + Z.of_nat i)%Z
  then run_body body (with_pt s (set_nocoords (pt s) false)) else s.
(** lines 45-54: a copy of the particle, the current random state, a share of the weight *)
Definition split_copy (p0 : particle) (n : Z) (cur : particle) : particle :=
  set_core p0 (mkCore (ph (pc p0)) (wt (pc p0) / Q2Qc (inject_Z (if (0 <? n)%Z then n else 1%Z)))%Qc (uv (pc p0)) (rng (pc cur))).
(** one pass through the loop, c_raytrace.py:33-156 *)
Fixpoint run_items (l : list item) (s : rstate) : rstate :=
  match l with
  | [] => s
  | Coords i :: t => run_items t (run_coords i s)
  | Comp i b :: t => run_items t (run_comp i b s)
  | Split i :: t =>
      if absorbed (pt s) then s
      else let n := split_c i (pc (pt s)) in
           Nat.iter (Z.to_nat n) (fun s' => run_items t (with_pt s' (split_copy (pt s) n (pt s')))) s
  end.
(** the while loop, lines 33, 152-155; None: not finished within the given number of
    passes *)
Definition end_pass (n : nat) (s : rstate) : rstate :=
  if (Z.of_nat n <? index (pt s))%Z then with_pt s (set_absorbed (pt s) true) else s.
(** c_raytrace.py:33, 152-155 *)
Fixpoint run_while (fuel n : nat) (prog : list item) (s : rstate) : option rstate :=
  if absorbed (pt s) then Some s
  else match fuel with
       | O => None
       | S fuel => run_while fuel n prog (end_pass n (run_items prog s))
       end.
(** lines 26-31, 158: counters and flag start at zero; the last saved state is restored *)
Definition iter_names (cs : list rcomp) : list string :=
  flat_map (fun c => map (fun j => counter_name (rc_name c) (rj_target j)) (filter rj_iter (rc_jumps c))) cs.
(** c_raytrace.py:26-31 *)
Definition start (cs : list rcomp) (p : particle) : particle :=
  set_nocoords (fold_left (fun q n => set_cnt q n 0%Z) (iter_names cs) p) false.
(** c_raytrace.py:1-163, one particle *)
Definition raytrace (fuel : nat) (cs : list rcomp) (skip : nat -> bool) (p : particle) : option rstate :=
  match run_while fuel (List.length cs) (cogen_raytrace cs skip) (mkS (start cs p) p []) with
  | Some s => Some (with_pt s (particle_restore (pt s) (save s)))
  | None => None
  end.

(** * The funnel: per particle, c_raytrace.py:369-413; instruments without SPLIT *)
Definition funnel_comp (all : list rcomp) (skip : nat -> bool) (i : nat) (c : rcomp) (s : rstate) : rstate :=
  let p := pt s in
  if negb (absorbed p) && (index p =? Z.of_nat i + 1)%Z
  then
    let s := if skip i then s else let q := set_core p (core_tr i (pc p)) in mkS q q (log s) in
    let s := if rc_code c then run1 IRestore (run1 (ITrace i (rc_when c)) s) else s in
    let s := match rc_group c with
             | None => s
             | Some g =>
                 if scattered (pt s) then with_pt s (set_index (pt s) (Z.of_nat (last_id (ids g all))))     (* line 403 *)
                 else with_pt s (set_absorbed (pt s) (Nat.eqb i (last_id (ids g all))))
             end in
    run1 INext s
  else s.
(** c_raytrace.py:369-413, the components from the i-th on *)
Fixpoint funnel_from (all : list rcomp) (skip : nat -> bool) (i : nat) (cs : list rcomp) (s : rstate) : rstate :=
  match cs with [] => s | c :: t => funnel_from all skip (S i) t (funnel_comp all skip i c s) end.
(** c_raytrace.py:245-433, one particle *)
Definition funnel (cs : list rcomp) (skip : nat -> bool) (p : particle) : rstate :=
  funnel_from cs skip 0 cs (mkS p p []).
End Run.
Arguments core : clear implicits.
Arguments outcome : clear implicits.
Arguments particle : clear implicits.
Arguments rstate : clear implicits.
Arguments mkCore {Ph Uv Rng}.
