(** What tracing a particle means, without indices, flags or saved copies: components one
    after the other, groups as alternatives (C39, C40), and jumps as a machine that knows
    only the current component (C41).  Used to state the properties of Raytrace.v. *)
From Coq Require Import List String Bool Arith ZArith QArith Qcanon Lia.
From Verif Require Import PyStr Raytrace.
Import ListNotations.
Local Open Scope string_scope.
Local Open Scope list_scope.
Local Open Scope nat_scope.

(** an instrument as the user thinks of it *)
Inductive unit_ := One (c : rcomp) | Grp (g : string) (l : list rcomp).
(** specification: the components of a unit *)
Definition members (u : unit_) : list rcomp := match u with One c => [c] | Grp _ l => l end.
(** specification: all components in their order *)
Definition flatten (us : list unit_) : list rcomp := flat_map members us.

Section Spec.
Context {Ph Uv Rng : Type}.
Notation core := (core Ph Uv Rng).
Notation outcome := (outcome Ph Uv Rng).
Variable act : nat -> core -> outcome.
Variable tr : nat -> Ph -> Ph.
Variable when_c : nat -> core -> bool.
Variable jump_c : nat -> nat -> core -> bool.
Variable iter_c : nat -> nat -> core -> Z.

(** specification: the particle in the frame of component i *)
Definition moved (i : nat) (k : core) : core := mkCore (tr i (ph k)) (wt k) (uv k) (rng k).
(** physical state and weight from before, the rest as it is now *)
Definition undone (before now : core) : core := mkCore (ph before) (wt before) (uv now) (rng now).

(** One component: who was called with what, and the particle if it is still there. *)
Definition spec_one (skip : nat -> bool) (i : nat) (c : rcomp) (k : core) : list (nat * core) * option core :=
  let k1 := if skip i then k else moved i k in
  if rc_code c && (negb (rc_when c) || when_c i k1)
  then let o := act i k1 in
       ([(i, k1)], if o_restore o then Some (undone k1 (o_core o))
                   else if o_absorbed o then None else Some (o_core o))
  else ([], Some k1).
(** specification: the particle carried through n frames *)
Fixpoint carry (i n : nat) (k : core) : core :=
  match n with O => k | S n => carry (S i) n (moved i k) end.
(** Alternatives, tried in order; k is the incoming particle in the frame before the
    first of them. *)
Fixpoint spec_grp (i : nat) (l : list rcomp) (k : core) : list (nat * core) * option core :=
  match l with
  | [] => ([], None)
  | c :: t =>
      let k1 := moved i k in
      if negb (rc_when c) || when_c i k1
      then let o := act i k1 in
           if o_scattered o
           then ([(i, k1)], if o_restore o then Some (carry (S i) (List.length t) (undone k1 (o_core o)))
                            else if o_absorbed o then None else Some (carry (S i) (List.length t) (o_core o)))
           else let '(lg, r) := spec_grp (S i) t (undone k1 (o_core o)) in ((i, k1) :: lg, r)
      else spec_grp (S i) t k1
  end.
(** specification: unit after unit *)
Fixpoint spec_units (skip : nat -> bool) (i : nat) (us : list unit_) (k : core) : list (nat * core) * option core :=
  match us with
  | [] => ([], Some k)
  | u :: t =>
      let '(lg, r) := match u with One c => spec_one skip i c k | Grp _ l => spec_grp i l k end in
      match r with
      | None => (lg, None)
      | Some k' => let '(lg', r') := spec_units skip (i + List.length (members u)) t k' in (lg ++ lg', r')
      end
  end.

(** * Jumps *)
(** all jumps of a component are looked at in order, the last one taken decides; taken
    ITERATE jumps count, the others start counting afresh *)
Fixpoint spec_jumps (i k : nat) (name : string) (js : list rjump) (c : core) (ct : string -> Z) (dest : option Z)
  : option Z * (string -> Z) :=
  match js with
  | [] => (dest, ct)
  | j :: t =>
      if rj_iter j
      then let n := counter_name name (rj_target j) in
           let v := (ct n + 1)%Z in
           if (v <? iter_c i k c)%Z
           then spec_jumps i (S k) name t c (fun x => if String.eqb x n then v else ct x) (Some (rj_abs j))
           else spec_jumps i (S k) name t c (fun x => if String.eqb x n then 0%Z else ct x) dest
      else spec_jumps i (S k) name t c ct (if jump_c i k c then Some (rj_abs j) else dest)
  end.
(** the machine: at component at_, having come by a jump or from the previous one *)
Record mach := mkM { at_ : nat; jumped : bool; mcore : core; mcnt : string -> Z; mlog : list (nat * core) }.
(** specification: how a step of the machine ends *)
Inductive step_result := Going (m : mach) | Done (l : list (nat * core)) | Lost (m : mach).
(** specification: one step *)
Definition mstep (skip : nat -> bool) (cs : list rcomp) (m : mach) : step_result :=
  match nth_error cs (at_ m) with
  | None => Done (mlog m)
  | Some c =>
      let i := at_ m in
      let '(lg, r) := spec_one (fun _ => skip i || jumped m) i c (mcore m) in
      match r with
      | None => Done (mlog m ++ lg)
      | Some k =>
          match spec_jumps i 0 (rc_name c) (rc_jumps c) k (mcnt m) None with
          | (None, ct) => Going (mkM (S i) false k ct (mlog m ++ lg))
          | (Some t, ct) => if (t <? 0)%Z then Lost (mkM i true k ct (mlog m ++ lg))
                            else Going (mkM (Z.to_nat t) true k ct (mlog m ++ lg))
          end
      end
  end.
(** specification: steps until the end *)
Fixpoint mrun (fuel : nat) (skip : nat -> bool) (cs : list rcomp) (m : mach) : option (list (nat * core)) :=
  match fuel with
  | O => None
  | S f => match mstep skip cs m with Done l => Some l | Going m' => mrun f skip cs m' | Lost _ => None end
  end.
End Spec.
Arguments mach : clear implicits.
Arguments step_result : clear implicits.
