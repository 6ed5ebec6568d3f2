(** C41 for instruments that have both GROUPs and JUMPs. *)
From Coq Require Import List String Bool Arith ZArith QArith Qcanon Lia.
From Verif Require Import PyStr Raytrace RaySpec RayFacts RayJumps RayUnits Properties_Trace.
Import ListNotations.
Local Open Scope string_scope.
Local Open Scope list_scope.
Local Open Scope nat_scope.

(* Components, groups of alternatives and jumps together: if members of groups do not jump
   and no jump leads to a later member, the loop and the machine that only knows the
   current component or group end together, with the same calls. *)
Theorem C41_groups_and_jumps_partial :
  forall {Ph Uv Rng} (act : nat -> core Ph Uv Rng -> outcome Ph Uv Rng) tr when_c jump_c iter_c split_c us (p : particle Ph Uv Rng),
    Forall (unit_ok us) us -> NoDup (flat_map group_of us) -> fresh p ->
    let cs := flatten us in
    let m0 := mkM 0 false (pc p) (cnt (start cs p)) [] in
    (forall fuel s, raytrace act tr when_c jump_c iter_c split_c fuel cs (skips cs) p = Some s ->
       exists n, urun act tr when_c jump_c iter_c n (skips cs) us m0 = Some (log s)) /\
    (forall n l, urun act tr when_c jump_c iter_c n (skips cs) us m0 = Some l ->
       exists fuel s, raytrace act tr when_c jump_c iter_c split_c fuel cs (skips cs) p = Some s /\ log s = l).
Proof.
  intros Ph Uv Rng act tr when_c jump_c iter_c split_c us p F ND (A & R & X) cs m0.
  destruct (start_pc cs p) as (S1 & S2 & S3 & S4 & S5).
  assert (RL : rel 0 m0 (mkS (start cs p) p [])).
  { unfold rel, m0. cbn [pt log at_ jumped mcore mcnt mlog]. rewrite S1, S2, S3, S4, S5. repeat split; auto. }
  assert (PL : place us (at_ m0)).
  { unfold place, m0. cbn [at_]. destruct us as [|u t]; [left; cbn; lia|right; discriminate]. }
  assert (SK : forall i c, nth_error cs i = Some c -> skips cs i = true -> rc_code c = false) by (intros i c; apply skips_code).
  split.
  - intros fuel s H. unfold raytrace in H. destruct (run_while _ _ _ _ _ _ _ _ _ _) as [s1|] eqn:E; [|discriminate].
    inversion H; subst s. cbn [with_pt log]. eapply loop_to_units; eauto.
  - intros n l H. destruct (units_to_loop act tr when_c jump_c iter_c split_c us (skips cs) F ND SK n m0 _ l PL (or_introl RL) H)
      as (fuel & s' & E & L). exists fuel. eexists. unfold raytrace. unfold cs in E |- *. rewrite E. split; [reflexivity|]. exact L.
Qed.
Print Assumptions C41_groups_and_jumps_partial.

(* a particle goes twice from d back to the group, where b lets it through and c does not *)
Example C41_groups_and_jumps_partial_example :
  let us := [One (cp "a"); Grp "g" [cg "b" "g"; cg "c" "g"]; One (cj "d" [mkRj "b" true 1%Z]); One (cp "e")] in
  Forall (unit_ok us) us /\ NoDup (flat_map group_of us) /\ fresh (pz 0 1) /\
  let act := fun i k => out k false (i =? 2) in
  match urun act (fun _ x => (x - 1)%Z) (fun _ _ => true) nojump (fun _ _ _ => 3%Z) 20 (skips (flatten us)) us
          (mkM 0 false (pc (pz 0 1)) (fun _ => 0%Z) []) with
  | Some l => map (fun e => (Z.of_nat (fst e), ph (snd e))) l =
      [(0, -1); (1, -2); (2, -3); (3, -4); (1, -4); (2, -5); (3, -6); (1, -6); (2, -7); (3, -8); (4, -9)]%Z
  | None => False
  end.
Proof.
  split; [|split; [|split; [|vm_compute; reflexivity]]].
  - constructor; [|constructor; [|constructor; [|constructor; [|constructor]]]]; cbn [unit_ok].
    + repeat constructor.
    + split; [discriminate|]. split; repeat constructor.
    + split; [split; reflexivity|]. constructor; [|constructor]. right. right. discriminate.
    + repeat constructor.
  - repeat constructor. intros [].
  - repeat split.
Qed.

Definition cgj (n g : string) (js : list rjump) : rcomp := mkRc n true false (Some g) js false.
(* A member of a group that has scattered the particle and whose JUMP to c is due: the
   particle goes to b after all, and b is given it without the change of coordinates. *)
Theorem C41_jump_from_group_refuted :
  exists (act : nat -> C -> O_) tr s,
    let cs := [cgj "a" "g" [mkRj "c" false 2%Z]; cp "b"; cp "c"] in
    (forall i x, tr i x = (x - Z.of_nat i)%Z) /\
    raytrace act tr (fun _ _ => true) (fun _ _ _ => true) noiter nosplit 9 cs (skips cs) (pz 10 1) = Some s /\
    map (fun e => (fst e, ph (snd e))) (log s) = [(0, 10%Z); (1, 10%Z); (2, 8%Z)].
Proof.
  exists (fun i k => out k false true), (fun i x => (x - Z.of_nat i)%Z). eexists. cbv zeta.
  split; [reflexivity|]. split; [vm_compute; reflexivity|]. vm_compute. reflexivity.
Qed.
Print Assumptions C41_jump_from_group_refuted.
(* The JUMP of the last member of a group is lost as well if none has scattered: the
   particle is absorbed. *)
Theorem C41_jump_from_last_member_refuted :
  exists (act : nat -> C -> O_) s,
    let cs := [cg "a" "g"; cgj "b" "g" [mkRj "c" false 2%Z]; cp "c"] in
    (forall i k, o_absorbed (act i k) = false) /\
    raytrace act (fun _ x => x) (fun _ _ => true) (fun _ _ _ => true) noiter nosplit 9 cs (skips cs) (pz 10 1) = Some s /\
    map fst (log s) = [0; 1].
Proof.
  exists (fun i k => out k false false). eexists. cbv zeta.
  split; [reflexivity|]. split; [vm_compute; reflexivity|]. vm_compute. reflexivity.
Qed.
Print Assumptions C41_jump_from_last_member_refuted.
(* A JUMP into a group, past its first member: a does not scatter, and the next member is
   given not the particle as it came in (9 - 3) but the one saved before the jump, moved
   as from the first member to the second. *)
Theorem C41_jump_into_group_refuted :
  exists (act : nat -> C -> O_) tr s,
    let cs := [cj "s" [mkRj "b" false 2%Z]; cg "a" "g"; cg "b" "g"; cg "c" "g"] in
    (forall i x, tr i x = (x - Z.of_nat i)%Z) /\
    raytrace act tr (fun _ _ => true) (fun _ _ _ => true) noiter nosplit 9 cs (skips cs) (pz 10 1) = Some s /\
    map (fun e => (fst e, ph (snd e))) (log s) = [(0, 10%Z); (2, 9%Z); (3, 5%Z)].
Proof.
  exists (fun i k => if i =? 0 then out (mkCore 9%Z (wt k) (uv k) (rng k)) false true else out k false (i =? 3)), (fun i x => (x - Z.of_nat i)%Z).
  eexists. cbv zeta. split; [reflexivity|]. split; [vm_compute; reflexivity|]. vm_compute. reflexivity.
Qed.
Print Assumptions C41_jump_into_group_refuted.
