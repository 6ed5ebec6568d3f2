(* Properties C39 to C43: the generated trace loop. *)
From Coq Require Import List String Bool Arith ZArith QArith Qcanon Lia Sorted.
From Verif Require Import PyStr Raytrace RaySpec RayFacts RayJumps RaySplit JumpTargets.
Import ListNotations.
Local Open Scope string_scope.
Local Open Scope list_scope.
Local Open Scope nat_scope.

(* mcgenstate: a new particle is sent to component 1 *)
Definition fresh {Ph Uv Rng} (p : particle Ph Uv Rng) : Prop :=
  absorbed p = false /\ restore p = false /\ index p = 1%Z.

Lemma skips_code cs i c : nth_error cs i = Some c -> skips cs i = true -> rc_code c = false.
Proof.
  intros E H. unfold skips in H. rewrite E in H. apply andb_prop in H as [H _]. unfold can_skip in H.
  apply andb_prop in H as [H _]. now destruct (rc_code c).
Qed.
Lemma start_pc {Ph Uv Rng} cs (p : particle Ph Uv Rng) :
  pc (start cs p) = pc p /\ absorbed (start cs p) = absorbed p /\ restore (start cs p) = restore p /\
  index (start cs p) = index p /\ nocoords (start cs p) = false.
Proof.
  unfold start. cbn [set_nocoords pc absorbed restore index nocoords].
  generalize (iter_names cs). intro l. revert p. induction l as [|x t IH]; intro p; [auto|]. exact (IH (set_cnt p x 0%Z)).
Qed.
Lemma one_lone cs : Forall lone cs -> Forall good_unit (map One cs).
Proof. induction 1; cbn; constructor; auto. Qed.
Lemma one_flatten cs : flatten (map One cs) = cs.
Proof. induction cs; cbn; f_equal; auto. Qed.
Lemma one_groups cs : flat_map group_of (map One cs) = [].
Proof. induction cs; cbn; auto. Qed.

(** * C39, C40 *)
Section T.
Context {Ph Uv Rng : Type}.
Notation core := (core Ph Uv Rng).
Notation outcome := (outcome Ph Uv Rng).

Lemma trace_units (act : nat -> core -> outcome) tr when_c jump_c iter_c split_c us (p : particle Ph Uv Rng) fuel :
  Forall good_unit us -> NoDup (flat_map group_of us) -> fresh p -> 1 <= fuel ->
  exists s, raytrace act tr when_c jump_c iter_c split_c fuel (flatten us) (skips (flatten us)) p = Some s /\
    log s = fst (spec_units act tr when_c (skips (flatten us)) 0 us (pc p)) /\
    (snd (spec_units act tr when_c (skips (flatten us)) 0 us (pc p)) <> None -> index (pt s) = (1 + Z.of_nat (List.length (flatten us)))%Z).
Proof.
  intros F D (A & R & X) Hf. destruct fuel as [|f]; [lia|].
  destruct (start_pc (flatten us) p) as (S1 & S2 & S3 & S4 & S5).
  destruct (units_ok act tr when_c jump_c iter_c split_c (flatten us) (skips (flatten us)) us [] []
             (mkS (start (flatten us) p) p [])) as [L V].
  - cbn [app]. now rewrite app_nil_r.
  - cbn [app]. now rewrite app_nil_r.
  - intro g. cbn [app]. now rewrite app_nil_r.
  - cbn [app]. rewrite app_nil_r. intros i c. apply skips_code.
  - unfold ready. cbn [pt]. rewrite S2, S3, S4, S5. repeat split; auto.
  - cbn [flatten flat_map List.length pt log] in L, V. rewrite S1 in L, V.
    unfold raytrace. cbn [Raytrace.run_while pt]. rewrite S2, A.
    change (gen_from (flatten us) (skips (flatten us)) 0 (flat_map members us)) with (cogen_raytrace (flatten us) (skips (flatten us))) in L, V.
    change (gen_from (flatten us) (skips (flatten us)) 0 (flatten us)) with (cogen_raytrace (flatten us) (skips (flatten us))) in L, V.
    set (s1 := run_items act tr when_c jump_c iter_c split_c (cogen_raytrace (flatten us) (skips (flatten us))) (mkS (start (flatten us) p) p [])) in *.
    destruct (spec_units act tr when_c (skips (flatten us)) 0 us (pc p)) as [lg [k|]]; cbn [fst snd app] in *.
    + destruct V as [(V1 & V2 & V3 & V4) V5]. unfold end_pass.
      assert (E : (Z.of_nat (List.length (flatten us)) <? index (pt s1))%Z = true) by (apply Z.ltb_lt; rewrite V2; lia).
      rewrite E. rewrite run_while_dead by reflexivity. eexists. split; [reflexivity|]. split; [exact L|].
      intros _. exact V2.
    + assert (E : absorbed (pt (end_pass (List.length (flatten us)) s1)) = true /\ log (end_pass (List.length (flatten us)) s1) = lg).
      { unfold end_pass. destruct (_ <? _)%Z; auto. }
      destruct E as [E1 E2]. rewrite run_while_dead by exact E1. eexists. split; [reflexivity|]. split; [exact E2|]. congruence.
Qed.

(* Components without jumps and groups: called in order, up to the first that absorbs,
   each with the particle left by the one before; the loop ends. *)
Theorem C39_components_in_order :
  forall (act : nat -> core -> outcome) tr when_c jump_c iter_c split_c cs (p : particle Ph Uv Rng) fuel,
    Forall lone cs -> fresh p -> 1 <= fuel ->
    exists s, raytrace act tr when_c jump_c iter_c split_c fuel cs (skips cs) p = Some s /\
      log s = fst (spec_units act tr when_c (skips cs) 0 (map One cs) (pc p)) /\
      (snd (spec_units act tr when_c (skips cs) 0 (map One cs) (pc p)) <> None -> index (pt s) = (1 + Z.of_nat (List.length cs))%Z).
Proof.
  intros act tr when_c jump_c iter_c split_c cs p fuel F Hp Hf.
  pose proof (trace_units act tr when_c jump_c iter_c split_c (map One cs) p fuel (one_lone cs F)) as T.
  rewrite one_groups, one_flatten in T. apply T; auto. constructor.
Qed.

Lemma spec_ones_sorted (act : nat -> core -> outcome) tr when_c skip cs : forall i k,
  StronglySorted lt (map fst (fst (spec_units act tr when_c skip i (map One cs) k))) /\
  Forall (fun x => i <= x) (map fst (fst (spec_units act tr when_c skip i (map One cs) k))).
Proof.
  induction cs as [|c t IH]; intros i k; cbn [map spec_units].
  - split; constructor.
  - unfold spec_one. set (k1 := if skip i then k else moved tr i k).
    destruct (rc_code c && (negb (rc_when c) || when_c i k1)).
    + cbv zeta. destruct (if o_restore (act i k1) then Some (undone k1 (o_core (act i k1))) else if o_absorbed (act i k1) then None else Some (o_core (act i k1))) as [k2|].
      * cbn [members List.length]. rewrite Nat.add_1_r. destruct (IH (S i) k2) as [H1 H2].
        destruct (spec_units act tr when_c skip (S i) (map One t) k2) as [lg r]. cbn [fst app map] in *. split.
        -- constructor; auto.
        -- constructor; auto. eapply Forall_impl; [|exact H2]. cbn. intros. lia.
      * cbn. split; repeat constructor.
    + cbn [members List.length]. rewrite Nat.add_1_r. destruct (IH (S i) k1) as [H1 H2].
      destruct (spec_units act tr when_c skip (S i) (map One t) k1) as [lg r]. cbn [fst app map] in *. split; auto.
      eapply Forall_impl; [|exact H2]. cbn. intros. lia.
Qed.
(* No component is called twice, and none before an earlier one. *)
Theorem C39_never_twice :
  forall (act : nat -> core -> outcome) tr when_c jump_c iter_c split_c cs (p : particle Ph Uv Rng) fuel s,
    Forall lone cs -> fresh p -> 1 <= fuel ->
    raytrace act tr when_c jump_c iter_c split_c fuel cs (skips cs) p = Some s ->
    StronglySorted lt (map fst (log s)).
Proof.
  intros act tr when_c jump_c iter_c split_c cs p fuel s F Hp Hf H.
  destruct (C39_components_in_order act tr when_c jump_c iter_c split_c cs p fuel F Hp Hf) as (s' & E & L & _).
  rewrite E in H. inversion H; subst. rewrite L. apply spec_ones_sorted.
Qed.
(* And if no component absorbs, all are called. *)
Theorem C39_all_called :
  forall (act : nat -> core -> outcome) tr when_c jump_c iter_c split_c cs (p : particle Ph Uv Rng) fuel,
    Forall lone cs -> Forall (fun c => rc_code c = true /\ rc_when c = false) cs ->
    (forall i k, o_absorbed (act i k) = false) -> fresh p -> 1 <= fuel ->
    exists s, raytrace act tr when_c jump_c iter_c split_c fuel cs (skips cs) p = Some s /\
      map fst (log s) = seq 0 (List.length cs) /\ index (pt s) = (1 + Z.of_nat (List.length cs))%Z.
Proof.
  intros act tr when_c jump_c iter_c split_c cs p fuel F C NA Hp Hf.
  destruct (C39_components_in_order act tr when_c jump_c iter_c split_c cs p fuel F Hp Hf) as (s & E & L & V).
  exists s. split; [exact E|]. rewrite L.
  assert (G : forall cs i k, Forall (fun c => rc_code c = true /\ rc_when c = false) cs -> forall skip,
     map fst (fst (spec_units act tr when_c skip i (map One cs) k)) = seq i (List.length cs) /\
     snd (spec_units act tr when_c skip i (map One cs) k) <> None).
  { clear - NA. induction cs as [|c t IH]; intros i k H skip; cbn [map spec_units].
    - split; [reflexivity|discriminate].
    - inversion H as [|? ? [Hc Hw] Ht]; subst. unfold spec_one. rewrite Hc, Hw. cbn [negb orb andb]. cbv zeta. rewrite NA.
      cbn [members List.length seq]. rewrite Nat.add_1_r.
      destruct (o_restore _); match goal with |- context [spec_units act tr when_c skip (S i) (map One t) ?k2] =>
        destruct (IH (S i) k2 Ht skip) as [H1 H2]; destruct (spec_units act tr when_c skip (S i) (map One t) k2) as [lg r] end;
        cbn [fst snd app map] in *; (split; [now f_equal|auto]). }
  destruct (G cs 0 (pc p) C (skips cs)) as [G1 G2]. split; [exact G1|]. now apply V.
Qed.

(* With groups, each group being adjacent components: alternatives, tried in order on the
   incoming state and weight; the first that scatters the particle decides and the others
   are passed by; if none does, the particle is gone.  Members may have a WHEN, but not
   the first. *)
Theorem C40_groups_are_alternatives_partial :
  forall (act : nat -> core -> outcome) tr when_c jump_c iter_c split_c us (p : particle Ph Uv Rng) fuel,
    Forall good_unit us -> NoDup (flat_map group_of us) -> fresh p -> 1 <= fuel ->
    exists s, raytrace act tr when_c jump_c iter_c split_c fuel (flatten us) (skips (flatten us)) p = Some s /\
      log s = fst (spec_units act tr when_c (skips (flatten us)) 0 us (pc p)) /\
      (snd (spec_units act tr when_c (skips (flatten us)) 0 us (pc p)) <> None -> index (pt s) = (1 + Z.of_nat (List.length (flatten us)))%Z).
Proof. exact trace_units. Qed.
End T.
Print Assumptions C39_components_in_order.
Print Assumptions C39_never_twice.
Print Assumptions C39_all_called.
Print Assumptions C40_groups_are_alternatives_partial.

(** ** Examples and refutations: particles on a line *)
Definition C := core Z Z unit.
Definition O_ := outcome Z Z unit.
Definition pz (x w : Z) : particle Z Z unit := mkP (mkCore x (Q2Qc (inject_Z w)) 0%Z tt) false false false 1 false (fun _ => 0%Z).
Definition out (c : C) (a s : bool) : O_ := mkOut c a s false.
Definition cp (n : string) : rcomp := mkRc n true false None [] false.
Definition cg (n g : string) : rcomp := mkRc n true false (Some g) [] false.
Definition nojump : nat -> nat -> C -> bool := fun _ _ _ => false.
Definition noiter : nat -> nat -> C -> Z := fun _ _ _ => 0%Z.
Definition nosplit : nat -> C -> Z := fun _ _ => 1%Z.

Example C39_components_in_order_example :
  Forall lone [cp "a"; mkRc "b" true true None [] false; mkRc "c" false false None [] false] /\ fresh (pz 0 1).
Proof. repeat split; repeat constructor. Qed.
Example C40_groups_are_alternatives_partial_example :
  let us := [One (cp "a"); Grp "g" [cg "b" "g"; mkRc "c" true true (Some "g") [] false]; One (cp "d")] in
  Forall good_unit us /\ NoDup (flat_map group_of us) /\
  (* b lets the particle through, c scatters it *)
  let act := fun i k => out k false (i =? 2) in
  map fst (fst (spec_units act (fun _ x => (x - 1)%Z) (fun _ _ => true) (skips (flatten us)) 0 us (pc (pz 0 1)))) = [0; 1; 2; 3].
Proof. split; [|split; [|reflexivity]]; repeat constructor; cbn; try discriminate; auto. Qed.

(* A first member whose WHEN does not hold takes the SCATTERED of the component before
   the group for its own: the other members are never tried. *)
Theorem C40_when_on_first_refuted :
  exists (act : nat -> C -> O_) when_c us s,
    flatten us = [cp "a"; mkRc "b" true true (Some "g") [] false; cg "c" "g"] /\
    (forall k, when_c 1 k = false) /\
    raytrace act (fun _ x => x) when_c nojump noiter nosplit 5 (flatten us) (skips (flatten us)) (pz 0 1) = Some s /\
    map fst (log s) = [0] /\ index (pt s) = 4%Z.
Proof.
  exists (fun _ k => out k false true), (fun _ _ => false), [One (cp "a"); Grp "g" [mkRc "b" true true (Some "g") [] false; cg "c" "g"]].
  eexists. split; [reflexivity|]. split; [reflexivity|]. split; [vm_compute; reflexivity|]. split; reflexivity.
Qed.
Print Assumptions C40_when_on_first_refuted.
(* A member without code (an Arm) spoils the saved state: the next member is given the
   particle displaced twice.  Members stand at 1 and 2, the coordinate changes are those
   of Placement.v for an instrument in which the second component is skipped. *)
Theorem C40_codeless_member_refuted :
  exists (act : nat -> C -> O_) tr s,
    let cs := [cg "a" "g"; mkRc "arm" false false (Some "g") [] false; cg "b" "g"] in
    (forall x, tr 0 x = x) /\ (forall x, tr 1 x = (x - 1)%Z) /\ (forall x, tr 2 x = (x - 2)%Z) /\
    raytrace act tr (fun _ _ => true) nojump noiter nosplit 5 cs (skips cs) (pz 10 1) = Some s /\
    map (fun e => (fst e, ph (snd e))) (log s) = [(0, 10%Z); (2, 7%Z)].
Proof.
  exists (fun i k => out k false (i =? 2)), (fun i x => match i with 1 => (x - 1)%Z | 2 => (x - 2)%Z | _ => x end).
  eexists. cbv zeta. split; [reflexivity|]. split; [reflexivity|]. split; [reflexivity|]. split; [vm_compute; reflexivity|]. vm_compute. reflexivity.
Qed.
Print Assumptions C40_codeless_member_refuted.
(* User variables set by a member that did not scatter stay set for the next. *)
Theorem C40_user_variables_leak_refuted :
  exists (act : nat -> C -> O_) s,
    let cs := [cg "a" "g"; cg "b" "g"] in
    raytrace act (fun _ x => x) (fun _ _ => true) nojump noiter nosplit 5 cs (skips cs) (pz 0 1) = Some s /\
    map (fun e => (fst e, uv (snd e))) (log s) = [(0, 0%Z); (1, 7%Z)].
Proof.
  exists (fun i k => out (mkCore (ph k) (wt k) 7%Z tt) false (i =? 1)). eexists. cbv zeta. split; [vm_compute; reflexivity|]. vm_compute. reflexivity.
Qed.
Print Assumptions C40_user_variables_leak_refuted.

(** * C41 *)
(* The loop and the machine that only knows the current component end together, with the
   same calls. *)
Theorem C41_loop_follows_jumps :
  forall {Ph Uv Rng} (act : nat -> core Ph Uv Rng -> outcome Ph Uv Rng) tr when_c jump_c iter_c split_c cs (p : particle Ph Uv Rng),
    Forall jumper cs -> fresh p ->
    let m0 := mkM 0 false (pc p) (cnt (start cs p)) [] in
    (forall fuel s, raytrace act tr when_c jump_c iter_c split_c fuel cs (skips cs) p = Some s ->
       exists n, mrun act tr when_c jump_c iter_c n (skips cs) cs m0 = Some (log s)) /\
    (forall n l, mrun act tr when_c jump_c iter_c n (skips cs) cs m0 = Some l ->
       exists fuel s, raytrace act tr when_c jump_c iter_c split_c fuel cs (skips cs) p = Some s /\ log s = l).
Proof.
  intros Ph Uv Rng act tr when_c jump_c iter_c split_c cs p F (A & R & X) m0.
  destruct (start_pc cs p) as (S1 & S2 & S3 & S4 & S5).
  assert (RL : rel 0 m0 (mkS (start cs p) p [])).
  { unfold rel, m0. cbn [pt log at_ jumped mcore mcnt mlog]. rewrite S1, S2, S3, S4, S5. repeat split; auto. }
  split.
  - intros fuel s H. unfold raytrace in H. destruct (run_while _ _ _ _ _ _ _ _ _ _) as [s1|] eqn:E; [|discriminate].
    inversion H; subst. cbn [with_pt log]. eapply loop_to_machine; eauto. intros i c. apply skips_code.
  - intros n l H. destruct (machine_to_loop act tr when_c jump_c iter_c split_c cs (skips cs) F (fun i c => skips_code cs i c) n m0 _ l (or_introl RL) H)
      as (fuel & s' & E & L). exists fuel. eexists. unfold raytrace. rewrite E. split; [reflexivity|]. exact L.
Qed.
Print Assumptions C41_loop_follows_jumps.

(* all counters are zero when a particle starts, whatever the last one left *)
Theorem C41_counters_start_at_zero :
  forall {Ph Uv Rng} cs (p : particle Ph Uv Rng) c j, In c cs -> In j (rc_jumps c) -> rj_iter j = true ->
    cnt (start cs p) (counter_name (rc_name c) (rj_target j)) = 0%Z.
Proof.
  intros Ph Uv Rng cs p c j Hc Hj Hi. unfold start. cbn [set_nocoords cnt].
  assert (I : In (counter_name (rc_name c) (rj_target j)) (iter_names cs)).
  { unfold iter_names. apply in_flat_map. exists c. split; auto. apply in_map_iff. exists j. split; auto. apply filter_In. auto. }
  set (n := counter_name _ _) in *. clearbody n.
  assert (Z0 : forall l (q : particle Ph Uv Rng), cnt q n = 0%Z -> cnt (fold_left (fun q n => set_cnt q n 0%Z) l q) n = 0%Z).
  { induction l as [|x t IH]; intros q H; [exact H|]. cbn. apply IH. cbn. destruct (String.eqb n x); auto. }
  revert p I. induction (iter_names cs) as [|x t IH]; intros p []; cbn [fold_left].
  - subst x. apply Z0. cbn. now rewrite String.eqb_refl.
  - now apply IH.
Qed.
Print Assumptions C41_counters_start_at_zero.

Section Iterate.
Context {Ph Uv Rng : Type}.
Notation core := (core Ph Uv Rng).
Variable act : nat -> core -> outcome Ph Uv Rng.
Variable tr : nat -> Ph -> Ph.
Variable when_c : nat -> core -> bool.
Variable jump_c : nat -> nat -> core -> bool.
Variable iter_c : nat -> nat -> core -> Z.
Notation mstep := (mstep act tr when_c jump_c iter_c).
Notation mrun := (mrun act tr when_c jump_c iter_c).

Definition busy (c : rcomp) : Prop := rc_code c = true /\ rc_when c = false.
Lemma step_on skip cs m c : (forall i k, o_absorbed (act i k) = false) -> nth_error cs (at_ m) = Some c -> busy c -> rc_jumps c = [] ->
  exists k lg, mstep skip cs m = Going (mkM (S (at_ m)) false k (mcnt m) (mlog m ++ lg)) /\ map fst lg = [at_ m].
Proof.
  intros NA E (Hc & Hw) Hj. unfold RaySpec.mstep. rewrite E. unfold spec_one. rewrite Hc, Hw, Hj. cbn [negb orb andb RaySpec.spec_jumps].
  cbv zeta. rewrite NA. destruct (o_restore _); eexists _, _; (split; [reflexivity|reflexivity]).
Qed.
Lemma walk skip cs : (forall i k, o_absorbed (act i k) = false) -> forall d m f,
  (forall i, at_ m <= i < at_ m + d -> exists c, nth_error cs i = Some c /\ busy c /\ rc_jumps c = []) ->
  exists jd k lg, mrun (d + f) skip cs m = mrun f skip cs (mkM (at_ m + d) jd k (mcnt m) (mlog m ++ lg)) /\ map fst lg = seq (at_ m) d.
Proof.
  intros NA. induction d as [|d IH]; intros m f H.
  - exists (jumped m), (mcore m), []. rewrite app_nil_r, Nat.add_0_r. destruct m. auto.
  - destruct (H (at_ m)) as (c & E & Bc & Jc); [lia|]. destruct (step_on skip cs m c NA E Bc Jc) as (k & lg & S1 & L1).
    cbn [plus RaySpec.mrun]. rewrite S1.
    destruct (IH (mkM (S (at_ m)) false k (mcnt m) (mlog m ++ lg)) f) as (jd' & k' & lg' & S2 & L2).
    + cbn [at_]. intros i Hi. apply H. lia.
    + cbn [at_ mcnt mlog] in *. exists jd', k', (lg ++ lg'). rewrite S2. split.
      * rewrite app_assoc. now rewrite Nat.add_succ_r.
      * rewrite map_app, L1, L2. reflexivity.
Qed.
Lemma end_run skip cs m f : (forall i k, o_absorbed (act i k) = false) -> at_ m <= List.length cs ->
  (forall i, at_ m <= i < List.length cs -> exists c, nth_error cs i = Some c /\ busy c /\ rc_jumps c = []) ->
  exists l, mrun (List.length cs - at_ m + S f) skip cs m = Some (mlog m ++ l) /\ map fst l = seq (at_ m) (List.length cs - at_ m).
Proof.
  intros NA Hle H. destruct (walk skip cs NA (List.length cs - at_ m) m (S f)) as (jd & k & lg & E & L).
  { intros i Hi. apply H. lia. }
  exists lg. split; [|exact L]. rewrite E. cbn [RaySpec.mrun]. unfold RaySpec.mstep. cbn [at_].
  now rewrite (proj2 (nth_error_None cs (at_ m + (List.length cs - at_ m)))) by lia.
Qed.
Fixpoint rounds (r : nat) (l : list nat) : list nat := match r with O => [] | S r => l ++ rounds r l end.
Lemma iterate_run skip cs j t c tgt n : (forall i k, o_absorbed (act i k) = false) -> (forall k, iter_c j 0 k = n) ->
  nth_error cs j = Some c -> busy c -> rc_jumps c = [mkRj tgt true (Z.of_nat t)] -> t <= j ->
  (forall i d, i <> j -> nth_error cs i = Some d -> busy d /\ rc_jumps d = []) ->
  forall r m, r = Z.to_nat (n - 1 - mcnt m (counter_name (rc_name c) tgt)) -> (0 <= mcnt m (counter_name (rc_name c) tgt))%Z -> at_ m <= j ->
  exists f l, mrun f skip cs m = Some (mlog m ++ l) /\
    map fst l = seq (at_ m) (S j - at_ m) ++ rounds r (seq t (S j - t)) ++ seq (S j) (List.length cs - S j).
Proof.
  intros NA Hn Hc Bc Jc Ht Ho.
  assert (Hjl : j < List.length cs) by (apply nth_error_Some; congruence).
  assert (Hcs : forall i, i <> j -> i < List.length cs -> exists c, nth_error cs i = Some c /\ busy c /\ rc_jumps c = []).
  { intros i Ni Hi. destruct (nth_error cs i) as [d|] eqn:E; [|apply nth_error_None in E; lia]. exists d. split; [reflexivity|exact (Ho i d Ni E)]. }
  induction r as [|r IH]; intros m Hr H0 Hm; set (nm := counter_name (rc_name c) tgt) in *.
  - (* last round *)
    destruct (end_run skip cs (mkM (S j) false (mcore m) (mcnt m) []) 0 NA) as (l2 & E2 & L2); cbn [at_]; [lia| |].
    { intros i Hi. apply Hcs; lia. }
    set (g := List.length cs - S j + 1).
    destruct (walk skip cs NA (j - at_ m) m (S g)) as (jd & k & lg & E & L).
    { intros i Hi. apply Hcs; lia. }
    replace (at_ m + (j - at_ m)) with j in E by lia.
    assert (SJ : exists k' lg', mstep skip cs (mkM j jd k (mcnt m) (mlog m ++ lg)) =
       Going (mkM (S j) false k' (fun x => if String.eqb x nm then 0%Z else mcnt m x) ((mlog m ++ lg) ++ lg')) /\ map fst lg' = [j]).
    { unfold RaySpec.mstep. cbn [at_ jumped mcore mcnt mlog]. rewrite Hc. unfold spec_one. destruct Bc as [Hcc Hcw]. rewrite Hcc, Hcw, Jc. cbn [negb orb andb].
      cbv zeta. rewrite NA. cbn [RaySpec.spec_jumps rj_iter rj_target rj_abs]. fold nm.
      assert (NB : (mcnt m nm + 1 <? n)%Z = false) by (apply Z.ltb_ge; lia).
      destruct (o_restore _); rewrite Hn, NB; eexists _, _; (split; [reflexivity|reflexivity]). }
    destruct SJ as (k' & lg' & SJ & L').
    cbn [RaySpec.mrun] in E. rewrite SJ in E.
    destruct (end_run skip cs (mkM (S j) false k' (fun x => if String.eqb x nm then 0%Z else mcnt m x) ((mlog m ++ lg) ++ lg')) 0 NA) as (l3 & E3 & L3); cbn [at_ mlog] in *; [lia| |].
    { intros i Hi. apply Hcs; lia. }
    fold g in E3. rewrite E3 in E.
    exists (j - at_ m + S g), (lg ++ lg' ++ l3). split.
    + rewrite E. now rewrite !app_assoc.
    + rewrite !map_app, L, L', L3. cbn [rounds app]. replace (S j - at_ m) with ((j - at_ m) + 1) by lia. rewrite seq_app.
      replace (at_ m + (j - at_ m)) with j by lia. cbn [seq]. now rewrite <- app_assoc.
  - (* another round *)
    assert (SJ : forall jd k lg, exists k' lg', mstep skip cs (mkM j jd k (mcnt m) (mlog m ++ lg)) =
       Going (mkM t true k' (fun x => if String.eqb x nm then (mcnt m nm + 1)%Z else mcnt m x) ((mlog m ++ lg) ++ lg')) /\ map fst lg' = [j]).
    { intros jd k lg. unfold RaySpec.mstep. cbn [at_ jumped mcore mcnt mlog]. rewrite Hc. unfold spec_one. destruct Bc as [Hcc Hcw]. rewrite Hcc, Hcw, Jc. cbn [negb orb andb].
      cbv zeta. rewrite NA. cbn [RaySpec.spec_jumps rj_iter rj_target rj_abs]. fold nm.
      assert (NB : (mcnt m nm + 1 <? n)%Z = true) by (apply Z.ltb_lt; lia).
      assert (NT : (Z.of_nat t <? 0)%Z = false) by (apply Z.ltb_ge; lia).
      destruct (o_restore _); rewrite Hn, NB, NT, Nat2Z.id; eexists _, _; (split; [reflexivity|reflexivity]). }
    destruct (walk skip cs NA (j - at_ m) m 0) as (jd0 & k0 & lg0 & _ & L0).
    { intros i Hi. apply Hcs; lia. }
    clear jd0 k0 lg0 L0.
    assert (W : exists jd k lg, (forall f, mrun (j - at_ m + f) skip cs m = mrun f skip cs (mkM j jd k (mcnt m) (mlog m ++ lg))) /\ map fst lg = seq (at_ m) (j - at_ m)).
    { clear IH Hr SJ H0. remember (j - at_ m) as d eqn:Ed. revert m Ed Hm. induction d as [|d IHd]; intros m Ed Hm.
      - assert (at_ m = j) by lia. subst j. exists (jumped m), (mcore m), []. rewrite app_nil_r. destruct m. auto.
      - destruct (Hcs (at_ m)) as (c1 & E & B1 & J1); [lia|lia|]. destruct (step_on skip cs m c1 NA E B1 J1) as (k & lg & S1 & L1).
        destruct (IHd (mkM (S (at_ m)) false k (mcnt m) (mlog m ++ lg))) as (jd' & k' & lg' & S2 & L2); cbn [at_ mcnt mlog] in *; [lia|lia|].
        exists jd', k', (lg ++ lg'). split.
        + intro f. cbn [plus RaySpec.mrun]. rewrite S1, S2. now rewrite app_assoc.
        + rewrite map_app, L1, L2. reflexivity. }
    destruct W as (jd & k & lg & W & L). destruct (SJ jd k lg) as (k' & lg' & SJ' & L').
    destruct (IH (mkM t true k' (fun x => if String.eqb x nm then (mcnt m nm + 1)%Z else mcnt m x) ((mlog m ++ lg) ++ lg'))) as (f & l & E & El).
    + cbn [mcnt]. rewrite String.eqb_refl. lia.
    + cbn [mcnt]. rewrite String.eqb_refl. lia.
    + exact Ht.
    + cbn [at_ mlog] in *. exists (j - at_ m + S f), (lg ++ lg' ++ l). rewrite W. cbn [RaySpec.mrun]. rewrite SJ', E. split; [now rewrite !app_assoc|].
      rewrite !map_app, L, L', El. cbn [rounds]. replace (S j - at_ m) with ((j - at_ m) + 1) by lia. rewrite seq_app.
      replace (at_ m + (j - at_ m)) with j by lia. cbn [seq]. now rewrite <- !app_assoc.
Qed.
End Iterate.

(* JUMP target ITERATE n: the components from the target to the jump are called n times
   in all (once if n is less than one), then the rest. *)
Theorem C41_iterate_count :
  forall {Ph Uv Rng} (act : nat -> core Ph Uv Rng -> outcome Ph Uv Rng) tr when_c jump_c iter_c split_c cs (p : particle Ph Uv Rng) j t c tgt n,
    Forall jumper cs -> (forall i d, nth_error cs i = Some d -> rc_code d = true /\ rc_when d = false) ->
    nth_error cs j = Some c -> rc_jumps c = [mkRj tgt true (Z.of_nat t)] -> t <= j ->
    (forall i d, i <> j -> nth_error cs i = Some d -> rc_jumps d = []) ->
    (forall i k, o_absorbed (act i k) = false) -> (forall k, iter_c j 0 k = n) -> fresh p ->
    exists fuel s, raytrace act tr when_c jump_c iter_c split_c fuel cs (skips cs) p = Some s /\
      map fst (log s) = seq 0 (S j) ++ rounds (Z.to_nat (n - 1)) (seq t (S j - t)) ++ seq (S j) (List.length cs - S j).
Proof.
  intros Ph Uv Rng act tr when_c jump_c iter_c split_c cs p j t c tgt n F B Hc Jc Ht Ho NA Hn Hp.
  destruct (C41_loop_follows_jumps act tr when_c jump_c iter_c split_c cs p F Hp) as [_ M].
  assert (Z0 : cnt (start cs p) (counter_name (rc_name c) tgt) = 0%Z).
  { apply (C41_counters_start_at_zero cs p c (mkRj tgt true (Z.of_nat t))); auto.
    - eapply nth_error_In; eauto.
    - rewrite Jc. now left. }
  destruct (iterate_run act tr when_c jump_c iter_c (skips cs) cs j t c tgt n NA Hn Hc (B j c Hc) Jc Ht
             (fun i d Ni E => conj (B i d E) (Ho i d Ni E)) (Z.to_nat (n - 1)) (mkM 0 false (pc p) (cnt (start cs p)) [])) as (f & l & E & L).
  - cbn [mcnt]. rewrite Z0. f_equal. lia.
  - cbn [mcnt]. rewrite Z0. lia.
  - cbn. lia.
  - destruct (M _ _ E) as (fuel & s & R & Ls). exists fuel, s. split; [exact R|]. rewrite Ls. cbn [mlog app]. rewrite L. cbn [at_]. now rewrite Nat.sub_0_r.
Qed.
Print Assumptions C41_iterate_count.
Definition cj (n : string) (js : list rjump) : rcomp := mkRc n true false None js false.
Example C41_iterate_count_example :
  let cs := [cp "a"; cp "b"; cj "c" [mkRj "b" true 1]; cp "d"] in
  Forall jumper cs /\ seq 0 3 ++ rounds (Z.to_nat (3 - 1)) (seq 1 (3 - 1)) ++ seq 3 (4 - 3) = [0; 1; 2; 1; 2; 1; 2; 3].
Proof. split; [repeat constructor|reflexivity]. Qed.

(* Targets: a name stands for the position of the component with this name. *)
Lemma find_name_nth names : forall i0 t n, NoDup names -> nth_error names t = Some n -> find_name i0 n names = Some (i0 + t).
Proof.
  induction names as [|x l IH]; intros i0 [|t] n D E; try discriminate; inversion D; subst.
  - inversion E; subst. cbn. rewrite String.eqb_refl. f_equal. lia.
  - cbn. destruct (String.eqb_spec n x); [subst; exfalso; apply H1; eapply nth_error_In; eauto|].
    rewrite (IH (S i0) t n); auto. f_equal. lia.
Qed.
Theorem C41_named_target :
  forall names index j t, NoDup names -> pj_abs j = (-1)%Z -> pj_rel j = 0%Z -> lower (pj_target j) <> "myself" ->
    nth_error names t = Some (pj_target j) ->
    exists j', set_target names index j = Some j' /\ pj_abs j' = Z.of_nat t /\ pj_target j' = pj_target j /\ pj_iter j' = pj_iter j.
Proof.
  intros names index j t D A R N E. unfold set_target. rewrite A, R. cbn [Z.ltb Z.compare Z.eqb andb].
  destruct (String.eqb_spec (lower (pj_target j)) "myself"); [congruence|]. cbn [negb].
  rewrite (find_name_nth names 0 t _ D E). eexists. split; [reflexivity|]. repeat split.
Qed.
Print Assumptions C41_named_target.
Theorem C41_relative_target :
  forall names index j, pj_abs j = (-1)%Z -> (pj_rel j <> 0%Z \/ lower (pj_target j) = "myself") ->
    exists j', set_target names index j = Some j' /\ pj_abs j' = (Z.of_nat index + pj_rel j)%Z.
Proof.
  intros names index j A H. unfold set_target. rewrite A. cbn [Z.ltb Z.compare].
  assert (X : (pj_rel j =? 0)%Z && negb (lower (pj_target j) =?s "myself") = false).
  { destruct H as [H|H]; [apply Z.eqb_neq in H; now rewrite H|]. rewrite H. cbn. apply andb_false_r. }
  rewrite X. eexists. split; reflexivity.
Qed.
Print Assumptions C41_relative_target.
Theorem C41_unknown_target_raises :
  forall names index j, pj_abs j = (-1)%Z -> pj_rel j = 0%Z -> lower (pj_target j) <> "myself" -> ~ In (pj_target j) names ->
    set_target names index j = None.
Proof.
  intros names index j A R N E. unfold set_target. rewrite A, R. cbn [Z.ltb Z.compare Z.eqb andb].
  destruct (String.eqb_spec (lower (pj_target j)) "myself"); [congruence|]. cbn [negb].
  assert (F : forall l i, ~ In (pj_target j) l -> find_name i (pj_target j) l = None).
  { induction l as [|x l IH]; intros i H; [reflexivity|]. cbn. destruct (String.eqb_spec (pj_target j) x); [exfalso; apply H; now left|]. apply IH. intro; apply H; now right. }
  now rewrite F.
Qed.
Print Assumptions C41_unknown_target_raises.
Example C41_named_target_example :
  NoDup ["a"; "b"; "c"] /\ nth_error ["a"; "b"; "c"] 1 = Some "b" /\ lower "b" <> "myself".
Proof. repeat constructor; cbn; intuition discriminate. Qed.

(* The target is computed once and kept: the instrument of another translation, in which
   the component stands elsewhere, jumps to the wrong component. *)
Theorem C41_stale_target_refuted :
  exists cs cs' b, set_jump_absolute_targets cs = Some cs' /\
    (* the same component objects after a component was put in front of them *)
    set_jump_absolute_targets (("new", []) :: cs') = Some b /\
    nth_error (map fst b) 1 = Some "a" /\
    In ("b", [mkPj "a" (-1) false 0]) b.
Proof.
  exists [("a", []); ("b", [mkPj "a" 0 false (-1)])]. eexists. eexists. split; [reflexivity|]. split; [reflexivity|]. split; [reflexivity|]. cbn. tauto.
Qed.
Print Assumptions C41_stale_target_refuted.
(* JUMP PREVIOUS in the first component: the generator takes target -1 and the loop never
   ends. *)
Theorem C41_previous_of_first_refuted :
  let cs := [cj "a" [mkRj "PREVIOUS" false (-1)]] in
  (exists j', set_target ["a"] 0 (mkPj "PREVIOUS" (-1) false (-1)) = Some j' /\ pj_abs j' = (-1)%Z) /\
  ok_to_skip cs <> None /\
  forall fuel, raytrace (fun _ k => out k false false) (fun _ x => x) (fun _ _ => true) (fun _ _ _ => true) noiter nosplit fuel cs (skips cs) (pz 0 1) = None.
Proof.
  cbv zeta. split; [eexists; split; reflexivity|]. split; [discriminate|]. intro fuel.
  destruct fuel as [|f]; [reflexivity|]. unfold raytrace. cbn [Raytrace.run_while].
  set (cs := [cj "a" [mkRj "PREVIOUS" false (-1)]]).
  match goal with |- context [run_while _ _ _ _ _ _ f ?n ?l (end_pass ?n' ?s0)] => assert (E : stuck (end_pass n' s0)) by (vm_compute; repeat split; discriminate) end.
  change 1 with (List.length cs). 
  pose proof (run_while_stuck (fun _ k => out k false false) (fun _ x => x) (fun _ _ => true) (fun _ _ _ => true) noiter nosplit cs (skips cs) f _ ltac:(repeat constructor) E) as S.
  destruct (absorbed _) eqn:Ab; [vm_compute in Ab; discriminate|]. rewrite S. reflexivity.
Qed.
Print Assumptions C41_previous_of_first_refuted.
(* Two different jumps may share one counter (and a duplicate member in the C struct). *)
Theorem C41_counter_name_clash_refuted :
  exists c1 t1 c2 t2, (c1, t1) <> (c2, t2) /\ counter_name c1 t1 = counter_name c2 t2.
Proof. exists "a", "b_c", "a_b", "c". split; [intro H; discriminate|reflexivity]. Qed.
Print Assumptions C41_counter_name_clash_refuted.

(** * C42 *)
Theorem C42_funnel_agrees_partial :
  forall {Ph Uv Rng} (act : nat -> core Ph Uv Rng -> outcome Ph Uv Rng) tr when_c jump_c iter_c split_c cs (p : particle Ph Uv Rng) fuel,
    Forall lone cs -> fresh p -> 1 <= fuel ->
    exists s, raytrace act tr when_c jump_c iter_c split_c fuel cs (skips cs) p = Some s /\
      log (funnel act tr when_c jump_c iter_c cs (skips cs) p) = log s.
Proof.
  intros Ph Uv Rng act tr when_c jump_c iter_c split_c cs p fuel F Hp Hf.
  destruct (C39_components_in_order act tr when_c jump_c iter_c split_c cs p fuel F Hp Hf) as (s & E & L & _).
  exists s. split; [exact E|]. rewrite L. unfold funnel. destruct Hp as (A & R & X).
  rewrite (funnel_ok act tr when_c jump_c iter_c cs (skips cs) cs 0); auto.
  intros j c. apply skips_code.
Qed.
Print Assumptions C42_funnel_agrees_partial.
(* A particle scattered in a group is sent to the last member instead of behind the
   group, and the last member sends it to itself: nothing ever leaves a group.  Holds of
   every group after which none of the earlier groups ends. *)
Lemma funnel_stays {Ph Uv Rng} (act : nat -> core Ph Uv Rng -> outcome Ph Uv Rng) tr when_c jump_c iter_c all skip L : forall cs i s,
  (forall j c h, nth_error cs j = Some c -> i + j <= L -> rc_group c = Some h -> last_id (ids h all) <= L) ->
  (i <= L -> exists c g, nth_error cs (L - i) = Some c /\ rc_group c = Some g /\ last_id (ids g all) = L) ->
  absorbed (pt s) = true \/ (index (pt s) <= Z.of_nat L + 1)%Z -> Forall (fun e => fst e <= L) (log s) ->
  Forall (fun e => fst e <= L) (log (funnel_from act tr when_c jump_c iter_c all skip i cs s)).
Proof.
  induction cs as [|c t IH]; intros i s G HL A F; [exact F|]. cbn [funnel_from]. apply IH.
  - intros j d h E Le. apply (G (S j) d h E). lia.
  - intro Le. destruct HL as (d & g & E & H); [lia|]. replace (L - i) with (S (L - S i)) in E by lia. eauto.
  - unfold funnel_comp. destruct (absorbed (pt s)) eqn:Ab; [now left|]. destruct A as [A|A]; [discriminate|]. cbn [negb andb].
    destruct (Z.eqb_spec (index (pt s)) (Z.of_nat i + 1)) as [E|N]; [|now right].
    set (s1 := if skip i then s else _). assert (I1 : index (pt s1) = (Z.of_nat i + 1)%Z) by (unfold s1; destruct (skip i); exact E).
    set (s2 := if rc_code c then _ else s1).
    assert (I2 : index (pt s2) = (Z.of_nat i + 1)%Z).
    { unfold s2. destruct (rc_code c); [|exact I1]. rewrite <- I1. unfold run1.
      destruct (negb (rc_when c) || when_c i (pc (pt s1))); cbn [pt restore]; destruct (o_restore _) || destruct (restore (pt s1)); reflexivity. }
    assert (Hi : i <= L) by lia.
    destruct (rc_group c) as [h|] eqn:Eg.
    + assert (B : last_id (ids h all) <= L) by (apply (G 0 c h); auto; lia).
      destruct (scattered (pt s2)).
      * right. cbn [run1 with_pt pt set_index index]. lia.
      * destruct (Nat.eqb_spec i (last_id (ids h all))) as [El|Nl]; [left; reflexivity|].
        right. cbn [run1 with_pt pt set_index set_absorbed index]. rewrite I2.
        destruct (Nat.eq_dec i L) as [->|NL]; [|lia]. destruct HL as (d & g & E' & Hg & Hl); [lia|]. rewrite Nat.sub_diag in E'.
        cbn in E'. inversion E'; subst d. rewrite Eg in Hg. inversion Hg; subst. congruence.
    + right. cbn [run1 with_pt pt set_index index]. rewrite I2. destruct (Nat.eq_dec i L) as [->|NL]; [|lia].
      destruct HL as (d & g & E' & Hg & Hl); [lia|]. rewrite Nat.sub_diag in E'. cbn in E'. inversion E'; subst d. congruence.
  - unfold funnel_comp. destruct (absorbed (pt s)) eqn:Ab; [exact F|]. destruct A as [A|A]; [discriminate|]. cbn [negb andb].
    destruct (Z.eqb_spec (index (pt s)) (Z.of_nat i + 1)) as [E|N]; [|exact F].
    set (s1 := if skip i then s else _). assert (I1 : log s1 = log s) by (unfold s1; destruct (skip i); reflexivity).
    set (s2 := if rc_code c then _ else s1).
    assert (I2 : Forall (fun e => fst e <= L) (log s2)).
    { unfold s2. destruct (rc_code c); [|now rewrite I1]. unfold run1.
      destruct (negb (rc_when c) || when_c i (pc (pt s1))); cbn [pt restore]; [destruct (o_restore _)|destruct (restore (pt s1))]; cbn [with_pt log]; rewrite ?I1;
        try (apply Forall_app; split; [exact F|constructor; [cbn; lia|constructor]]); exact F. }
    destruct (rc_group c); [|exact I2]. destruct (scattered (pt s2)); exact I2.
Qed.
Theorem C42_funnel_never_leaves_a_group_refuted :
  forall {Ph Uv Rng} (act : nat -> core Ph Uv Rng -> outcome Ph Uv Rng) tr when_c jump_c iter_c cs skip (p : particle Ph Uv Rng) c g,
    let L := last_id (ids g cs) in
    nth_error cs L = Some c -> rc_group c = Some g ->
    (forall j d h, j <= L -> nth_error cs j = Some d -> rc_group d = Some h -> last_id (ids h cs) <= L) ->
    index p = 1%Z ->
    Forall (fun e => fst e <= L) (log (funnel act tr when_c jump_c iter_c cs skip p)).
Proof.
  intros Ph Uv Rng act tr when_c jump_c iter_c cs skip p c g L Hc Hg H X. unfold funnel. apply funnel_stays.
  - intros j d h E Le. eapply H; eauto.
  - intros _. exists c, g. rewrite Nat.sub_0_r. auto.
  - right. cbn [pt]. lia.
  - constructor.
Qed.
Print Assumptions C42_funnel_never_leaves_a_group_refuted.
Theorem C42_group_exit_refuted :
  exists (act : nat -> C -> O_) s,
    let cs := [cg "a" "g"; cg "b" "g"; cp "c"] in
    raytrace act (fun _ x => x) (fun _ _ => true) nojump noiter nosplit 5 cs (skips cs) (pz 0 1) = Some s /\
    map fst (log s) = [0; 2] /\
    map fst (log (funnel act (fun _ x => x) (fun _ _ => true) nojump noiter cs (skips cs) (pz 0 1))) = [0; 1].
Proof.
  exists (fun i k => out k false (i <=? 1)). eexists. cbv zeta. split; [vm_compute; reflexivity|]. split; reflexivity.
Qed.
Print Assumptions C42_group_exit_refuted.
(* Jumps are ignored. *)
Theorem C42_jump_ignored_refuted :
  exists (act : nat -> C -> O_) jump_c s,
    let cs := [cj "a" [mkRj "c" false 2]; cp "b"; cp "c"] in
    raytrace act (fun _ x => x) (fun _ _ => true) jump_c noiter nosplit 5 cs (skips cs) (pz 0 1) = Some s /\
    map fst (log s) = [0; 2] /\
    map fst (log (funnel act (fun _ x => x) (fun _ _ => true) jump_c noiter cs (skips cs) (pz 0 1))) = [0; 1; 2].
Proof.
  exists (fun i k => out k false false), (fun _ _ _ => true). eexists. cbv zeta. split; [vm_compute; reflexivity|]. split; reflexivity.
Qed.
Print Assumptions C42_jump_ignored_refuted.

(** * C43 *)
(* Any instrument without jumps, with groups and any number of SPLITs into at least one. *)
Theorem C43_terminates_partial :
  forall {Ph Uv Rng} (act : nat -> core Ph Uv Rng -> outcome Ph Uv Rng) tr when_c jump_c iter_c split_c cs skip (p : particle Ph Uv Rng) fuel,
    Forall (fun c => rc_jumps c = []) cs -> (forall i k, (1 <= split_c i k)%Z) -> fresh p -> 1 <= fuel ->
    exists s, raytrace act tr when_c jump_c iter_c split_c fuel cs skip p = Some s.
Proof.
  intros Ph Uv Rng act tr when_c jump_c iter_c split_c cs skip p fuel F P (A & R & X) Hf.
  destruct fuel as [|f]; [lia|]. destruct (start_pc cs p) as (S1 & S2 & S3 & S4 & S5).
  unfold raytrace. cbn [Raytrace.run_while pt]. rewrite S2, A.
  assert (H : ahead (0 + List.length cs) (run_items act tr when_c jump_c iter_c split_c (cogen_raytrace cs skip) (mkS (start cs p) p []))).
  { apply all_ahead; auto. right. cbn [pt]. rewrite S4, X. cbn. lia. }
  cbn [plus] in H. set (s1 := run_items _ _ _ _ _ _ _ _) in *.
  assert (E : absorbed (pt (end_pass (List.length cs) s1)) = true).
  { unfold end_pass. destruct (Z.ltb_spec (Z.of_nat (List.length cs)) (index (pt s1))); [reflexivity|]. destruct H; auto. lia. }
  rewrite run_while_dead by exact E. eexists. reflexivity.
Qed.
Print Assumptions C43_terminates_partial.

Definition total (l : list Qc) : Qc := fold_right Qcplus 0%Qc l.
Definition weights_at {Ph Uv Rng} (k : nat) (l : list (nat * core Ph Uv Rng)) : list Qc :=
  map (fun e => wt (snd e)) (filter (fun e => fst e =? k) l).

Lemma spec_units_ge {Ph Uv Rng} (act : nat -> core Ph Uv Rng -> outcome Ph Uv Rng) tr when_c skip us : forall i k,
  Forall (fun e => i <= fst e < i + List.length (flatten us)) (fst (spec_units act tr when_c skip i us k)).
Proof.
  assert (G : forall l i k, Forall (fun e => i <= fst e < i + List.length l) (fst (spec_grp act tr when_c i l k))).
  { induction l as [|c t IH]; intros i k; cbn [spec_grp List.length]; [constructor|].
    assert (W : forall (x : list (nat * core Ph Uv Rng)), Forall (fun e => S i <= fst e < S i + List.length t) x -> Forall (fun e => i <= fst e < i + S (List.length t)) x).
    { intros x H. eapply Forall_impl; [|exact H]. cbn. intros. lia. }
    destruct (negb (rc_when c) || when_c i (moved tr i k)); [|apply W; auto].
    destruct (o_scattered _).
    - cbn. constructor; [cbn; lia|constructor].
    - match goal with |- context [spec_grp act tr when_c (S i) t ?k2] => pose proof (IH (S i) k2) as H; destruct (spec_grp act tr when_c (S i) t k2) as [lg r] end.
      cbn [fst] in *. constructor; [cbn; lia|apply W; auto]. }
  induction us as [|u t IH]; intros i k; cbn [spec_units]; [constructor|].
  assert (LU : List.length (flatten (u :: t)) = List.length (members u) + List.length (flatten t)) by (unfold flatten; cbn [flat_map]; now rewrite app_length).
  rewrite LU. assert (U : Forall (fun e => i <= fst e < i + List.length (members u))
     (fst (match u with One c => spec_one act tr when_c skip i c k | Grp _ l => spec_grp act tr when_c i l k end))).
  { destruct u as [c|g l]; [|apply G]. unfold spec_one. destruct (rc_code c && _); cbn; [|constructor]. constructor; [cbn; lia|constructor]. }
  destruct (match u with One c => spec_one act tr when_c skip i c k | Grp _ l => spec_grp act tr when_c i l k end) as [lg r]. cbn [fst] in U.
  destruct r as [k'|].
  - pose proof (IH (i + List.length (members u)) k') as H. destruct (spec_units act tr when_c skip (i + List.length (members u)) t k') as [lg' r'].
    cbn [fst] in *. apply Forall_app. split.
    + eapply Forall_impl; [|exact U]. cbn. intros. lia.
    + eapply Forall_impl; [|exact H]. cbn. intros. lia.
  - cbn [fst]. eapply Forall_impl; [|exact U]. cbn. intros. lia.
Qed.
Lemma weights_at_app {Ph Uv Rng} k (a b : list (nat * core Ph Uv Rng)) : weights_at k (a ++ b) = weights_at k a ++ weights_at k b.
Proof. unfold weights_at. now rewrite filter_app, map_app. Qed.
Lemma weights_at_none {Ph Uv Rng} k (a : list (nat * core Ph Uv Rng)) : Forall (fun e => fst e <> k) a -> weights_at k a = [].
Proof.
  induction 1 as [|x l H _ IH]; [reflexivity|]. unfold weights_at in *. cbn [filter]. destruct (Nat.eqb_spec (fst x) k); [congruence|]. exact IH.
Qed.

(* One SPLIT n: component k is called exactly n times, each time with the n-th part of
   the weight that arrives; together the arriving weight. *)
Theorem C43_weight_conserved :
  forall {Ph Uv Rng} (act : nat -> core Ph Uv Rng -> outcome Ph Uv Rng) tr when_c jump_c iter_c split_c pre c post (p : particle Ph Uv Rng) fuel k0 n,
    let us := pre ++ One (unsplit c) :: post in
    let cs := flatten pre ++ c :: flatten post in
    let k := List.length (flatten pre) in
    Forall good_unit us -> NoDup (flat_map group_of us) -> rc_split c = true -> rc_code c = true -> rc_when c = false ->
    snd (spec_units act tr when_c (skips cs) 0 pre (pc p)) = Some k0 -> split_c k k0 = n -> (1 <= n)%Z -> fresh p -> 1 <= fuel ->
    exists s, raytrace act tr when_c jump_c iter_c split_c fuel cs (skips cs) p = Some s /\
      weights_at k (log s) = repeat (wt k0 / Q2Qc (inject_Z n))%Qc (Z.to_nat n) /\
      total (weights_at k (log s)) = wt k0.
Proof.
  intros Ph Uv Rng act tr when_c jump_c iter_c split_c pre c post p fuel k0 n us cs k F D Sp Cc Cw Hk Hn Pn (A & R & X) Hf.
  destruct fuel as [|f]; [lia|]. destruct (start_pc cs p) as (S1 & S2 & S3 & S4 & S5).
  assert (Eus : flatten us = flatten pre ++ unsplit c :: flatten post) by (unfold us, flatten; rewrite flat_map_app; reflexivity).
  assert (Hids : forall g, ids g cs = ids g (flatten us)) by (intro g; rewrite Eus; apply ids_unsplit).
  assert (Hskip : forall j d, nth_error (flatten us) j = Some d -> skips cs j = true -> rc_code d = false).
  { intros j d E H. rewrite Eus in E. destruct (Nat.lt_ge_cases j k) as [Lt|Ge].
    - apply (skips_code cs j d); auto. unfold cs. rewrite nth_error_app1 in E |- * by auto. exact E.
    - rewrite nth_error_app2 in E by auto. destruct (j - List.length (flatten pre)) as [|q] eqn:Eq.
      + cbn in E. inversion E; subst. exfalso. assert (j = k) by (unfold k in *; lia). subst j.
        assert (rc_code c = false) by (apply (skips_code cs k c); auto; unfold cs, k; rewrite nth_error_app2, Nat.sub_diag; auto). congruence.
      + apply (skips_code cs j d); auto. unfold cs. rewrite nth_error_app2 by auto. rewrite Eq. exact E. }
  (* the program *)
  assert (EP : cogen_raytrace cs (skips cs) = gen_from (flatten us) (skips cs) 0 (flatten pre) ++ Split k :: gen_from (flatten us) (skips cs) k (unsplit c :: flatten post)).
  { unfold cogen_raytrace. rewrite (gen_from_ids cs (flatten us)) by exact Hids. unfold cs at 2. rewrite gen_from_app. cbn [plus gen_from].
    rewrite gen_comp_split by exact Sp. reflexivity. }
  assert (NSp : Forall (fun c => rc_split c = false) (flatten pre)).
  { apply Forall_forall. intros d Hd. unfold flatten in Hd. apply in_flat_map in Hd as (v & Hv & Hd).
    assert (Gv : good_unit v) by (eapply Forall_forall; [exact F|]; apply in_or_app; now left).
    destruct v as [e|g l]; cbn in *.
    - destruct Hd as [<-|[]]. destruct Gv as (_ & _ & ?); auto.
    - destruct Gv as (_ & M & _). rewrite Forall_forall in M. destruct (M d Hd) as (_ & _ & ? & _); auto. }
  set (s0 := mkS (start cs p) p []) in *.
  destruct (units_ok act tr when_c jump_c iter_c split_c (flatten us) (skips cs) pre [] (One (unsplit c) :: post) s0) as [L V]; auto.
  { unfold ready, s0. cbn [pt]. rewrite S2, S3, S4, S5. repeat split; auto. }
  change (List.length (flatten [])) with 0 in L, V.
  assert (Es0 : pc (pt s0) = pc p) by exact S1. rewrite Es0, Hk in V. rewrite Es0 in L. change (log s0) with (@nil (nat * core Ph Uv Rng)) in L. cbn [app] in L, V.
  set (s1 := run_items act tr when_c jump_c iter_c split_c (gen_from (flatten us) (skips cs) 0 (flatten pre)) s0) in *.
  destruct V as [(V1 & V2 & V3 & V4) V5]. fold k in V2.
  assert (RI : run_items act tr when_c jump_c iter_c split_c (cogen_raytrace cs (skips cs)) s0 =
     Nat.iter (Z.to_nat n) (fun s' => run_items act tr when_c jump_c iter_c split_c (gen_from (flatten us) (skips cs) k (unsplit c :: flatten post)) (with_pt s' (split_copy (pt s1) n (pt s')))) s1).
  { rewrite EP, run_items_app by (now apply gen_from_no_split). fold s1. cbn [Raytrace.run_items]. rewrite V1, V5, Hn. reflexivity. }
  destruct (copies_ok act tr when_c jump_c iter_c split_c (skips cs) pre c post n (pt s1)) with (k := Z.to_nat n) (s := s1) as (rs & Lr & Lg); auto.
  { rewrite map_id. exact F. } { rewrite map_id. exact D. } { rewrite map_id. exact Hskip. }
  rewrite map_id in Lg. fold us k in Lg. rewrite <- RI, V5, L in Lg.
  replace (0 <? n)%Z with true in Lg by (symmetry; apply Z.ltb_lt; lia).
  (* the loop ends *)
  set (s2 := run_items act tr when_c jump_c iter_c split_c (cogen_raytrace cs (skips cs)) s0) in *.
  assert (W : weights_at k (log s2) = repeat (wt k0 / Q2Qc (inject_Z n))%Qc (Z.to_nat n)).
  { rewrite Lg, weights_at_app.
    rewrite weights_at_none by (eapply Forall_impl; [|apply spec_units_ge]; cbn; intros a Ha; unfold k; lia).
    cbn [app]. rewrite <- Lr. clear - Cc Cw. induction rs as [|r rs IH]; [reflexivity|]. cbn [flat_map List.length repeat].
    rewrite weights_at_app, IH. clear IH. match goal with |- _ = ?q :: ?r => change (q :: r) with ([q] ++ r) end. f_equal.
    change (spec_units act tr when_c (skips cs) k (One (unsplit c) :: post)) with
      (fun q => let '(lg, r) := spec_one act tr when_c (skips cs) k (unsplit c) q in
        match r with None => (lg, None) | Some k' => let '(lg', r') := spec_units act tr when_c (skips cs) (k + 1) post k' in (lg ++ lg', r') end).
    cbv beta. unfold spec_one. cbn [unsplit rc_code rc_when]. rewrite Cc, Cw. cbn [negb orb andb]. cbv zeta.
    set (k1 := if skips cs k then _ else _).
    assert (Wk : wt k1 = (wt k0 / Q2Qc (inject_Z n))%Qc) by (unfold k1; destruct (skips cs k); reflexivity).
    assert (ONE : forall l, Forall (fun e : nat * core Ph Uv Rng => fst e <> k) l -> weights_at k ((k, k1) :: l) = [(wt k0 / Q2Qc (inject_Z n))%Qc]).
    { intros l Hl. change ((k, k1) :: l) with ([(k, k1)] ++ l). rewrite weights_at_app, (weights_at_none k l Hl), app_nil_r.
      unfold weights_at. cbn [filter fst]. rewrite Nat.eqb_refl. cbn. now rewrite Wk. }
    destruct (if o_restore _ then _ else _) as [k'|].
    - pose proof (spec_units_ge act tr when_c (skips cs) post (k + 1) k') as GE.
      destruct (spec_units act tr when_c (skips cs) (k + 1) post k') as [lg' r']. cbn [fst app] in *. apply ONE.
      eapply Forall_impl; [|exact GE]. cbn. intros a Ha. lia.
    - cbn [fst]. now apply ONE. }
  assert (T : total (weights_at k (log s2)) = wt k0).
  { rewrite W. assert (TR : forall m q, total (repeat q m) = (Q2Qc (inject_Z (Z.of_nat m)) * q)%Qc).
    { intros m q. induction m as [|m IH]; cbn [repeat total fold_right].
      - change (Q2Qc (inject_Z (Z.of_nat 0))) with 0%Qc. ring.
      - unfold total in IH. rewrite IH. replace (Q2Qc (inject_Z (Z.of_nat (S m)))) with (1 + Q2Qc (inject_Z (Z.of_nat m)))%Qc; [ring|].
        apply Qc_is_canon. unfold Qcplus, Q2Qc. cbn [this]. rewrite !Qred_correct. rewrite Nat2Z.inj_succ. unfold Z.succ. rewrite inject_Z_plus. ring. }
    rewrite TR, Z2Nat.id by lia. field. intro E. assert (E' : (inject_Z n == 0)%Q).
    { apply (f_equal this) in E. unfold Q2Qc in E. cbn [this] in E. rewrite <- (Qred_correct (inject_Z n)). rewrite E. reflexivity. }
    unfold Qeq in E'. cbn in E'. lia. }
  unfold raytrace. cbn [Raytrace.run_while pt]. rewrite S2, A. fold s0. fold s2.
  assert (AH : ahead (List.length cs) s2).
  { rewrite RI. destruct (Z.to_nat n) as [|q] eqn:Eq; [lia|]. cbn [Nat.iter nat_rect].
    match goal with |- ahead _ (Raytrace.run_items _ _ _ _ _ _ _ ?st) => set (st1 := st) end.
    destruct (units_ok act tr when_c jump_c iter_c split_c (flatten us) (skips cs) (One (unsplit c) :: post) pre [] st1) as [_ V']; try (rewrite app_nil_r); auto.
    { unfold st1, ready. cbn [with_pt pt split_copy set_core absorbed index nocoords restore]. repeat split; auto. }
    fold k in V'. change (flatten (One (unsplit c) :: post)) with (unsplit c :: flatten post) in V'.
    destruct (snd _) in V'.
    - destruct V' as [(_ & V2' & _) _]. right. rewrite V2'. fold us. rewrite Eus. unfold cs. rewrite !app_length. cbn. lia.
    - now left. }
  assert (E : absorbed (pt (end_pass (List.length cs) s2)) = true /\ log (end_pass (List.length cs) s2) = log s2).
  { unfold end_pass. destruct (Z.ltb_spec (Z.of_nat (List.length cs)) (index (pt s2))); [split; reflexivity|]. destruct AH; [auto|lia]. }
  destruct E as [E1 E2]. rewrite run_while_dead by exact E1. eexists. split; [reflexivity|]. cbn [with_pt log]. rewrite E2. split; [exact W|exact T].
Qed.
Print Assumptions C43_weight_conserved.

Example C43_weight_conserved_example :
  let us := [One (cp "a")] ++ One (unsplit (mkRc "b" true false None [] true)) :: [Grp "g" [cg "c" "g"; cg "d" "g"]] in
  Forall good_unit us /\ NoDup (flat_map group_of us) /\
  snd (spec_units (fun _ k => out k false true) (fun _ x => x) (fun _ _ => true) (skips (flatten [One (cp "a")] ++ mkRc "b" true false None [] true :: [cg "c" "g"; cg "d" "g"]))
         0 [One (cp "a")] (pc (pz 0 1))) = Some (pc (pz 0 1)).
Proof. cbv zeta. split; [|split; [|reflexivity]]; repeat constructor; cbn; try discriminate; auto. Qed.
Example C43_terminates_partial_example :
  Forall (fun c => rc_jumps c = []) [cp "a"; mkRc "b" true false None [] true; mkRc "c" true false (Some "g") [] true; cg "d" "g"].
Proof. repeat constructor. Qed.

(* SPLIT 0, or a SPLIT that is the value of a parameter and happens to be 0: the loop
   never ends. *)
Theorem C43_split_zero_refuted :
  let cs := [cp "a"; mkRc "b" true false None [] true] in
  forall fuel, raytrace (fun _ k => out k false false) (fun _ x => x) (fun _ _ => true) nojump noiter (fun _ _ => 0%Z) fuel cs (skips cs) (pz 0 1) = None.
Proof.
  cbv zeta. intro fuel. unfold raytrace. set (cs := [cp "a"; mkRc "b" true false None [] true]).
  assert (G : forall f s, absorbed (pt s) = false -> (index (pt s) = 1%Z \/ index (pt s) = 2%Z) -> restore (pt s) = false ->
    run_while (fun _ k => out k false false) (fun _ x => x) (fun _ _ => true) nojump noiter (fun _ _ => 0%Z) f (List.length cs) (cogen_raytrace cs (skips cs)) s = None).
  { induction f as [|f IH]; intros [[k ab sc re ix nc ct] sv lg] A X R; cbn [pt absorbed index restore] in *; subst ab re.
    - reflexivity.
    - cbn [Raytrace.run_while pt absorbed].
      match goal with |- Raytrace.run_while _ _ _ _ _ _ _ _ _ ?st = None => set (s1 := st) end.
      assert (Q : absorbed (pt s1) = false /\ index (pt s1) = 2%Z /\ restore (pt s1) = false).
      { unfold s1. destruct X; subst ix; destruct nc; repeat split. }
      destruct Q as (Q1 & Q2 & Q3). apply IH; auto. }
  rewrite G; [reflexivity|reflexivity|left; reflexivity|reflexivity].
Qed.
Print Assumptions C43_split_zero_refuted.
(* A jump back over the SPLIT is followed by the last copy only; the other copies are
   lost.  Half of the weight arrives at d. *)
Theorem C43_jump_over_split_refuted :
  exists s,
    let cs := [cp "a"; mkRc "b" true false None [] true; cj "c" [mkRj "a" true 0]; cp "d"] in
    raytrace (fun _ k => out k false false) (fun _ x => x) (fun _ _ => true) nojump (fun _ _ _ => 2%Z) (fun _ _ => 2%Z) 9 cs (skips cs) (pz 0 1) = Some s /\
    map fst (log s) = [0; 1; 2; 1; 2; 0; 1; 2; 3; 1; 2; 3] /\
    total (weights_at 3 (log s)) = (Q2Qc (1 # 2))%Qc.
Proof.
  eexists. cbv zeta. split; [vm_compute; reflexivity|]. split; [reflexivity|]. apply Qc_is_canon. vm_compute. reflexivity.
Qed.
Print Assumptions C43_jump_over_split_refuted.
