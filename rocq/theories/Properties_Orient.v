(* Properties C11-C15 and C52: rotations, chains, placement and coordinate changes. *)
From Coq Require Import Bool Reals List Lra Lia Arith.
From Verif Require Import Orient Placement Euler.
Import ListNotations.
Local Open Scope R_scope.

(* ---------------- C11 ---------------- *)
(* distance between two points, squared *)
Definition dist2 (v w : V3) : R :=
  (vx v - vx w) * (vx v - vx w) + (vy v - vy w) * (vy v - vy w) + (vz v - vz w) * (vz v - vz w).

Lemma from_angles_rigid c s (H : forall a, c a * c a + s a * s a = 1) a : rigid (from_angles c s a).
Proof.
  unfold from_angles. apply rigid_mmul; [|apply rigid_mmul].
  - unfold rz. destruct (Req_EM_T _ 0); [apply rigid_id|]. apply (mZ_rigid _ _ (H _)).
  - unfold ry. destruct (Req_EM_T _ 0); [apply rigid_id|]. apply (mY_rigid _ _ (H _)).
  - unfold rx. destruct (Req_EM_T _ 0); [apply rigid_id|]. apply (mX_rigid _ _ (H _)).
Qed.
Lemma radian_circle a : cos a * cos a + sin a * sin a = 1.
Proof. rewrite Rplus_comm. exact (sin2_cos2 a). Qed.

(* Degrees and radian alike: orthogonal, determinant one, and the transpose undoes it. *)
Theorem C11_from_angles_orthogonal :
  forall (degrees : bool) a v,
    let m := from_angles (if degrees then cosd else cos) (if degrees then sind else sin) a in
    mmul (transpose m) m = id3 /\ mmul m (transpose m) = id3 /\ det m = 1 /\
    mapply (transpose m) (mapply m v) = v.
Proof.
  intros d a v m.
  assert (R : rigid m) by (subst m; apply from_angles_rigid; destruct d; auto using circle, radian_circle).
  destruct R as (A & B & D). repeat split; auto. now rewrite <- mapply_mmul, A, mapply_id.
Qed.
Print Assumptions C11_from_angles_orthogonal.

Lemma dist2_dot v w : dist2 v w = dot (vsub v w) (vsub v w).
Proof. reflexivity. Qed.

Theorem C11_distances_preserved :
  forall (degrees : bool) a v w,
    let m := from_angles (if degrees then cosd else cos) (if degrees then sind else sin) a in
    dist2 (mapply m v) (mapply m w) = dist2 v w.
Proof.
  intros d a v w m. rewrite !dist2_dot, <- mapply_sub. apply rigid_dot.
  subst m. apply from_angles_rigid. destruct d; auto using circle, radian_circle.
Qed.
Print Assumptions C11_distances_preserved.

(* It is the rotation the C run time builds from the same angles. *)
Theorem C11_from_angles_matches_runtime : forall a, from_angles cosd sind a = c_rot a.
Proof.
  intro a. rewrite c_rot_factors. unfold from_angles, rx, ry, rz.
  f_equal; [|f_equal]; destruct (Req_EM_T _ 0) as [E|]; auto; rewrite E.
  - now rewrite mZ0.
  - now rewrite mY0.
  - now rewrite mX0.
Qed.
Print Assumptions C11_from_angles_matches_runtime.

Example C11_from_angles_matches_runtime_example :
  from_angles cosd sind (mkV 90 0 0) = mkM 1 0 0 0 0 1 0 (- (1)) 0.
Proof.
  rewrite C11_from_angles_matches_runtime, c_rot_factors. cbn. rewrite cosd_90, sind_90, cosd_0, sind_0.
  unfold mmul, mX, mY, mZ. cbn. f_equal; ring.
Qed.
Example C11_from_angles_orthogonal_example :
  mapply (from_angles cosd sind (mkV 90 0 0)) (mkV 1 2 3) = mkV 1 3 (-2).
Proof. rewrite C11_from_angles_matches_runtime_example. unfold mapply. cbn. f_equal; ring. Qed.

(* ---------------- C12 ---------------- *)
(* rotating the axes about coordinate direction number k (0, 1, 2) by an angle: the
   other two directions, in cyclic order, get mixed by the angle's cosine and sine *)
Definition coord (k : nat) (v : V3) : R := match k with 0%nat => vx v | 1%nat => vy v | _ => vz v end.
Definition next (k : nat) : nat := match k with 0 => 1 | 1 => 2 | _ => 0 end%nat.
Definition turns (k : nat) (a : R) (m : M3) : Prop :=
  forall v, coord k (mapply m v) = coord k v /\
    coord (next k) (mapply m v) = cosd a * coord (next k) v + sind a * coord (next (next k)) v /\
    coord (next (next k)) (mapply m v) = - sind a * coord (next k) v + cosd a * coord (next (next k)) v.
Definition part_of (k : nat) (a : R) : part := match k with 0%nat => PX a | 1%nat => PY a | _ => PZ a end.

(* every constant angle but 180 degrees *)
Theorem C12_single_axis_parts_turn_partial :
  forall k a, (k < 3)%nat -> a <> 180 -> turns k a (rot (axes (part_of k a))) /\ tr (axes (part_of k a)) = v0.
Proof.
  intros k a Hk Ha. destruct k as [|[|[|k]]]; try lia; (split; [|reflexivity]); intros [x y z]; cbn;
  rewrite cos_value_ok, sin_value_ok by auto; repeat split; ring.
Qed.
Print Assumptions C12_single_axis_parts_turn_partial.

Theorem C12_single_axis_parts_rigid_partial :
  forall k a, (k < 3)%nat -> a <> 180 -> rigid (rot (axes (part_of k a))).
Proof.
  intros k a Hk Ha. destruct k as [|[|[|k]]]; try lia; cbn; rewrite cos_value_ok, sin_value_ok by auto.
  - apply mX_rigid, circle.
  - apply mY_rigid, circle.
  - apply mZ_rigid, circle.
Qed.
Print Assumptions C12_single_axis_parts_rigid_partial.

Theorem C12_angles_add_partial :
  forall k a b, (k < 3)%nat -> a <> 180 -> b <> 180 -> a + b <> 180 ->
    axes (part_of k (a + b)) = smul (axes (part_of k a)) (axes (part_of k b)).
Proof.
  intros k a b Hk Ha Hb Hab. destruct k as [|[|[|k]]]; try lia; cbn;
  rewrite !cos_value_ok, !sin_value_ok by auto; rewrite cosd_plus, sind_plus;
  unfold smul, mX, mY, mZ, mmul, mapply, vadd, v0; cbn; do 2 f_equal; ring.
Qed.
Print Assumptions C12_angles_add_partial.

Example C12_angles_add_partial_example : 45 <> 180 /\ 45 + 45 <> 180.
Proof. split; lra. Qed.
Example C12_single_axis_parts_turn_partial_example :
  mapply (rot (axes (PX 90))) (mkV 1 2 3) = mkV 1 3 (-2).
Proof.
  cbn. rewrite cos_value_ok, sin_value_ok by lra. rewrite cosd_90, sind_90. unfold mapply; cbn. f_equal; ring.
Qed.

(* sin_value(180) is -1 in the code (orientation.py:354): the part is not a rotation, it
   stretches. *)
Theorem C12_half_turn_not_rigid_refuted :
  exists v, dot (mapply (rot (axes (PX 180))) v) (mapply (rot (axes (PX 180))) v) <> dot v v.
Proof.
  exists (mkV 0 1 0). cbn. unfold cos_value, sin_value.
  repeat (destruct (Req_EM_T _ _); try lra).
  unfold dot. cbn. lra.
Qed.
Print Assumptions C12_half_turn_not_rigid_refuted.

(* RotationPart._cos_sin_one_zero with degrees=False (orientation.py:636-638): the angle
   is multiplied by pi/180 and then handed to the functions that take degrees. *)
Definition radian_part_matrix (a : R) : M3 :=
  mX (cos_value (a * (PI / 180))) (sin_value (a * (PI / 180))).
Theorem C12_radian_parts_refuted :
  exists a v, mapply (radian_part_matrix a) v <> mapply (mX (cos a) (sin a)) v.
Proof.
  exists (PI / 2), (mkV 0 1 0). intro H. apply (f_equal vy) in H. cbn in H. rewrite cos_PI2 in H.
  assert (P : 3 < PI <= 4) by (split; [pose proof PI2_3_2; lra|apply PI_4]).
  rewrite cos_value_ok in H. unfold cosd in H.
  assert (B : PI / 2 * (PI / 180) / 180 * PI < PI / 2) by nra.
  assert (B0 : 0 < PI / 2 * (PI / 180) / 180 * PI) by nra.
  pose proof (cos_gt_0 (PI / 2 * (PI / 180) / 180 * PI) ltac:(lra) B). lra.
Qed.
Print Assumptions C12_radian_parts_refuted.

(* A symbolic angle: the matrix entry is the expression sin(v) (unary_expr,
   expression.py:1354), whose value for v in degrees is not the sine of that angle. *)
Definition symbolic_sin (v : R) : R := sin v.
Theorem C12_symbolic_angle_refuted : exists a, symbolic_sin a <> sind a.
Proof.
  exists PI. unfold symbolic_sin, sind. rewrite sin_PI. intro H.
  assert (P : 3 < PI <= 4) by (split; [pose proof PI2_3_2; lra|apply PI_4]).
  assert (0 < sin (PI / 180 * PI)) by (apply sin_gt_0; nra). lra.
Qed.
Print Assumptions C12_symbolic_angle_refuted.

(* ---------------- C13 ---------------- *)
(* the map a chain stands for: apply the parts one after the other *)
Fixpoint run_chain (l : list part) (p : V3) : V3 :=
  match l with
  | [] => p
  | w :: t => run_chain t (vadd (mapply (rot (axes w)) p) (tr (axes w)))
  end.

Theorem C13_resolve_composes : forall l p,
  vadd (mapply (rot (resolve l)) p) (tr (resolve l)) = run_chain l p.
Proof.
  intros l p. transitivity (act (resolve l) p); [reflexivity|]. rewrite act_resolve.
  revert p. induction l as [|w t IH]; intro p; cbn; auto.
Qed.
Print Assumptions C13_resolve_composes.

Lemma run_chain_app a b p : run_chain (a ++ b) p = run_chain b (run_chain a p).
Proof. revert p. induction a; intro p; cbn; auto. Qed.

Theorem C13_concatenation_composes : forall a b p,
  vadd (mapply (rot (resolve (a ++ b))) p) (tr (resolve (a ++ b))) = run_chain b (run_chain a p).
Proof. intros. rewrite C13_resolve_composes. apply run_chain_app. Qed.
Print Assumptions C13_concatenation_composes.

(* parts must be usable: general parts orthogonal, angles other than 180 and -180 *)
Theorem C13_inverse_undoes_partial : forall l p, Forall sound_part l ->
  run_chain (chain_inv l) (run_chain l p) = p /\ run_chain l (run_chain (chain_inv l) p) = p.
Proof.
  intros l p F. rewrite <- !C13_resolve_composes. destruct (resolve_inv l F) as [A B].
  split; [transitivity (act (resolve (chain_inv l)) (act (resolve l) p))
         |transitivity (act (resolve l) (act (resolve (chain_inv l)) p))]; try reflexivity;
  rewrite <- act_smul, ?A, ?B; apply act_id.
Qed.
Print Assumptions C13_inverse_undoes_partial.

Theorem C13_reduce_keeps_map_partial : forall constant identity l p,
  identity_sound constant identity -> Forall sound_part l ->
  run_chain (reduce constant identity l) p = run_chain l p.
Proof.
  intros c i l p Hi F. rewrite <- !C13_resolve_composes.
  now rewrite (proj1 (reduce_resolve c i Hi l F)).
Qed.
Print Assumptions C13_reduce_keeps_map_partial.

(* the identity test of the code on numbers (orientation.py:455-457, 575-577): not a translation part,
   no offset, trace 3 *)
Definition identity_py (p : part) : bool :=
  match p with
  | PTrans _ => false
  | _ => if v3_zero (tr (axes p)) then if Req_EM_T (trace (rot (axes p))) 3 then true else false else false
  end.
Lemma identity_py_sound constant : identity_sound constant identity_py.
Proof.
  intros p _ H. unfold identity_py in H. destruct p; try discriminate;
  destruct (v3_zero _) eqn:Z; try discriminate; destruct (Req_EM_T _ _); try discriminate;
  split; auto; now apply v3_zero_eq.
Qed.
Example C13_reduce_keeps_map_partial_example :
  identity_sound (fun _ => true) identity_py /\
  Forall sound_part [PX 30; PTrans (mkV 1 2 3); PZ (-30)] /\
  length (reduce (fun _ => true) identity_py [PX 30; PTrans (mkV 1 2 3); PZ (-30)]) <> 3%nat.
Proof.
  split; [apply identity_py_sound|split; [repeat constructor; lra|]].
  unfold reduce. cbn [fold_left reduce_step]. cbn [andb].
  destruct (identity_py (PX 30)); cbn; repeat match goal with |- context [identity_py ?x] => destruct (identity_py x) end; cbn; try lia;
  match goal with |- context [if ?b then [PZ _] else _] => destruct b end; cbn; lia.
Qed.

(* Without the restriction it fails: a half turn is not undone by its inverse. *)
Theorem C13_inverse_undoes_refuted :
  exists l p, run_chain (chain_inv l) (run_chain l p) <> p.
Proof.
  exists [PX 180], (mkV 0 1 0). cbn. intro H. apply (f_equal vz) in H. cbn in H.
  rewrite !cos_value_ok, (sin_value_ok (- (180))) in H by lra.
  rewrite cosd_neg, sind_neg, cosd_180, sind_180 in H.
  unfold sin_value in H. repeat (destruct (Req_EM_T _ _) in H; try lra).
Qed.
Print Assumptions C13_inverse_undoes_refuted.

(* Orient.inverse (orientation.py:929-930) inverts position and rotation separately: its
   combine() is not the inverse of combine(). *)
Definition combine (o : orient) : list part := o_rot o ++ o_pos o.         (* orientation.py:935-941 *)
Definition orient_inverse (o : orient) : orient := mkO (chain_inv (o_pos o)) (chain_inv (o_rot o)).
Theorem C13_orient_inverse_refuted :
  exists o p, Forall sound_part (combine o) /\
    run_chain (combine (orient_inverse o)) (run_chain (combine o) p) <> p.
Proof.
  exists (mkO [PTrans (mkV 0 1 0)] [PX 90]), v0. split.
  - repeat constructor; lra.
  - cbn. rewrite !cos_value_ok, !sin_value_ok by lra. rewrite cosd_neg, sind_neg, cosd_90, sind_90.
    intro H. apply (f_equal vy) in H. cbn in H. lra.
Qed.
Print Assumptions C13_orient_inverse_refuted.

(* ---------------- C14 ---------------- *)
(* For any number of components, references to earlier components only (anything else
   fails in both), angles other than a half turn, and ROTATED given a reference whenever
   AT has one. *)
Theorem C14_placement_agrees_partial :
  forall constant identity l, identity_sound constant identity -> Forall comp_ok l ->
    (py_place constant identity [] l = None <-> c_place [] l = None) /\
    forall os cs, py_place constant identity [] l = Some os -> c_place [] l = Some cs ->
      Forall2 (fun o c => position o = c_p c /\ rotation o = c_R c) os cs.
Proof.
  intros c i l Hi F. pose proof (place_agree c i Hi l [] [] (Forall2_nil _) F) as H.
  destruct (py_place c i [] l) as [os|], (c_place [] l) as [cs|]; try tauto; split.
  - split; discriminate.
  - intros ? ? [= <-] [= <-]. clear - H. induction H as [|a b s t (P & Q & _)]; constructor; auto.
  - tauto.
  - discriminate.
Qed.
Print Assumptions C14_placement_agrees_partial.

Lemma py_place_total k i l : forall prev,
  (forall n c, nth_error l n = Some c ->
     (forall j, at_ref c = Some j \/ rot_ref c = Some j -> (j < length prev + n)%nat)) ->
  exists os, py_place k i prev l = Some os /\ length os = (length prev + length l)%nat.
Proof.
  induction l as [|c t IH]; intros prev H.
  - exists prev. cbn. split; auto.
  - cbn [py_place]. assert (E : exists o, py_orient k i prev c = Some o).
    { unfold py_orient, find.
      assert (Fd : forall r, at_ref c = r \/ rot_ref c = r ->
        exists x, match r with None => Some None | Some j => option_map Some (nth_error prev j) end = Some x).
      { intros [j|] Hr; [|eauto].
        assert (L : (j < length prev + 0)%nat) by (apply (H 0%nat c eq_refl); tauto).
        destruct (nth_error prev j) eqn:N; [cbn; eauto|]. apply nth_error_None in N. lia. }
      destruct (Fd _ (or_introl eq_refl)) as [x ->]. destruct (Fd _ (or_intror eq_refl)) as [y ->]. eauto. }
    destruct E as [o ->]. destruct (IH (prev ++ [o])) as (os & E & L).
    + intros n d Hn j Hj. rewrite app_length. cbn. specialize (H (S n) d Hn j Hj). lia.
    + exists os. split; auto. rewrite L, app_length. cbn. lia.
Qed.

(* ... and with references to earlier components both do give a placement for each. *)
Theorem C14_backward_references_are_placed :
  forall constant identity l,
    (forall n c, nth_error l n = Some c -> forall j, at_ref c = Some j \/ rot_ref c = Some j -> (j < n)%nat) ->
    exists os, py_place constant identity [] l = Some os /\ length os = length l.
Proof. intros k i l H. apply (py_place_total k i l []). exact H. Qed.
Print Assumptions C14_backward_references_are_placed.

Definition three_comps : list comp :=
  [mkComp (mkV 0 0 1) None (mkV 0 30 0) None;
   mkComp (mkV 0 1 2) (Some 0%nat) (mkV 10 0 0) (Some 0%nat);
   mkComp (mkV 1 0 0) None (mkV 0 0 45) (Some 1%nat)].
Example C14_placement_agrees_partial_example :
  Forall comp_ok three_comps /\
  exists os cs, py_place (fun _ => true) identity_py [] three_comps = Some os /\ c_place [] three_comps = Some cs /\
    length os = 3%nat.
Proof.
  split.
  - repeat constructor; cbn; try lra; intro; discriminate.
  - destruct (C14_backward_references_are_placed (fun _ => true) identity_py three_comps) as (os & E & L).
    + intros n c Hn j Hj. destruct n as [|[|[|n]]]; cbn in Hn; try (destruct n; discriminate); injection Hn as <-;
      cbn in Hj; destruct Hj as [Hj|Hj]; try discriminate; injection Hj as <-; lia.
    + exists os. eexists. split; [exact E|]. split; [cbn; reflexivity|exact L].
Qed.

(* AT relative to a component, ROTATED ABSOLUTE (or absent reference): Python falls back
   to the AT reference for the rotation, the C code does not. *)
Theorem C14_absolute_rotation_refuted :
  forall constant, exists l os cs,
    py_place constant identity_py [] l = Some os /\ c_place [] l = Some cs /\
    Forall (fun c => angle_ok (vx (ang c)) /\ angle_ok (vy (ang c)) /\ angle_ok (vz (ang c))) l /\
    ~ Forall2 (fun o c => rotation o = c_R c) os cs.
Proof.
  intro k.
  set (l := [mkComp (mkV 0 0 0) None (mkV 90 0 0) None; mkComp (mkV 0 0 1) (Some 0%nat) (mkV 0 0 0) None]).
  assert (RP : rotated_parts (mkV 90 0 0) = [PX 90]).
  { unfold rotated_parts. cbn. repeat (destruct (Req_EM_T _ _); try lra); reflexivity. }
  assert (RP0 : rotated_parts (mkV 0 0 0) = []).
  { unfold rotated_parts. cbn. repeat (destruct (Req_EM_T _ _); try lra); reflexivity. }
  eexists l, _, _. split; [reflexivity|]. split; [reflexivity|]. split.
  { repeat constructor; cbn; lra. }
  intro H. inversion H as [|? ? ? ? H1 H2]; subst. inversion H2 as [|? ? ? ? R H3]; subst. clear H H2 H1 H3.
  unfold rotation, dependent_orientations, dependent_chain in R. cbn [o_rot option_map] in R.
  unfold dependent_chain in R. cbn [ang c_R] in R. rewrite RP, RP0 in R.
  cbn [app option_map reduce rev drop_last fold_left] in R.
  cbn [resolve axes rot fold_left] in R.
  rewrite cos_value_ok, sin_value_ok in R by lra. rewrite cosd_90, sind_90, c_rot_factors in R.
  cbn in R. rewrite cosd_0, sind_0 in R. apply (f_equal yy) in R. cbn in R. lra.
Qed.
Print Assumptions C14_absolute_rotation_refuted.

Theorem C14_half_turn_refuted :
  forall constant, exists c os cs,
    py_place constant identity_py [] [c] = Some os /\ c_place [] [c] = Some cs /\
    ~ Forall2 (fun o c => rotation o = c_R c) os cs.
Proof.
  intro k. eexists (mkComp (mkV 0 0 0) None (mkV 180 0 0) None), _, _.
  split; [reflexivity|]. split; [reflexivity|].
  assert (RP : rotated_parts (mkV 180 0 0) = [PX 180]).
  { unfold rotated_parts. cbn. repeat (destruct (Req_EM_T _ _); try lra); reflexivity. }
  intro H. inversion H as [|? ? ? ? R H3]; subst. clear H H3.
  unfold rotation, dependent_orientations, dependent_chain in R. cbn [o_rot option_map] in R.
  cbn [ang c_R] in R. rewrite RP in R.
  cbn [app option_map reduce rev drop_last fold_left] in R.
  cbn [resolve axes rot fold_left] in R.
  rewrite c_rot_factors in R. cbn in R. rewrite cosd_0, sind_0, cosd_180, sind_180 in R.
  apply (f_equal yz) in R. cbn in R. unfold sin_value in R. repeat (destruct (Req_EM_T _ _) in R; try lra).
Qed.
Print Assumptions C14_half_turn_refuted.

(* every placement the C code computes is rigid, for any angles *)
Lemma c_rot_rigid a : rigid (c_rot a).
Proof. rewrite <- C11_from_angles_matches_runtime. apply from_angles_rigid, circle. Qed.
Lemma c_place_rigid l : forall prev cs, Forall (fun c => rigid (c_R c)) prev ->
  c_place prev l = Some cs -> Forall (fun c => rigid (c_R c)) cs.
Proof.
  induction l as [|c t IH]; intros prev cs F; cbn; [intros [= <-]; auto|].
  destruct (c_orient prev c) as [o|] eqn:E; [|discriminate]. apply IH. apply Forall_app. split; auto.
  constructor; auto. unfold c_orient in E.
  destruct (rot_ref c) as [j|].
  - destruct (nth_error prev j) as [r|] eqn:N; [|discriminate]. cbn in E.
    assert (rigid (c_R r)) by (eapply Forall_forall in F; [exact F|eapply nth_error_In; eauto]).
    destruct (at_ref c) as [i|]; [destruct (nth_error prev i); [|discriminate]|]; cbn in E; injection E as <-; cbn;
    apply rigid_mmul; auto using c_rot_rigid.
  - destruct (at_ref c) as [i|]; [destruct (nth_error prev i); [|discriminate]|]; cbn in E; injection E as <-; cbn; apply c_rot_rigid.
Qed.
Theorem C14_c_placement_rigid : forall l cs, c_place [] l = Some cs ->
  Forall (fun c => forall v w, dist2 (mapply (c_R c) v) (mapply (c_R c) w) = dist2 v w) cs.
Proof.
  intros l cs H. eapply Forall_impl; [|apply (c_place_rigid l [] cs (Forall_nil _) H)].
  cbn. intros c R v w. rewrite !dist2_dot, <- mapply_sub. now apply rigid_dot.
Qed.
Print Assumptions C14_c_placement_rigid.

(* ---------------- C15 ---------------- *)
(* Components [l] come before [c]; the flag says the change is skipped.  Provided the
   first component is not skipped, or sits unrotated at the laboratory origin, the
   particle arriving at the non-skipped [c] has position R (r - p) and velocity R v. *)
Theorem C15_particle_in_component_frame_partial :
  forall l c p,
    Forall (fun x => rigid (c_R (fst x))) (l ++ [(c, false)]) ->
    match l with
    | (d, true) :: _ => d = mkCP id3 v0
    | _ => True
    end ->
    let q := trace_changes (l ++ [(c, false)]) p in
    pp q = mapply (c_R c) (vsub (pp p) (c_p c)) /\ pv q = mapply (c_R c) (pv p).
Proof.
  intros l c p F H0. cbn zeta.
  assert (E : trace_changes (l ++ [(c, false)]) p = local c p).
  { unfold trace_changes. destruct l as [|[d skip] t]; cbn [app changes].
    - inversion F as [|? ? Rc Ft]; subst. cbn [fst] in Rc. now rewrite local_first.
    - inversion F as [|? ? Rc Ft]; subst. cbn [fst] in Rc. destruct skip.
      + subst d. rewrite <- (local_lab p) at 1. change (mkCP id3 v0) with lab.
        rewrite changes_ok by (auto; apply rigid_id). now rewrite current_app.
      + rewrite local_first by auto. rewrite changes_ok by auto. now rewrite current_app. }
  rewrite E. split; reflexivity.
Qed.
Print Assumptions C15_particle_in_component_frame_partial.

Example C15_particle_in_component_frame_partial_example :
  let l := [(mkCP id3 v0, true); (mkCP (mX 0 1) (mkV 0 0 1), false); (mkCP id3 (mkV 0 0 2), true)] in
  let c := mkCP id3 (mkV 0 0 3) in
  Forall (fun x => rigid (c_R (fst x))) (l ++ [(c, false)]) /\
  pp (trace_changes (l ++ [(c, false)]) (mkPt (mkV 1 2 3) (mkV 0 0 1))) = mkV 1 2 0.
Proof.
  cbn zeta.
  assert (F : Forall (fun x => rigid (c_R (fst x)))
    ([(mkCP id3 v0, true); (mkCP (mX 0 1) (mkV 0 0 1), false); (mkCP id3 (mkV 0 0 2), true)] ++ [(mkCP id3 (mkV 0 0 3), false)])).
  { repeat constructor; cbn; auto using rigid_id; try apply rigid_id; apply mX_rigid; ring. }
  split; [exact F|].
  rewrite (proj1 (C15_particle_in_component_frame_partial _ _ _ F eq_refl)).
  unfold mapply, vsub. cbn. f_equal; ring.
Qed.

(* With the C placements of any instrument as input. *)
Theorem C15_instrument_partial :
  forall comps cs skips i c p,
    c_place [] comps = Some cs -> length skips = length cs ->
    nth_error cs i = Some c -> nth_error skips i = Some false ->
    (nth_error skips 0 = Some false \/ nth_error cs 0 = Some (mkCP id3 v0)) ->
    let q := trace_changes (firstn (S i) (List.combine cs skips)) p in
    pp q = mapply (c_R c) (vsub (pp p) (c_p c)) /\ pv q = mapply (c_R c) (pv p).
Proof.
  intros comps cs skips i c p Hc Hl Hi Hs H0.
  assert (N : nth_error (List.combine cs skips) i = Some (c, false)).
  { clear - Hi Hs. revert skips i Hi Hs. induction cs as [|a t IH]; intros [|b u] [|i]; cbn; try discriminate.
    - congruence.
    - apply IH. }
  assert (E : firstn (S i) (List.combine cs skips) = firstn i (List.combine cs skips) ++ [(c, false)]).
  { clear - N. revert i N. induction (List.combine cs skips) as [|x t IH]; intros [|i]; cbn; try discriminate.
    - congruence.
    - intro N. f_equal. exact (IH i N). }
  rewrite E. apply C15_particle_in_component_frame_partial.
  - rewrite <- E. pose proof (c_place_rigid comps [] cs (Forall_nil _) Hc) as F.
    apply Forall_forall. intros x Hx. apply In_nth_error in Hx as [n Hn].
    assert (In x (List.combine cs skips)).
    { rewrite <- (firstn_skipn (S i) (List.combine cs skips)). apply in_or_app. left. eapply nth_error_In; eauto. }
    destruct x as [a b]. apply in_combine_l in H. eapply Forall_forall in F; eauto.
  - destruct i as [|i]; [exact I|]. destruct cs as [|a t], skips as [|b u]; cbn in *; try discriminate; auto.
    destruct b; auto. destruct H0 as [H0|H0]; congruence.
Qed.
Print Assumptions C15_instrument_partial.

(* Without the proviso: an Arm (skipped) one metre downstream comes first. *)
Theorem C15_first_component_skipped_refuted :
  exists d c p, rigid (c_R d) /\ rigid (c_R c) /\
    pp (trace_changes [(d, true); (c, false)] p) <> mapply (c_R c) (vsub (pp p) (c_p c)).
Proof.
  exists (mkCP id3 (mkV 0 0 1)), (mkCP id3 (mkV 0 0 2)), (mkPt (mkV 0 0 0) (mkV 0 0 1)).
  split; [apply rigid_id|split; [apply rigid_id|]].
  unfold trace_changes. cbn [changes]. rewrite change_ok.
  2:{ unfold rel_rot. cbn. rewrite mmul_id_l. apply rigid_id. }
  unfold rel_rot, rel_pos. cbn. rewrite mmul_id_l, !mapply_id. intro H. apply (f_equal vz) in H. cbn in H. lra.
Qed.
Print Assumptions C15_first_component_skipped_refuted.

(* ---------------- C52 ---------------- *)
(* The angles recovered from a component's rotation give that rotation back in C, except
   when the z row of the matrix starts with plus or minus one (y angle of a quarter
   turn). *)
Theorem C52_recovered_angles_partial : forall m, rigid m -> zx m * zx m <> 1 -> c_rot (euler m) = m.
Proof. exact euler_ok. Qed.
Print Assumptions C52_recovered_angles_partial.

Theorem C52_recovered_angles_of_placement_partial : forall l cs, c_place [] l = Some cs ->
  Forall (fun c => zx (c_R c) * zx (c_R c) <> 1 ->
     c_place [] [mkComp (c_p c) None (euler (c_R c)) None] = Some [c]) cs.
Proof.
  intros l cs H. eapply Forall_impl; [|apply (c_place_rigid l [] cs (Forall_nil _) H)].
  cbn. intros [m v] R N. cbn in *. now rewrite euler_ok.
Qed.
Print Assumptions C52_recovered_angles_of_placement_partial.

Example C52_recovered_angles_partial_example : rigid (mX 0 1) /\ zx (mX 0 1) * zx (mX 0 1) <> 1.
Proof. split; [apply mX_rigid; ring|cbn; lra]. Qed.

(* x and y both a quarter turn: the recovered angles describe another rotation. *)
Theorem C52_quarter_turn_refuted : exists a, c_rot (euler (c_rot a)) <> c_rot a.
Proof.
  exists (mkV 90 90 0).
  assert (E : c_rot (mkV 90 90 0) = mkM 0 1 0 0 0 1 1 0 0).
  { rewrite c_rot_factors. cbn. rewrite cosd_0, sind_0, cosd_90, sind_90. unfold mmul. cbn. f_equal; ring. }
  rewrite E.
  assert (Eu : euler (mkM 0 1 0 0 0 1 1 0 0) = mkV 180 90 180).
  { unfold euler, atan2_value, cos_from_sin. cbn.
    repeat (destruct (Req_EM_T _ _); try lra); repeat (destruct (Rlt_dec _ _); try lra); reflexivity. }
  rewrite Eu, c_rot_factors. cbn. rewrite cosd_90, sind_90, cosd_180, sind_180.
  intro H. apply (f_equal xy) in H. cbn in H. lra.
Qed.
Print Assumptions C52_quarter_turn_refuted.
