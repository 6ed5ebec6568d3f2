(* Property C21, the geometry: splitting keeps every component where it was. *)
From Coq Require Import Bool Reals List Lra Lia Arith.
From Verif Require Import Orient Placement Euler SplitPlace Properties_Orient.
Import ListNotations.
Local Open Scope R_scope.

Lemma Forall2_len {A B} (P : A -> B -> Prop) l m : Forall2 P l m -> length l = length m.
Proof. induction 1; cbn; auto. Qed.

(* The first instrument's components sit where they did. *)
Theorem C21_first_part_placement : forall l k cs, (k < length l)%nat -> c_place [] l = Some cs ->
  c_place [] (split_first k l) = Some (firstn (k + 1) cs).
Proof.
  intros l k cs Hk H. unfold split_first. rewrite <- (firstn_skipn (k + 1) l), c_place_app in H.
  destruct (c_place [] (firstn (k + 1) l)) as [p|] eqn:E; [|discriminate].
  apply c_place_extends in H as (new & -> & _). apply c_place_extends in E as (p' & -> & L). cbn.
  rewrite firstn_length in L. rewrite firstn_app. replace (k + 1 - length p')%nat with 0%nat by lia.
  cbn. rewrite app_nil_r, firstn_all2; auto. lia.
Qed.
Print Assumptions C21_first_part_placement.

(* The second instrument's components sit where they did, for instruments whose Python
   placement is right (comp_ok) and provided no component losing its rotation reference
   has been turned a quarter about y by a compound rotation. *)
Theorem C21_second_part_placement_partial :
  forall constant identity l k os cs,
    identity_sound constant identity -> Forall comp_ok l ->
    py_place constant identity [] l = Some os -> c_place [] l = Some cs -> (k < length l)%nat ->
    (forall i c o p j, (k <= i)%nat -> nth_error l i = Some c -> nth_error os i = Some o -> nth_error cs i = Some p ->
       rot_ref c = Some j -> (j < k)%nat -> direct o = false -> zx (c_R p) * zx (c_R p) <> 1) ->
    c_place [] (split_second k l os) = Some (skipn k cs).
Proof.
  intros K I l k os cs Hi F Ho Hc Hk N. pose proof (place_agree K I Hi l [] [] (Forall2_nil _) F) as A.
  rewrite Ho, Hc in A.
  assert (Lo : length os = length l).
  { apply Forall2_len in A. apply c_place_extends in Hc as (new & -> & L). cbn in A. congruence. }
  pose proof (c_place_rigid l [] cs (Forall_nil _) Hc) as Rg.
  unfold split_second. rewrite skipn_combine. pose proof Hc as Hc'.
  rewrite <- (firstn_skipn k l), c_place_app in Hc.
  destruct (c_place [] (firstn k l)) as [p|] eqn:E; [|discriminate].
  pose proof (c_place_extends _ _ _ E) as (p' & -> & Lp). rewrite app_nil_l in *.
  rewrite firstn_length in Lp. assert (Lp' : length p' = k) by lia.
  pose proof (c_place_extends _ _ _ Hc) as (new & -> & Ln).
  assert (S0 : skipn k p' = []) by (apply skipn_all2; lia).
  pose proof (shift_place k (skipn k l) p' new (skipn k os)) as SP.
  rewrite S0, app_nil_l in SP. rewrite SP; auto.
  - rewrite skipn_app, S0. replace (k - length p')%nat with 0%nat by lia. reflexivity.
  - lia.
  - rewrite !skipn_length. lia.
  - intros i c o q H1 H2 H3.
    assert (G1 : nth_error l (k + i) = Some c) by (rewrite <- H1, <- (nth_skipn k l) by lia; f_equal; lia).
    assert (G2 : nth_error os (k + i) = Some o) by (rewrite <- H2, <- (nth_skipn k os) by lia; f_equal; lia).
    assert (G3 : nth_error (p' ++ new) (k + i) = Some q) by (rewrite <- H3, nth_error_app2 by lia; f_equal; lia).
    pose proof (nth_Forall2 _ _ _ (k + i)%nat A) as AA. rewrite G2, G3 in AA. destruct AA as (P & Rt & Sd).
    split; auto. intros j Hj Lj. rewrite <- Rt. apply py_angles_ok; auto.
    + intro D. rewrite Rt. eapply (N (k + i)%nat); eauto. lia.
    + rewrite Rt. rewrite Forall_forall in Rg. apply Rg. eapply nth_error_In; eauto.
Qed.
Print Assumptions C21_second_part_placement_partial.

(* three_comps split at its second component: third refers to the second, second loses
   its reference to the first *)
Example C21_second_part_placement_partial_example :
  exists os cs, py_place (fun _ => true) identity_py [] three_comps = Some os /\ c_place [] three_comps = Some cs /\
    Forall comp_ok three_comps /\ split_second 1 three_comps os <> skipn 1 three_comps.
Proof.
  eexists _, _. split; [reflexivity|]. split; [reflexivity|]. split.
  - apply C14_placement_agrees_partial_example.
  - cbn. discriminate.
Qed.

(* A quarter turn about y composed with one about x: the second instrument's component
   comes back turned differently. *)
Theorem C21_quarter_turn_refuted :
  exists l k os cs,
    py_place (fun _ => true) identity_py [] l = Some os /\ c_place [] l = Some cs /\ Forall comp_ok l /\ (k < length l)%nat /\
    c_place [] (split_second k l os) <> Some (skipn k cs).
Proof.
  set (a := mkComp (mkV 0 0 0) None (mkV 90 0 0) None).
  set (b := mkComp (mkV 0 0 1) (Some 0%nat) (mkV 0 90 0) (Some 0%nat)).
  assert (OK : Forall comp_ok [a; b]).
  { repeat constructor; cbn; try lra; try discriminate; auto. }
  pose proof (place_agree (fun _ => true) identity_py (identity_py_sound _) [a; b] [] [] (Forall2_nil _) OK) as A.
  assert (RP : rotated_parts (mkV 90 0 0) = [PX 90] /\ rotated_parts (mkV 0 90 0) = [PY 90]).
  { unfold rotated_parts. cbn. split; repeat (destruct (Req_EM_T _ _); try lra); reflexivity. }
  assert (ID : identity_py (PX 90) = false).
  { unfold identity_py. cbn. rewrite cos_value_ok, cosd_90 by lra. unfold trace. cbn.
    destruct (v3_zero v0); auto. destruct (Req_EM_T _ _); auto. lra. }
  assert (Ep : exists o1 v2 s, py_place (fun _ => true) identity_py [] [a; b] = Some [o1; mkO [PTrans v2] [PGen s]]).
  { destruct RP as [R1 R2]. cbn [py_place]. unfold py_orient. cbn [find at_ref rot_ref a b option_map nth_error app].
    unfold dependent_orientations, dependent_chain. cbn [option_map o_rot ang a b app].
    rewrite R1, R2. unfold reduce at 2 3 4 5 6. cbn [rev drop_last fold_left app].
    unfold reduce. cbn [rev drop_last fold_left app reduce_step]. rewrite ID. cbn [andb].
    eexists _, _, _. reflexivity. }
  destruct Ep as (o1 & v2 & s & Ep). rewrite Ep in A.
  assert (Ec : c_rot (mkV 0 90 0) = mkM 0 0 (-1) 0 1 0 1 0 0 /\ c_rot (mkV 90 0 0) = mkM 1 0 0 0 0 1 0 (-1) 0).
  { rewrite !c_rot_factors. cbn. rewrite !cosd_0, !sind_0, !cosd_90, !sind_90. unfold mmul. cbn. split; f_equal; ring. }
  destruct Ec as [Ec1 Ec2].
  assert (Ecs : exists p1 v, c_place [] [a; b] = Some [p1; mkCP (mkM 0 1 0 0 0 1 1 0 0) v]).
  { cbn. rewrite Ec1, Ec2. eexists _, _. unfold mmul. cbn. do 3 f_equal. f_equal. f_equal; f_equal; ring. }
  destruct Ecs as (p1 & v & Ecs). rewrite Ecs in A.
  exists [a; b], 1%nat, [o1; mkO [PTrans v2] [PGen s]], [p1; mkCP (mkM 0 1 0 0 0 1 1 0 0) v].
  split; [exact Ep|]. split; [exact Ecs|]. split; [exact OK|]. split; [cbn; lia|].
  inversion A as [|? ? ? ? _ A2]; subst. inversion A2 as [|? ? ? ? (_ & Rt & _) _]; subst. unfold rotation in Rt. cbn in Rt.
  set (o2 := mkO [PTrans v2] [PGen s]).
  change (split_second 1 [a; b] [o1; o2]) with [mkComp (position o2) None (py_angles o2) None].
  assert (PA : py_angles o2 = euler (mkM 0 1 0 0 0 1 1 0 0)).
  { change (py_angles o2) with (euler (rot s)). now rewrite Rt. }
  rewrite PA.
  assert (Eu : euler (mkM 0 1 0 0 0 1 1 0 0) = mkV 180 90 180).
  { unfold euler, atan2_value, cos_from_sin. cbn.
    repeat (destruct (Req_EM_T _ _); try lra); repeat (destruct (Rlt_dec _ _); try lra); reflexivity. }
  rewrite Eu. cbn [c_place c_orient rot_ref at_ref app skipn ang at_v]. intro H0.
  assert (H : c_rot (mkV 180 90 180) = mkM 0 1 0 0 0 1 1 0 0)
    by exact (f_equal (fun x => match x with Some [c] => c_R c | _ => id3 end) H0).
  rewrite c_rot_factors in H. cbn in H. rewrite cosd_90, sind_90, cosd_180, sind_180 in H.
  apply (f_equal xy) in H. cbn in H. lra.
Qed.
Print Assumptions C21_quarter_turn_refuted.
