(** C52 for angles that are parameters of the instrument. *)
From Coq Require Import Bool Reals List Arith Lra Lia.
From Verif Require Import Orient Placement Euler EulerSymbolic.
Local Open Scope R_scope.

Ltac decide_numbers := repeat (match goal with |- context [Req_EM_T ?a ?b] => destruct (Req_EM_T a b); try lra end).
Lemma num x y : is_number (Num x) y = if Req_EM_T x y then true else false.
Proof. reflexivity. Qed.
Lemma cos_value_0 : cos_value 0 = 1.
Proof. rewrite cos_value_ok. apply cosd_0. Qed.

(* A turn about y by a parameter, written ROTATED (0, phi, 0): the angles found are those. *)
Theorem C52_parameter_about_y : forall env a, s_euler env (turned env (Num 0) (Name a)) = mkV 0 (env a) 0.
Proof.
  intros env a. assert (C : cos_value 0 = 1) by apply cos_value_0. assert (S : sin_value 0 = 0) by (rewrite sin_value_ok by lra; apply sind_0).
  unfold s_euler, turned, smul, sX, sY, s_cos, s_sin. rewrite C, S. cbn [sxx sxy sxz syx syy syz szx szy szz neg].
  unfold mul, add, is_number. cbn [orb andb].
  decide_numbers; cbn [orb andb value neg s_cos_from_sin]; decide_numbers; cbn [orb andb value neg s_cos_from_sin];
  unfold s_atan2, is_number; cbn [is_op neg]; decide_numbers; rewrite Nat.eqb_refl; reflexivity.
Qed.
Print Assumptions C52_parameter_about_y.
Example C52_parameter_about_y_example : s_euler (fun _ => 30) (turned (fun _ => 30) (Num 0) (Name 0)) = mkV 0 30 0.
Proof. apply C52_parameter_about_y. Qed.

Lemma quarter env a : s_euler env (turned env (Num 90) (Name a)) = mkV (-90) (env a) 0.
Proof.
  assert (C : cos_value 90 = 0) by (rewrite cos_value_ok; apply cosd_90). assert (S : sin_value 90 = 1) by (rewrite sin_value_ok by lra; apply sind_90).
  unfold s_euler, turned, smul, sX, sY, s_cos, s_sin. rewrite C, S. cbn [sxx sxy sxz syx syy syz szx szy szz neg].
  unfold mul, add, is_number. cbn [orb andb].
  decide_numbers; cbn [orb andb value neg s_cos_from_sin]; decide_numbers; cbn [orb andb value neg s_cos_from_sin];
  unfold s_atan2, is_number; cbn [is_op neg]; decide_numbers; rewrite Nat.eqb_refl; reflexivity.
Qed.
(* ROTATED (90, phi, 0), phi a parameter: the turn about x is found as -90, whatever phi is.
   Of the two values that the code has in hand it takes the first. *)
Theorem C52_quarter_turn_and_parameter_refuted : forall env a, cosd (env a) <> 0 ->
  c_rot (s_euler env (turned env (Num 90) (Name a))) <> c_rot (mkV 90 (env a) 0).
Proof.
  intros env a N E. rewrite quarter, !c_rot_factors in E. cbn [vx vy vz] in E. rewrite cosd_0, sind_0 in E. replace (-90) with (Ropp 90) in E by lra. rewrite cosd_neg, sind_neg, cosd_90, sind_90 in E.
  apply (f_equal zy) in E. unfold mmul, mX, mY, mZ in E. cbn [xx xy xz yx yy yz zx zy zz] in E. apply N. lra.
Qed.
Print Assumptions C52_quarter_turn_and_parameter_refuted.
Example C52_quarter_turn_and_parameter_example : cosd ((fun _ : nat => 0) 0%nat) <> 0.
Proof. cbv beta. rewrite cosd_0. lra. Qed.

Lemma atan2_bound y x : - PI <= atan2 y x <= PI.
Proof.
  pose proof PI_RGT_0 as P. unfold atan2. destruct (Rlt_dec 0 x) as [X|X].
  - pose proof (atan_bound (y / x)). lra.
  - destruct (Rlt_dec x 0) as [M|M].
    + pose proof (atan_bound (y / x)) as B. destruct (Rle_dec 0 y) as [Y|Y].
      * assert (Q : y / x <= 0) by (unfold Rdiv; assert (/ x < 0) by (now apply Rinv_lt_0_compat); nra).
        assert (atan (y / x) <= 0). { destruct (Req_dec (y / x) 0) as [->|D]; [rewrite atan_0; lra|]. rewrite <- atan_0. left. apply atan_increasing. lra. } lra.
      * assert (Q : 0 < y / x) by (unfold Rdiv; assert (/ x < 0) by (now apply Rinv_lt_0_compat); nra).
        assert (0 < atan (y / x)). { rewrite <- atan_0. now apply atan_increasing. } lra.
    + destruct (Rlt_dec 0 y); [lra|]. destruct (Rlt_dec y 0); lra.
Qed.
Lemma two env a b : exists rx, s_euler env (turned env (Name a) (Name b)) = mkV rx (env b) 0 /\ - PI <= rx <= PI.
Proof.
  unfold s_euler, turned, smul, sX, sY, s_cos, s_sin. cbn [sxx sxy sxz syx syy syz szx szy szz neg].
  unfold mul, add, is_number. cbn [orb andb].
  decide_numbers; cbn [orb andb value neg s_cos_from_sin]; decide_numbers; cbn [orb andb value neg s_cos_from_sin];
  unfold s_atan2, is_number; cbn [is_op neg]; decide_numbers; rewrite Nat.eqb_refl; eexists; (split; [reflexivity|apply atan2_bound]).
Qed.
(* ROTATED (psi, phi, 0), both parameters: the turn about x is found as an arctangent in radian,
   which is read as degrees.  With psi above 90 the component faces the other way. *)
Theorem C52_two_parameters_refuted : forall env a b, 90 < env a <= 180 -> cosd (env b) <> 0 ->
  c_rot (s_euler env (turned env (Name a) (Name b))) <> c_rot (mkV (env a) (env b) 0).
Proof.
  intros env a b A N E. destruct (two env a b) as (rx & T & B). rewrite T, !c_rot_factors in E. cbn [vx vy vz] in E. rewrite cosd_0, sind_0 in E.
  apply (f_equal zz) in E. unfold mmul, mX, mY, mZ in E. cbn [xx xy xz yx yy yz zx zy zz] in E.
  assert (P : 3 < PI <= 4) by (split; [pose proof PI2_3_2; lra|apply PI_4]).
  assert (X : cosd rx = cosd (env a)) by (apply (Rmult_eq_reg_l (cosd (env b))); lra).
  assert (0 < cosd rx) by (unfold cosd; apply cos_gt_0; nra).
  assert (cosd (env a) < 0). { unfold cosd. apply cos_lt_0; nra. }
  lra.
Qed.
Print Assumptions C52_two_parameters_refuted.
Example C52_two_parameters_example : let env := fun a => match a with O => 120 | _ => 0 end in 90 < env 0%nat <= 180 /\ cosd (env 1%nat) <> 0.
Proof. cbn. split; [lra|]. rewrite cosd_0. lra. Qed.

(** the expressions that are made for a minus sign, a product and a sum have the values of these, whatever is simplified *)
Theorem C52_expressions_have_values env a b :
  value env (neg a) = - value env a /\ value env (mul env a b) = value env a * value env b /\ value env (add env a b) = value env a + value env b.
Proof.
  assert (N : forall e, value env (neg e) = - value env e) by (intros []; cbn; lra).
  assert (Q : forall e x, is_number e x = true -> e = Num x) by (intros [] x; cbn; try discriminate; destruct (Req_EM_T r x); [congruence|discriminate]).
  split; [apply N|]. split.
  - unfold mul. destruct (is_number a 0) eqn:A0; [apply Q in A0; subst; cbn; lra|]. destruct (is_number b 0) eqn:B0; [apply Q in B0; subst; cbn; lra|]. cbn [orb].
    destruct (is_number a 1) eqn:A1; [apply Q in A1; subst; cbn; lra|]. destruct (is_number a (-1)) eqn:A2; [apply Q in A2; subst; rewrite N; cbn; lra|].
    destruct (is_number b 1) eqn:B1; [apply Q in B1; subst; cbn; lra|]. destruct (is_number b (-1)) eqn:B2; [apply Q in B2; subst; rewrite N; cbn; lra|].
    destruct a, b; reflexivity.
  - unfold add. destruct (is_number a 0) eqn:A0; [apply Q in A0; subst; cbn; lra|]. destruct (is_number b 0) eqn:B0; [apply Q in B0; subst; cbn; lra|]. destruct a, b; reflexivity.
Qed.
Print Assumptions C52_expressions_have_values.
Example C52_expressions_example : mul (fun _ => 2) (Num (-1)) (Name 0) = Neg (Name 0) /\ neg (Neg (Sin 0)) = Sin 0.
Proof. split; [|reflexivity]. unfold mul, is_number. destruct (Req_EM_T (-1) 0); [lra|]. cbn [orb]. destruct (Req_EM_T (-1) 1); [lra|]. destruct (Req_EM_T (-1) (-1)); [reflexivity|lra]. Qed.
(** the matrix of ROTATED (a, b, 0), both angles being parameters, has the values of the turn about x followed by the one about y *)
Theorem C52_matrix_of_parameters env a b : let ca := cos (env a) in let sa := sin (env a) in let cb := cos (env b) in let sb := sin (env b) in
  let m := turned env (Name a) (Name b) in let v := value env in
  (v (sxx m), v (sxy m), v (sxz m)) = (cb, sb * sa, - (sb * ca)) /\ (v (syx m), v (syy m), v (syz m)) = (0, ca, sa) /\ (v (szx m), v (szy m), v (szz m)) = (sb, - (cb * sa), cb * ca).
Proof.
  pose proof (C52_expressions_have_values env) as H. assert (N : forall e, value env (neg e) = - value env e) by (intro e; apply (H e e)).
  assert (M : forall x y, value env (mul env x y) = value env x * value env y) by (intros; apply H). assert (A : forall x y, value env (add env x y) = value env x + value env y) by (intros; apply H).
  cbn zeta. unfold turned, smul, sX, sY. cbn [sxx sxy sxz syx syy syz szx szy szz s_cos s_sin]. rewrite !A, !M, !N. cbn [value].
  repeat split; repeat apply f_equal2; ring.
Qed.
Print Assumptions C52_matrix_of_parameters.
Example C52_matrix_of_parameters_example : value (fun _ => 0) (szz (turned (fun _ => 0) (Name 0) (Name 1))) = 1.
Proof. pose proof (C52_matrix_of_parameters (fun _ => 0) 0 1) as (_ & _ & H). apply (f_equal snd) in H. cbn beta iota zeta delta [snd] in H. rewrite H, cos_0. ring. Qed.
