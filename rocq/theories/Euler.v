(** axes_euler_angles, instr/orientation.py:419-428, on numbers: the angles that could
    have produced a rotation matrix.  Instr.split (instr.py:374) uses them to re-write a
    component's ROTATED clause as absolute. *)
From Coq Require Import Bool Reals List Lra Lia.
From Verif Require Import Orient Placement.
Local Open Scope R_scope.

(** math.atan2 *)
Definition atan2 (y x : R) : R :=
  if Rlt_dec 0 x then atan (y / x)
  else if Rlt_dec x 0 then if Rle_dec 0 y then atan (y / x) + PI else atan (y / x) - PI
  else if Rlt_dec 0 y then PI / 2 else if Rlt_dec y 0 then - (PI / 2) else 0.
(** atan2_degree 312-314 *)
Definition atan2_degree (y x : R) : R := atan2 y x / PI * 180.
(** atan2_value 359-371 for constants: is_op is false there *)
Definition atan2_value (va vb : R) : R :=
  if Req_EM_T va 0 then if Rlt_dec 0 vb then 0 else 180
  else if Req_EM_T vb 0 then if Rlt_dec 0 va then 90 else -90
  else atan2_degree va vb.
(** cos_from_sin_value 375-386 for constants *)
Definition cos_from_sin (v : R) : R :=
  if Req_EM_T v 0 then 1 else if Req_EM_T v 1 then 0 else sqrt (1 - v * v).
(** axes_euler_angles 419-428 *)
Definition euler (m : M3) : V3 :=
  mkV (atan2_value (- zy m) (zz m))
      (atan2_value (zx m) (cos_from_sin (zx m)))
      (atan2_value (- yx m) (xx m)).

Lemma sqrt_sq_div c x : 0 < c -> x <> 0 -> sqrt (1 + (c / x) ^ 2) = sqrt (x * x + c * c) / Rabs x.
Proof.
  intros Hc Hx. replace (1 + (c / x) ^ 2) with ((x * x + c * c) / (x * x)) by (field; auto).
  rewrite sqrt_div_alt by nra. f_equal. replace (x * x) with (Rsqr x) by reflexivity. apply sqrt_Rsqr_abs.
Qed.

Lemma atan2_trig y x c : 0 < c -> x * x + y * y = c * c ->
  sin (atan2 y x) = y / c /\ cos (atan2 y x) = x / c.
Proof.
  intros Hc E.
  assert (S : x <> 0 -> sqrt (1 + (y / x)²) = c / Rabs x).
  { intro Hx. unfold Rsqr. replace (1 + y / x * (y / x)) with ((c * c) / (x * x)) by (rewrite <- E; field; auto).
    rewrite sqrt_div_alt by nra. rewrite sqrt_square by lra. f_equal.
    replace (x * x) with (Rsqr x) by reflexivity. apply sqrt_Rsqr_abs. }
  unfold atan2. destruct (Rlt_dec 0 x) as [Px|Nx].
  - rewrite sin_atan, cos_atan, S by lra. rewrite Rabs_pos_eq by lra. split; field; lra.
  - destruct (Rlt_dec x 0) as [Mx|Zx].
    + assert (Q : sin (atan (y / x)) = - (y / c) /\ cos (atan (y / x)) = - (x / c)).
      { rewrite sin_atan, cos_atan, S by lra. rewrite Rabs_left by lra. split; field; lra. }
      destruct Q as [Q1 Q2].
      destruct (Rle_dec 0 y).
      * rewrite neg_sin, neg_cos, Q1, Q2. split; ring.
      * unfold Rminus. rewrite sin_plus, cos_plus, sin_neg, cos_neg, sin_PI, cos_PI, Q1, Q2. split; ring.
    + assert (x = 0) by lra. subst x. assert (Hy : y * y = c * c) by nra.
      destruct (Rlt_dec 0 y) as [Py|].
      * assert (y = c) by nra. subst. rewrite sin_PI2, cos_PI2. split; field; lra.
      * destruct (Rlt_dec y 0) as [My|].
        -- assert (y = - c) by nra. subst. rewrite sin_neg, cos_neg, sin_PI2, cos_PI2. split; field; lra.
        -- nra.
Qed.

(** the angle in degrees, as radian *)
Definition rad (a : R) : R := a * DEG2RAD.
Lemma atan2_value_trig y x c : 0 < c -> x * x + y * y = c * c ->
  sin (rad (atan2_value y x)) = y / c /\ cos (rad (atan2_value y x)) = x / c.
Proof.
  intros Hc E. unfold atan2_value, rad, DEG2RAD. pose proof PI_RGT_0 as HP.
  destruct (Req_EM_T y 0) as [->|Hy].
  - destruct (Rlt_dec 0 x).
    + assert (x = c) by nra. subst. rewrite Rmult_0_l, sin_0, cos_0. split; field; lra.
    + assert (x = - c) by nra. subst. replace (180 * (PI / 180)) with PI by field.
      rewrite sin_PI, cos_PI. split; field; lra.
  - destruct (Req_EM_T x 0) as [->|Hx].
    + destruct (Rlt_dec 0 y).
      * assert (y = c) by nra. subst. replace (90 * (PI / 180)) with (PI / 2) by field.
        rewrite sin_PI2, cos_PI2. split; field; lra.
      * assert (y = - c) by nra. subst. replace (-90 * (PI / 180)) with (- (PI / 2)) by field.
        rewrite sin_neg, cos_neg, sin_PI2, cos_PI2. split; field; lra.
    + unfold atan2_degree. replace (atan2 y x / PI * 180 * (PI / 180)) with (atan2 y x) by (field; lra).
      now apply atan2_trig.
Qed.

Lemma cos_from_sin_ok v : v * v < 1 -> 0 < cos_from_sin v /\ cos_from_sin v * cos_from_sin v = 1 - v * v.
Proof.
  intro H. unfold cos_from_sin. destruct (Req_EM_T v 0) as [->|]; [split; lra|].
  destruct (Req_EM_T v 1) as [->|]; [lra|].
  split; [apply sqrt_lt_R0; lra|]. apply sqrt_sqrt. lra.
Qed.

(** The matrix of the recovered angles is the matrix they were recovered from, unless
    its z row starts with plus or minus one. *)
Lemma euler_ok m : rigid m -> zx m * zx m <> 1 -> c_rot (euler m) = m.
Proof.
  intros (A & B & D) H. destruct m as [a b c d e f g h k]. cbn in H.
  unfold mmul, transpose, id3, det in *. cbn in *.
  injection A as A1 A2 A3 A4 A5 A6 A7 A8 A9. injection B as B1 B2 B3 B4 B5 B6 B7 B8 B9.
  assert (L : g * g < 1) by nra.
  destruct (cos_from_sin_ok g L) as [Cp Ce].
  unfold c_rot, rot_set, euler. cbn -[Rmult].
  set (C := cos_from_sin g) in *.
  destruct (atan2_value_trig (- h) k C Cp) as [Sx Cx]; [nra|].
  destruct (atan2_value_trig (- d) a C Cp) as [Sz Cz]; [nra|].
  destruct (atan2_value_trig g C 1 ltac:(lra)) as [Sy Cy]; [nra|].
  fold (rad (atan2_value (- h) k)). fold (rad (atan2_value (- d) a)). fold (rad (atan2_value g C)).
  rewrite Sx, Cx, Sy, Cy, Sz, Cz. clear Sx Cx Sy Cy Sz Cz.
  (* the cofactors of the matrix *)
  set (detm := a * (e * k - f * h) - b * (d * k - f * g) + c * (d * h - e * g)) in *.
  assert (Dm : detm = 1) by (rewrite <- D; unfold detm; ring).
  assert (Kc : c = d * h - e * g).
  { transitivity (c * detm); [rewrite Dm; ring|].
    transitivity ((d * h - e * g) * (a * a + b * b + c * c) - (a * h - b * g) * (d * a + e * b + f * c)
                  + (a * e - b * d) * (g * a + h * b + k * c)); [unfold detm; ring|].
    rewrite B1, B4, B7. ring. }
  assert (Kb : b = f * g - d * k).
  { transitivity (b * detm); [rewrite Dm; ring|].
    transitivity ((f * g - d * k) * (a * a + b * b + c * c) + (a * k - c * g) * (d * a + e * b + f * c)
                  - (a * f - c * d) * (g * a + h * b + k * c)); [unfold detm; ring|].
    rewrite B1, B4, B7. ring. }
  assert (Ke : e = a * k - c * g).
  { transitivity (e * detm); [rewrite Dm; ring|].
    transitivity ((f * g - d * k) * (a * d + b * e + c * f) + (a * k - c * g) * (d * d + e * e + f * f)
                  - (a * f - c * d) * (g * d + h * e + k * f)); [unfold detm; ring|].
    rewrite B2, B5, B8. ring. }
  assert (Kf : f = b * g - a * h).
  { transitivity (f * detm); [rewrite Dm; ring|].
    transitivity ((d * h - e * g) * (a * d + b * e + c * f) - (a * h - b * g) * (d * d + e * e + f * f)
                  + (a * e - b * d) * (g * d + h * e + k * f)); [unfold detm; ring|].
    rewrite B2, B5, B8. ring. }
  clear - Cp Ce L Kb Kc Ke Kf.
  assert (Nz : 1 - g * g <> 0) by lra.
  f_equal; try (field; lra).
  - transitivity ((- h * g * a - k * d) / (C * C)); [field; lra|]. rewrite Ce.
    replace (- h * g * a - k * d) with (b * (1 - g * g)); [field; lra|].
    transitivity (b - (b * g) * g); [ring|]. replace (b * g) with (f + a * h) by lra.
    replace b with (f * g - d * k) at 1. ring.
  - transitivity ((h * d - k * g * a) / (C * C)); [field; lra|]. rewrite Ce.
    replace (h * d - k * g * a) with (c * (1 - g * g)); [field; lra|].
    transitivity (c - (c * g) * g); [ring|]. replace (c * g) with (a * k - e) by lra.
    replace c with (d * h - e * g) at 1. ring.
  - transitivity ((k * a - h * g * d) / (C * C)); [field; lra|]. rewrite Ce.
    replace (k * a - h * g * d) with (e * (1 - g * g)); [field; lra|].
    transitivity (e - (e * g) * g); [ring|]. replace (e * g) with (d * h - c) by lra.
    replace e with (a * k - c * g) at 1. ring.
  - transitivity ((- h * a - k * g * d) / (C * C)); [field; lra|]. rewrite Ce.
    replace (- h * a - k * g * d) with (f * (1 - g * g)); [field; lra|].
    transitivity (f - (f * g) * g); [ring|]. replace (f * g) with (b + d * k) by lra.
    replace f with (b * g - a * h) at 1. ring.
Qed.
