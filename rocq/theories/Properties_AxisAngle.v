(** Properties of the axis and the angle of a rotation: C88. *)
From Coq Require Import Bool Reals List Lra Lia Psatz Nsatz.
From Verif Require Import Orient AxisAngle.
Import ListNotations.
Local Open Scope bool_scope.
Local Open Scope R_scope.

(** * C88 The axis and the angle given for a rotation describe it *)

(** the right-handed rotation of v around u through a degrees *)
Definition turned (u : V3) (a : R) (v : V3) : V3 :=
  let k := dot u v * (1 - cosd a) in
  mkV (vx v * cosd a + (vy u * vz v - vz u * vy v) * sind a + vx u * k)
      (vy v * cosd a + (vz u * vx v - vx u * vz v) * sind a + vy u * k)
      (vz v * cosd a + (vx u * vy v - vy u * vx v) * sind a + vz u * k).
(** the matrix turns around the axis of length one through the angle *)
Definition turns (m : M3) (u : V3) (a : R) : Prop := dot u u = 1 /\ forall v, mapply m v = turned u a v.
(** how a part rotates coordinates *)
Definition coordinates (p : part) : M3 := transpose (rot (axes p)).
(** axis and angle describe the part *)
Definition describes (p : part) (r : V3 * R) : Prop := turns (coordinates p) (fst r) (snd r).

Lemma turned_around u a v : mapply (around u (cosd a) (sind a)) v = turned u a v.
Proof. unfold turned, mapply, around, dot; cbn. f_equal; ring. Qed.
Lemma same_map m n : (forall v, mapply m v = mapply n v) -> m = n.
Proof.
  intro H. pose proof (H (mkV 1 0 0)) as A. pose proof (H (mkV 0 1 0)) as B. pose proof (H (mkV 0 0 1)) as C. destruct m, n. unfold mapply in *. cbn in *.
  injection A as A1 A2 A3. injection B as B1 B2 B3. injection C as C1 C2 C3. f_equal; lra.
Qed.
Lemma turns_around m u a : turns m u a <-> dot u u = 1 /\ m = around u (cosd a) (sind a).
Proof.
  unfold turns. split; intros [U H]; split; auto.
  - apply same_map. intro v. now rewrite turned_around.
  - intro v. rewrite H. apply turned_around.
Qed.
Lemma differ_spec m r : differ m r = true <->
  (xx m * xx r < 0 \/ xy m * xy r < 0 \/ xz m * xz r < 0 \/ yx m * yx r < 0 \/ yy m * yy r < 0 \/ yz m * yz r < 0 \/ zx m * zx r < 0 \/ zy m * zy r < 0 \/ zz m * zz r < 0).
Proof.
  unfold differ, entries. cbn [combine existsb fst snd].
  repeat match goal with |- context [if Rlt_dec ?x 0 then _ else _] => destruct (Rlt_dec x 0); cbn [orb]; [tauto|] end. split; [discriminate|tauto].
Qed.

Section General.
Variable m : M3.
Variable u : V3.
Hypothesis R : rigid m.
Hypothesis E : eigenvector m u.
Let c := (trace m - 1) / 2.
Let s := sense m u.
Lemma form : m = around u c s /\ s * s + c * c = 1.
Proof. exact (rigid_around m u R E). Qed.
Lemma c_range : -1 <= c <= 1.
Proof. destruct form as [_ H]. split; nra. Qed.
Lemma angle_is : trace_angle m = acos_degree c.
Proof.
  unfold trace_angle. fold c. pose proof c_range as H. destruct (Rlt_dec 1 (Rabs c)) as [L|L]; [|reflexivity].
  exfalso. pose proof (Rabs_le c 1). lra.
Qed.
Lemma cos_is : cosd (trace_angle m) = c /\ 0 <= trace_angle m <= 180 /\ 0 <= sind (trace_angle m) /\ sind (trace_angle m) * sind (trace_angle m) = s * s.
Proof.
  rewrite angle_is. destruct (sind_acos c c_range) as (A & B & C). repeat split; try apply B; auto. pose proof (circle (acos_degree c)) as D. rewrite A in D. destruct form as [_ F]. lra.
Qed.
Lemma half_turn : trace_angle m = 180 -> s = 0 /\ c = -1.
Proof. intro H. destruct cos_is as (A & _ & _ & D). rewrite H, cosd_180 in A. rewrite H, sind_180 in D. split; [nra|lra]. Qed.
(** the axis has the sense of the rotation *)
Lemma right_sense : 0 <= s -> turns m u (if differ m (recomputed u (trace_angle m)) then - trace_angle m else trace_angle m).
Proof.
  intro H. destruct E as [_ U]. apply turns_around. split; [exact U|]. destruct cos_is as (A & B & C & D). destruct form as [F G].
  assert (S : sind (trace_angle m) = s) by nra.
  destruct (Req_EM_T (trace_angle m) 180) as [Z|Z].
  - destruct (half_turn Z) as [S0 C1]. destruct (differ _ _).
    + rewrite cosd_neg, sind_neg, A, S, S0. replace (- 0) with 0 by ring. rewrite <- S0. exact F.
    + rewrite A, S. exact F.
  - assert (N : differ m (recomputed u (trace_angle m)) = false).
    { rewrite (recomputed_around u _ U), (sin_value_ok _ Z), A, S, <- F. destruct (differ m m) eqn:X; [|reflexivity]. apply differ_spec in X. exfalso.
      repeat match type of X with _ \/ _ => destruct X as [X|X]; [pose proof (Rle_0_sqr) as Q; unfold Rsqr in Q; match type of X with ?a * ?a < 0 => pose proof (Q a); lra end|] end.
      pose proof (Rle_0_sqr (zz m)) as Q. unfold Rsqr in Q. lra. }
    rewrite N, A, S. exact F.
Qed.
(** the axis has the other sense, and this is noticed *)
Lemma other_sense : s < 0 -> differ m (transpose m) = true -> turns m u (if differ m (recomputed u (trace_angle m)) then - trace_angle m else trace_angle m).
Proof.
  intros H X. destruct E as [_ U]. apply turns_around. split; [exact U|]. destruct cos_is as (A & B & C & D). destruct form as [F G].
  assert (S : sind (trace_angle m) = - s) by nra.
  assert (Z : trace_angle m <> 180) by (intro Z; destruct (half_turn Z); lra).
  assert (T : recomputed u (trace_angle m) = transpose m) by (rewrite (recomputed_around u _ U), (sin_value_ok _ Z), A, S; rewrite F at 1; now rewrite around_transpose).
  rewrite T, X, cosd_neg, sind_neg, A, S, Ropp_involutive. exact F.
Qed.
Lemma other_sense_wrong : s < 0 -> differ m (transpose m) = false -> ~ turns m u (if differ m (recomputed u (trace_angle m)) then - trace_angle m else trace_angle m).
Proof.
  intros H X W. destruct E as [_ U]. apply turns_around in W as [_ W]. destruct cos_is as (A & B & C & D). destruct form as [F G].
  assert (S : sind (trace_angle m) = - s) by nra.
  assert (Z : trace_angle m <> 180) by (intro Z; destruct (half_turn Z); lra).
  assert (T : recomputed u (trace_angle m) = transpose m) by (rewrite (recomputed_around u _ U), (sin_value_ok _ Z), A, S; rewrite F at 1; now rewrite around_transpose).
  rewrite T, X, A, S in W. rewrite F in W. pose proof (f_equal yx W) as W3. pose proof (f_equal xz W) as W2. pose proof (f_equal zy W) as W1. unfold around in W1, W2, W3. cbn in W1, W2, W3. unfold dot in U.
  assert (vz u = 0) by nra. assert (vy u = 0) by nra. assert (vx u = 0) by nra. nra.
Qed.
Lemma noticed : s <> 0 -> (-1 < 2 * c \/ vx u = 0 \/ vy u = 0 \/ vz u = 0) -> differ m (transpose m) = true.
Proof.
  intros H K. destruct (differ m (transpose m)) eqn:X; [reflexivity|]. exfalso.
  assert (X' : ~ differ m (transpose m) = true) by (rewrite X; discriminate). rewrite differ_spec in X'. clear X. destruct form as [F G]. destruct E as [_ U]. unfold dot in U.
  cbn [transpose xx xy xz yx yy yz zx zy zz] in X'.
  assert (P3 : 0 <= xy m * yx m) by (apply Rnot_lt_le; tauto). assert (P2 : 0 <= xz m * zx m) by (apply Rnot_lt_le; tauto). assert (P1 : 0 <= yz m * zy m) by (apply Rnot_lt_le; tauto).
  clear X'. rewrite F in P1, P2, P3. unfold around in P1, P2, P3. cbn in P1, P2, P3. clearbody c s. clear F.
  set (x := vx u) in *. set (y := vy u) in *. set (z := vz u) in *. clearbody x y z.
  assert (Ck : 0 < 1 - c) by nra. assert (Cq : 0 < 1 + c) by nra. assert (S : s * s = (1 - c) * (1 + c)) by lra.
  assert (Q3 : (1 + c) * (z * z) <= (1 - c) * ((x * x) * (y * y))).
  { apply (Rmult_le_reg_l (1 - c)); [exact Ck|]. replace ((1 - c) * ((1 + c) * (z * z))) with (s * s * (z * z)) by (rewrite S; ring). lra. }
  assert (Q2 : (1 + c) * (y * y) <= (1 - c) * ((x * x) * (z * z))).
  { apply (Rmult_le_reg_l (1 - c)); [exact Ck|]. replace ((1 - c) * ((1 + c) * (y * y))) with (s * s * (y * y)) by (rewrite S; ring). lra. }
  assert (Q1 : (1 + c) * (x * x) <= (1 - c) * ((y * y) * (z * z))).
  { apply (Rmult_le_reg_l (1 - c)); [exact Ck|]. replace ((1 - c) * ((1 + c) * (x * x))) with (s * s * (x * x)) by (rewrite S; ring). lra. }
  clear P1 P2 P3 S G H.
  assert (X0 : 0 <= x * x) by nra. assert (Y0 : 0 <= y * y) by nra. assert (Z0 : 0 <= z * z) by nra.
  assert (NX : x <> 0 /\ y <> 0 /\ z <> 0).
  { repeat split; intro O; rewrite O in *; clear O; rewrite ?Rmult_0_l, ?Rmult_0_r in *; assert (q : forall t, 0 <= t -> (1 + c) * t <= 0 -> t = 0) by (intros t T1 T2; nra).
    - assert (y * y = 0) by (apply q; lra). assert (z * z = 0) by (apply q; lra). lra.
    - assert (x * x = 0) by (apply q; lra). assert (z * z = 0) by (apply q; lra). lra.
    - assert (x * x = 0) by (apply q; lra). assert (y * y = 0) by (apply q; lra). lra. }
  destruct K as [K|[K|[K|K]]]; try tauto. destruct NX as (N1 & N2 & N3).
  assert (L : forall a b d, 0 < a -> 0 < b -> 0 <= d -> (1 + c) * a <= (1 - c) * (d * b) -> (1 + c) * b <= (1 - c) * (d * a) -> 1 + c <= (1 - c) * d).
  { intros a b d Ha Hb Hd L1 L2. apply Rnot_lt_le. intro L3. assert ((1 - c) * d * b < (1 + c) * b) by (now apply Rmult_lt_compat_r). assert ((1 - c) * d * a < (1 + c) * a) by (now apply Rmult_lt_compat_r). 
    assert (b < a) by (apply (Rmult_lt_reg_l (1 + c)); [exact Cq|]; lra). assert (a < b) by (apply (Rmult_lt_reg_l (1 + c)); [exact Cq|]; lra). lra. }
  assert (X1 : 0 < x * x) by (assert (x * x <> 0) by nra; lra). assert (Y1 : 0 < y * y) by (assert (y * y <> 0) by nra; lra). assert (Z1 : 0 < z * z) by (assert (z * z <> 0) by nra; lra).
  pose proof (L (x * x) (y * y) (z * z) X1 Y1 Z0 ltac:(lra) ltac:(lra)). pose proof (L (x * x) (z * z) (y * y) X1 Z1 Y0 ltac:(lra) ltac:(lra)). pose proof (L (y * y) (z * z) (x * x) Y1 Z1 X0 ltac:(lra) ltac:(lra)).
  assert ((1 - c) * (x * x + y * y + z * z) = 1 - c) by (rewrite U; ring). lra.
Qed.
End General.

Lemma coordinates_rigid s : rigid (rot s) -> rigid (coordinates (PGen s)).
Proof. intro R. unfold coordinates. cbn. now apply rigid_transpose. Qed.

(** If the vector that eig returns is the axis around which the rotation is right-handed, axis and angle describe the rotation, whatever the angle. *)
Theorem C88_right_handed_axis s u b : rigid (rot s) -> 0 <= b <= 180 -> turns (coordinates (PGen s)) u b -> describes (PGen s) (rotation_axis_angle (PGen s) u).
Proof.
  intros R B T. pose proof (coordinates_rigid s R) as Q. unfold describes, rotation_axis_angle. cbn [fst snd].
  change (rot (sinv (axes (PGen s)))) with (coordinates (PGen s)). set (m := coordinates (PGen s)) in *.
  pose proof T as T'. apply turns_around in T' as [U M].
  assert (E : eigenvector m u).
  { split; [|exact U]. rewrite M. rewrite around_apply. unfold dot in U. unfold cross, vadd, dot. destruct u as [x y z]. cbn in *. set (k := cosd b). rewrite U. f_equal; ring. }
  apply (right_sense m u Q E). unfold sense. rewrite M. unfold around. cbn. unfold dot in U.
  assert (S : 0 <= sind b). { unfold sind. pose proof PI_RGT_0. apply sin_ge_0; [apply Rmult_le_pos; lra|]. assert (b / 180 <= 1) by lra. assert (b / 180 * PI <= 1 * PI) by (apply Rmult_le_compat_r; lra). lra. }
  match goal with |- 0 <= ?e => replace e with (sind b * (vx u * vx u + vy u * vy u + vz u * vz u)) by field end. rewrite U. lra.
Qed.
Print Assumptions C88_right_handed_axis.

(** Through less than 120 degrees it does not matter which of the two vectors eig returns.
    Partial: from 120 degrees on it does, see C88_sense_unnoticed_refuted. *)
Theorem C88_below_120_degrees_partial s u w b : rigid (rot s) -> eigenvector (coordinates (PGen s)) u ->
  0 <= b < 120 -> turns (coordinates (PGen s)) w b -> describes (PGen s) (rotation_axis_angle (PGen s) u).
Proof.
  intros R E B T. pose proof (coordinates_rigid s R) as Q. unfold describes, rotation_axis_angle. cbn [fst snd].
  change (rot (sinv (axes (PGen s)))) with (coordinates (PGen s)). set (m := coordinates (PGen s)) in *.
  destruct (Rlt_dec (sense m u) 0) as [L|L]; [|apply (right_sense m u Q E); lra].
  apply (other_sense m u Q E L). apply (noticed m u Q E); [lra|]. left.
  apply turns_around in T as [U M]. rewrite M. unfold trace, around. cbn. unfold dot in U.
  assert (K : (1 - cosd b) * (vx w * vx w + vy w * vy w + vz w * vz w) = 1 - cosd b) by (rewrite U; ring).
  assert (C : - (1 / 2) < cosd b).
  { unfold cosd. pose proof PI_RGT_0 as P. assert (L1 : 0 <= b / 180 * PI) by (apply Rmult_le_pos; lra). assert (L2 : b / 180 * PI < 2 / 3 * PI) by (apply Rmult_lt_compat_r; lra).
    replace (- (1 / 2)) with (cos (2 * (PI / 3))) by (rewrite cos_2PI3; lra). apply cos_decreasing_1; lra. }
  lra.
Qed.
Print Assumptions C88_below_120_degrees_partial.

(** Nor does it matter if the axis lies in a plane of two coordinate axes. *)
Theorem C88_axis_in_plane s u : rigid (rot s) -> eigenvector (coordinates (PGen s)) u -> vx u = 0 \/ vy u = 0 \/ vz u = 0 -> describes (PGen s) (rotation_axis_angle (PGen s) u).
Proof.
  intros R E Z. pose proof (coordinates_rigid s R) as Q. unfold describes, rotation_axis_angle. cbn [fst snd].
  change (rot (sinv (axes (PGen s)))) with (coordinates (PGen s)). set (m := coordinates (PGen s)) in *.
  destruct (Rlt_dec (sense m u) 0) as [L|L]; [|apply (right_sense m u Q E); lra].
  apply (other_sense m u Q E L). apply (noticed m u Q E); [lra|]. now right.
Qed.
Print Assumptions C88_axis_in_plane.

(** the diagonal of the first octant, of length one *)
Definition diagonal : V3 := mkV (/ sqrt 3) (/ sqrt 3) (/ sqrt 3).
Lemma diagonal_square : / sqrt 3 * / sqrt 3 = 1 / 3.
Proof. assert (sqrt 3 * sqrt 3 = 3) by (apply sqrt_def; lra). assert (sqrt 3 <> 0) by (intro Z; rewrite Z in H; lra). field_simplify; [|assumption]. replace (sqrt 3 ^ 2) with 3 by (cbn; lra). reflexivity. Qed.
Lemma around_rigid u c t : dot u u = 1 -> c * c + t * t = 1 -> rigid (around u c t).
Proof.
  intros U C. unfold dot in U. destruct u as [x y z]. cbn in U. unfold rigid, mmul, transpose, around, id3, det. cbn.
  repeat split; [f_equal; nsatz|f_equal; nsatz|nsatz].
Qed.
(** a rotation around the diagonal *)
Definition diagonal_part (a : R) : part := PGen (mkS (transpose (around diagonal (cosd a) (sind a))) v0).
(** Otherwise a wrong sense is unnoticed: around the diagonal through any angle from 120 to below 180 degrees,
    the opposite vector comes with the angle of the opposite rotation. *)
Theorem C88_sense_unnoticed_refuted a : 120 <= a < 180 ->
  rigid (rot (axes (diagonal_part a))) /\ turns (coordinates (diagonal_part a)) diagonal a /\ eigenvector (coordinates (diagonal_part a)) (vneg diagonal) /\
  ~ describes (diagonal_part a) (rotation_axis_angle (diagonal_part a) (vneg diagonal)).
Proof.
  intro A. pose proof diagonal_square as D. assert (U : dot diagonal diagonal = 1) by (unfold dot, diagonal; cbn; lra).
  assert (RM : rigid (around diagonal (cosd a) (sind a))) by (apply around_rigid; [exact U|apply circle]).
  assert (M : coordinates (diagonal_part a) = around diagonal (cosd a) (sind a)) by (unfold coordinates, diagonal_part; cbn [axes rot]; apply transpose_transpose).
  assert (T : turns (coordinates (diagonal_part a)) diagonal a) by (apply turns_around; split; [exact U|exact M]).
  assert (U' : dot (vneg diagonal) (vneg diagonal) = 1) by (unfold dot, vneg, diagonal; cbn; lra).
  assert (E : eigenvector (coordinates (diagonal_part a)) (vneg diagonal)).
  { split; [|exact U']. rewrite M, around_apply. unfold cross, vadd, vneg, dot, diagonal in *. cbn in *. set (k := cosd a). set (d := / sqrt 3) in *.
    assert (K : (1 - k) * (d * d + d * d + d * d) = 1 - k) by (rewrite U; ring). assert (K2 : (1 - k) * (d * d + d * d + d * d) * d = (1 - k) * d) by (rewrite K; ring). f_equal; lra. }
  split; [unfold diagonal_part; cbn [axes rot]; now apply rigid_transpose|]. split; [exact T|]. split; [exact E|].
  unfold describes, rotation_axis_angle, diagonal_part at 2. cbn [fst snd].
  change (rot (sinv (axes (PGen (mkS (transpose (around diagonal (cosd a) (sind a))) v0))))) with (coordinates (diagonal_part a)).
  assert (Q : rigid (coordinates (diagonal_part a))) by (rewrite M; exact RM).
  pose proof PI_RGT_0 as P. assert (L1 : 2 / 3 * PI <= a / 180 * PI) by (apply Rmult_le_compat_r; lra). assert (L2 : a / 180 * PI < 1 * PI) by (apply Rmult_lt_compat_r; lra).
  assert (S : 0 < sind a) by (unfold sind; apply sin_gt_0; lra).
  assert (C : cosd a <= - (1 / 2)).
  { unfold cosd. replace (- (1 / 2)) with (cos (2 * (PI / 3))) by (rewrite cos_2PI3; lra). apply cos_decr_1; lra. }
  apply (other_sense_wrong _ _ Q E).
  - rewrite M. unfold sense, around, vneg, diagonal. cbn. set (d := / sqrt 3) in *.
    match goal with |- ?e < 0 => replace e with (- (sind a * (3 * (d * d)))) by field end. rewrite D. lra.
  - rewrite M. destruct (differ _ _) eqn:X; [|reflexivity]. exfalso. apply differ_spec in X. pose proof (circle a) as O. unfold around, transpose, diagonal in X. cbn in X. set (d := / sqrt 3) in *.
    assert (G1 : 0 <= ((1 - cosd a) * (d * d) - sind a * d) * ((1 - cosd a) * (d * d) + sind a * d)).
    { replace (_ * _) with ((1 - cosd a) * (1 - cosd a) * ((d * d) * (d * d)) - (sind a * sind a) * (d * d)) by ring. rewrite D. replace (sind a * sind a) with (1 - cosd a * cosd a) by lra. nra. }
    assert (G2 : 0 <= ((1 - cosd a) * (d * d) + sind a * d) * ((1 - cosd a) * (d * d) - sind a * d)) by lra.
    assert (G3 : 0 <= (cosd a + (1 - cosd a) * (d * d)) * (cosd a + (1 - cosd a) * (d * d))) by nra.
    lra.
Qed.
Print Assumptions C88_sense_unnoticed_refuted.

(** Every rotation has such a vector, and one of it and its opposite is right-handed (Euler). *)
Theorem C88_axis_exists s : rigid (rot s) -> exists u b, eigenvector (coordinates (PGen s)) u /\ 0 <= b <= 180 /\ turns (coordinates (PGen s)) u b.
Proof.
  intro R. pose proof (coordinates_rigid s R) as Q. set (m := coordinates (PGen s)) in *. clearbody m.
  assert (X : exists u, eigenvector m u).
  { assert (N : forall v, mapply m v = v -> dot v v <> 0 -> exists u, eigenvector m u).
    { intros v V Z. assert (P : 0 < dot v v) by (unfold dot in *; nra). set (k := sqrt (dot v v)). assert (K : k * k = dot v v) by (unfold k; apply sqrt_def; lra). assert (k <> 0) by nra.
      exists (mkV (/ k * vx v) (/ k * vy v) (/ k * vz v)). split.
      - assert (L : mapply m (mkV (/ k * vx v) (/ k * vy v) (/ k * vz v)) = mkV (/ k * vx (mapply m v)) (/ k * vy (mapply m v)) (/ k * vz (mapply m v))) by (unfold mapply; cbn; f_equal; ring). now rewrite L, V.
      - unfold dot in *. cbn. replace (_ + _) with (/ k * / k * (vx v * vx v + vy v * vy v + vz v * vz v)) by ring. rewrite <- K. field. assumption. }
    destruct (Req_EM_T (trace m) 3) as [T|T].
    - rewrite (rigid_trace3 m Q T). exists (mkV 1 0 0). split; [apply mapply_id|unfold dot; cbn; ring].
    - destruct (column_fixed m Q) as (C1 & C2 & C3).
      destruct (Req_EM_T (2 * xx m - (trace m - 1)) 0) as [Z1|Z1]; [|apply (N _ C1); unfold dot; cbn; intro O; apply square_0 in O as (O & _ & _); exact (Z1 O)].
      destruct (Req_EM_T (2 * yy m - (trace m - 1)) 0) as [Z2|Z2]; [|apply (N _ C2); unfold dot; cbn; intro O; apply square_0 in O as (_ & O & _); exact (Z2 O)].
      destruct (Req_EM_T (2 * zz m - (trace m - 1)) 0) as [Z3|Z3]; [|apply (N _ C3); unfold dot; cbn; intro O; apply square_0 in O as (_ & _ & O); exact (Z3 O)].
      exfalso. apply T. unfold trace in *. lra. }
  destruct X as (u & E). pose proof E as [E1 U]. destruct (cos_is m u Q E) as (A & B & C & D). destruct (form m u Q E) as [F G].
  destruct (Rle_dec 0 (sense m u)) as [H|H].
  - exists u, (trace_angle m). split; [exact E|]. split; [exact B|]. apply turns_around. split; [exact U|]. assert (S : sind (trace_angle m) = sense m u) by nra. rewrite A, S. exact F.
  - exists (vneg u), (trace_angle m). split; [split|].
    + now rewrite mapply_neg, E1.
    + unfold dot, vneg in *. cbn. lra.
    + split; [exact B|]. apply turns_around. split; [unfold dot, vneg in *; cbn; lra|]. assert (S : sind (trace_angle m) = - sense m u) by nra. rewrite A, S, F at 1.
      unfold around, vneg. cbn. f_equal; ring.
Qed.
Print Assumptions C88_axis_exists.

(** The parts that turn around one coordinate axis name this axis and their angle, which describes them unless it is 180. *)
Theorem C88_single_axis a u : a <> 180 -> describes (PX a) (rotation_axis_angle (PX a) u) /\ describes (PY a) (rotation_axis_angle (PY a) u) /\ describes (PZ a) (rotation_axis_angle (PZ a) u).
Proof.
  intro H. unfold describes, rotation_axis_angle, coordinates. cbn [fst snd axes rot]. rewrite cos_value_ok, (sin_value_ok a H).
  repeat split; try (unfold dot; cbn; ring); intro v; unfold mapply, turned, transpose, mX, mY, mZ, dot; cbn; f_equal; ring.
Qed.
Print Assumptions C88_single_axis.
(** A half turn is not described: its matrix is no rotation. *)
Theorem C88_half_turn_refuted u : ~ describes (PX 180) (rotation_axis_angle (PX 180) u).
Proof.
  intros [_ H]. specialize (H (mkV 0 1 0)). cbn [rotation_axis_angle fst snd] in H. unfold coordinates, mapply, transpose, turned in H. cbn [axes rot mX] in H. apply (f_equal vz) in H. cbn in H.
  rewrite sind_180 in H. unfold sin_value in H. repeat (destruct (Req_EM_T _ _) in H; try lra).
Qed.
Print Assumptions C88_half_turn_refuted.

(** Replacing a part by a more special one keeps what it does to every point, whichever vector eig returns,
    for rotations through other than 180 degrees. *)
Theorem C88_specialization_keeps_map_partial s u p : rigid (rot s) -> eigenvector (coordinates (PGen s)) u -> trace (rot s) <> -1 ->
  act (axes (specialization (PGen s) u)) p = act s p.
Proof.
  intros R E N. unfold specialization. destruct (is_rotation (PGen s)) eqn:I; cbn [negb].
  2:{ cbn [axes part_position]. unfold is_rotation in I. rewrite (sinv_l s R) in I. cbn [s_id rot] in I. replace (trace id3) with 3 in I by (unfold trace, id3; cbn; ring).
      destruct (Req_EM_T 3 3) as [_|X]; [|now contradiction X]. destruct (Req_EM_T (trace (rot s)) 3) as [T|T]; [|discriminate]. unfold act. cbn [rot tr]. now rewrite (rigid_trace3 _ R T). }
  destruct (is_translation (PGen s)) eqn:T; cbn [negb]; [reflexivity|].
  assert (Z : tr s = v0).
  { unfold is_translation in T. apply negb_false_iff in T. apply andb_prop in T as [T T3]. apply andb_prop in T as [T1 T2]. destruct s as [r [x y z]]. cbn in *.
    destruct (Req_EM_T x 0) as [->|]; [|discriminate]. destruct (Req_EM_T y 0) as [->|]; [|discriminate]. destruct (Req_EM_T z 0) as [->|]; [|discriminate]. reflexivity. }
  assert (Ang : snd (rotation_axis_angle (PGen s) u) <> 180).
  { pose proof (coordinates_rigid s R) as Q. unfold rotation_axis_angle. change (rot (sinv (axes (PGen s)))) with (coordinates (PGen s)). set (m := coordinates (PGen s)) in *. cbn [snd].
    destruct (cos_is m u Q E) as (A & B & _). assert (NT : trace m <> -1) by (unfold m, coordinates, trace, transpose in *; cbn in *; exact N).
    destruct (differ _ _); intro X; [lra|]. rewrite X, cosd_180 in A. apply NT. lra. }
  assert (K : forall w, fst (rotation_axis_angle (PGen s) u) = w -> (vx w = 0 \/ vy w = 0 \/ vz w = 0) -> rot s = transpose (around w (cosd (snd (rotation_axis_angle (PGen s) u))) (sind (snd (rotation_axis_angle (PGen s) u))))).
  { intros w W V. assert (U : u = w) by exact W. subst u. pose proof (C88_axis_in_plane s w R E V) as D. apply turns_around in D as [_ D]. unfold coordinates in D. cbn [axes] in D.
    rewrite W in D. rewrite <- D. now rewrite transpose_transpose. }
  destruct (rotation_axis_angle (PGen s) u) as [w a] eqn:W. cbn [fst snd] in *.
  assert (V : forall x y, veqb x y = true -> x = y).
  { intros [a1 a2 a3] [b1 b2 b3] H. unfold veqb in H. cbn in H. destruct (Req_EM_T a1 b1) as [->|]; [|discriminate]. destruct (Req_EM_T a2 b2) as [->|]; [|discriminate]. destruct (Req_EM_T a3 b3) as [->|]; [|discriminate]. reflexivity. }
  destruct (veqb w (mkV 1 0 0)) eqn:X1; [|destruct (veqb w (mkV 0 1 0)) eqn:X2; [|destruct (veqb w (mkV 0 0 1)) eqn:X3; [|reflexivity]]].
  - apply V in X1. specialize (K (mkV 1 0 0) X1 ltac:(cbn; auto)). unfold act. cbn [axes rot tr]. rewrite Z, K, cos_value_ok, (sin_value_ok a Ang). f_equal. f_equal. unfold transpose, around, mX. cbn. f_equal; ring.
  - apply V in X2. specialize (K (mkV 0 1 0) X2 ltac:(cbn; auto)). unfold act. cbn [axes rot tr]. rewrite Z, K, cos_value_ok, (sin_value_ok a Ang). f_equal. f_equal. unfold transpose, around, mY. cbn. f_equal; ring.
  - apply V in X3. specialize (K (mkV 0 0 1) X3 ltac:(cbn; auto)). unfold act. cbn [axes rot tr]. rewrite Z, K, cos_value_ok, (sin_value_ok a Ang). f_equal. f_equal. unfold transpose, around, mZ. cbn. f_equal; ring.
Qed.
Print Assumptions C88_specialization_keeps_map_partial.

(** A true half turn around x, as the product of two quarter turns, is replaced by RotationX(180), which is no rotation. *)
Theorem C88_specialized_half_turn_refuted : exists s u p, rigid (rot s) /\ eigenvector (coordinates (PGen s)) u /\ s = smul (axes (PX 90)) (axes (PX 90)) /\
  act (axes (specialization (PGen s) u)) p <> act s p.
Proof.
  set (s := smul (axes (PX 90)) (axes (PX 90))).
  assert (S : s = mkS (mkM 1 0 0 0 (-1) 0 0 0 (-1)) v0).
  { unfold s, smul. cbn [axes rot tr]. rewrite cos_value_ok, sin_value_ok by lra. rewrite cosd_90, sind_90. unfold mmul, mapply, mX, vadd, v0. cbn. f_equal; f_equal; ring. }
  assert (R : rigid (rot s)) by (rewrite S; unfold rigid, mmul, transpose, id3, det; cbn; repeat split; try (f_equal; ring); ring).
  assert (E : eigenvector (coordinates (PGen s)) (mkV 1 0 0)) by (split; [unfold coordinates; cbn [axes]; rewrite S; unfold mapply, transpose; cbn; f_equal; ring|unfold dot; cbn; ring]).
  exists s, (mkV 1 0 0), (mkV 0 0 1). split; [exact R|]. split; [exact E|]. split; [reflexivity|].
  unfold specialization.
  assert (I : is_rotation (PGen s) = true).
  { unfold is_rotation. rewrite (sinv_l s R). cbn [s_id rot]. replace (trace id3) with 3 by (unfold trace, id3; cbn; ring). destruct (Req_EM_T 3 3) as [_|X]; [|now contradiction X].
    rewrite S. cbn [rot]. destruct (Req_EM_T _ 3) as [X|X]; [|reflexivity]. unfold trace in X. cbn in X. lra. }
  assert (T : is_translation (PGen s) = false) by (unfold is_translation; rewrite S; cbn [tr v0 vx vy vz]; destruct (Req_EM_T 0 0) as [_|X]; [reflexivity|now contradiction X]).
  rewrite I, T. cbn [negb].
  assert (A : trace_angle (coordinates (PGen s)) = 180).
  { unfold trace_angle. replace (trace (coordinates (PGen s))) with (-1) by (unfold coordinates; cbn [axes]; rewrite S; unfold trace, transpose; cbn; ring).
    replace ((-1 - 1) / 2) with (-1) by field. destruct (Rlt_dec 1 (Rabs (-1))) as [L|_]; [exfalso; rewrite Rabs_left in L; lra|]. unfold acos_degree. replace (-1) with (- (1)) by ring. rewrite acos_opp, acos_1. pose proof PI_RGT_0. field. lra. }
  assert (D : differ (coordinates (PGen s)) (recomputed (mkV 1 0 0) 180) = false).
  { rewrite recomputed_around by (unfold dot; cbn; ring). rewrite cosd_180. unfold coordinates. cbn [axes]. rewrite S. destruct (differ _ _) eqn:X; [|reflexivity]. exfalso. apply differ_spec in X. unfold around, transpose in X. cbn in X. lra. }
  unfold rotation_axis_angle. change (rot (sinv (axes (PGen s)))) with (coordinates (PGen s)). rewrite A, D.
  assert (V : veqb (mkV 1 0 0) (mkV 1 0 0) = true) by (unfold veqb; cbn; repeat (destruct (Req_EM_T _ _) as [_|X]; [|now contradiction X]); reflexivity).
  rewrite V. intro H. apply (f_equal vy) in H. rewrite S in H. unfold act, mapply, vadd in H. cbn in H. unfold sin_value in H. repeat (destruct (Req_EM_T _ _) in H; try lra).
Qed.
Print Assumptions C88_specialized_half_turn_refuted.

(** a third of a turn less a little around the diagonal: the vector of eig may have either sense *)
Example C88_example : let p := PGen (mkS (transpose (around diagonal (cosd 119) (sind 119))) v0) in
  turns (coordinates p) diagonal 119 /\ describes p (rotation_axis_angle p diagonal) /\ describes p (rotation_axis_angle p (vneg diagonal)).
Proof.
  cbv zeta. pose proof diagonal_square as D. assert (U : dot diagonal diagonal = 1) by (unfold dot, diagonal; cbn; lra).
  set (s := mkS (transpose (around diagonal (cosd 119) (sind 119))) v0).
  assert (R : rigid (rot s)) by (cbn; apply rigid_transpose, around_rigid; [exact U|apply circle]).
  assert (M : coordinates (PGen s) = around diagonal (cosd 119) (sind 119)) by (unfold coordinates; cbn [axes rot s]; apply transpose_transpose).
  assert (T : turns (coordinates (PGen s)) diagonal 119) by (apply turns_around; split; [exact U|exact M]).
  assert (E : eigenvector (coordinates (PGen s)) diagonal).
  { split; [|exact U]. rewrite M, around_apply. unfold cross, vadd, dot, diagonal in *. cbn in *. set (k := cosd 119). set (d := / sqrt 3) in *.
    assert (K : (1 - k) * (d * d + d * d + d * d) = 1 - k) by (rewrite U; ring). assert (K2 : (1 - k) * (d * d + d * d + d * d) * d = (1 - k) * d) by (rewrite K; ring). f_equal; lra. }
  split; [exact T|]. split.
  - apply (C88_right_handed_axis s diagonal 119 R); [lra|exact T].
  - apply (C88_below_120_degrees_partial s (vneg diagonal) diagonal 119 R); [|lra|exact T]. destruct E as [E1 _]. split; [now rewrite mapply_neg, E1|unfold dot, vneg in *; cbn; lra].
Qed.
