(** The axis and the angle of a rotation: Part.rotation_axis_angle and Part.specialization in
    /repo/src/mccode_antlr/instr/orientation.py. As in Orient.v, entries are real numbers and the arithmetic is exact. *)
From Coq Require Import Bool Reals List Lra Lia Psatz.
From Verif Require Import Orient.
Import ListNotations.
Local Open Scope bool_scope.
Local Open Scope R_scope.

(** Vector.cross_matrix, orientation.py:111-113 *)
Definition cross_matrix (v : V3) : M3 := mkM 0 (- vz v) (vy v) (vz v) 0 (- vx v) (- vy v) (vx v) 0.
(** Matrix.__add__, orientation.py:63-69 *)
Definition madd (a b : M3) : M3 :=
  mkM (xx a + xx b) (xy a + xy b) (xz a + xz b) (yx a + yx b) (yy a + yy b) (yz a + yz b) (zx a + zx b) (zy a + zy b) (zz a + zz b).
(** Matrix.__mul__ with a number, orientation.py:57-61 *)
Definition mscale (a : M3) (k : R) : M3 := mkM (xx a * k) (xy a * k) (xz a * k) (yx a * k) (yy a * k) (yz a * k) (zx a * k) (zy a * k) (zz a * k).
(** the entries in order of the index, orientation.py:490 *)
Definition entries (a : M3) : list R := [xx a; xy a; xz a; yx a; yy a; yz a; zx a; zy a; zz a].
(** acos_degree, orientation.py:317-319 *)
Definition acos_degree (v : R) : R := acos v / PI * 180.
(** orientation.py:479-483: the angle from the trace, with the cosine forced between -1 and 1 *)
Definition trace_angle (flat : M3) : R :=
  let c := (trace flat - 1) / 2 in
  acos_degree (if Rlt_dec 1 (Rabs c) then if Rlt_dec 0 c then 1 else -1 else c).
(** orientation.py:487-488, the rotation that axis and angle are compared by *)
Definition recomputed (axis : V3) (angle : R) : M3 :=
  let a := cross_matrix axis in
  madd (madd id3 (mscale a (sin_value angle))) (mscale (mmul a a) (1 - cos_value angle)).
(** orientation.py:490: any(flat[index] * r[index] < 0) *)
Definition differ (flat r : M3) : bool := existsb (fun p => if Rlt_dec (fst p * snd p) 0 then true else false) (combine (entries flat) (entries r)).
(** Part.rotation_axis_angle, orientation.py:460-490; [axis] is the eigenvector that numpy.linalg.eig returns (473-478).
    A TranslationPart raises an error (583-585); it is not asked here. *)
Definition rotation_axis_angle (p : part) (axis : V3) : V3 * R :=
  match p with
  | PX a => (mkV 1 0 0, a)          (* RotationPart 632-634, RotationX 670-672 *)
  | PY a => (mkV 0 1 0, a)          (* RotationY 691-693 *)
  | PZ a => (mkV 0 0 1, a)          (* RotationZ 712-714 *)
  | _ => let flat := rot (sinv (axes p)) in
         let angle := trace_angle flat in
         (axis, if differ flat (recomputed axis angle) then - angle else angle)
  end.
(** what eig guarantees of the vector it returns for the eigenvalue 1: fixed by the matrix and of length one.
    Its sign is not determined. *)
Definition eigenvector (m : M3) (u : V3) : Prop := mapply m u = u /\ dot u u = 1.

(** Part.is_rotation, orientation.py:447-453, without the rounding to 12 digits; TranslationPart 579-581, RotationPart 624-626 *)
Definition is_rotation (p : part) : bool :=
  match p with
  | PGen s => if Req_EM_T (trace (rot (smul (sinv s) s))) 3 then if Req_EM_T (trace (rot s)) 3 then false else true else false
  | PTrans _ => false
  | PX a | PY a | PZ a => if Req_EM_T a 0 then false else true
  end.
(** Part.is_translation, orientation.py:443-445, 575-577, 620-622 *)
Definition is_translation (p : part) : bool :=
  match p with
  | PGen s => negb ((if Req_EM_T (vx (tr s)) 0 then true else false) && (if Req_EM_T (vy (tr s)) 0 then true else false) && (if Req_EM_T (vz (tr s)) 0 then true else false))
  | PTrans _ => true
  | _ => false
  end.
(** equality of vectors as used in orientation.py:544-548 *)
Definition veqb (a b : V3) : bool := (if Req_EM_T (vx a) (vx b) then true else false) && (if Req_EM_T (vy a) (vy b) then true else false) && (if Req_EM_T (vz a) (vz b) then true else false).
(** position of a part, orientation.py:514-515, 594-595, 640-642 *)
Definition part_position (p : part) : V3 := tr (axes p).
(** Part.specialization, orientation.py:539-550; [axis] as above *)
Definition specialization (p : part) (axis : V3) : part :=
  if negb (is_rotation p) then PTrans (part_position p)
  else if negb (is_translation p) then
    let (u, a) := rotation_axis_angle p axis in
    if veqb u (mkV 1 0 0) then PX a else if veqb u (mkV 0 1 0) then PY a else if veqb u (mkV 0 0 1) then PZ a else p
  else p.

(** * Facts about rotations *)
(** the part of the rotation around its axis, up to sign: the sine *)
Definition sense (m : M3) (u : V3) : R := ((zy m - yz m) * vx u + (xz m - zx m) * vy u + (yx m - xy m) * vz u) / 2.
(** the matrix of a rotation around u with cosine c and sine s *)
Definition around (u : V3) (c s : R) : M3 :=
  let k := 1 - c in
  mkM (c + k * (vx u * vx u)) (k * (vx u * vy u) - s * vz u) (k * (vx u * vz u) + s * vy u)
      (k * (vx u * vy u) + s * vz u) (c + k * (vy u * vy u)) (k * (vy u * vz u) - s * vx u)
      (k * (vx u * vz u) - s * vy u) (k * (vy u * vz u) + s * vx u) (c + k * (vz u * vz u)).

Definition adj (m : M3) : M3 :=
  mkM (yy m * zz m - yz m * zy m) (xz m * zy m - xy m * zz m) (xy m * yz m - xz m * yy m)
      (yz m * zx m - yx m * zz m) (xx m * zz m - xz m * zx m) (xz m * yx m - xx m * yz m)
      (yx m * zy m - yy m * zx m) (xy m * zx m - xx m * zy m) (xx m * yy m - xy m * yx m).
Definition cross (a b : V3) : V3 := mkV (vy a * vz b - vz a * vy b) (vz a * vx b - vx a * vz b) (vx a * vy b - vy a * vx b).

Lemma adj_rigid m : rigid m -> adj m = transpose m.
Proof.
  intros (_ & A & D).
  assert (E : mmul (adj m) m = id3).
  { unfold mmul, adj, id3; cbn. unfold det in D. f_equal; try ring; rewrite <- D; ring. }
  rewrite <- (mmul_id_r (adj m)), <- A, mmul_assoc, E. apply mmul_id_l.
Qed.
Lemma fixed_cross m a b : rigid m -> mapply m a = a -> mapply m b = b -> mapply m (cross a b) = cross a b.
Proof.
  intros R A B. pose proof (adj_rigid m R) as T. apply (f_equal transpose) in T. rewrite transpose_transpose in T. rewrite <- T.
  rewrite <- A at 2. rewrite <- B at 2. unfold mapply, cross, transpose, adj; cbn. f_equal; ring.
Qed.
Lemma form_nn m u v : let n := cross u v in
  dot n (mapply m n) = (dot u u * dot v v - dot u v * dot u v) * trace m - dot v v * dot u (mapply m u) - dot u u * dot v (mapply m v) + dot u v * (dot u (mapply m v) + dot v (mapply m u)).
Proof. cbn zeta. unfold dot, mapply, cross, trace; cbn. ring. Qed.
Lemma square_0 a b c : a * a + b * b + c * c = 0 -> a = 0 /\ b = 0 /\ c = 0.
Proof. intro H. repeat split; nra. Qed.
Lemma mapply_lin m u v k : mapply m (mkV (vx v - k * vx u) (vy v - k * vy u) (vz v - k * vz u)) =
  mkV (vx (mapply m v) - k * vx (mapply m u)) (vy (mapply m v) - k * vy (mapply m u)) (vz (mapply m v) - k * vz (mapply m u)).
Proof. unfold mapply; cbn. f_equal; ring. Qed.
Lemma fixed_parallel m u v : rigid m -> eigenvector m u -> mapply m v = v -> trace m <> 3 -> vx v = dot u v * vx u /\ vy v = dot u v * vy u /\ vz v = dot u v * vz u.
Proof.
  intros R [E U] V T. set (k := dot u v).
  set (w := mkV (vx v - k * vx u) (vy v - k * vy u) (vz v - k * vz u)).
  assert (W : mapply m w = w).
  { unfold w. rewrite mapply_lin, V, E. reflexivity. }
  assert (D : dot u w = 0).
  { unfold w, k. unfold dot in *. cbn. replace (_ + _) with ((vx u * vx v + vy u * vy v + vz u * vz v) * (1 - (vx u * vx u + vy u * vy u + vz u * vz u))) by ring. rewrite U. ring. }
  pose proof (form_nn m u w) as F. cbv zeta in F. rewrite (fixed_cross m u w R E W), E, W, D, U in F.
  assert (C : dot (cross u w) (cross u w) = dot u u * dot w w - dot u w * dot u w) by (unfold dot, cross; cbn; ring).
  rewrite C, D, U in F. assert (Z : dot w w = 0) by (assert (dot w w * (3 - trace m) = 0) by lra; destruct (Rmult_integral _ _ H); [assumption|exfalso; apply T; lra]).
  unfold dot in Z. apply square_0 in Z as (Z1 & Z2 & Z3). unfold w in *. cbn in *. repeat split; lra.
Qed.
(** column j of m + transposed m - (trace - 1) *)
Lemma column_fixed m : rigid m ->
  let k := trace m - 1 in
  mapply m (mkV (2 * xx m - k) (xy m + yx m) (xz m + zx m)) = mkV (2 * xx m - k) (xy m + yx m) (xz m + zx m) /\
  mapply m (mkV (xy m + yx m) (2 * yy m - k) (yz m + zy m)) = mkV (xy m + yx m) (2 * yy m - k) (yz m + zy m) /\
  mapply m (mkV (xz m + zx m) (yz m + zy m) (2 * zz m - k)) = mkV (xz m + zx m) (yz m + zy m) (2 * zz m - k).
Proof.
  intro R. cbn zeta. pose proof (adj_rigid m R) as J. destruct R as (_ & A & _). destruct m. unfold adj, transpose, mmul, mapply, trace, id3 in *. cbn in *.
  injection J as J1 J2 J3 J4 J5 J6 J7 J8 J9. injection A as A1 A2 A3 A4 A5 A6 A7 A8 A9.
  repeat split; f_equal; lra.
Qed.
Lemma rigid_around m u : rigid m -> eigenvector m u -> m = around u ((trace m - 1) / 2) (sense m u) /\ sense m u * sense m u + (trace m - 1) / 2 * ((trace m - 1) / 2) = 1.
Proof.
  intros R EU. pose proof EU as [E U].
  assert (F : m = around u ((trace m - 1) / 2) (sense m u)).
  { destruct (Req_EM_T (trace m) 3) as [T|T].
    - pose proof (rigid_trace3 m R T) as ->. unfold around, sense, trace, id3; cbn. f_equal; lra.
    - destruct (column_fixed m R) as (C1 & C2 & C3).
      destruct (fixed_parallel _ _ _ R EU C1 T) as (P1 & P2 & P3). destruct (fixed_parallel _ _ _ R EU C2 T) as (Q1 & Q2 & Q3). destruct (fixed_parallel _ _ _ R EU C3 T) as (S1 & S2 & S3).
      cbn [vx vy vz] in *.
      assert (E' : mapply (transpose m) u = u).
      { rewrite <- E at 1. rewrite <- mapply_mmul. destruct R as (A & _). rewrite A. apply mapply_id. }
      assert (K : dot u (mkV (2 * xx m - (trace m - 1)) (xy m + yx m) (xz m + zx m)) = (3 - trace m) * vx u /\
                  dot u (mkV (xy m + yx m) (2 * yy m - (trace m - 1)) (yz m + zy m)) = (3 - trace m) * vy u /\
                  dot u (mkV (xz m + zx m) (yz m + zy m) (2 * zz m - (trace m - 1))) = (3 - trace m) * vz u).
      { set (t := trace m) in *. unfold mapply, transpose in E, E'. destruct u as [ux uy uz]. unfold dot. cbn in *. injection E as E1 E2 E3. injection E' as G1 G2 G3. repeat split; lra. }
      destruct K as (K1 & K2 & K3). rewrite K1 in *. rewrite K2 in *. rewrite K3 in *.
      (* the axial vector is parallel to u *)
      set (a := zy m - yz m). set (b := xz m - zx m). set (c := yx m - xy m).
      assert (W : a = 2 * sense m u * vx u /\ b = 2 * sense m u * vy u /\ c = 2 * sense m u * vz u).
      { assert (X : b * vz u - c * vy u = 0 /\ c * vx u - a * vz u = 0 /\ a * vy u - b * vx u = 0).
        { unfold a, b, c. unfold mapply, transpose in E, E'. destruct u as [ux uy uz]. cbn in *. injection E as E1 E2 E3. injection E' as G1 G2 G3. repeat split; lra. }
        destruct X as (X1 & X2 & X3). unfold sense. fold a b c. unfold dot in U.
        replace (2 * ((a * vx u + b * vy u + c * vz u) / 2)) with (a * vx u + b * vy u + c * vz u) by field.
        repeat split.
        - transitivity (a * (vx u * vx u + vy u * vy u + vz u * vz u)); [rewrite U; ring|].
          replace (a * (vx u * vx u + vy u * vy u + vz u * vz u)) with ((a * vx u + b * vy u + c * vz u) * vx u + (a * vy u - b * vx u) * vy u - (c * vx u - a * vz u) * vz u) by ring. rewrite X2, X3. ring.
        - transitivity (b * (vx u * vx u + vy u * vy u + vz u * vz u)); [rewrite U; ring|].
          replace (b * (vx u * vx u + vy u * vy u + vz u * vz u)) with ((a * vx u + b * vy u + c * vz u) * vy u - (a * vy u - b * vx u) * vx u + (b * vz u - c * vy u) * vz u) by ring. rewrite X1, X3. ring.
        - transitivity (c * (vx u * vx u + vy u * vy u + vz u * vz u)); [rewrite U; ring|].
          replace (c * (vx u * vx u + vy u * vy u + vz u * vz u)) with ((a * vx u + b * vy u + c * vz u) * vz u + (c * vx u - a * vz u) * vx u - (b * vz u - c * vy u) * vy u) by ring. rewrite X1, X2. ring. }
      destruct W as (W1 & W2 & W3). unfold a, b, c in *. clear a b c.
      remember (sense m u) as s eqn:Hs. clear Hs. remember (trace m) as t eqn:Ht. clear Ht C1 C2 C3 K1 K2 K3 E E' EU R. unfold around. destruct m. cbn in *. f_equal; lra. }
  split; [exact F|].
  destruct R as (A & _ & _). set (c := (trace m - 1) / 2) in *. set (s := sense m u) in *. clearbody c s. subst m. clear E EU. unfold mmul, transpose, id3, around, dot in *. cbn in A. injection A as A1 A2 A3 A4 A5 A6 A7 A8 A9.
  set (x := vx u) in *. set (y := vy u) in *. set (z := vz u) in *. clearbody x y z.
  assert (S : 3 * (c * c) + 2 * (c * (1 - c)) * (x * x + y * y + z * z) + (1 - c) * (1 - c) * ((x * x + y * y + z * z) * (x * x + y * y + z * z)) + 2 * (s * s) * (x * x + y * y + z * z) = 3).
  { etransitivity; [|etransitivity; [exact (f_equal2 Rplus (f_equal2 Rplus A1 A5) A9)|ring]]. ring. }
  rewrite U in S. lra.
Qed.
Lemma around_transpose u c s : transpose (around u c s) = around u c (- s).
Proof. unfold transpose, around; cbn. f_equal; ring. Qed.
Lemma around_apply u c s v : mapply (around u c s) v = vadd (vadd (mkV (c * vx v) (c * vy v) (c * vz v)) (mkV (s * vx (cross u v)) (s * vy (cross u v)) (s * vz (cross u v)))) (mkV ((1 - c) * dot u v * vx u) ((1 - c) * dot u v * vy u) ((1 - c) * dot u v * vz u)).
Proof. unfold mapply, around, vadd, cross, dot; cbn. f_equal; ring. Qed.
Lemma recomputed_around u a : dot u u = 1 -> recomputed u a = around u (cosd a) (sin_value a).
Proof.
  intro U. unfold recomputed, around, madd, mscale, mmul, cross_matrix, id3. rewrite cos_value_ok. unfold dot in U. destruct u as [x y z]. cbn in *.
  assert (K : (1 - cosd a) * (x * x + y * y + z * z) = 1 - cosd a) by (rewrite U; ring). f_equal; lra.
Qed.
Lemma sind_acos c : -1 <= c <= 1 -> cosd (acos_degree c) = c /\ 0 <= acos_degree c <= 180 /\ 0 <= sind (acos_degree c).
Proof.
  intro H. pose proof PI_RGT_0 as P. unfold cosd, sind, acos_degree. replace (acos c / PI * 180 / 180 * PI) with (acos c) by (field; lra).
  split; [now apply cos_acos|]. pose proof (acos_bound c) as B. split.
  - split; [apply Rmult_le_pos; [apply Rmult_le_pos; [lra|left; now apply Rinv_0_lt_compat]|lra]|].
    assert (acos c / PI <= 1) by (apply Rmult_le_reg_r with PI; [lra|]; unfold Rdiv; rewrite Rmult_assoc, Rinv_l by lra; lra). lra.
  - apply sin_ge_0; lra.
Qed.
