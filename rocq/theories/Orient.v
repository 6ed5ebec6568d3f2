(** Rotations, Seitz matrices and chains of parts:
    /repo/src/mccode_antlr/instr/orientation.py.

    Every entry of the Python matrices is an expression; here it is the real number the
    expression denotes, so the arithmetic is exact (floating point rounding is absent).
    [Req_EM_T] decides equality of reals where the code tests a value. *)
From Coq Require Import Bool Reals List Lra Lia Psatz.
Import ListNotations.
Local Open Scope bool_scope.
Local Open Scope R_scope.

(** * Vectors and matrices *)
Record V3 := mkV { vx : R; vy : R; vz : R }.
(** Rotation, orientation.py:160-175 *)
Record M3 := mkM { xx : R; xy : R; xz : R; yx : R; yy : R; yz : R; zx : R; zy : R; zz : R }.

Definition vadd (a b : V3) : V3 := mkV (vx a + vx b) (vy a + vy b) (vz a + vz b).  (* Vector.__add__ 107 *)
Definition vsub (a b : V3) : V3 := mkV (vx a - vx b) (vy a - vy b) (vz a - vz b).  (* Vector.__sub__ 110 *)
Definition vneg (a : V3) : V3 := mkV (- vx a) (- vy a) (- vz a).
(** Vector of zeros, orientation.py:90-93 *)
Definition v0 : V3 := mkV 0 0 0.
(** specification: scalar product *)
Definition dot (a b : V3) : R := vx a * vx b + vy a * vy b + vz a * vz b.

(** Rotation.__mul__ with a Rotation, orientation.py:191-202 *)
Definition mmul (a b : M3) : M3 :=
  mkM (xx a * xx b + xy a * yx b + xz a * zx b) (xx a * xy b + xy a * yy b + xz a * zy b) (xx a * xz b + xy a * yz b + xz a * zz b)
      (yx a * xx b + yy a * yx b + yz a * zx b) (yx a * xy b + yy a * yy b + yz a * zy b) (yx a * xz b + yy a * yz b + yz a * zz b)
      (zx a * xx b + zy a * yx b + zz a * zx b) (zx a * xy b + zy a * yy b + zz a * zy b) (zx a * xz b + zy a * yz b + zz a * zz b).
(** Rotation.__mul__ with a Vector, orientation.py:187-190 *)
Definition mapply (a : M3) (v : V3) : V3 :=
  mkV (xx a * vx v + xy a * vy v + xz a * vz v)
      (yx a * vx v + yy a * vy v + yz a * vz v)
      (zx a * vx v + zy a * vy v + zz a * vz v).
(** Rotation.transpose 180-181, Rotation.inverse 183-184 *)
Definition transpose (a : M3) : M3 := mkM (xx a) (yx a) (zx a) (xy a) (yy a) (zy a) (xz a) (yz a) (zz a).
(** Rotation(), orientation.py:160-175 *)
Definition id3 : M3 := mkM 1 0 0 0 1 0 0 0 1.
(** the trace, as in Seitz.trace, orientation.py:280-282 *)
Definition trace (a : M3) : R := xx a + yy a + zz a.
(** specification: determinant *)
Definition det (a : M3) : R :=
  xx a * (yy a * zz a - yz a * zy a) - xy a * (yx a * zz a - yz a * zx a) + xz a * (yx a * zy a - yy a * zx a).

Ltac m3 := unfold mmul, mapply, transpose, id3, vadd, vsub, vneg, v0, dot in *; cbn in *; f_equal; ring.

Lemma mmul_assoc a b c : mmul a (mmul b c) = mmul (mmul a b) c.
Proof. destruct a, b, c. m3. Qed.
Lemma mmul_id_l a : mmul id3 a = a.
Proof. destruct a. m3. Qed.
Lemma mmul_id_r a : mmul a id3 = a.
Proof. destruct a. m3. Qed.
Lemma mapply_mmul a b v : mapply (mmul a b) v = mapply a (mapply b v).
Proof. destruct a, b, v. m3. Qed.
Lemma mapply_id v : mapply id3 v = v.
Proof. destruct v. m3. Qed.
Lemma mapply_add a v w : mapply a (vadd v w) = vadd (mapply a v) (mapply a w).
Proof. destruct a, v, w. m3. Qed.
Lemma mapply_sub a v w : mapply a (vsub v w) = vsub (mapply a v) (mapply a w).
Proof. destruct a, v, w. m3. Qed.
Lemma mapply_neg a v : mapply a (vneg v) = vneg (mapply a v).
Proof. destruct a, v. m3. Qed.
Lemma mapply_0 a : mapply a v0 = v0.
Proof. destruct a. m3. Qed.
Lemma transpose_mmul a b : transpose (mmul a b) = mmul (transpose b) (transpose a).
Proof. destruct a, b. m3. Qed.
Lemma transpose_id : transpose id3 = id3. Proof. reflexivity. Qed.
Lemma transpose_transpose a : transpose (transpose a) = a. Proof. now destruct a. Qed.
Lemma vadd_0_r v : vadd v v0 = v. Proof. destruct v. m3. Qed.
Lemma vadd_0_l v : vadd v0 v = v. Proof. destruct v. m3. Qed.
Lemma det_mmul a b : det (mmul a b) = det a * det b.
Proof. destruct a, b. unfold det, mmul. cbn. ring. Qed.
Lemma det_transpose a : det (transpose a) = det a.
Proof. destruct a. unfold det, transpose. cbn. ring. Qed.
Lemma det_id : det id3 = 1. Proof. unfold det, id3. cbn. ring. Qed.

(** * Rigid motions *)
Definition rigid (a : M3) : Prop :=
  mmul (transpose a) a = id3 /\ mmul a (transpose a) = id3 /\ det a = 1.
Lemma rigid_id : rigid id3.
Proof. repeat split; [m3|m3|apply det_id]. Qed.
Lemma rigid_mmul a b : rigid a -> rigid b -> rigid (mmul a b).
Proof.
  intros (A1 & A2 & A3) (B1 & B2 & B3). repeat split.
  - rewrite transpose_mmul, mmul_assoc, <- (mmul_assoc _ (transpose a) a), A1, mmul_id_r. exact B1.
  - rewrite transpose_mmul, mmul_assoc, <- (mmul_assoc a b _), B2, mmul_id_r. exact A2.
  - rewrite det_mmul, A3, B3. ring.
Qed.
Lemma rigid_transpose a : rigid a -> rigid (transpose a).
Proof. intros (A1 & A2 & A3). repeat split; rewrite ?transpose_transpose, ?det_transpose; auto. Qed.
Lemma rigid_dot a v w : rigid a -> dot (mapply a v) (mapply a w) = dot v w.
Proof.
  intros (A & _ & _). destruct a, v, w. unfold mmul, transpose, mapply, dot, id3 in *. cbn in *.
  injection A as E1 E2 E3 E4 E5 E6 E7 E8 E9.
  replace (_ + _) with
    (vx0 * vx1 * (xx0 * xx0 + yx0 * yx0 + zx0 * zx0) + vx0 * vy1 * (xx0 * xy0 + yx0 * yy0 + zx0 * zy0) +
     vx0 * vz1 * (xx0 * xz0 + yx0 * yz0 + zx0 * zz0) + vy0 * vx1 * (xy0 * xx0 + yy0 * yx0 + zy0 * zx0) +
     vy0 * vy1 * (xy0 * xy0 + yy0 * yy0 + zy0 * zy0) + vy0 * vz1 * (xy0 * xz0 + yy0 * yz0 + zy0 * zz0) +
     vz0 * vx1 * (xz0 * xx0 + yz0 * yx0 + zz0 * zx0) + vz0 * vy1 * (xz0 * xy0 + yz0 * yy0 + zz0 * zy0) +
     vz0 * vz1 * (xz0 * xz0 + yz0 * yz0 + zz0 * zz0)) by ring.
  rewrite E1, E2, E3, E4, E5, E6, E7, E8, E9. ring.
Qed.

Lemma unit_row a b c : a * a + b * b + c * c = 1 -> a <= 1.
Proof. intro H. nra. Qed.
Lemma unit_row_one b c : 1 * 1 + b * b + c * c = 1 -> b = 0 /\ c = 0.
Proof. intro H. split; nra. Qed.
(** the code's identity test is exact for rigid matrices *)
Lemma rigid_trace3 a : rigid a -> trace a = 3 -> a = id3.
Proof.
  intros (_ & A & _) T. destruct a. unfold mmul, transpose, id3, trace in *. cbn in *.
  injection A as E1 E2 E3 E4 E5 E6 E7 E8 E9.
  assert (xx0 <= 1) by (eapply unit_row; eauto).
  assert (yy0 <= 1) by (apply (unit_row yy0 yx0 yz0); lra).
  assert (zz0 <= 1) by (apply (unit_row zz0 zx0 zy0); lra).
  assert (xx0 = 1) by lra. assert (yy0 = 1) by lra. assert (zz0 = 1) by lra. subst.
  destruct (unit_row_one xy0 xz0) as [-> ->]; [lra|].
  destruct (unit_row_one yx0 yz0) as [-> ->]; [lra|].
  destruct (unit_row_one zx0 zy0) as [-> ->]; [lra|]. reflexivity.
Qed.

(** * Rotation.from_angles, orientation.py:209-222 *)
(** The cosine and sine used: [cosd]/[sind] for numbers in degrees, [cos]/[sin] for
    radian; the functions below take them as arguments. *)
Definition cosd (a : R) : R := cos (a / 180 * PI).   (* cos_degree 302-304 *)
Definition sind (a : R) : R := sin (a / 180 * PI).   (* sin_degree 307-309 *)

Section FromAngles.
  Variables c s : R -> R.
  (** orientation.py:209-222 *)
  Definition rx (a : R) : M3 := if Req_EM_T a 0 then id3 else mkM 1 0 0 0 (c a) (s a) 0 (- s a) (c a).
  (** orientation.py:209-222 *)
  Definition ry (a : R) : M3 := if Req_EM_T a 0 then id3 else mkM (c a) 0 (- s a) 0 1 0 (s a) 0 (c a).
  (** orientation.py:209-222 *)
  Definition rz (a : R) : M3 := if Req_EM_T a 0 then id3 else mkM (c a) (s a) 0 (- s a) (c a) 0 0 0 1.
  (** orientation.py:209-222 *)
  Definition from_angles (a : V3) : M3 := mmul (rz (vz a)) (mmul (ry (vy a)) (rx (vx a))).
End FromAngles.

(** * cos_value and sin_value, orientation.py:334-356 *)
Definition cos_value (a : R) : R :=
  if Req_EM_T a 0 then 1 else if Req_EM_T a 90 then 0 else if Req_EM_T a 180 then -1 else cosd a.
(** orientation.py:347-356 *)
Definition sin_value (a : R) : R :=
  if Req_EM_T a 0 then 0 else if Req_EM_T a 90 then 1 else if Req_EM_T a 180 then -1 else sind a.

(** single axis rotation matrices as laid out in RotationX 658, RotationY 679,
    RotationZ 700 *)
Definition mX (c s : R) : M3 := mkM 1 0 0 0 c s 0 (- s) c.
(** orientation.py:675-679 *)
Definition mY (c s : R) : M3 := mkM c 0 (- s) 0 1 0 s 0 c.
(** orientation.py:696-700 *)
Definition mZ (c s : R) : M3 := mkM c s 0 (- s) c 0 0 0 1.

Lemma mX_rigid c s : c * c + s * s = 1 -> rigid (mX c s).
Proof. intro H. unfold rigid, mX, mmul, transpose, id3, det; cbn. repeat split; [f_equal; nra|f_equal; nra|nra]. Qed.
Lemma mY_rigid c s : c * c + s * s = 1 -> rigid (mY c s).
Proof. intro H. unfold rigid, mY, mmul, transpose, id3, det; cbn. repeat split; [f_equal; nra|f_equal; nra|nra]. Qed.
Lemma mZ_rigid c s : c * c + s * s = 1 -> rigid (mZ c s).
Proof. intro H. unfold rigid, mZ, mmul, transpose, id3, det; cbn. repeat split; [f_equal; nra|f_equal; nra|nra]. Qed.

Lemma circle a : cosd a * cosd a + sind a * sind a = 1.
Proof. unfold cosd, sind. pose proof (sin2_cos2 (a / 180 * PI)) as H. unfold Rsqr in H. lra. Qed.

Lemma cosd_0 : cosd 0 = 1. Proof. unfold cosd. replace (0 / 180 * PI) with 0 by field. apply cos_0. Qed.
Lemma sind_0 : sind 0 = 0. Proof. unfold sind. replace (0 / 180 * PI) with 0 by field. apply sin_0. Qed.
Lemma cosd_90 : cosd 90 = 0. Proof. unfold cosd. replace (90 / 180 * PI) with (PI / 2) by field. apply cos_PI2. Qed.
Lemma sind_90 : sind 90 = 1. Proof. unfold sind. replace (90 / 180 * PI) with (PI / 2) by field. apply sin_PI2. Qed.
Lemma cosd_180 : cosd 180 = -1. Proof. unfold cosd. replace (180 / 180 * PI) with PI by field. apply cos_PI. Qed.
Lemma sind_180 : sind 180 = 0. Proof. unfold sind. replace (180 / 180 * PI) with PI by field. apply sin_PI. Qed.
Lemma cosd_neg a : cosd (- a) = cosd a.
Proof. unfold cosd. replace (- a / 180 * PI) with (- (a / 180 * PI)) by field. apply cos_neg. Qed.
Lemma sind_neg a : sind (- a) = - sind a.
Proof. unfold sind. replace (- a / 180 * PI) with (- (a / 180 * PI)) by field. apply sin_neg. Qed.
Lemma cosd_plus a b : cosd (a + b) = cosd a * cosd b - sind a * sind b.
Proof. unfold cosd, sind. replace ((a + b) / 180 * PI) with (a / 180 * PI + b / 180 * PI) by field. apply cos_plus. Qed.
Lemma sind_plus a b : sind (a + b) = sind a * cosd b + cosd a * sind b.
Proof. unfold cosd, sind. replace ((a + b) / 180 * PI) with (a / 180 * PI + b / 180 * PI) by field. apply sin_plus. Qed.

Lemma cos_value_ok a : cos_value a = cosd a.
Proof.
  unfold cos_value. destruct (Req_EM_T a 0) as [->|]; [now rewrite cosd_0|].
  destruct (Req_EM_T a 90) as [->|]; [now rewrite cosd_90|].
  destruct (Req_EM_T a 180) as [->|]; [now rewrite cosd_180|]. reflexivity.
Qed.
Lemma sin_value_ok a : a <> 180 -> sin_value a = sind a.
Proof.
  intro H. unfold sin_value. destruct (Req_EM_T a 0) as [->|]; [now rewrite sind_0|].
  destruct (Req_EM_T a 90) as [->|]; [now rewrite sind_90|].
  destruct (Req_EM_T a 180); [contradiction|]. reflexivity.
Qed.

(** * Seitz matrices, orientation.py:228-300 *)
Record seitz := mkS { rot : M3; tr : V3 }.
(** Seitz(), orientation.py:228-240 *)
Definition s_id : seitz := mkS id3 v0.
(** Seitz.__mul__ 284-297 *)
Definition smul (a b : seitz) : seitz := mkS (mmul (rot a) (rot b)) (vadd (mapply (rot a) (tr b)) (tr a)).
(** Seitz.inverse 263-277 *)
Definition sinv (a : seitz) : seitz :=
  let i := transpose (rot a) in mkS i (vneg (mapply i (tr a))).
(** the map a Seitz matrix describes *)
Definition act (a : seitz) (p : V3) : V3 := vadd (mapply (rot a) p) (tr a).

Lemma vadd_assoc a b c : vadd a (vadd b c) = vadd (vadd a b) c.
Proof. destruct a, b, c. m3. Qed.
Lemma act_smul a b p : act (smul a b) p = act a (act b p).
Proof. unfold act, smul. cbn. rewrite mapply_mmul, mapply_add, vadd_assoc. reflexivity. Qed.
Lemma act_id p : act s_id p = p.
Proof. unfold act, s_id. cbn. now rewrite mapply_id, vadd_0_r. Qed.
Lemma smul_assoc a b c : smul a (smul b c) = smul (smul a b) c.
Proof.
  unfold smul. cbn. f_equal; [apply mmul_assoc|].
  rewrite mapply_add, mapply_mmul, vadd_assoc. reflexivity.
Qed.
Lemma smul_id_l a : smul s_id a = a.
Proof. destruct a. unfold smul, s_id. cbn. now rewrite mmul_id_l, mapply_id, vadd_0_r. Qed.
Lemma smul_id_r a : smul a s_id = a.
Proof. destruct a. unfold smul, s_id. cbn. now rewrite mmul_id_r, mapply_0, vadd_0_l. Qed.
Lemma vadd_neg_l v : vadd (vneg v) v = v0. Proof. destruct v. m3. Qed.
Lemma vadd_neg_r v : vadd v (vneg v) = v0. Proof. destruct v. m3. Qed.
Lemma sinv_l a : rigid (rot a) -> smul (sinv a) a = s_id.
Proof.
  intros (A & _ & _). unfold smul, sinv, s_id. cbn. rewrite A. f_equal. apply vadd_neg_r.
Qed.
Lemma sinv_r a : rigid (rot a) -> smul a (sinv a) = s_id.
Proof.
  intros (_ & A & _). unfold smul, sinv, s_id. cbn. rewrite A. f_equal.
  rewrite mapply_neg, <- mapply_mmul, A, mapply_id. apply vadd_neg_l.
Qed.

(** * Parts, orientation.py:434-714 *)
Inductive part := PGen (s : seitz) | PTrans (v : V3) | PX (a : R) | PY (a : R) | PZ (a : R).
(** __post_init__ of each class, angles in degrees *)
Definition axes (p : part) : seitz :=
  match p with
  | PGen s => s
  | PTrans v => mkS id3 v
  | PX a => mkS (mX (cos_value a) (sin_value a)) v0
  | PY a => mkS (mY (cos_value a) (sin_value a)) v0
  | PZ a => mkS (mZ (cos_value a) (sin_value a)) v0
  end.
(** inverse: Part 531, TranslationPart 591, RotationX 660, RotationY 681, RotationZ 702 *)
Definition pinv (p : part) : part :=
  match p with
  | PGen s => PGen (sinv s)
  | PTrans v => PTrans (vneg v)
  | PX a => PX (- a)
  | PY a => PY (- a)
  | PZ a => PZ (- a)
  end.
(** Part.__mul__ 534-537 *)
Definition pmul (p q : part) : part := PGen (smul (axes p) (axes q)).

(** parts whose matrix is the intended one *)
Definition sound_part (p : part) : Prop :=
  match p with
  | PGen s => rigid (rot s)
  | PTrans _ => True
  | PX a | PY a | PZ a => a <> 180 /\ a <> -180
  end.

Lemma sound_rigid p : sound_part p -> rigid (rot (axes p)).
Proof.
  destruct p; cbn; auto.
  - intros _. apply rigid_id.
  - intros [H _]. apply mX_rigid. rewrite cos_value_ok, sin_value_ok by auto. apply circle.
  - intros [H _]. apply mY_rigid. rewrite cos_value_ok, sin_value_ok by auto. apply circle.
  - intros [H _]. apply mZ_rigid. rewrite cos_value_ok, sin_value_ok by auto. apply circle.
Qed.
Lemma pmul_sound p q : sound_part p -> sound_part q -> sound_part (pmul p q).
Proof. intros Hp Hq. cbn. apply rigid_mmul; now apply sound_rigid. Qed.
Lemma pinv_axes p : sound_part p -> axes (pinv p) = sinv (axes p).
Proof.
  destruct p; cbn; auto.
  - intros _. unfold sinv. cbn. f_equal. f_equal. now rewrite mapply_id.
  - intros [H1 H2]. rewrite !cos_value_ok, !sin_value_ok by lra. rewrite cosd_neg, sind_neg.
    unfold sinv, mX, transpose, v0, vneg, mapply. cbn. do 2 f_equal; ring.
  - intros [H1 H2]. rewrite !cos_value_ok, !sin_value_ok by lra. rewrite cosd_neg, sind_neg.
    unfold sinv, mY, transpose, v0, vneg, mapply. cbn. do 2 f_equal; ring.
  - intros [H1 H2]. rewrite !cos_value_ok, !sin_value_ok by lra. rewrite cosd_neg, sind_neg.
    unfold sinv, mZ, transpose, v0, vneg, mapply. cbn. do 2 f_equal; ring.
Qed.

(** * Chains: Parts, orientation.py:721-865 *)
(** Parts.resolve 848-857, on the matrices *)
Definition resolve (l : list part) : seitz :=
  match l with
  | [] => s_id
  | p :: t => fold_left (fun acc w => smul (axes w) acc) t (axes p)
  end.
(** Parts.inverse 806-814 *)
Definition chain_inv (l : list part) : list part := map pinv (rev l).

Section Reduce.
  (** is_constant and is_identity of a part: tests on expressions; nothing is assumed of
      the first, the second must not claim too much (455-457) *)
  Variable constant identity : part -> bool.

  (** Parts.reduce 816-846; [red] is the reduced list in reverse *)
  Definition reduce_step (red : list part) (top : part) : list part :=
    match red with
    | [] => [top]
    | last :: before =>
        if constant last && identity last then top :: before
        else if constant last && constant top then pmul top last :: before
        else top :: red
    end.
  (** Parts.reduce, orientation.py:816-846, the last part *)
  Definition drop_last (red : list part) : list part :=
    match red with
    | last :: (_ :: _) as before => if constant last && identity last then tl red else red
    | _ => red
    end.
  (** Parts.reduce, orientation.py:816-846 *)
  Definition reduce (l : list part) : list part :=
    match l with
    | [] => []
    | p :: t => rev (drop_last (fold_left reduce_step t [p]))
    end.

  (** specification: a part called identity does nothing *)
  Definition identity_sound : Prop :=
    forall p, constant p = true -> identity p = true -> trace (rot (axes p)) = 3 /\ tr (axes p) = v0.

  (** meaning of a reversed chain *)
  Fixpoint rres (red : list part) : seitz :=
    match red with [] => s_id | p :: t => smul (axes p) (rres t) end.

  Lemma rres_app a b : rres (a ++ b) = smul (rres a) (rres b).
  Proof. induction a as [|p t IH]; cbn; [now rewrite smul_id_l|]. now rewrite IH, smul_assoc. Qed.
  Lemma fold_rres t acc : fold_left (fun a w => smul (axes w) a) t acc =
    smul (rres (rev t)) acc.
  Proof.
    revert acc. induction t as [|w t IH]; intro acc; cbn; [now rewrite smul_id_l|].
    rewrite IH, rres_app, smul_assoc. cbn. now rewrite smul_id_r.
  Qed.
  Lemma resolve_rres l : resolve l = rres (rev l).
  Proof.
    destruct l as [|p t]; [reflexivity|]. cbn [resolve rev]. rewrite fold_rres, rres_app. cbn.
    now rewrite smul_id_r.
  Qed.

  Hypothesis Hid : identity_sound.
  Lemma identity_axes p : sound_part p -> constant p = true -> identity p = true -> axes p = s_id.
  Proof.
    intros S C I. destruct (Hid p C I) as [T V]. destruct (axes p) as [m v] eqn:E. cbn in T, V. subst.
    unfold s_id. f_equal. apply rigid_trace3; auto. pose proof (sound_rigid p S) as R. now rewrite E in R.
  Qed.
  Lemma reduce_step_ok red top : Forall sound_part red -> sound_part top ->
    rres (reduce_step red top) = smul (axes top) (rres red) /\ Forall sound_part (reduce_step red top).
  Proof.
    intros F S. destruct red as [|last before]; [now split; [|constructor]|]. inversion F; subst.
    unfold reduce_step. destruct (constant last && identity last)%bool eqn:E1.
    { apply andb_prop in E1 as [C I]. cbn. rewrite (identity_axes _ H1 C I), smul_id_l. split; auto. }
    destruct (constant last && constant top)%bool.
    - cbn [rres]. unfold pmul at 1. cbn [axes]. rewrite smul_assoc. split; auto.
      constructor; auto. apply pmul_sound; auto.
    - split; auto.
  Qed.
  Lemma fold_reduce t : forall red, Forall sound_part red -> Forall sound_part t ->
    rres (fold_left reduce_step t red) = smul (rres (rev t)) (rres red) /\
    Forall sound_part (fold_left reduce_step t red).
  Proof.
    induction t as [|w t IH]; intros red F Ft; cbn; [now rewrite smul_id_l|]. inversion Ft; subst.
    destruct (reduce_step_ok red w F H1) as [E Fs]. destruct (IH _ Fs H2) as [E' F']. split; auto.
    rewrite E', E. rewrite rres_app. cbn. now rewrite smul_id_r, smul_assoc.
  Qed.
  Lemma drop_last_ok red : Forall sound_part red ->
    rres (drop_last red) = rres red /\ Forall sound_part (drop_last red).
  Proof.
    intro F. destruct red as [|a [|b t]]; cbn; auto. destruct (constant a && identity a)%bool eqn:E; auto.
    inversion F; subst. apply andb_prop in E as [C I].
    rewrite (identity_axes _ H1 C I), smul_id_l. split; auto.
  Qed.
  Theorem reduce_resolve l : Forall sound_part l ->
    resolve (reduce l) = resolve l /\ Forall sound_part (reduce l).
  Proof.
    intro F. destruct l as [|p t]; [now split|]. inversion F; subst. unfold reduce.
    destruct (fold_reduce t [p] (Forall_cons _ H1 (Forall_nil _)) H2) as [E Fs].
    destruct (drop_last_ok _ Fs) as [E' F']. split; [|now apply Forall_rev].
    rewrite !resolve_rres, rev_involutive. cbn [rev]. rewrite E', E, rres_app. reflexivity.
  Qed.
End Reduce.

(** the map of a chain is the composition of the maps of its parts, first part first *)
Lemma act_resolve l p : act (resolve l) p = fold_left (fun q w => act (axes w) q) l p.
Proof.
  rewrite resolve_rres. revert p. induction l as [|w t IH]; intro p; cbn; [apply act_id|].
  rewrite rres_app. cbn. rewrite smul_id_r, act_smul. apply IH.
Qed.
Lemma resolve_app a b : resolve (a ++ b) = smul (resolve b) (resolve a).
Proof. rewrite !resolve_rres, rev_app_distr, rres_app. reflexivity. Qed.
Lemma resolve_rigid l : Forall sound_part l -> rigid (rot (resolve l)).
Proof.
  intro F. rewrite resolve_rres. apply Forall_rev in F. induction F; cbn; [apply rigid_id|].
  apply rigid_mmul; auto. now apply sound_rigid.
Qed.
Lemma resolve_inv l : Forall sound_part l -> smul (resolve (chain_inv l)) (resolve l) = s_id /\
  smul (resolve l) (resolve (chain_inv l)) = s_id.
Proof.
  intro F. unfold chain_inv. rewrite !resolve_rres, <- map_rev, rev_involutive.
  induction F as [|p t Hp Ht IH]; [split; apply smul_id_l|]. cbn. rewrite !rres_app. cbn. rewrite !smul_id_r.
  destruct IH as [I1 I2]. rewrite (pinv_axes p Hp). pose proof (sound_rigid p Hp) as R. split.
  - rewrite <- smul_assoc, (smul_assoc (rres (map pinv t))), I1, smul_id_l. now apply sinv_l.
  - rewrite <- smul_assoc, (smul_assoc (axes p)), (sinv_r _ R), smul_id_l. exact I2.
Qed.
