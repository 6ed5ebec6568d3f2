(** Where components are: the Python Orient objects, the C initialisation code the
    translator writes, and the coordinate changes of the C trace code. *)
From Coq Require Import Bool Reals List Lra Lia Arith.
From Verif Require Import Orient.
Import ListNotations.
Local Open Scope bool_scope.
Local Open Scope R_scope.

(** a component's AT and ROTATED clauses; references are positions in the component
    list, None is ABSOLUTE. Angles in degrees. *)
Record comp := mkComp { at_v : V3; at_ref : option nat; ang : V3; rot_ref : option nat }.

(** * Python: Orient, orientation.py:872-961, and Instance.__post_init__ *)
Record orient := mkO { o_pos : list part; o_rot : list part }.
(** Orient without parts, orientation.py:872-876 *)
Definition o_default : orient := mkO [] [].
(** Orient.position, orientation.py:917-918 *)
Definition position (o : orient) : V3 := tr (resolve (o_pos o)).         (* 917-918 *)
Definition rotation (o : orient) : M3 := rot (resolve (o_rot o)).        (* 920-921 *)

(** Parts.from_at_rotated 766-785 with a zero translation (the only use here) *)
Definition rotated_parts (a : V3) : list part :=
  (if Req_EM_T (vx a) 0 then [] else [PX (vx a)]) ++
  (if Req_EM_T (vy a) 0 then [] else [PY (vy a)]) ++
  (if Req_EM_T (vz a) 0 then [] else [PZ (vz a)]).

Section Py.
  Variable constant identity : part -> bool.
  Notation reduce := (reduce constant identity).
  (** Parts.from_dependent_chain 788-804 *)
  Definition dependent_chain (dep : option (list part)) (a : V3) : list part :=
    reduce (match dep with None => [] | Some l => l end ++ rotated_parts a).
  (** Orient.from_dependent_orientations 894-904; rotation('coordinates') is the
      transpose *)
  Definition dependent_orientations (rel : option orient) (at_ : V3) (ro : option orient) (a : V3) : orient :=
    let r := match rel with None => o_default | Some o => o end in
    mkO [PTrans (vadd (position r) (mapply (transpose (rotation r)) at_))]
        (dependent_chain (option_map (fun o => reduce (o_rot o)) ro) a).

  (** the reference of AT or ROTATED, instr/instance.py:99-113 *)
  Definition find (l : list orient) (r : option nat) : option (option orient) :=
    match r with
    | None => Some None
    | Some i => option_map Some (nth_error l i)
    end.
  (** Instance.__post_init__, instance.py:99-113: without a rotation reference the AT
      reference is used *)
  Definition py_orient (prev : list orient) (c : comp) : option orient :=
    match find prev (at_ref c), find prev (rot_ref c) with
    | Some ar, Some rr =>
        let rr' := match rr with Some o => Some o | None => ar end in
        Some (dependent_orientations ar (at_v c) rr' (ang c))
    | _, _ => None
    end.
  (** instr/instance.py:99-113 for all instances in their order *)
  Fixpoint py_place (prev : list orient) (l : list comp) : option (list orient) :=
    match l with
    | [] => Some prev
    | c :: t => match py_orient prev c with
                | Some o => py_place (prev ++ [o]) t
                | None => None
                end
    end.
End Py.

(** * C: cogen_comp_init_position, translators/c_initialise.py:38-99 *)
(** rot_set_rotation of the McCode run time library (mccode-r.c, not in this
    repository): the matrix also written out at orientation.py:409-411 *)
Definition rot_set (x y z : R) : M3 :=
  let cx := cos x in let sx := sin x in let cy := cos y in let sy := sin y in
  let cz := cos z in let sz := sin z in
  mkM (cy * cz) (sx * sy * cz + cx * sz) (sx * sz - cx * sy * cz)
      (- cy * sz) (cx * cz - sx * sy * sz) (sx * cz + cx * sy * sz)
      sy (- sx * cy) (cx * cy).
(** the constant of the C library *)
Definition DEG2RAD : R := PI / 180.
(** c_initialise.py:38-99: rot_set_rotation of angles in degrees *)
Definition c_rot (a : V3) : M3 := rot_set (vx a * DEG2RAD) (vy a * DEG2RAD) (vz a * DEG2RAD).

(** the members _position_absolute and _rotation_absolute *)
Record cplace := mkCP { c_R : M3; c_p : V3 }.
(** rotation_absolute and position_absolute; rot_mul, rot_transpose, rot_apply,
    coords_add of the run time library are the matrix operations *)
Definition c_orient (prev : list cplace) (c : comp) : option cplace :=
  let R := match rot_ref c with
           | None => Some (c_rot (ang c))
           | Some i => option_map (fun r => mmul (c_rot (ang c)) (c_R r)) (nth_error prev i)
           end in
  let p := match at_ref c with
           | None => Some (at_v c)
           | Some i => option_map (fun r => vadd (c_p r) (mapply (transpose (c_R r)) (at_v c))) (nth_error prev i)
           end in
  match R, p with Some R, Some p => Some (mkCP R p) | _, _ => None end.
(** c_initialise.py:38-99 for all instances in their order *)
Fixpoint c_place (prev : list cplace) (l : list comp) : option (list cplace) :=
  match l with
  | [] => Some prev
  | c :: t => match c_orient prev c with
              | Some o => c_place (prev ++ [o]) t
              | None => None
              end
  end.

(** * The two agree *)
Definition angle_ok (a : R) : Prop := a <> 180 /\ a <> -180.
(** specification: no half turns *)
Definition comp_ok (c : comp) : Prop :=
  angle_ok (vx (ang c)) /\ angle_ok (vy (ang c)) /\ angle_ok (vz (ang c)) /\
  (rot_ref c = None -> at_ref c = None).

Lemma c_rot_factors a : c_rot a =
  mmul (mZ (cosd (vz a)) (sind (vz a))) (mmul (mY (cosd (vy a)) (sind (vy a))) (mX (cosd (vx a)) (sind (vx a)))).
Proof.
  unfold c_rot, rot_set, cosd, sind, DEG2RAD, mX, mY, mZ, mmul. cbn.
  replace (vx a * (PI / 180)) with (vx a / 180 * PI) by field.
  replace (vy a * (PI / 180)) with (vy a / 180 * PI) by field.
  replace (vz a * (PI / 180)) with (vz a / 180 * PI) by field.
  f_equal; ring.
Qed.

Lemma mX0 : mX (cosd 0) (sind 0) = id3.
Proof. rewrite cosd_0, sind_0. unfold mX, id3. f_equal; ring. Qed.
Lemma mY0 : mY (cosd 0) (sind 0) = id3.
Proof. rewrite cosd_0, sind_0. unfold mY, id3. f_equal; ring. Qed.
Lemma mZ0 : mZ (cosd 0) (sind 0) = id3.
Proof. rewrite cosd_0, sind_0. unfold mZ, id3. f_equal; ring. Qed.

Lemma rotated_parts_sound a : angle_ok (vx a) -> angle_ok (vy a) -> angle_ok (vz a) ->
  Forall sound_part (rotated_parts a).
Proof.
  intros X Y Z. unfold rotated_parts. repeat (apply Forall_app; split);
  destruct (Req_EM_T _ 0); repeat constructor; try apply X; try apply Y; try apply Z.
Qed.

Lemma rotated_parts_resolve a : angle_ok (vx a) -> angle_ok (vy a) -> angle_ok (vz a) ->
  rot (resolve (rotated_parts a)) = c_rot a /\ tr (resolve (rotated_parts a)) = v0.
Proof.
  intros X Y Z. rewrite c_rot_factors. unfold rotated_parts. rewrite !resolve_app.
  assert (GX : resolve (if Req_EM_T (vx a) 0 then [] else [PX (vx a)]) = mkS (mX (cosd (vx a)) (sind (vx a))) v0).
  { destruct (Req_EM_T (vx a) 0) as [E|E]; cbn.
    - rewrite E, mX0. reflexivity.
    - rewrite cos_value_ok, sin_value_ok by apply X. reflexivity. }
  assert (GY : resolve (if Req_EM_T (vy a) 0 then [] else [PY (vy a)]) = mkS (mY (cosd (vy a)) (sind (vy a))) v0).
  { destruct (Req_EM_T (vy a) 0) as [E|E]; cbn.
    - rewrite E, mY0. reflexivity.
    - rewrite cos_value_ok, sin_value_ok by apply Y. reflexivity. }
  assert (GZ : resolve (if Req_EM_T (vz a) 0 then [] else [PZ (vz a)]) = mkS (mZ (cosd (vz a)) (sind (vz a))) v0).
  { destruct (Req_EM_T (vz a) 0) as [E|E]; cbn.
    - rewrite E, mZ0. reflexivity.
    - rewrite cos_value_ok, sin_value_ok by apply Z. reflexivity. }
  rewrite GX, GY, GZ. unfold smul. cbn [rot tr]. rewrite !mapply_0, !vadd_0_l. split.
  - rewrite mmul_assoc. reflexivity.
  - rewrite ?mapply_0, ?vadd_0_l. reflexivity.
Qed.

Section Agree.
  Variable constant identity : part -> bool.
  Hypothesis Hid : identity_sound constant identity.

  (** specification: the same place in Python and in C *)
  Definition agrees (o : orient) (c : cplace) : Prop :=
    position o = c_p c /\ rotation o = c_R c /\ Forall sound_part (o_rot o).

  Lemma nth_Forall2 {A B} (P : A -> B -> Prop) l l' i : Forall2 P l l' ->
    match nth_error l i, nth_error l' i with
    | Some a, Some b => P a b | None, None => True | _, _ => False end.
  Proof.
    intro F. revert i. induction F; intros [|i]; cbn; auto. apply IHF.
  Qed.

  Lemma chain_ok l a : Forall sound_part l -> angle_ok (vx a) -> angle_ok (vy a) -> angle_ok (vz a) ->
    rot (resolve (reduce constant identity (reduce constant identity l ++ rotated_parts a))) =
      mmul (c_rot a) (rot (resolve l)) /\
    Forall sound_part (reduce constant identity (reduce constant identity l ++ rotated_parts a)).
  Proof.
    intros F X Y Z.
    destruct (reduce_resolve constant identity Hid l F) as [E1 F1].
    assert (F2 : Forall sound_part (reduce constant identity l ++ rotated_parts a)).
    { apply Forall_app. split; auto. now apply rotated_parts_sound. }
    destruct (reduce_resolve constant identity Hid _ F2) as [E2 F3]. split; auto.
    rewrite E2, resolve_app, E1. unfold smul. cbn [rot].
    now rewrite (proj1 (rotated_parts_resolve a X Y Z)).
  Qed.

  Lemma place_agree l : forall prev prev', Forall2 agrees prev prev' -> Forall comp_ok l ->
    match py_place constant identity prev l, c_place prev' l with
    | Some os, Some cs => Forall2 agrees os cs
    | None, None => True
    | _, _ => False
    end.
  Proof.
    induction l as [|c t IH]; intros prev prev' F Ok; [exact F|]. inversion Ok as [|? ? Oc Ot]; subst.
    destruct Oc as (X & Y & Z & Hr).
    cbn [py_place c_place]. unfold py_orient, c_orient, find.
    assert (Step : forall o p, agrees o p ->
      match py_place constant identity (prev ++ [o]) t, c_place (prev' ++ [p]) t with
      | Some os, Some cs => Forall2 agrees os cs | None, None => True | _, _ => False end).
    { intros o p A. apply IH; auto. apply Forall2_app; auto. }
    destruct (rot_ref c) as [j|] eqn:Er.
    - pose proof (nth_Forall2 _ _ _ j F) as Nj.
      destruct (nth_error prev j) as [oj|] eqn:Ej, (nth_error prev' j) as [cj|] eqn:Cj; try tauto; cbn [option_map].
      2:{ destruct (at_ref c) as [i|]; cbn; auto.
          pose proof (nth_Forall2 _ _ _ i F) as Ni.
          destruct (nth_error prev i), (nth_error prev' i); cbn; tauto. }
      destruct Nj as (Pj & Rj & Sj).
      destruct (chain_ok (o_rot oj) (ang c) Sj X Y Z) as [E Fs].
      destruct (at_ref c) as [i|] eqn:Ea.
      + pose proof (nth_Forall2 _ _ _ i F) as Ni.
        destruct (nth_error prev i) as [oi|], (nth_error prev' i) as [ci|]; try tauto; cbn [option_map]; auto.
        destruct Ni as (Pi & Ri & Si). apply Step.
        repeat split; auto.
        * unfold position, dependent_orientations. cbn. now rewrite Pi, Ri.
        * unfold rotation, dependent_orientations, dependent_chain. cbn [o_rot option_map]. rewrite E.
          unfold rotation in Rj. now rewrite Rj.
      + cbn [option_map]. apply Step. repeat split; auto.
        * unfold position, dependent_orientations. cbn. unfold position, rotation, o_default. cbn.
          now rewrite transpose_id, mapply_id, vadd_0_l.
        * unfold rotation, dependent_orientations, dependent_chain. cbn [o_rot option_map]. rewrite E.
          unfold rotation in Rj. now rewrite Rj.
    - rewrite (Hr eq_refl). cbn [option_map]. apply Step. repeat split.
      + unfold position, dependent_orientations. cbn. unfold position, rotation, o_default. cbn.
        now rewrite transpose_id, mapply_id, vadd_0_l.
      + unfold rotation, dependent_orientations, dependent_chain. cbn [o_rot option_map c_R app].
        pose proof (rotated_parts_sound (ang c) X Y Z) as F1.
        destruct (reduce_resolve constant identity Hid _ F1) as [E _]. rewrite E.
        now apply rotated_parts_resolve.
      + unfold dependent_orientations, dependent_chain. cbn [o_rot option_map app].
        pose proof (rotated_parts_sound (ang c) X Y Z) as F1.
        now destruct (reduce_resolve constant identity Hid _ F1) as [_ ?].
  Qed.
End Agree.

(** * Coordinate changes in the trace code *)
(** position_relative and rotation_relative, c_initialise.py:66-95; [ref] is the last
    component that was not skipped (cogen_initialize 227-232) *)
Definition rel_rot (first : bool) (ref me : cplace) : M3 :=
  if first then c_R me else mmul (c_R me) (transpose (c_R ref)).
(** c_initialise.py:38-99, the member _position_relative *)
Definition rel_pos (first : bool) (ref me : cplace) : V3 :=
  mapply (c_R me) (if first then vneg (c_p me) else vsub (c_p ref) (c_p me)).

(** position and velocity of a particle; spin transforms like velocity *)
Record particle := mkPt { pp : V3; pv : V3 }.
(** c_initialise.py:38-99: the test of a vector for zero *)
Definition v3_zero (v : V3) : bool :=
  if Req_EM_T (vx v) 0 then if Req_EM_T (vy v) 0 then if Req_EM_T (vz v) 0 then true else false else false else false.
(** c_raytrace.py:59-70; rot_test_identity is trace == 3, coords_test_zero, coords_add
    and mccoordschange are those of the run time library *)
Definition change (rr : M3) (rp : V3) (p : particle) : particle :=
  if Req_EM_T (trace rr) 3
  then if v3_zero rp then p else mkPt (vadd (pp p) rp) (pv p)
  else mkPt (vadd (mapply rr (pp p)) rp) (mapply rr (pv p)).

(** the changes applied before component number [length done] etc., for a prefix of the
    component list; [last] is the reference, [first] marks component 0 *)
Fixpoint changes (first : bool) (last : cplace) (l : list (cplace * bool)) (p : particle) : particle :=
  match l with
  | [] => p
  | (c, skip) :: t =>
      let last' := if skip then last else c in
      let p' := if skip then p else change (rel_rot first last c) (rel_pos first last c) p in
      (* component 0 stays the reference when it is skipped *)
      changes false (if first then c else last') t p'
  end.
(** [lab] is only a placeholder reference for component 0 *)
Definition lab : cplace := mkCP id3 v0.
(** the coordinate changes of a trace, c_raytrace.py:59-70 *)
Definition trace_changes (l : list (cplace * bool)) (p : particle) : particle := changes true lab l p.

(** the particle as seen in the frame of a component *)
Definition local (c : cplace) (p : particle) : particle :=
  mkPt (mapply (c_R c) (vsub (pp p) (c_p c))) (mapply (c_R c) (pv p)).

Lemma v3_zero_eq v : v3_zero v = true -> v = v0.
Proof.
  unfold v3_zero, v0. destruct v as [a b c]; cbn.
  destruct (Req_EM_T a 0), (Req_EM_T b 0), (Req_EM_T c 0); try discriminate. congruence.
Qed.

Lemma change_ok rr rp p : rigid rr -> change rr rp p = mkPt (vadd (mapply rr (pp p)) rp) (mapply rr (pv p)).
Proof.
  intro R. unfold change. destruct (Req_EM_T (trace rr) 3) as [T|T]; [|reflexivity].
  rewrite (rigid_trace3 rr R T), !mapply_id. destruct (v3_zero rp) eqn:Z; [|reflexivity].
  apply v3_zero_eq in Z as ->. rewrite vadd_0_r. now destruct p.
Qed.

Lemma local_step ref me p : rigid (c_R ref) -> rigid (c_R me) ->
  change (rel_rot false ref me) (rel_pos false ref me) (local ref p) = local me p.
Proof.
  intros Rr Rm. rewrite change_ok by (apply rigid_mmul; auto; now apply rigid_transpose).
  destruct Rr as (A & _ & _). unfold rel_rot, rel_pos, local. cbn [pp pv]. f_equal.
  - rewrite mapply_mmul, <- (mapply_mmul (transpose (c_R ref))), A, mapply_id, <- mapply_add.
    f_equal. destruct (pp p), (c_p ref), (c_p me). unfold vadd, vsub. cbn. f_equal; ring.
  - rewrite mapply_mmul, <- (mapply_mmul (transpose (c_R ref))), A, mapply_id. reflexivity.
Qed.
Lemma local_first ref me p : rigid (c_R me) ->
  change (rel_rot true ref me) (rel_pos true ref me) p = local me p.
Proof.
  intro Rm. rewrite change_ok by auto. unfold rel_rot, rel_pos, local. cbn [pp pv]. f_equal.
  now rewrite <- mapply_add.
Qed.
Lemma local_lab p : local lab p = p.
Proof.
  unfold local, lab. cbn. rewrite !mapply_id. destruct p as [[a b c] v]. unfold vsub, v0. cbn. do 2 f_equal; ring.
Qed.

(** the component whose frame the particle is in after a list of changes *)
Fixpoint current (last : cplace) (l : list (cplace * bool)) : cplace :=
  match l with
  | [] => last
  | (c, skip) :: t => current (if skip then last else c) t
  end.

Lemma changes_ok l : forall last p, rigid (c_R last) -> Forall (fun x => rigid (c_R (fst x))) l ->
  changes false last l (local last p) = local (current last l) p.
Proof.
  induction l as [|[c skip] t IH]; intros last p R F; [reflexivity|]. inversion F; subst. cbn in H1.
  cbn [changes current]. destruct skip.
  - apply IH; auto.
  - rewrite local_step by auto. apply IH; auto.
Qed.
Lemma current_app last l c : current last (l ++ [(c, false)]) = c.
Proof. revert last. induction l as [|[d k] t IH]; intro last; cbn; auto. Qed.
