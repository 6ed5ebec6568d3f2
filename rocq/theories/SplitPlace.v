(** Splitting an instrument keeps components where they were: instr.py:361-374 on
    component lists whose references are positions in the list.  (InstrModel treats the
    same loop with references by name.) *)
From Coq Require Import Bool Reals List Lra Lia Arith.
From Verif Require Import Orient Placement Euler.
Import ListNotations.
Local Open Scope R_scope.

(** Orient.angles, orientation.py:914-915: the angles of the resolved chain.  A chain of
    one part resolves to that part, whose own method answers: Part.angles 520-521,
    TranslationPart 597, RotationX 663, RotationY 684, RotationZ 705. *)
Definition py_angles (o : orient) : V3 :=
  match o_rot o with
  | [PX a] => mkV a 0 0
  | [PY a] => mkV 0 a 0
  | [PZ a] => mkV 0 0 a
  | [PTrans _] => mkV 0 0 0
  | l => euler (rot (resolve l))
  end.
(** chains whose angles are given directly *)
Definition direct (o : orient) : bool :=
  match o_rot o with [PX _] | [PY _] | [PZ _] | [PTrans _] => true | _ => false end.

Lemma py_angles_ok o : Forall sound_part (o_rot o) ->
  (direct o = false -> zx (rotation o) * zx (rotation o) <> 1) -> rigid (rotation o) ->
  c_rot (py_angles o) = rotation o.
Proof.
  intros F N Rg. unfold py_angles, direct, rotation in *.
  destruct (o_rot o) as [|p [|q t]].
  - apply euler_ok; auto.
  - inversion F as [|? ? Hp _]; subst. destruct p; cbn in *.
    + apply euler_ok; auto.
    + rewrite c_rot_factors. cbn. rewrite mX0, mY0, mZ0. now rewrite !mmul_id_l.
    + rewrite c_rot_factors. cbn. rewrite mY0, mZ0, !mmul_id_l, cos_value_ok, sin_value_ok by tauto. reflexivity.
    + rewrite c_rot_factors. cbn. rewrite mX0, mZ0, mmul_id_l, mmul_id_r, cos_value_ok, sin_value_ok by tauto. reflexivity.
    + rewrite c_rot_factors. cbn. rewrite mX0, mY0, !mmul_id_r, cos_value_ok, sin_value_ok by tauto. reflexivity.
  - destruct p; (apply euler_ok; [exact Rg|apply N; destruct q; reflexivity]).
Qed.

(** one component of the second instrument; [k] is the position of the split *)
Definition shift (k : nat) (c : comp) (o : orient) : comp :=
  let '(v, ar) := match at_ref c with
                  | None => (at_v c, None)
                  | Some j => if (k <=? j)%nat then (at_v c, Some (j - k)%nat) else (position o, None)
                  end in
  let '(a, rr) := match rot_ref c with
                  | None => (ang c, None)
                  | Some j => if (k <=? j)%nat then (ang c, Some (j - k)%nat) else (py_angles o, None)
                  end in
  mkComp v ar a rr.
(** split: the components up to the split, and those from it on *)
Definition split_first (k : nat) (l : list comp) : list comp := firstn (k + 1) l.
(** the components from the split on, instr.py:327-378 *)
Definition split_second (k : nat) (l : list comp) (os : list orient) : list comp :=
  map (fun x => shift k (fst x) (snd x)) (skipn k (List.combine l os)).

Lemma nth_skipn {A} k : forall (l : list A) j, (k <= j)%nat -> nth_error (skipn k l) (j - k) = nth_error l j.
Proof.
  induction k as [|k IH]; intros l j H; cbn; [now rewrite Nat.sub_0_r|].
  destruct j as [|j]; [lia|]. destruct l as [|x t]; cbn.
  - destruct (j - k)%nat; reflexivity.
  - apply IH. lia.
Qed.

Lemma c_place_extends l : forall prev cs, c_place prev l = Some cs -> exists new, cs = prev ++ new /\ length new = length l.
Proof.
  induction l as [|c t IH]; intros prev cs; cbn.
  - intros [= <-]. exists []. now rewrite app_nil_r.
  - destruct (c_orient prev c) as [o|]; [|discriminate]. intro H. apply IH in H as (new & -> & L).
    exists (o :: new). rewrite <- app_assoc. cbn. auto.
Qed.

(** what the lemma needs of one component: its Python orientation is the C one, and the
    angles can be recovered where they are used *)
Definition usable (k : nat) (c : comp) (o : orient) (p : cplace) : Prop :=
  position o = c_p p /\
  (forall j, rot_ref c = Some j -> (j < k)%nat -> c_rot (py_angles o) = c_R p).

Lemma shift_place k t : forall prev new os, (k <= length prev)%nat ->
  c_place prev t = Some (prev ++ new) -> length os = length t ->
  (forall i c o p, nth_error t i = Some c -> nth_error os i = Some o -> nth_error new i = Some p -> usable k c o p) ->
  c_place (skipn k prev) (map (fun x => shift k (fst x) (snd x)) (List.combine t os)) = Some (skipn k prev ++ new).
Proof.
  induction t as [|c t IH]; intros prev new os Hk H L U.
  - cbn in H. injection H as H. rewrite <- (app_nil_r prev) in H at 1. apply app_inv_head in H. subst.
    cbn. now rewrite app_nil_r.
  - destruct os as [|o os]; [discriminate|]. cbn [c_place] in H.
    destruct (c_orient prev c) as [p|] eqn:E; [|discriminate].
    pose proof (c_place_extends _ _ _ H) as (new' & En & Ln). rewrite <- app_assoc in En. apply app_inv_head in En. cbn in En. subst new.
    destruct (U 0%nat c o p eq_refl eq_refl eq_refl) as [Up Ur].
    cbn [List.combine map fst snd c_place].
    assert (HS : c_orient (skipn k prev) (shift k c o) = Some p).
    { unfold c_orient in E. unfold shift.
      assert (A : forall j, (k <= j)%nat -> nth_error (skipn k prev) (j - k) = nth_error prev j) by (intros; now apply nth_skipn).
      destruct (rot_ref c) as [r|] eqn:Er, (at_ref c) as [a|] eqn:Ea.
      - destruct (nth_error prev r) as [pr|] eqn:Pr; cbn [option_map] in E; [|discriminate].
        destruct (nth_error prev a) as [pa|] eqn:Pa; cbn [option_map] in E; [|discriminate].
        injection E as <-. cbn in Up, Ur.
        destruct (Nat.leb_spec k a), (Nat.leb_spec k r); cbn; unfold c_orient; cbn; rewrite ?A by auto; rewrite ?Pr, ?Pa; cbn;
        rewrite ?Up, ?(Ur r eq_refl) by auto; reflexivity.
      - destruct (nth_error prev r) as [pr|] eqn:Pr; cbn [option_map] in E; [|discriminate].
        injection E as <-. cbn in Up, Ur.
        destruct (Nat.leb_spec k r); cbn; unfold c_orient; cbn; rewrite ?A by auto; rewrite ?Pr; cbn;
        rewrite ?Up, ?(Ur r eq_refl) by auto; reflexivity.
      - destruct (nth_error prev a) as [pa|] eqn:Pa; cbn [option_map] in E; [|discriminate].
        injection E as <-. cbn in Up, Ur.
        destruct (Nat.leb_spec k a); cbn; unfold c_orient; cbn; rewrite ?A by auto; rewrite ?Pa; cbn;
        rewrite ?Up by auto; reflexivity.
      - injection E as <-. reflexivity. }
    rewrite HS. replace (skipn k prev ++ [p]) with (skipn k (prev ++ [p])).
    2:{ rewrite skipn_app. replace (k - length prev)%nat with 0%nat by lia. reflexivity. }
    rewrite (IH (prev ++ [p]) new' os).
    + f_equal. rewrite skipn_app. replace (k - length prev)%nat with 0%nat by lia. cbn. now rewrite <- app_assoc.
    + rewrite app_length. lia.
    + rewrite H, <- app_assoc. reflexivity.
    + cbn in L. congruence.
    + intros i. exact (U (S i)).
Qed.

Lemma c_place_app a : forall b prev, c_place prev (a ++ b) = match c_place prev a with Some p => c_place p b | None => None end.
Proof.
  induction a as [|c t IH]; intros b prev; cbn; auto. destruct (c_orient prev c); auto.
Qed.
Lemma skipn_combine {A B} k : forall (l : list A) (m : list B), skipn k (List.combine l m) = List.combine (skipn k l) (skipn k m).
Proof.
  induction k as [|k IH]; intros l m; auto. destruct l as [|x l], m as [|y m]; cbn; auto.
  destruct (skipn k l); reflexivity.
Qed.
