(* Model of run/range.py (MRange) in exact rational arithmetic.
   Python ints and floats are both modelled by [Q]; rounding is not modelled. *)
From Coq Require Import List Bool ZArith QArith Lqa Lia.
Import ListNotations.
Local Open Scope Q_scope.

(** the operator < of Python *)
Definition Qltb (a b : Q) : bool := negb (Qle_bool b a).
Lemma Qltb_lt a b : Qltb a b = true <-> a < b.
Proof.
  unfold Qltb. rewrite negb_true_iff. split.
  - intros H. apply Qnot_le_lt. intros HH. apply Qle_bool_iff in HH. congruence.
  - intros H. destruct (Qle_bool b a) eqn:E; [|reflexivity].
    apply Qle_bool_iff in E. lra.
Qed.

(* int(x) for a Python number: truncation towards zero *)
Definition Qtrunc (q : Q) : Z := Z.quot (Qnum q) (Zpos (Qden q)).

(* run/range.py:10-18  MRange.__init__ ; [None] is the exception raised *)
Record mrange := { mr_start : Q; mr_stop : Q; mr_step : Q }.
(** MRange.__init__, run/range.py:10-18 *)
Definition mk_mrange (start stop step : Q) : option mrange :=
  if Qeq_bool start stop then None
  else if Qeq_bool step 0 then None
  else Some {| mr_start := start; mr_stop := stop; mr_step := step |}.

(* run/range.py:35  the loop condition of range_gen *)
Definition keep_going (stop step v : Q) : bool :=
  (Qltb 0 step && Qle_bool (v + step) stop) || (Qltb step 0 && Qle_bool stop (v + step)).

(* run/range.py:32-38  range_gen; [None] when the fuel is exhausted *)
Fixpoint range_gen (fuel : nat) (start stop step v : Q) (i : Z) : option (list Q) :=
  match fuel with
  | O => None
  | S f =>
      if keep_going stop step v then
        let v' := inject_Z i * step + start in
        match range_gen f start stop step v' (i + 1) with
        | Some l => Some (v' :: l)
        | None => None
        end
      else Some []
  end.

(* run/range.py:31-39  list(MRange) computed with some amount of fuel *)
Definition mrange_list (fuel : nat) (r : mrange) : option (list Q) :=
  range_gen fuel (mr_start r) (mr_stop r) (mr_step r) (mr_start r) 0.

(* run/range.py:52-53  MRange.__len__ before Python's check that it is >= 0 *)
Definition mrange_len_raw (r : mrange) : Z := (Qtrunc ((mr_stop r - mr_start r) / mr_step r) + 1)%Z.
(* len(r): Python raises ValueError when __len__ gives a negative number *)
Definition mrange_len (r : mrange) : option Z :=
  if (mrange_len_raw r <? 0)%Z then None else Some (mrange_len_raw r).

(* run/range.py:41-44  MRange.__getitem__ ; [None] is an exception *)
Definition mrange_get (r : mrange) (index : Z) : option Q :=
  match mrange_len r with
  | None => None
  | Some n => if ((index <? 0) || (n <=? index))%Z then None
              else Some (inject_Z index * mr_step r + mr_start r)
  end.

(* ---------- specification ---------- *)

(* the k-th point of the grid starting at start *)
Definition grid_pt (start step : Q) (k : nat) : Q := inject_Z (Z.of_nat k) * step + start.

(* v has not passed the end of the range *)
Definition not_past (stop step v : Q) : Prop :=
  (0 < step /\ v <= stop) \/ (step < 0 /\ stop <= v).

(* l lists start, start+step, ... up to the last value not past stop *)
Definition lists_grid (start stop step : Q) (l : list Q) : Prop :=
  exists n, l = map (grid_pt start step) (seq 0 n) /\
            forall k, (k < n)%nat <-> not_past stop step (grid_pt start step k).

(* ---------- proofs ---------- *)

Lemma keep_going_spec stop step v :
  keep_going stop step v = true <-> not_past stop step (v + step).
Proof.
  unfold keep_going, not_past. rewrite orb_true_iff, !andb_true_iff, !Qltb_lt, !Qle_bool_iff.
  reflexivity.
Qed.

Lemma inject_S k : inject_Z (Z.of_nat (S k)) == inject_Z (Z.of_nat k) + 1.
Proof. rewrite Nat2Z.inj_succ. unfold Z.succ. rewrite inject_Z_plus. reflexivity. Qed.

Lemma grid_pt_S start step k : grid_pt start step (S k) == grid_pt start step k + step.
Proof. unfold grid_pt. rewrite inject_S. ring. Qed.

Lemma grid_pt_0 start step : grid_pt start step 0 == start.
Proof. unfold grid_pt. simpl. ring. Qed.

Lemma not_past_compat stop step a b : a == b -> not_past stop step a -> not_past stop step b.
Proof. unfold not_past. intros E [[H1 H2]|[H1 H2]]; [left|right]; lra. Qed.

Lemma not_past_prev stop step v : not_past stop step (v + step) -> not_past stop step v.
Proof. unfold not_past. intros [[H1 H2]|[H1 H2]]; [left|right]; lra. Qed.

Lemma not_past_pred start stop step k :
  not_past stop step (grid_pt start step (S k)) -> not_past stop step (grid_pt start step k).
Proof.
  intros H. unfold not_past in *. pose proof (grid_pt_S start step k) as E.
  destruct H as [[H1 H2]|[H1 H2]]; [left|right]; lra.
Qed.

Lemma not_past_le start stop step k j : (j <= k)%nat ->
  not_past stop step (grid_pt start step k) -> not_past stop step (grid_pt start step j).
Proof.
  induction 1 as [|k Hk IH]; [auto|]. intros H. apply IH, not_past_pred, H.
Qed.

Lemma inject_lt0 k : 0 <= inject_Z (Z.of_nat k).
Proof. unfold Qle; simpl. lia. Qed.

(* trunc *)
Lemma Qtrunc_nonneg q : 0 <= q -> inject_Z (Qtrunc q) <= q /\ q < inject_Z (Qtrunc q + 1) /\ (0 <= Qtrunc q)%Z.
Proof.
  destruct q as [n d]. unfold Qle, Qlt, Qtrunc; simpl. intros H.
  assert (Hn : (0 <= n)%Z) by lia.
  pose proof (Z.quot_div_nonneg n (Zpos d) Hn ltac:(lia)) as E. rewrite E.
  pose proof (Z.div_mod n (Zpos d) ltac:(lia)) as D.
  pose proof (Z.mod_pos_bound n (Zpos d) ltac:(lia)) as B.
  pose proof (Z.div_pos n (Zpos d) Hn ltac:(lia)).
  repeat split; nia.
Qed.

Lemma Qtrunc_le0 q : q <= 0 -> (Qtrunc q <= 0)%Z.
Proof.
  destruct q as [n d]. unfold Qle, Qtrunc; simpl. intros H.
  assert (Hn : (n <= 0)%Z) by lia.
  replace n with (- - n)%Z by lia.
  rewrite Z.quot_opp_l by lia.
  pose proof (Z.quot_pos (- n) (Zpos d) ltac:(lia) ltac:(lia)). lia.
Qed.

(* position of the k-th point relative to stop, in units of the step *)
Lemma not_past_ratio start stop step k : ~ step == 0 ->
  not_past stop step (grid_pt start step k) <-> inject_Z (Z.of_nat k) <= (stop - start) / step.
Proof.
  intros Hs. unfold not_past, grid_pt.
  set (x := inject_Z (Z.of_nat k)).
  assert (E : (stop - start) == ((stop - start) / step) * step) by (field; exact Hs).
  set (r := (stop - start) / step) in *. split.
  - intros [[H1 H2]|[H1 H2]].
    + assert (x * step <= r * step) by lra. apply Qmult_le_r in H; assumption.
    + apply Qnot_lt_le. intros Hlt.
      assert (HP : 0 < (x - r) * (- step)) by (apply Qmult_lt_0_compat; lra). lra.
  - intros H. destruct (Qlt_le_dec 0 step) as [H1|H1].
    + left. split; [exact H1|]. assert (x * step <= r * step) by (apply Qmult_le_compat_r; lra). lra.
    + right. assert (step < 0) by (apply Qle_lt_or_eq in H1; destruct H1 as [|H1]; [assumption | exfalso; apply Hs, H1]).
      split; [assumption|]. 
      assert (HP : x * (- step) <= r * (- step)) by (apply Qmult_le_compat_r; lra). lra.
Qed.

Lemma inject_le a b : inject_Z a <= inject_Z b <-> (a <= b)%Z.
Proof. unfold Qle; simpl. lia. Qed.
Lemma inject_lt a b : inject_Z a < inject_Z b <-> (a < b)%Z.
Proof. unfold Qlt; simpl. lia. Qed.

Lemma inject_le_floor q k : 0 <= q -> (inject_Z (Z.of_nat k) <= q <-> (Z.of_nat k <= Qtrunc q)%Z).
Proof.
  intros H. destruct (Qtrunc_nonneg q H) as (H1 & H2 & H3). split; intros HH.
  - assert (inject_Z (Z.of_nat k) < inject_Z (Qtrunc q + 1)) by lra.
    apply (proj1 (inject_lt _ _)) in H0. lia.
  - apply (proj2 (inject_le _ _)) in HH. lra.
Qed.

(* the number of grid points when the first step stays in the range *)
Definition npts (start stop step : Q) : nat := Z.to_nat (Qtrunc ((stop - start) / step) + 1).

Lemma npts_spec start stop step : ~ step == 0 -> not_past stop step start ->
  forall k, (k < npts start stop step)%nat <-> not_past stop step (grid_pt start step k).
Proof.
  intros Hs Hp k.
  assert (H0 : 0 <= (stop - start) / step).
  { apply (not_past_ratio start stop step 0 Hs).
    apply not_past_compat with start; [symmetry; apply grid_pt_0 | exact Hp]. }
  rewrite (not_past_ratio start stop step k Hs), (inject_le_floor _ k H0).
  unfold npts. destruct (Qtrunc_nonneg _ H0) as (_ & _ & H3). lia.
Qed.

(* the generator from iteration i >= 1 on, v being the (i-1)-th point *)
Lemma range_gen_tail start stop step n :
  (forall k, (k < n)%nat <-> not_past stop step (grid_pt start step k)) ->
  forall m i, (m + i = n)%nat -> (1 <= i)%nat ->
  forall v, v == grid_pt start step (i - 1) ->
  forall fuel, (m < fuel)%nat ->
  range_gen fuel start stop step v (Z.of_nat i) = Some (map (grid_pt start step) (seq i m)).
Proof.
  intros Hn. induction m as [|m IH]; intros i Hmi Hi v Hv fuel Hf;
    (destruct fuel as [|fuel]; [lia|]); cbn [range_gen].
  - assert (K : keep_going stop step v = false).
    { destruct (keep_going stop step v) eqn:E; [|reflexivity].
      apply keep_going_spec in E.
      assert (HH : not_past stop step (grid_pt start step i)).
      { apply not_past_compat with (v + step); [|exact E].
        replace i with (S (i - 1)) by lia. rewrite grid_pt_S, Hv. reflexivity. }
      apply Hn in HH. lia. }
    rewrite K. reflexivity.
  - assert (K : keep_going stop step v = true).
    { apply keep_going_spec. apply not_past_compat with (grid_pt start step i); [|apply Hn; lia].
      replace i with (S (i - 1)) by lia. rewrite grid_pt_S, Hv. reflexivity. }
    rewrite K. replace (Z.of_nat i + 1)%Z with (Z.of_nat (S i)) by lia.
    rewrite IH; [reflexivity | lia | lia | | lia].
    replace (S i - 1)%nat with i by lia. reflexivity.
Qed.

Lemma range_gen_fuel_mono start stop step : forall fuel v i l,
  range_gen fuel start stop step v i = Some l ->
  forall fuel', (fuel <= fuel')%nat -> range_gen fuel' start stop step v i = Some l.
Proof.
  induction fuel as [|fuel IH]; intros v i l H fuel' Hle; [discriminate|].
  destruct fuel' as [|fuel']; [lia|]. cbn [range_gen] in *.
  destruct (keep_going stop step v); [|exact H].
  destruct (range_gen fuel start stop step (inject_Z i * step + start) (i + 1)) as [l'|] eqn:E; [|discriminate].
  rewrite (IH _ _ _ E fuel') by lia. exact H.
Qed.

(* complete characterisation of list(MRange(...)) *)
Lemma mrange_list_two_points r : ~ mr_step r == 0 ->
  not_past (mr_stop r) (mr_step r) (mr_start r + mr_step r) ->
  forall fuel, (npts (mr_start r) (mr_stop r) (mr_step r) < fuel)%nat ->
  mrange_list fuel r =
    Some (map (grid_pt (mr_start r) (mr_step r)) (seq 0 (npts (mr_start r) (mr_stop r) (mr_step r)))).
Proof.
  destruct r as [start stop step]; simpl. intros Hs H2 fuel Hf. unfold mrange_list; simpl.
  assert (H1 : not_past stop step start).
  { apply not_past_prev, H2. }
  pose proof (npts_spec start stop step Hs H1) as Hn.
  set (n := npts start stop step) in *.
  assert (Hn2 : (2 <= n)%nat).
  { apply Hn. apply not_past_compat with (start + step); [|exact H2].
    rewrite grid_pt_S, grid_pt_0. reflexivity. }
  destruct fuel as [|fuel]; [lia|]. cbn [range_gen].
  assert (K : keep_going stop step start = true) by (apply keep_going_spec; exact H2).
  rewrite K. change (0 + 1)%Z with (Z.of_nat 1).
  rewrite (range_gen_tail start stop step n Hn (n - 1) 1); [|lia|lia| |lia].
  - destruct n as [|n]; [lia|]. cbn [seq map]. replace (S n - 1)%nat with n by lia. reflexivity.
  - reflexivity.
Qed.

Lemma mrange_list_fewer r fuel : (0 < fuel)%nat ->
  ~ not_past (mr_stop r) (mr_step r) (mr_start r + mr_step r) -> mrange_list fuel r = Some [].
Proof.
  intros Hf H. destruct fuel as [|fuel]; [lia|]. unfold mrange_list. cbn [range_gen].
  destruct (keep_going (mr_stop r) (mr_step r) (mr_start r)) eqn:E; [|reflexivity].
  apply keep_going_spec in E. contradiction.
Qed.

Lemma mk_mrange_step start stop step r : mk_mrange start stop step = Some r ->
  r = {| mr_start := start; mr_stop := stop; mr_step := step |} /\ ~ step == 0 /\ ~ start == stop.
Proof.
  unfold mk_mrange. destruct (Qeq_bool start stop) eqn:E1; [discriminate|].
  destruct (Qeq_bool step 0) eqn:E2; [discriminate|]. intros H; injection H as <-.
  split; [reflexivity|]. split; intros HH; apply Qeq_bool_iff in HH; congruence.
Qed.

Lemma mrange_list_terminates r : ~ mr_step r == 0 -> exists fuel l, mrange_list fuel r = Some l.
Proof.
  intros Hs.
  destruct (keep_going (mr_stop r) (mr_step r) (mr_start r)) eqn:E.
  - apply keep_going_spec in E. eexists (S (npts (mr_start r) (mr_stop r) (mr_step r))), _.
    apply mrange_list_two_points; [exact Hs | exact E | lia].
  - exists 1%nat, []. apply mrange_list_fewer; [lia|]. intros H. apply keep_going_spec in H. congruence.
Qed.

Lemma mrange_list_det r f1 f2 l1 l2 : mrange_list f1 r = Some l1 -> mrange_list f2 r = Some l2 -> l1 = l2.
Proof.
  unfold mrange_list. intros H1 H2.
  apply range_gen_fuel_mono with (fuel' := Nat.max f1 f2) in H1; [|lia].
  apply range_gen_fuel_mono with (fuel' := Nat.max f1 f2) in H2; [|lia].
  congruence.
Qed.

(* the list when at least two points fit *)
Lemma mrange_list_grid r fuel l : ~ mr_step r == 0 ->
  not_past (mr_stop r) (mr_step r) (mr_start r + mr_step r) ->
  mrange_list fuel r = Some l ->
  lists_grid (mr_start r) (mr_stop r) (mr_step r) l.
Proof.
  intros Hs H2 HL.
  set (n := npts (mr_start r) (mr_stop r) (mr_step r)).
  assert (HH := mrange_list_two_points r Hs H2 (S n) ltac:(unfold n; lia)).
  rewrite (mrange_list_det r _ _ _ _ HL HH). exists n. split; [reflexivity|].
  apply npts_spec; [exact Hs|]. apply not_past_prev, H2.
Qed.

Lemma mrange_list_length r fuel l : ~ mr_step r == 0 ->
  not_past (mr_stop r) (mr_step r) (mr_start r + mr_step r) ->
  mrange_list fuel r = Some l -> mrange_len r = Some (Z.of_nat (length l)).
Proof.
  intros Hs H2 HL.
  set (n := npts (mr_start r) (mr_stop r) (mr_step r)).
  assert (HH := mrange_list_two_points r Hs H2 (S n) ltac:(unfold n; lia)).
  rewrite (mrange_list_det r _ _ _ _ HL HH).
  rewrite map_length, seq_length. fold n. unfold mrange_len.
  assert (H0 : 0 <= (mr_stop r - mr_start r) / mr_step r).
  { apply (not_past_ratio _ _ _ 0 Hs).
    apply not_past_compat with (mr_start r); [symmetry; apply grid_pt_0 | apply not_past_prev, H2]. }
  destruct (Qtrunc_nonneg _ H0) as (_ & _ & H3).
  unfold mrange_len_raw. replace ((_ <? 0)%Z) with false by (symmetry; apply Z.ltb_ge; lia).
  f_equal. unfold n, npts. rewrite Z2Nat.id; [reflexivity | lia].
Qed.

Lemma mrange_get_nth r fuel l : ~ mr_step r == 0 ->
  not_past (mr_stop r) (mr_step r) (mr_start r + mr_step r) ->
  mrange_list fuel r = Some l ->
  forall k, mrange_get r (Z.of_nat k) = nth_error l k.
Proof.
  intros Hs H2 HL k. unfold mrange_get. rewrite (mrange_list_length r fuel l Hs H2 HL).
  destruct (mrange_list_grid r fuel l Hs H2 HL) as (n & -> & _).
  rewrite map_length, seq_length.
  destruct (Nat.lt_ge_cases k n) as [Hk|Hk].
  - replace ((Z.of_nat k <? 0) || (Z.of_nat n <=? Z.of_nat k))%Z with false by (symmetry; apply orb_false_iff; lia).
    erewrite map_nth_error; [reflexivity|].
    rewrite nth_error_nth' with (d := 0%nat) by (rewrite seq_length; exact Hk).
    rewrite seq_nth by exact Hk. reflexivity.
  - replace ((Z.of_nat k <? 0) || (Z.of_nat n <=? Z.of_nat k))%Z with true by (symmetry; apply orb_true_iff; lia).
    symmetry. apply nth_error_None. rewrite map_length, seq_length. exact Hk.
Qed.

(* the announced length when the first step already passes the end but not the start: 1 *)
Lemma mrange_len_overshoot r : ~ mr_step r == 0 ->
  not_past (mr_stop r) (mr_step r) (mr_start r) ->
  ~ not_past (mr_stop r) (mr_step r) (mr_start r + mr_step r) ->
  mrange_len r = Some 1%Z.
Proof.
  intros Hs H1 H2. 
  assert (H0 : 0 <= (mr_stop r - mr_start r) / mr_step r).
  { apply (not_past_ratio _ _ _ 0 Hs).
    apply not_past_compat with (mr_start r); [symmetry; apply grid_pt_0 | exact H1]. }
  destruct (Qtrunc_nonneg _ H0) as (A & B & C).
  assert (Qtrunc ((mr_stop r - mr_start r) / mr_step r) < 1)%Z.
  { destruct (Z.lt_ge_cases (Qtrunc ((mr_stop r - mr_start r) / mr_step r)) 1) as [|G]; [assumption|].
    exfalso. apply H2.
    assert (HH : inject_Z (Z.of_nat 1) <= (mr_stop r - mr_start r) / mr_step r).
    { apply (inject_le_floor _ 1 H0). lia. }
    apply (not_past_ratio (mr_start r) (mr_stop r) (mr_step r) 1 Hs) in HH.
    apply not_past_compat with (grid_pt (mr_start r) (mr_step r) 1); [|exact HH].
    rewrite grid_pt_S, grid_pt_0. reflexivity. }
  unfold mrange_len, mrange_len_raw. 
  replace (Qtrunc ((mr_stop r - mr_start r) / mr_step r)) with 0%Z by lia. reflexivity.
Qed.
