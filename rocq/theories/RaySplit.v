(** SPLIT, termination and the funnel. *)
From Coq Require Import List String Bool Arith ZArith QArith Qcanon Lia.
From Verif Require Import PyStr Raytrace RaySpec RayFacts.
Import ListNotations.
Local Open Scope string_scope.
Local Open Scope list_scope.
Local Open Scope nat_scope.

Section S.
Context {Ph Uv Rng : Type}.
Notation core := (core Ph Uv Rng).
Notation outcome := (outcome Ph Uv Rng).
Notation rstate := (rstate Ph Uv Rng).
Variable act : nat -> core -> outcome.
Variable tr : nat -> Ph -> Ph.
Variable when_c : nat -> core -> bool.
Variable jump_c : nat -> nat -> core -> bool.
Variable iter_c : nat -> nat -> core -> Z.
Variable split_c : nat -> core -> Z.
Notation run_items := (run_items act tr when_c jump_c iter_c split_c).
Notation run_body := (run_body act tr when_c jump_c iter_c).
Notation run1 := (run1 act tr when_c jump_c iter_c).

(** * Termination without jumps *)
(** the particle is done for, or at component i or further *)
Definition ahead (i : nat) (s : rstate) : Prop := absorbed (pt s) = true \/ (1 + Z.of_nat i <= index (pt s))%Z.

Lemma last_id_ge i l : In i l -> i <= last_id l.
Proof. induction l as [|x t IH]; intros []; cbn [last_id fold_right]; [subst; lia|]. apply IH in H. unfold last_id in H. lia. Qed.
Lemma ids_from_in i0 g cs j c : nth_error cs j = Some c -> rc_group c = Some g -> In (i0 + j) (ids_from i0 g cs).
Proof.
  revert i0 j. induction cs as [|x t IH]; intros i0 [|j] H G; try discriminate.
  - inversion H; subst. cbn [ids_from]. unfold in_group. rewrite G, String.eqb_refl, Nat.add_0_r. now left.
  - cbn [ids_from]. apply in_or_app. right. rewrite <- Nat.add_succ_comm. now apply IH.
Qed.

Lemma body_index all skip i c s : nth_error all i = Some c -> rc_jumps c = [] -> index (pt s) = (1 + Z.of_nat i)%Z ->
  (2 + Z.of_nat i <= index (pt (run_body (gen_body all skip i c) s)))%Z.
Proof.
  intros Hc J X. unfold gen_body. rewrite J. cbn [gen_jumps app].
  assert (KEEP : forall x t, (match x with IGroup _ _ | INext | IJump _ _ _ | IIter _ _ _ _ => False | _ => True end) -> index (pt (run1 x t)) = index (pt t)).
  { intros x t Hx. destruct x; try contradiction; cbn [Raytrace.run1]; try reflexivity.
    - destruct (negb guarded || when_c i0 (pc (pt t))); reflexivity.
    - destruct (restore (pt t)); reflexivity. }
  assert (KEEPL : forall l t, Forall (fun x => match x with IGroup _ _ | INext | IJump _ _ _ | IIter _ _ _ _ => False | _ => True end) l ->
                  index (pt (run_body l t)) = index (pt t)).
  { induction l as [|x l IH]; intros t F; [reflexivity|]. inversion F; subst. rewrite run_body_cons, IH by auto. now apply KEEP. }
  rewrite run_body_app, run_body_app, run_body_app.
  set (s1 := run_body (if rc_code c then _ else _) _).
  assert (X1 : index (pt s1) = (1 + Z.of_nat i)%Z).
  { unfold s1. rewrite KEEPL, KEEPL; auto.
    - destruct (rc_group c) as [g|]; [destruct (is_leader (ids g all) i)|]; destruct (skip i); repeat constructor.
    - destruct (rc_code c); repeat constructor. }
  rewrite run_body_cons, run_body_nil. cbn [Raytrace.run1].
  destruct (rc_group c) as [g|] eqn:G.
  - rewrite run_body_cons, run_body_nil. cbn [Raytrace.run1].
    assert (LE : i <= last_id (ids g all)) by (apply last_id_ge; exact (ids_from_in 0 g all i c Hc G)).
    destruct (scattered (pt s1)); [|destruct (i =? last_id (ids g all))]; unfold with_pt, set_index, set_absorbed, particle_restore; cbn [pt index].
    + lia.
    + rewrite X1. lia.
    + rewrite X1. lia.
  - cbn [app]. rewrite run_body_nil. unfold with_pt, set_index. cbn [pt index]. rewrite X1. lia.
Qed.

Lemma comp_ahead all skip i c s : nth_error all i = Some c -> rc_jumps c = [] -> ahead i s ->
  ahead (S i) (run_comp act tr when_c jump_c iter_c i (gen_body all skip i c) s).
Proof.
  intros Hc J [A|X]; unfold Raytrace.run_comp.
  - rewrite A. cbn [negb andb]. now left.
  - destruct (absorbed (pt s)) eqn:A; [now left|]. cbn [negb andb].
    destruct (Z.eqb_spec (index (pt s)) (1 + Z.of_nat i)) as [E|E].
    + right. rewrite Nat2Z.inj_succ. pose proof (body_index all skip i c (with_pt s (set_nocoords (pt s) false)) Hc J E). lia.
    + right. lia.
Qed.
Lemma all_ahead all skip : (forall i k, (1 <= split_c i k)%Z) -> forall cs i s,
  (forall j c, nth_error cs j = Some c -> nth_error all (i + j) = Some c) -> Forall (fun c => rc_jumps c = []) cs ->
  ahead i s -> ahead (i + List.length cs) (run_items (gen_from all skip i cs) s).
Proof.
  intros P. induction cs as [|c t IH]; intros i s H F A; cbn [gen_from List.length].
  - now rewrite Nat.add_0_r.
  - inversion F; subst. assert (Hc : nth_error all i = Some c) by (rewrite <- (Nat.add_0_r i); now apply H).
    assert (Ht : forall j c, nth_error t j = Some c -> nth_error all (S i + j) = Some c).
    { intros j c' E. rewrite Nat.add_succ_comm. apply H. exact E. }
    assert (ST : forall s, ahead i s -> ahead (i + S (List.length t))
               (run_items (((if skip i then [] else [Coords i]) ++ [Comp i (gen_body all skip i c)]) ++ gen_from all skip (S i) t) s)).
    { intros s0 A0. rewrite run_items_app by (destruct (skip i); reflexivity).
      rewrite <- Nat.add_succ_comm. apply IH; auto.
      destruct (skip i); cbn [app Raytrace.run_items]; apply comp_ahead; auto.
      unfold run_coords. destruct (nocoords (pt s0)); auto. }
    unfold gen_comp. destruct (rc_split c); [|now apply ST].
    rewrite <- app_assoc. cbn [app Raytrace.run_items].
    destruct (absorbed (pt s)) eqn:Ab; [now left|].
    set (n := split_c i (pc (pt s))). assert (Pn : (1 <= n)%Z) by apply P.
    destruct (Z.to_nat n) as [|k] eqn:En; [lia|]. cbn [Nat.iter nat_rect].
    apply ST. destruct A as [A|A]; [congruence|]. right. exact A.
Qed.

(** * Weight *)
Lemma gen_from_ids all all' skip i cs : (forall g, ids g all = ids g all') -> gen_from all skip i cs = gen_from all' skip i cs.
Proof.
  intro H. revert i. induction cs as [|c t IH]; intro i; [reflexivity|]. cbn [gen_from]. rewrite IH. f_equal.
  unfold gen_comp. do 4 f_equal. unfold gen_body. destruct (rc_group c); [|reflexivity]. now rewrite H.
Qed.
(** specification: the same component without SPLIT *)
Definition unsplit (c : rcomp) : rcomp := mkRc (rc_name c) (rc_code c) (rc_when c) (rc_group c) (rc_jumps c) false.
Lemma ids_unsplit g a c b : ids g (a ++ c :: b) = ids g (a ++ unsplit c :: b).
Proof. unfold ids. rewrite !ids_from_app. reflexivity. Qed.
Lemma gen_comp_split all skip i c : rc_split c = true -> gen_comp all skip i c = Split i :: gen_comp all skip i (unsplit c).
Proof. intro H. unfold gen_comp. rewrite H. reflexivity. Qed.

Lemma copies_ok skip pre c post n p0 :
  let us := map (fun u => u) pre ++ One (unsplit c) :: post in
  let i := List.length (flatten pre) in
  Forall good_unit us -> NoDup (flat_map group_of us) ->
  (forall j d, nth_error (flatten us) j = Some d -> skip j = true -> rc_code d = false) ->
  absorbed p0 = false -> index p0 = (1 + Z.of_nat i)%Z -> nocoords p0 = false -> restore p0 = false ->
  forall k s, exists rs, List.length rs = k /\
    log (Nat.iter k (fun s' => run_items (gen_from (flatten us) skip i (unsplit c :: flatten post)) (with_pt s' (split_copy p0 n (pt s')))) s) =
    log s ++ flat_map (fun r => fst (spec_units act tr when_c skip i (One (unsplit c) :: post)
               (mkCore (ph (pc p0)) (wt (pc p0) / Q2Qc (inject_Z (if (0 <? n)%Z then n else 1%Z)))%Qc (uv (pc p0)) r))) rs.
Proof.
  intros us i F D K A X N R. unfold us in *. rewrite map_id in *. clear us.
  induction k as [|k IH]; intro s.
  - exists []. split; [reflexivity|]. cbn. now rewrite app_nil_r.
  - destruct (IH s) as (rs & Lr & Lg). cbn [Nat.iter nat_rect].
    change (nat_rect _ s (fun _ => ?f) k) with (Nat.iter k f s).
    set (s1 := Nat.iter k _ s) in *.
    exists (rs ++ [rng (pc (pt s1))]). split; [rewrite app_length; cbn; lia|].
    destruct (units_ok act tr when_c jump_c iter_c split_c (flatten (pre ++ One (unsplit c) :: post)) skip
                (One (unsplit c) :: post) pre [] (with_pt s1 (split_copy p0 n (pt s1)))) as [L1 _];
      try (rewrite app_nil_r); auto.
    + repeat split; auto.
    + fold i in L1. change (flatten (One (unsplit c) :: post)) with (unsplit c :: flatten post) in L1. rewrite L1.
      cbn [with_pt log pt pc split_copy set_core]. rewrite Lg. rewrite flat_map_app. cbn [flat_map]. now rewrite app_nil_r, app_assoc.
Qed.

(** * The funnel *)
Lemma funnel_comp_skip all skip i c s : absorbed (pt s) = true -> funnel_comp act tr when_c jump_c iter_c all skip i c s = s.
Proof. intro H. unfold funnel_comp. now rewrite H. Qed.
Lemma funnel_one_ok all skip i c s :
  lone c -> (skip i = true -> rc_code c = false) -> absorbed (pt s) = false -> index (pt s) = (1 + Z.of_nat i)%Z -> restore (pt s) = false ->
  let r := spec_one act tr when_c skip i c (pc (pt s)) in
  let s' := funnel_comp act tr when_c jump_c iter_c all skip i c s in
  log s' = log s ++ fst r /\
  match snd r with
  | Some k => absorbed (pt s') = false /\ index (pt s') = (1 + Z.of_nat (S i))%Z /\ restore (pt s') = false /\ pc (pt s') = k
  | None => absorbed (pt s') = true
  end.
Proof.
  intros (G & J & S0) K A X R.
  destruct s as [[k ab sc re ix nc ct] sv lg]. cbn [pt pc absorbed index nocoords restore] in *. subst ab ix re.
  unfold funnel_comp, spec_one. cbn [pt absorbed index negb andb]. replace (Z.of_nat i + 1)%Z with (1 + Z.of_nat i)%Z by lia.
  rewrite Z.eqb_refl, G. replace (1 + Z.of_nat (S i))%Z with (1 + Z.of_nat i + 1)%Z by lia.
  destruct (skip i) eqn:Sk.
  - rewrite (K eq_refl). cbn [andb]. rewrite run1_next. cbn [pt log absorbed index restore pc fst snd]. rewrite app_nil_r. repeat split.
  - change (core_tr tr i k) with (moved tr i k). unfold set_core. cbn [pt pc absorbed scattered restore index nocoords cnt log].
    change (core_tr tr i k) with (moved tr i k).
    destruct (rc_code c).
    + rewrite run1_trace. cbn [andb]. destruct (negb (rc_when c) || when_c i (moved tr i k)).
      * rewrite run1_restore. destruct (o_restore (act i (moved tr i k))) eqn:Er.
        -- rewrite run1_next. cbn [pt log absorbed index restore pc fst snd]. repeat split.
        -- rewrite run1_next. cbn [pt log absorbed index restore pc fst snd]. split; [reflexivity|].
           destruct (o_absorbed (act i (moved tr i k))); repeat split; auto.
      * rewrite run1_restore, run1_next. cbn [pt log absorbed index restore pc fst snd]. rewrite app_nil_r. repeat split.
    + cbn [andb]. rewrite run1_next. cbn [pt log absorbed index restore pc fst snd]. rewrite app_nil_r. repeat split.
Qed.
Lemma funnel_ok all skip : forall cs i s,
  Forall lone cs -> (forall j c, nth_error cs j = Some c -> skip (i + j) = true -> rc_code c = false) ->
  absorbed (pt s) = false -> index (pt s) = (1 + Z.of_nat i)%Z -> restore (pt s) = false ->
  log (funnel_from act tr when_c jump_c iter_c all skip i cs s) = log s ++ fst (spec_units act tr when_c skip i (map One cs) (pc (pt s))).
Proof.
  assert (DEAD : forall cs i s, absorbed (pt s) = true -> funnel_from act tr when_c jump_c iter_c all skip i cs s = s).
  { induction cs as [|c t IH]; intros i s A; [reflexivity|]. cbn [funnel_from]. rewrite funnel_comp_skip by auto. auto. }
  induction cs as [|c t IH]; intros i s F K A X R; cbn [funnel_from map spec_units].
  - now rewrite app_nil_r.
  - inversion F as [|? ? Lc Lt]; subst.
    assert (Kc : skip i = true -> rc_code c = false) by (rewrite <- (Nat.add_0_r i) at 1; now apply K).
    destruct (funnel_one_ok all skip i c s Lc Kc A X R) as [L1 L2]. cbv zeta in *.
    destruct (spec_one act tr when_c skip i c (pc (pt s))) as [lg [k|]]; cbn [fst snd] in *.
    + destruct L2 as (A' & X' & R' & P'). rewrite IH; auto.
      * rewrite L1, P'. cbn [members List.length]. rewrite Nat.add_1_r.
        destruct (spec_units act tr when_c skip (S i) (map One t) k). cbn [fst]. now rewrite app_assoc.
      * intros j d E. rewrite Nat.add_succ_comm. now apply K.
    + rewrite DEAD by auto. exact L1.
Qed.
End S.
