(** The emitted loop follows the jump machine of RaySpec.v; iterated jumps; SPLIT. *)
From Coq Require Import List String Bool Arith ZArith QArith Qcanon Lia.
From Verif Require Import PyStr Raytrace RaySpec RayFacts.
Import ListNotations.
Local Open Scope string_scope.
Local Open Scope list_scope.
Local Open Scope nat_scope.

Section Jumps.
Context {Ph Uv Rng : Type}.
Notation core := (core Ph Uv Rng).
Notation outcome := (outcome Ph Uv Rng).
Notation rstate := (rstate Ph Uv Rng).
Notation mach := (mach Ph Uv Rng).
Variable act : nat -> core -> outcome.
Variable tr : nat -> Ph -> Ph.
Variable when_c : nat -> core -> bool.
Variable jump_c : nat -> nat -> core -> bool.
Variable iter_c : nat -> nat -> core -> Z.
Variable split_c : nat -> core -> Z.
Notation run_items := (run_items act tr when_c jump_c iter_c split_c).
Notation run_body := (run_body act tr when_c jump_c iter_c).
Notation run_while := (run_while act tr when_c jump_c iter_c split_c).
Notation mstep := (mstep act tr when_c jump_c iter_c).
Notation mrun := (mrun act tr when_c jump_c iter_c).
Notation spec_jumps := (spec_jumps jump_c iter_c).

(** groups and splits apart *)
Definition jumper (c : rcomp) : Prop := rc_group c = None /\ rc_split c = false.

(** proof helper: the index after a jump or without one *)
Definition ixof (ix : Z) (d : option Z) : Z := match d with None => ix | Some t => t end.
(** proof helper: there was a jump *)
Definition isS (d : option Z) : bool := match d with None => false | Some _ => true end.
Lemma jumps_ok i name k0 a sc r ix sv lg js : forall k d ct,
  run_body (gen_jumps i k name js) (mkS (mkP k0 a sc r (ixof ix d) (isS d) ct) sv lg) =
  let '(d', ct') := spec_jumps i k name js k0 ct d in mkS (mkP k0 a sc r (ixof ix d') (isS d') ct') sv lg.
Proof.
  induction js as [|j t IH]; intros k d ct; [reflexivity|]. cbn [gen_jumps RaySpec.spec_jumps].
  destruct (rj_iter j).
  - rewrite run_body_cons. cbn [Raytrace.run1 pt pc cnt].
    destruct (ct (counter_name name (rj_target j)) + 1 <? iter_c i k k0)%Z.
    + exact (IH (S k) (Some (rj_abs j)) _).
    + exact (IH (S k) d _).
  - rewrite run_body_cons. cbn [Raytrace.run1 pt pc].
    destruct (jump_c i k k0).
    + exact (IH (S k) (Some (rj_abs j)) ct).
    + exact (IH (S k) d ct).
Qed.

(** the loop is at position j of the program text, the machine in state m *)
Definition rel (j : nat) (m : mach) (s : rstate) : Prop :=
  absorbed (pt s) = false /\ index (pt s) = (1 + Z.of_nat (at_ m))%Z /\ restore (pt s) = false /\
  nocoords (pt s) = jumped m /\ pc (pt s) = mcore m /\ cnt (pt s) = mcnt m /\ log s = mlog m /\
  (jumped m = false -> j = at_ m).
(** proof helper: no component can be entered any more *)
Definition stuck (s : rstate) : Prop := absorbed (pt s) = false /\ (index (pt s) <= 0)%Z /\ nocoords (pt s) = true.

Lemma step_ok cs skip j c m s :
  nth_error cs j = Some c -> jumper c -> (skip j = true -> rc_code c = false) -> rel j m s -> at_ m = j ->
  let s' := run_items (gen_comp cs skip j c) s in
  match mstep skip cs m with
  | Going m' => rel (S j) m' s'
  | Done l => absorbed (pt s') = true /\ log s' = l
  | Lost _ => stuck s'
  end.
Proof.
  intros Hc (G & Sp) K (A & X & R & N & P & C & L & Q) Hat. subst j.
  destruct s as [[k ab sc re ix nc ct] sv lg]. cbn [pt pc absorbed index nocoords restore cnt log] in *. subst ab ix nc re k ct lg.
  destruct m as [i jd k ct lg]. cbn [at_ jumped mcore mcnt mlog] in *.
  unfold RaySpec.mstep. cbn [at_ jumped mcore mcnt mlog]. rewrite Hc.
  unfold gen_comp, gen_body. rewrite Sp, G. cbn [app].
  set (k1 := if skip i || jd then k else moved tr i k).
  assert (E1 : forall l, run_items ((if skip i then [] else [Coords i]) ++ l) (mkS (mkP k false sc false (1 + Z.of_nat i) jd ct) sv lg) =
               run_items l (mkS (mkP k1 false sc false (1 + Z.of_nat i) jd ct) sv lg)).
  { intro l. unfold k1. destruct (skip i); [reflexivity|]. cbn [app Raytrace.run_items orb]. unfold run_coords. cbn [pt nocoords].
    destruct jd; reflexivity. }
  rewrite E1. clear E1. cbn [Raytrace.run_items]. unfold Raytrace.run_comp. cbn [pt absorbed index negb andb]. rewrite Z.eqb_refl.
  unfold with_pt, set_nocoords. cbn [pt save log pc absorbed scattered restore index cnt].
  rewrite run_body_app.
  assert (E2 : exists sv', run_body (if skip i then [] else [ISave]) (mkS (mkP k1 false sc false (1 + Z.of_nat i) false ct) sv lg) =
               mkS (mkP k1 false sc false (1 + Z.of_nat i) false ct) sv' lg /\ (skip i = false -> pc sv' = k1)).
  { destruct (skip i); [|]; eexists; (split; [reflexivity|]); [discriminate|reflexivity]. }
  destruct E2 as (sv' & E2 & E3). rewrite E2. clear E2. rewrite run_body_app.
  unfold spec_one. fold k1.
  assert (E4 : exists a2 sc2, forall lgr, lgr = (if rc_code c && (negb (rc_when c) || when_c i k1)
        then let o := act i k1 in ([(i, k1)], if o_restore o then Some (undone k1 (o_core o)) else if o_absorbed o then None else Some (o_core o))
        else ([], Some k1)) ->
     exists k2, run_body (if rc_code c then [ITrace i (rc_when c); IRestore] else []) (mkS (mkP k1 false sc false (1 + Z.of_nat i) false ct) sv' lg) =
       mkS (mkP k2 a2 sc2 false (1 + Z.of_nat i) false ct) sv' (lg ++ fst lgr) /\
       match snd lgr with Some k => k = k2 /\ a2 = false | None => a2 = true end).
  { destruct (rc_code c) eqn:Ec.
    - assert (Sk : skip i = false) by (destruct (skip i); auto; discriminate (K eq_refl)). specialize (E3 Sk).
      rewrite run_body_cons, run1_trace. cbn [andb].
      destruct (negb (rc_when c) || when_c i k1).
      + rewrite run_body_cons, run1_restore, run_body_nil. cbv zeta. destruct (o_restore (act i k1)) eqn:Er.
        * eexists _, _. intros lgr ->. eexists. split; [reflexivity|]. cbn [snd]. rewrite E3. split; reflexivity.
        * eexists _, _. intros lgr ->. eexists. split; [reflexivity|]. cbn [snd]. destruct (o_absorbed (act i k1)); auto.
      + rewrite run_body_cons, run1_restore, run_body_nil. eexists _, _. intros lgr ->. eexists. cbn [fst snd]. rewrite app_nil_r. split; [reflexivity|auto].
    - eexists _, _. intros lgr ->. eexists. cbn [andb fst snd]. rewrite app_nil_r. split; [reflexivity|auto]. }
  destruct E4 as (a2 & sc2 & E4). specialize (E4 _ eq_refl). destruct E4 as (k2 & E4 & E5). rewrite E4. clear E4.
  set (lgr := if rc_code c && _ then _ else _) in *. clearbody lgr. destruct lgr as [lg1 r1]. cbn [fst snd] in *.
  rewrite run_body_app. pose proof (jumps_ok i (rc_name c) k2 a2 sc2 false (1 + Z.of_nat i) sv' (lg ++ lg1) (rc_jumps c) 0 None ct) as EJ.
  cbn [ixof isS] in EJ. rewrite EJ. clear EJ.
  destruct r1 as [k3|].
  - destruct E5 as [-> ->].
    destruct (spec_jumps i 0 (rc_name c) (rc_jumps c) k2 ct None) as [d ct'].
    cbn [app]. rewrite run_body_cons, run1_next, run_body_nil.
    destruct d as [t|]; cbn [ixof isS].
    + destruct (t <? 0)%Z eqn:Et.
      * apply Z.ltb_lt in Et. unfold stuck. cbn [pt absorbed index nocoords]. repeat split; auto. lia.
      * apply Z.ltb_ge in Et. unfold rel. cbn [pt absorbed index nocoords restore pc cnt log at_ jumped mcore mcnt mlog].
        repeat split; auto; try discriminate. lia.
    + unfold rel. cbn [pt absorbed index nocoords restore pc cnt log at_ jumped mcore mcnt mlog]. repeat split; auto. lia.
  - subst a2. destruct (spec_jumps i 0 (rc_name c) (rc_jumps c) k2 ct None) as [d ct'].
    cbn [app]. rewrite run_body_cons, run1_next, run_body_nil. cbn [pt absorbed log]. auto.
Qed.

Lemma idle_ok cs skip j c m s : jumper c -> rel j m s -> at_ m <> j -> rel (S j) m (run_items (gen_comp cs skip j c) s).
Proof.
  intros (G & Sp) (A & X & R & N & P & C & L & Q) Hat.
  assert (Hj : jumped m = true). { destruct (jumped m); auto. exfalso. apply Hat. symmetry. exact (Q eq_refl). }
  unfold gen_comp. rewrite Sp. cbn [app].
  assert (E1 : forall l, run_items ((if skip j then [] else [Coords j]) ++ l) s = run_items l s).
  { intro l. destruct (skip j); [reflexivity|]. cbn [app Raytrace.run_items]. unfold run_coords. now rewrite N, Hj. }
  rewrite E1. cbn [Raytrace.run_items]. unfold Raytrace.run_comp. rewrite A, X. cbn [negb andb].
  destruct (Z.eqb_spec (1 + Z.of_nat (at_ m)) (1 + Z.of_nat j)); [lia|].
  unfold rel. repeat split; auto. rewrite Hj. discriminate.
Qed.
Lemma stuck_ok cs skip j c s : jumper c -> stuck s -> run_items (gen_comp cs skip j c) s = s.
Proof.
  intros (G & Sp) (A & X & N). unfold gen_comp. rewrite Sp. cbn [app].
  assert (E1 : forall l, run_items ((if skip j then [] else [Coords j]) ++ l) s = run_items l s).
  { intro l. destruct (skip j); [reflexivity|]. cbn [app Raytrace.run_items]. unfold run_coords. now rewrite N. }
  rewrite E1. cbn [Raytrace.run_items]. unfold Raytrace.run_comp. rewrite A. cbn [negb andb].
  destruct (Z.eqb_spec (index (pt s)) (1 + Z.of_nat j)); [lia|reflexivity].
Qed.

(** several machine steps *)
Fixpoint mgo (q : nat) (skip : nat -> bool) (cs : list rcomp) (m : mach) : step_result Ph Uv Rng :=
  match q with
  | O => Going m
  | S q => match mstep skip cs m with Going m' => mgo q skip cs m' | r => r end
  end.
Lemma mrun_mgo q f skip cs m :
  match mgo q skip cs m with
  | Going m' => mrun (q + f) skip cs m = mrun f skip cs m'
  | Done l => f <> 0 -> mrun (q + f) skip cs m = Some l
  | Lost _ => mrun (q + f) skip cs m = None
  end.
Proof.
  revert m. induction q as [|q IH]; intro m; [reflexivity|]. cbn [mgo plus RaySpec.mrun].
  destruct (mstep skip cs m); [apply IH|reflexivity|reflexivity].
Qed.
Lemma mrun_more f g skip cs m l : mrun f skip cs m = Some l -> f <= g -> mrun g skip cs m = Some l.
Proof.
  revert g m. induction f as [|f IH]; intros g m H Hg; [discriminate|]. destruct g as [|g]; [lia|]. cbn [RaySpec.mrun] in *.
  destruct (mstep skip cs m); auto; try discriminate. apply IH; auto. lia.
Qed.

Lemma stuck_pass cs skip : forall rest j s, Forall jumper rest -> stuck s -> run_items (gen_from cs skip j rest) s = s.
Proof.
  induction rest as [|c t IH]; intros j s F H; [reflexivity|]. inversion F; subst. cbn [gen_from].
  rewrite run_items_app by (apply gen_comp_no_split; apply H2). rewrite stuck_ok by auto. auto.
Qed.

Lemma skipn_next {A} (l : list A) j c t : c :: t = skipn j l -> t = skipn (S j) l.
Proof.
  revert j. induction l as [|x l IH]; intros [|j] H; cbn in *; try discriminate.
  - now inversion H.
  - exact (IH j H).
Qed.
(** one pass of the loop *)
Lemma pass_ok cs skip : Forall jumper cs -> (forall i c, nth_error cs i = Some c -> skip i = true -> rc_code c = false) ->
  forall rest j m s, rest = skipn j cs -> j <= List.length cs -> rel j m s ->
  exists q, (j <= at_ m < List.length cs -> 0 < q) /\
  let s' := run_items (gen_from cs skip j rest) s in
  match mgo q skip cs m with
  | Going m' => rel (List.length cs) m' s'
  | Done l => absorbed (pt s') = true /\ log s' = l
  | Lost _ => stuck s'
  end.
Proof.
  intros F K. induction rest as [|c t IH]; intros j m s Er Hj Hr.
  - assert (j = List.length cs).
    { assert (E := f_equal (@List.length rcomp) Er). rewrite skipn_length in E. cbn in E. lia. }
    subst j. exists 0. split; [lia|]. exact Hr.
  - assert (Hc : nth_error cs j = Some c).
    { rewrite <- (firstn_skipn j cs), <- Er. rewrite nth_error_app2; rewrite firstn_length_le by lia; [now rewrite Nat.sub_diag|lia]. }
    assert (Hj' : S j <= List.length cs). { assert (nth_error cs j <> None) by congruence. apply nth_error_Some in H. lia. }
    assert (Er' : t = skipn (S j) cs).
    { now apply skipn_next with (c := c). }
    assert (Jc : jumper c) by (eapply Forall_forall; [exact F|]; eapply nth_error_In; eauto).
    assert (Jt : Forall jumper t) by (rewrite Er'; apply Forall_forall; intros x Hx; eapply Forall_forall; [exact F|];
      rewrite <- (firstn_skipn (S j) cs); apply in_or_app; now right).
    assert (Ns : Forall (fun c => rc_split c = false) t) by (eapply Forall_impl; [|exact Jt]; intros a [_ ?]; auto).
    cbn [gen_from]. rewrite run_items_app by (apply gen_comp_no_split; apply Jc).
    destruct (Nat.eq_dec (at_ m) j) as [Eat|Nat_].
    + pose proof (step_ok cs skip j c m s Hc Jc (K j c Hc) Hr Eat) as ST. cbv zeta in ST.
      destruct (mstep skip cs m) as [m'|l|m'] eqn:Em.
      * destruct (IH (S j) m' _ Er' Hj' ST) as (q & _ & Hq). exists (S q). split; [lia|]. cbn [mgo]. rewrite Em. exact Hq.
      * exists 1. split; [lia|]. cbn [mgo]. rewrite Em. destruct ST as [S1 S2].
        destruct (dead_stays act tr when_c jump_c iter_c split_c (gen_from cs skip (S j) t) (run_items (gen_comp cs skip j c) s)) as [D1 D2];
          [now apply gen_from_no_split|exact S1|]. cbv zeta. rewrite D2. auto.
      * exists 1. split; [lia|]. cbn [mgo]. rewrite Em. cbv zeta. rewrite stuck_pass; auto.
    + pose proof (idle_ok cs skip j c m s Jc Hr Nat_) as ST.
      destruct (IH (S j) m _ Er' Hj' ST) as (q & Hp & Hq). exists q. split; [intro; apply Hp; lia|exact Hq].
Qed.

Lemma run_while_stuck cs skip fuel s : Forall jumper cs -> stuck s -> run_while fuel (List.length cs) (cogen_raytrace cs skip) s = None.
Proof.
  intros F H. induction fuel as [|f IH]; cbn [Raytrace.run_while]; destruct H as (A & X & N); rewrite A; [reflexivity|].
  assert (E : run_items (cogen_raytrace cs skip) s = s) by (apply stuck_pass; auto; repeat split; auto). rewrite E. unfold end_pass.
  replace (Z.of_nat (List.length cs) <? index (pt s))%Z with false by (symmetry; apply Z.ltb_ge; lia). exact IH.
Qed.
Lemma run_while_dead fuel n prog (s : rstate) : absorbed (pt s) = true -> run_while fuel n prog s = Some s.
Proof. intro H. destruct fuel; cbn [Raytrace.run_while]; now rewrite H. Qed.

Lemma loop_to_machine cs skip : Forall jumper cs -> (forall i c, nth_error cs i = Some c -> skip i = true -> rc_code c = false) ->
  forall fuel m s s', rel 0 m s \/ (rel (List.length cs) m s /\ (at_ m < List.length cs)) ->
  run_while fuel (List.length cs) (cogen_raytrace cs skip) s = Some s' ->
  exists n, mrun n skip cs m = Some (log s').
Proof.
  intros F K. induction fuel as [|f IH]; intros m s s' Hr H.
  - cbn [Raytrace.run_while] in H. assert (absorbed (pt s) = false) by (destruct Hr as [[? _]|[[? _] _]]; auto). rewrite H0 in H. discriminate.
  - assert (Hr0 : rel 0 m s).
    { destruct Hr as [?|[(A & X & R & N & P & C & L & Q) Hlt]]; auto. unfold rel. repeat split; auto.
      intro J. specialize (Q J). lia. }
    cbn [Raytrace.run_while] in H. destruct Hr0 as [A0 Hr0]. rewrite A0 in H.
    destruct (pass_ok cs skip F K cs 0 m s eq_refl (Nat.le_0_l _) (conj A0 Hr0)) as (q & _ & Hq). cbv zeta in Hq.
    change (gen_from cs skip 0 cs) with (cogen_raytrace cs skip) in Hq.
    pose proof (mrun_mgo q 1 skip cs m) as MM.
    destruct (mgo q skip cs m) as [m'|l|m'] eqn:Em.
    + unfold end_pass in H. assert (X' := proj1 (proj2 Hq)).
      destruct (Z.of_nat (List.length cs) <? index (pt (run_items (cogen_raytrace cs skip) s)))%Z eqn:El.
      * apply Z.ltb_lt in El. rewrite X' in El. rewrite run_while_dead in H by reflexivity. inversion H; subst. cbn [with_pt log].
        exists (q + 1). rewrite MM. cbn [RaySpec.mrun]. unfold RaySpec.mstep.
        replace (nth_error cs (at_ m')) with (@None rcomp) by (symmetry; apply nth_error_None; lia).
        f_equal. symmetry. apply Hq.
      * apply Z.ltb_ge in El. rewrite X' in El. assert (Hlt : at_ m' < List.length cs) by lia. destruct (IH m' _ s' (or_intror (conj Hq Hlt)) H) as [n Hn].
        exists (q + n). pose proof (mrun_mgo q n skip cs m) as M2. rewrite Em in M2. congruence.
    + destruct Hq as [D1 D2]. exists (q + 1). rewrite MM by lia.
      assert (Ab : absorbed (pt (end_pass (List.length cs) (run_items (cogen_raytrace cs skip) s))) = true /\
                   log (end_pass (List.length cs) (run_items (cogen_raytrace cs skip) s)) = l).
      { unfold end_pass. destruct (_ <? _)%Z; auto. }
      destruct Ab as [Ab Lb]. rewrite run_while_dead in H by auto. inversion H; subst. now rewrite Lb.
    + exfalso. unfold end_pass in H. destruct Hq as (Q1 & Q2 & Q3).
      replace (Z.of_nat (List.length cs) <? index (pt (run_items (cogen_raytrace cs skip) s)))%Z with false in H by (symmetry; apply Z.ltb_ge; lia).
      rewrite run_while_stuck in H by (auto; repeat split; auto). discriminate.
Qed.

Lemma machine_to_loop cs skip : Forall jumper cs -> (forall i c, nth_error cs i = Some c -> skip i = true -> rc_code c = false) ->
  forall n m s l, rel 0 m s \/ (rel (List.length cs) m s /\ (at_ m < List.length cs)) ->
  mrun n skip cs m = Some l ->
  exists fuel s', run_while fuel (List.length cs) (cogen_raytrace cs skip) s = Some s' /\ log s' = l.
Proof.
  intros F K n. induction n as [n IHn] using lt_wf_ind. intros m s l Hr H.
  assert (Hr0 : rel 0 m s).
  { destruct Hr as [?|[(A & X & R & N & P & C & L & Q) Hlt]]; auto. unfold rel. repeat split; auto. intro J. specialize (Q J). lia. }
  destruct (pass_ok cs skip F K cs 0 m s eq_refl (Nat.le_0_l _) Hr0) as (q & Hp & Hq). cbv zeta in Hq.
  change (gen_from cs skip 0 cs) with (cogen_raytrace cs skip) in Hq.
  assert (A0 : absorbed (pt s) = false) by apply Hr0.
  destruct (mgo q skip cs m) as [m'|l'|m'] eqn:Em.
  - assert (X' := proj1 (proj2 Hq)).
    destruct (Z.of_nat (List.length cs) <? index (pt (run_items (cogen_raytrace cs skip) s)))%Z eqn:El.
    + apply Z.ltb_lt in El. assert (Hge : List.length cs <= at_ m') by (rewrite X' in El; lia). exists 1. eexists. split.
      { cbn [Raytrace.run_while]. rewrite A0. unfold end_pass. rewrite (proj2 (Z.ltb_lt _ _) El). reflexivity. }
      cbn [with_pt log]. pose proof (mrun_mgo q 1 skip cs m) as MM. rewrite Em in MM.
      assert (M1 : mrun 1 skip cs m' = Some (mlog m')).
      { cbn [RaySpec.mrun]. unfold RaySpec.mstep. now rewrite (proj2 (nth_error_None cs (at_ m')) Hge). }
      rewrite M1 in MM.
      assert (Some l = Some (mlog m')).
      { rewrite <- (mrun_more _ (n + (q + 1)) _ _ _ _ H) by lia. symmetry. erewrite mrun_more; [reflexivity|exact MM|lia]. }
      inversion H0; subst. apply Hq.
    + apply Z.ltb_ge in El.
      destruct (Nat.lt_ge_cases (at_ m) (List.length cs)) as [Hlt|Hge].
      * specialize (Hp (conj (Nat.le_0_l _) Hlt)).
        assert (Hm' : exists n', n' < n /\ mrun n' skip cs m' = Some l).
        { pose proof (mrun_mgo q (n - q) skip cs m) as MM. rewrite Em in MM.
          destruct (Nat.le_gt_cases q n) as [Hle|Hgt].
          - exists (n - q). replace (q + (n - q)) with n in MM by lia. split; [|congruence].
            destruct n; [discriminate|lia].
          - exfalso. pose proof (mrun_mgo q 0 skip cs m) as M0. rewrite Em in M0. cbn [RaySpec.mrun] in M0.
            assert (mrun (q + 0) skip cs m = Some l) by (eapply mrun_more; [exact H|lia]). congruence. }
        destruct Hm' as (n' & Hn' & Hm'').
        assert (Hlt' : at_ m' < List.length cs) by (rewrite X' in El; lia).
        destruct (IHn n' Hn' m' _ l (or_intror (conj Hq Hlt')) Hm'') as (fuel & s' & R1 & R2).
        exists (S fuel), s'. split; auto. cbn [Raytrace.run_while]. rewrite A0. unfold end_pass.
        rewrite (proj2 (Z.ltb_ge _ _) El). exact R1.
      * exfalso. assert (Em1 : mstep skip cs m = Done (mlog m)).
        { unfold RaySpec.mstep. now rewrite (proj2 (nth_error_None cs (at_ m)) Hge). }
        destruct q as [|q]; cbn [mgo] in Em; [|rewrite Em1 in Em; discriminate]. inversion Em; subst. lia.
  - destruct Hq as [D1 D2].
    assert (l = l').
    { pose proof (mrun_mgo q 1 skip cs m) as MM. rewrite Em in MM. specialize (MM ltac:(lia)).
      assert (Some l = Some l') by (rewrite <- (mrun_more _ (n + (q + 1)) _ _ _ _ H) by lia; erewrite mrun_more; [reflexivity|exact MM|lia]).
      congruence. }
    exists 1, (end_pass (List.length cs) (run_items (cogen_raytrace cs skip) s)).
    assert (Ab : absorbed (pt (end_pass (List.length cs) (run_items (cogen_raytrace cs skip) s))) = true /\
                 log (end_pass (List.length cs) (run_items (cogen_raytrace cs skip) s)) = l').
    { unfold end_pass. destruct (_ <? _)%Z; auto. }
    destruct Ab as [Ab Lb]. split; [|congruence]. cbn [Raytrace.run_while]. rewrite A0. fold run_while. now rewrite Ab.
  - exfalso. pose proof (mrun_mgo q n skip cs m) as MM. rewrite Em in MM.
    assert (mrun (q + n) skip cs m = Some l) by (eapply mrun_more; [exact H|lia]). congruence.
Qed.
End Jumps.
