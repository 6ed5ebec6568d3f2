(** GROUPs and JUMPs in one instrument: the emitted loop (Raytrace.v, c_raytrace.py:14-163)
    against a machine that knows only at which component, or at which group of
    alternatives, the particle is (C41). *)
From Coq Require Import List String Bool Arith ZArith QArith Qcanon Lia.
From Verif Require Import PyStr Raytrace RaySpec RayFacts RayJumps.
Import ListNotations.
Local Open Scope string_scope.
Local Open Scope list_scope.
Local Open Scope nat_scope.

(** * The machine *)
(** the component or group that begins at position i *)
Fixpoint unit_at (us : list unit_) (i : nat) : option unit_ :=
  match us with
  | [] => None
  | u :: t =>
      if i =? 0 then Some u
      else if i <? List.length (members u) then None else unit_at t (i - List.length (members u))
  end.

Section Spec.
Context {Ph Uv Rng : Type}.
Notation core := (core Ph Uv Rng).
Notation outcome := (outcome Ph Uv Rng).
Notation mach := (mach Ph Uv Rng).
Notation step_result := (step_result Ph Uv Rng).
Variable act : nat -> core -> outcome.
Variable tr : nat -> Ph -> Ph.
Variable when_c : nat -> core -> bool.
Variable jump_c : nat -> nat -> core -> bool.
Variable iter_c : nat -> nat -> core -> Z.

(** the alternatives, the particle being in the frame of the first of them already *)
Definition spec_entered (i : nat) (l : list rcomp) (k1 : core) : list (nat * core) * option core :=
  match l with
  | [] => ([], None)
  | c :: t =>
      let o := act i k1 in
      let after := if o_restore o then undone k1 (o_core o) else o_core o in
      if o_scattered o
      then ([(i, k1)], if negb (o_restore o) && o_absorbed o then None
                       else Some (carry tr (S i) (List.length t) after))
      else let '(lg, r) := spec_grp act tr when_c (S i) t (undone k1 (o_core o)) in ((i, k1) :: lg, r)
  end.
(** A step at a component is that of RaySpec.v.  At a group the particle tries the
    alternatives in order and goes on after the last of them, or is gone; if it came by a
    jump it is in the frame of the first one. *)
Definition ustep (skip : nat -> bool) (us : list unit_) (m : mach) : step_result :=
  match unit_at us (at_ m) with
  | Some (Grp _ l) =>
      let '(lg, r) := spec_entered (at_ m) l (if jumped m then mcore m else moved tr (at_ m) (mcore m)) in
      match r with
      | None => Done (mlog m ++ lg)
      | Some k => Going (mkM (at_ m + List.length l) false k (mcnt m) (mlog m ++ lg))
      end
  | _ => mstep act tr when_c jump_c iter_c skip (flatten us) m
  end.
(** specification: steps until the end *)
Fixpoint urun (fuel : nat) (skip : nat -> bool) (us : list unit_) (m : mach) : option (list (nat * core)) :=
  match fuel with
  | O => None
  | S f => match ustep skip us m with Done l => Some l | Going m' => urun f skip us m' | Lost _ => None end
  end.
End Spec.

(** A component may jump, a member of a group may not; a jump leads to a component outside
    groups, to the first member of a group, before the first or behind the last
    component. *)
Definition may_land (us : list unit_) (t : Z) : Prop :=
  (t < 0)%Z \/ (Z.of_nat (List.length (flatten us)) <= t)%Z \/ unit_at us (Z.to_nat t) <> None.
(** specification: what is asked of a unit *)
Definition unit_ok (us : list unit_) (u : unit_) : Prop :=
  match u with
  | One c => jumper c /\ Forall (fun j => may_land us (rj_abs j)) (rc_jumps c)
  | Grp g l => l <> [] /\ Forall (member g) l /\ match l with c :: _ => rc_when c = false | [] => True end
  end.

(** * Positions *)
Lemma unit_at_pre pre u post : Forall (fun u => members u <> []) pre ->
  unit_at (pre ++ u :: post) (List.length (flatten pre)) = Some u.
Proof.
  induction pre as [|v t IH]; intro F; [reflexivity|]. inversion F as [|? ? Nv Ft]; subst.
  change (flatten (v :: t)) with (members v ++ flatten t). cbn [app unit_at]. rewrite app_length.
  assert (0 < List.length (members v)) by (destruct (members v); [congruence|cbn; lia]).
  destruct (Nat.eqb_spec (List.length (members v) + List.length (flatten t)) 0); [lia|].
  destruct (Nat.ltb_spec (List.length (members v) + List.length (flatten t)) (List.length (members v))); [lia|].
  replace (List.length (members v) + List.length (flatten t) - List.length (members v)) with (List.length (flatten t)) by lia. auto.
Qed.
Lemma unit_at_split us : forall i u, unit_at us i = Some u -> exists pre post, us = pre ++ u :: post /\ i = List.length (flatten pre).
Proof.
  induction us as [|v t IH]; intros i u H; [discriminate|]. cbn [unit_at] in H.
  destruct (Nat.eqb_spec i 0) as [->|N].
  - inversion H; subst. exists [], t. auto.
  - destruct (Nat.ltb_spec i (List.length (members v))) as [|Hge]; [discriminate|].
    destruct (IH _ _ H) as (pre & post & -> & E). exists (v :: pre), post. split; [reflexivity|].
    change (flatten (v :: pre)) with (members v ++ flatten pre). rewrite app_length. lia.
Qed.
(** a place where the particle can be *)
Definition place (us : list unit_) (i : nat) : Prop := List.length (flatten us) <= i \/ unit_at us i <> None.
Lemma flatten_app a b : flatten (a ++ b) = flatten a ++ flatten b.
Proof. unfold flatten. apply flat_map_app. Qed.
Lemma place_next us i u : Forall (fun u => members u <> []) us -> unit_at us i = Some u -> place us (i + List.length (members u)).
Proof.
  intros F H. destruct (unit_at_split us i u H) as (pre & post & -> & ->). unfold place.
  destruct post as [|v post].
  - left. rewrite flatten_app. cbn [flatten flat_map]. rewrite !app_length. cbn [List.length]. lia.
  - right. replace (List.length (flatten pre) + List.length (members u)) with (List.length (flatten (pre ++ [u]))).
    + replace (pre ++ u :: v :: post) with ((pre ++ [u]) ++ v :: post) in * by (now rewrite <- app_assoc).
      rewrite unit_at_pre; [discriminate|]. apply Forall_app in F. apply F.
    + rewrite flatten_app, app_length. cbn [flatten flat_map]. now rewrite app_nil_r.
Qed.
(** no place lies inside a unit *)
Lemma place_inside us i j u : Forall (fun u => members u <> []) us -> unit_at us j = Some u -> place us i ->
  i <> j -> j <= i < j + List.length (members u) -> False.
Proof.
  intros F H P N R. destruct (unit_at_split us j u H) as (pre & post & -> & ->).
  destruct P as [P|P].
  - rewrite flatten_app, app_length in P. change (flatten (u :: post)) with (members u ++ flatten post) in P. rewrite app_length in P. lia.
  - apply P. clear P H. revert i N R. induction pre as [|v t IH]; intros i N R.
    + cbn [flatten flat_map List.length app unit_at] in *. destruct (Nat.eqb_spec i 0); [lia|].
      destruct (Nat.ltb_spec i (List.length (members u))); [reflexivity|lia].
    + inversion F as [|? ? Nv Ft]; subst. change (flatten (v :: t)) with (members v ++ flatten t) in *. rewrite app_length in *.
      cbn [app unit_at]. assert (0 < List.length (members v)) by (destruct (members v); [congruence|cbn; lia]).
      destruct (Nat.eqb_spec i 0); [lia|]. destruct (Nat.ltb_spec i (List.length (members v))); [reflexivity|].
      apply IH; auto; lia.
Qed.

Section Units.
Context {Ph Uv Rng : Type}.
Notation core := (core Ph Uv Rng).
Notation outcome := (outcome Ph Uv Rng).
Notation rstate := (rstate Ph Uv Rng).
Notation mach := (mach Ph Uv Rng).
Variable act : nat -> core -> outcome.
Variable tr : nat -> Ph -> Ph.
Variable when_c : nat -> core -> bool.
Variable jump_c : nat -> nat -> core -> bool.
Variable iter_c : nat -> nat -> core -> Z.
Variable split_c : nat -> core -> Z.
Notation run_items := (run_items act tr when_c jump_c iter_c split_c).
Notation run_body := (run_body act tr when_c jump_c iter_c).
Notation run1 := (run1 act tr when_c jump_c iter_c).
Notation run_while := (run_while act tr when_c jump_c iter_c split_c).
Notation mstep := (mstep act tr when_c jump_c iter_c).
Notation ustep := (ustep act tr when_c jump_c iter_c).
Notation urun := (urun act tr when_c jump_c iter_c).

Ltac crunch := cbn [pt save log pc absorbed scattered restore index nocoords cnt with_pt set_core set_index set_absorbed
  set_nocoords particle_restore fst snd app Raytrace.run_items gen_from orb negb andb].
Ltac rdy := unfold ready; crunch; repeat split; auto; lia.

(** entering a group at its first member *)
Lemma entered_ok all skip g i c t s jd :
  ids g all = seq i (S (List.length t)) -> Forall (member g) (c :: t) ->
  (forall j, i <= j < i + S (List.length t) -> skip j = false) -> rc_when c = false ->
  absorbed (pt s) = false -> index (pt s) = (1 + Z.of_nat i)%Z -> nocoords (pt s) = jd -> restore (pt s) = false ->
  let r := spec_entered act tr when_c i (c :: t) (if jd then pc (pt s) else moved tr i (pc (pt s))) in
  let s' := run_items (gen_from all skip i (c :: t)) s in
  log s' = log s ++ fst r /\
  match snd r with Some k => ready (i + S (List.length t)) s' /\ pc (pt s') = k | None => absorbed (pt s') = true end.
Proof.
  intros Hids Hm Hk Hw A X N R. inversion Hm as [|? ? (Gg & Gj & Gs & Gc) Hm']; subst.
  set (n := List.length t) in *.
  assert (Hlast : last_id (ids g all) = i + n) by (rewrite Hids; apply last_id_seq).
  assert (Hlead : is_leader (ids g all) i = true) by (rewrite Hids; cbn; apply Nat.eqb_refl).
  destruct s as [[k ab sc re ix nc ct] sv lg]. cbn [pt pc absorbed index nocoords restore scattered save] in *. subst ab ix re.
  cbn [gen_from]. rewrite run_items_app by (now apply gen_comp_no_split).
  unfold gen_comp. rewrite Gs, (Hk i) by lia. cbn [app].
  unfold gen_body. rewrite Gg, Gj, Gc, Hlead, Hlast, (Hk i), Hw by lia. cbn [gen_jumps app].
  set (k1 := if nc then k else moved tr i k).
  assert (E1 : forall l, run_items (Coords i :: l) (mkS (mkP k false sc false (1 + Z.of_nat i) nc ct) sv lg) =
               run_items l (mkS (mkP k1 false sc false (1 + Z.of_nat i) nc ct) sv lg)).
  { intro l. unfold k1. cbn [Raytrace.run_items]. unfold run_coords. cbn [pt nocoords]. destruct nc; reflexivity. }
  rewrite E1. clear E1. cbn [Raytrace.run_items]. unfold Raytrace.run_comp.
  cbn [pt absorbed index negb andb]. rewrite Z.eqb_refl.
  unfold with_pt, set_nocoords. cbn [pt save log pc absorbed scattered restore index nocoords cnt].
  rewrite run_body_cons, run1_save, run_body_cons, run1_trace. cbn [negb orb]. cbn [spec_entered].
  set (o := act i k1). fold n.
  rewrite run_body_cons, run1_restore. cbn [pc].
  set (s1 := if o_restore o then _ else _).
  set (sv' := mkP k1 false sc false (1 + Z.of_nat i)%Z false ct) in *.
  assert (S1 : exists k2 a2, s1 = mkS (mkP k2 a2 (o_scattered o) false (1 + Z.of_nat i) false ct) sv' (lg ++ [(i, k1)]) /\
     (k2 = if o_restore o then undone k1 (o_core o) else o_core o) /\ a2 = (if o_restore o then false else o_absorbed o)).
  { unfold s1. destruct (o_restore o) eqn:Er.
    - eexists _, _. split; [reflexivity|]. split; reflexivity.
    - eexists _, _. split; [reflexivity|]. split; reflexivity. }
  destruct S1 as (k2 & a2 & E1 & E2 & E3). rewrite E1. clear E1 s1. rewrite <- E2.
  rewrite run_body_cons, run1_group.
  assert (NSP : Forall (fun c => rc_split c = false) t).
  { eapply Forall_impl; [|exact Hm']. intros a (_ & _ & H & _). exact H. }
  destruct (o_scattered o) eqn:Esc.
  - rewrite run_body_cons, run1_next, run_body_nil.
    replace (1 + Z.of_nat (i + n) + 1)%Z with (1 + Z.of_nat (i + S n))%Z by lia.
    destruct a2 eqn:Ea.
    + destruct (o_restore o); [discriminate|]. rewrite <- E3. cbn [negb andb].
      match goal with |- context [Raytrace.run_items _ _ _ _ _ _ ?l ?s] =>
        destruct (dead_stays act tr when_c jump_c iter_c split_c l s) as [D1 D2]; [now apply gen_from_no_split|reflexivity|] end.
      rewrite D2. cbn [fst snd log]. split; [reflexivity|exact D1].
    + match goal with |- context [Raytrace.run_items _ _ _ _ _ _ (gen_from all skip (S i) t) ?s] =>
        destruct (pass_by act tr when_c jump_c iter_c split_c all skip (S i) t s) as [D1 D2]; auto end.
      * intros j Hj. apply Hk. lia.
      * crunch. fold n. lia.
      * rewrite D2. unfold ready. rewrite D1. crunch. fold n.
        replace (negb (o_restore o) && o_absorbed o) with false by (destruct (o_restore o); cbn [negb andb]; auto).
        split; [reflexivity|]. repeat split; auto.
  - destruct t as [|c' t'].
    + cbn [List.length] in n. subst n. rewrite Nat.add_0_r, Nat.eqb_refl. rewrite run_body_cons, run1_next, run_body_nil.
      cbn [gen_from Raytrace.run_items spec_grp fst snd log pt absorbed]. auto.
    + assert (NE : Nat.eqb i (i + n) = false) by (apply Nat.eqb_neq; unfold n; cbn [List.length]; lia).
      rewrite NE, run_body_cons, run1_next, run_body_nil.
      match goal with |- context [Raytrace.run_items _ _ _ _ _ _ (gen_from all skip (S i) (c' :: t')) ?s] => set (s2 := s) end.
      assert (KK : pc (pt s2) = undone k1 (o_core o)).
      { unfold s2. crunch. unfold core_restore, undone, sv'. cbn [pc]. rewrite E2. destruct (o_restore o); reflexivity. }
      assert (HH : let r := spec_grp act tr when_c (S i) (c' :: t') (pc (pt s2)) in
        let s' := run_items (gen_from all skip (S i) (c' :: t')) s2 in
        log s' = log s2 ++ fst r /\
        match snd r with Some k => ready (i + S n) s' /\ pc (pt s') = k | None => absorbed (pt s') = true end).
      { apply (grp_ok act tr when_c jump_c iter_c split_c all skip g i (S n)); auto; try discriminate; try (unfold n; lia); try (intro; exfalso; lia).
        unfold s2. rdy. }
      cbv zeta in HH. destruct HH as [L1 L2].
      rewrite KK in L1, L2. destruct (spec_grp act tr when_c (S i) (c' :: t') (undone k1 (o_core o))) as [lg' r'].
      cbn [fst snd] in *. rewrite L1. unfold s2 at 1. cbn [log]. rewrite <- app_assoc. split; [reflexivity|exact L2].
Qed.

(** members of groups leave the counters of jumps alone *)
Definition counts (x : istmt) : bool := match x with IIter _ _ _ _ => true | _ => false end.
Lemma run_body_cnt l s : forallb (fun x => negb (counts x)) l = true -> cnt (pt (run_body l s)) = cnt (pt s).
Proof.
  revert s. induction l as [|x t IH]; intros s H; [reflexivity|]. cbn [forallb] in H. apply andb_prop in H as [H1 H2].
  rewrite run_body_cons, IH by auto. destruct x; try discriminate; cbn [Raytrace.run1]; try reflexivity.
  - destruct (negb guarded || when_c i (pc (pt s))); reflexivity.
  - destruct (restore (pt s)); reflexivity.
  - destruct (jump_c i k (pc (pt s))); reflexivity.
  - destruct (scattered (pt s)); [|destruct last]; reflexivity.
Qed.
Lemma members_cnt all skip g : forall l i s, Forall (member g) l -> cnt (pt (run_items (gen_from all skip i l) s)) = cnt (pt s).
Proof.
  induction l as [|c t IH]; intros i s F; [reflexivity|]. inversion F as [|? ? (Gg & Gj & Gs & Gc) Ft]; subst.
  cbn [gen_from]. rewrite run_items_app by (now apply gen_comp_no_split). rewrite IH by auto.
  unfold gen_comp. rewrite Gs. cbn [app].
  assert (E : forall s, cnt (pt (run_items [Comp i (gen_body all skip i c)] s)) = cnt (pt s)).
  { intro s0. cbn [Raytrace.run_items]. unfold Raytrace.run_comp. destruct (negb (absorbed (pt s0)) && _); [|reflexivity].
    rewrite run_body_cnt; [reflexivity|]. unfold gen_body. rewrite Gg, Gj, Gc. cbn [gen_jumps].
    destruct (is_leader (ids g all) i); [destruct (skip i)|]; reflexivity. }
  destruct (skip i); cbn [app]; [apply E|]. change (Coords i :: ?x) with ([Coords i] ++ x).
  rewrite run_items_app by reflexivity. rewrite E. cbn [Raytrace.run_items]. unfold run_coords. destruct (nocoords (pt s)); reflexivity.
Qed.

(** nothing happens to a particle that is on its way elsewhere *)
Lemma away_ok all skip : forall l i s, Forall (fun c => rc_split c = false) l -> nocoords (pt s) = true ->
  (forall j, i <= j < i + List.length l -> index (pt s) <> (1 + Z.of_nat j)%Z) -> run_items (gen_from all skip i l) s = s.
Proof.
  induction l as [|c t IH]; intros i s F N H; [reflexivity|]. inversion F; subst. cbn [gen_from].
  rewrite run_items_app by (now apply gen_comp_no_split). unfold gen_comp. rewrite H2. cbn [app].
  assert (E1 : forall l, run_items ((if skip i then [] else [Coords i]) ++ l) s = run_items l s).
  { intro l. destruct (skip i); [reflexivity|]. cbn [app Raytrace.run_items]. unfold run_coords. now rewrite N. }
  rewrite E1. cbn [Raytrace.run_items]. unfold Raytrace.run_comp.
  destruct (Z.eqb_spec (index (pt s)) (1 + Z.of_nat i)) as [E|_]; [exfalso; apply (H i); [cbn [List.length]; lia|exact E]|].
  rewrite Bool.andb_false_r. apply IH; auto. intros j Hj. apply H. cbn [List.length]. lia.
Qed.

Lemma spec_jumps_dest i name k0 js : forall k ct d t ct',
  spec_jumps jump_c iter_c i k name js k0 ct d = (Some t, ct') -> d = Some t \/ exists j, In j js /\ rj_abs j = t.
Proof.
  induction js as [|j r IH]; intros k ct d t ct' H; cbn [spec_jumps] in H; [inversion H; auto|].
  assert (G : d = Some t \/ Some (rj_abs j) = Some t \/ exists j', In j' r /\ rj_abs j' = t).
  { destruct (rj_iter j); [destruct (_ <? _)%Z|destruct (jump_c i k k0)]; apply IH in H as [H|H]; auto. }
  destruct G as [G|[G|(j' & I & E)]]; auto.
  - inversion G. right. exists j. split; [now left|reflexivity].
  - right. exists j'. split; [now right|exact E].
Qed.

(** * One pass *)
Section Pass.
Variable us : list unit_.
Variable skip : nat -> bool.
Hypothesis OK : Forall (unit_ok us) us.
Hypothesis ND : NoDup (flat_map group_of us).
Hypothesis SK : forall i c, nth_error (flatten us) i = Some c -> skip i = true -> rc_code c = false.

Lemma units_inhabited : Forall (fun u => members u <> []) us.
Proof. eapply Forall_impl; [|exact OK]. intros [c|g l] H; cbn in *; [discriminate|apply H]. Qed.
Lemma units_no_split : Forall (fun c => rc_split c = false) (flatten us).
Proof.
  apply Forall_forall. intros c Hc. unfold flatten in Hc. apply in_flat_map in Hc as (v & Hv & Hc).
  rewrite Forall_forall in OK. specialize (OK v Hv). destruct v as [d|g l]; cbn in *.
  - destruct Hc as [<-|[]]. apply OK.
  - destruct OK as (_ & M & _). rewrite Forall_forall in M. apply (M c Hc).
Qed.
Lemma not_of g l : (forall u, In u l -> In u us) -> ~ In g (flat_map group_of l) -> Forall (fun c => rc_group c <> Some g) (flatten l).
Proof.
  intros I H. apply Forall_forall. intros c Hc. unfold flatten in Hc. apply in_flat_map in Hc as (v & Hv & Hc).
  rewrite Forall_forall in OK. specialize (OK v (I v Hv)). destruct v as [d|g' l']; cbn in *.
  - destruct Hc as [<-|[]]. destruct OK as ((-> & _) & _). discriminate.
  - destruct OK as (_ & M & _). rewrite Forall_forall in M. destruct (M c Hc) as (-> & _). intro E. inversion E; subst.
    apply H. apply in_flat_map. exists (Grp g l'). split; [exact Hv|now left].
Qed.
Lemma ids_of_group pre g l post : us = pre ++ Grp g l :: post -> ids g (flatten us) = seq (List.length (flatten pre)) (List.length l).
Proof.
  intro E. assert (D := ND). rewrite E, flat_map_app in D. cbn [flat_map group_of] in D. apply NoDup_remove_2 in D.
  rewrite E at 1. rewrite flatten_app. change (flatten (Grp g l :: post)) with (l ++ flatten post). unfold ids. rewrite !ids_from_app.
  rewrite (ids_from_none 0 g (flatten pre)).
  2: { apply not_of; [intros u Hu; rewrite E; apply in_or_app; now left|]. intro; apply D; apply in_or_app; now left. }
  rewrite (ids_from_none _ g (flatten post)).
  2: { apply not_of; [intros u Hu; rewrite E; apply in_or_app; right; now right|]. intro; apply D; apply in_or_app; now right. }
  rewrite app_nil_r. cbn [app]. apply ids_from_all.
  assert (G : unit_ok us (Grp g l)) by (rewrite Forall_forall in OK; apply OK; rewrite E; apply in_or_app; right; now left).
  destruct G as (_ & M & _). eapply Forall_impl; [|exact M]. intros a (? & _); auto.
Qed.

(** the machine never stands inside a group *)
Lemma ustep_place m m' : place us (at_ m) -> ustep skip us m = Going m' -> place us (at_ m').
Proof.
  intros P H. unfold RayUnits.ustep in H. pose proof units_inhabited as UI.
  destruct (unit_at us (at_ m)) as [[c|g l]|] eqn:E.
  - destruct (unit_at_split us _ _ E) as (pre & post & Eu & Ei).
    assert (Hc : nth_error (flatten us) (at_ m) = Some c).
    { rewrite Eu, flatten_app, Ei, nth_error_app2, Nat.sub_diag by lia. reflexivity. }
    unfold RaySpec.mstep in H. rewrite Hc in H. destruct (spec_one _ _ _ _ _ _ _) as [lg [k|]]; [|discriminate].
    destruct (spec_jumps jump_c iter_c (at_ m) 0 (rc_name c) (rc_jumps c) k (mcnt m) None) as [[t|] ct] eqn:Ej.
    + destruct (t <? 0)%Z eqn:Et; [discriminate|]. injection H as <-. cbn [at_].
      apply Z.ltb_ge in Et. apply spec_jumps_dest in Ej as [Ej|(j & Ij & Ej)]; [discriminate|].
      assert (G : unit_ok us (One c)) by (rewrite Forall_forall in OK; apply OK; rewrite Eu; apply in_or_app; right; now left).
      destruct G as (_ & G). rewrite Forall_forall in G. specialize (G j Ij). rewrite Ej in G.
      destruct G as [G|[G|G]]; [lia|left; lia|right; exact G].
    + injection H as <-. cbn [at_]. pose proof (place_next us (at_ m) (One c) UI E) as PN. cbn [members List.length] in PN.
      now rewrite Nat.add_1_r in PN.
  - destruct (spec_entered _ _ _ _ _ _) as [lg [k|]]; [|discriminate]. injection H as <-. cbn [at_].
    exact (place_next us (at_ m) (Grp g l) UI E).
  - destruct P as [P|P]; [|congruence]. unfold RaySpec.mstep in H.
    rewrite (proj2 (nth_error_None (flatten us) (at_ m)) P) in H. discriminate.
Qed.

Lemma unit_step pre u post m s :
  us = pre ++ u :: post -> let j := List.length (flatten pre) in
  rel j m s -> at_ m = j ->
  let s' := run_items (gen_from (flatten us) skip j (members u)) s in
  match ustep skip us m with
  | Going m' => rel (j + List.length (members u)) m' s'
  | Done l => absorbed (pt s') = true /\ log s' = l
  | Lost _ => stuck s'
  end.
Proof.
  intros Eu j Hr Hat. assert (UI := units_inhabited).
  assert (Up : unit_at us j = Some u).
  { rewrite Eu. apply unit_at_pre. rewrite Eu in UI. apply Forall_app in UI. apply UI. }
  assert (Gu : unit_ok us u) by (rewrite Forall_forall in OK; apply OK; rewrite Eu; apply in_or_app; right; now left).
  assert (Ef : flatten us = flatten pre ++ members u ++ flatten post) by (rewrite Eu, flatten_app; reflexivity).
  unfold RayUnits.ustep. rewrite Hat, Up. destruct u as [c|g l].
  - cbn [members gen_from List.length]. rewrite app_nil_r, Nat.add_1_r. destruct Gu as (Jc & _).
    assert (Hc : nth_error (flatten us) j = Some c).
    { rewrite Ef. unfold j. rewrite nth_error_app2, Nat.sub_diag by lia. reflexivity. }
    exact (step_ok act tr when_c jump_c iter_c split_c (flatten us) skip j c m s Hc Jc (SK j c Hc) Hr Hat).
  - destruct Gu as (Gn & Gm & Gw). cbn [members]. destruct l as [|c t]; [congruence|].
    destruct Hr as (A & X & R & N & P & C & L & Q). rewrite Hat in X.
    pose proof (ids_of_group pre g (c :: t) post Eu) as Hids. fold j in Hids.
    assert (Hk : forall q, j <= q < j + S (List.length t) -> skip q = false).
    { intros q Hq. destruct (skip q) eqn:Sq; auto.
      assert (exists d, nth_error (flatten us) q = Some d /\ In d (c :: t)) as (d & E & Id).
      { rewrite Ef. unfold j in Hq. rewrite nth_error_app2 by lia. cbn [members]. rewrite nth_error_app1 by (cbn [List.length]; lia).
        destruct (nth_error (c :: t) (q - List.length (flatten pre))) eqn:E.
        - eexists. split; eauto. eapply nth_error_In; eauto.
        - apply nth_error_None in E. cbn [List.length] in E. lia. }
      rewrite Forall_forall in Gm. destruct (Gm d Id) as (_ & _ & _ & Cd). rewrite (SK q d E Sq) in Cd. discriminate. }
    pose proof (entered_ok (flatten us) skip g j c t s (jumped m) Hids Gm Hk Gw A X N R) as EO. cbv zeta in EO.
    rewrite P in EO. destruct (spec_entered act tr when_c j (c :: t) (if jumped m then mcore m else moved tr j (mcore m))) as [lg r].
    cbn [fst snd] in EO. destruct EO as [E1 E2]. rewrite L in E1. destruct r as [k|].
    + destruct E2 as ((A2 & X2 & N2 & R2) & K2). unfold rel. cbn [at_ jumped mcore mcnt mlog List.length] in *.
      repeat split; auto. rewrite (members_cnt (flatten us) skip g) by exact Gm. exact C.
    + auto.
Qed.

(** proof helper: q steps *)
Fixpoint ugo (q : nat) (m : mach) : step_result Ph Uv Rng :=
  match q with
  | O => Going m
  | S q => match ustep skip us m with Going m' => ugo q m' | r => r end
  end.
Lemma urun_ugo q f m :
  match ugo q m with
  | Going m' => urun (q + f) skip us m = urun f skip us m'
  | Done l => f <> 0 -> urun (q + f) skip us m = Some l
  | Lost _ => urun (q + f) skip us m = None
  end.
Proof.
  revert m. induction q as [|q IH]; intro m; [reflexivity|]. cbn [ugo plus RayUnits.urun].
  destruct (ustep skip us m); [apply IH|reflexivity|reflexivity].
Qed.
Lemma urun_more f g m l : urun f skip us m = Some l -> f <= g -> urun g skip us m = Some l.
Proof.
  revert g m. induction f as [|f IH]; intros g m H Hg; [discriminate|]. destruct g as [|g]; [lia|]. cbn [RayUnits.urun] in *.
  destruct (ustep skip us m); auto; try discriminate. apply IH; auto. lia.
Qed.
Lemma ugo_place q m m' : place us (at_ m) -> ugo q m = Going m' -> place us (at_ m').
Proof.
  revert m. induction q as [|q IH]; intros m P H; cbn [ugo] in H; [inversion H; subst; exact P|].
  destruct (ustep skip us m) as [m1| |] eqn:E; try discriminate. eapply IH; [|exact H]. eapply ustep_place; eauto.
Qed.

Notation n := (List.length (flatten us)).
Notation prog := (cogen_raytrace (flatten us) skip).
Lemma upass_ok : forall post pre m s, us = pre ++ post -> place us (at_ m) -> rel (List.length (flatten pre)) m s ->
  exists q, (List.length (flatten pre) <= at_ m < n -> 0 < q) /\
  let s' := run_items (gen_from (flatten us) skip (List.length (flatten pre)) (flatten post)) s in
  match ugo q m with
  | Going m' => rel n m' s'
  | Done l => absorbed (pt s') = true /\ log s' = l
  | Lost _ => stuck s'
  end.
Proof.
  pose proof units_inhabited as UI. pose proof units_no_split as US.
  induction post as [|u t IH]; intros pre m s Eu P Hr.
  - rewrite app_nil_r in Eu. subst pre. exists 0. split; [lia|exact Hr].
  - set (j := List.length (flatten pre)) in *.
    assert (Ef : flatten us = flatten pre ++ members u ++ flatten t) by (rewrite Eu, flatten_app; reflexivity).
    assert (Up : unit_at us j = Some u).
    { rewrite Eu. apply unit_at_pre. rewrite Eu in UI. apply Forall_app in UI. apply UI. }
    assert (NSu : Forall (fun c => rc_split c = false) (members u)).
    { rewrite Ef in US. apply Forall_app in US as [_ US]. apply Forall_app in US. apply US. }
    assert (NSt : Forall (fun c => rc_split c = false) (flatten t)).
    { rewrite Ef in US. apply Forall_app in US as [_ US]. apply Forall_app in US. apply US. }
    assert (EL : List.length (flatten (pre ++ [u])) = j + List.length (members u)).
    { rewrite flatten_app, app_length. cbn [flatten flat_map]. now rewrite app_nil_r. }
    assert (Eu' : us = (pre ++ [u]) ++ t) by (now rewrite <- app_assoc).
    change (flatten (u :: t)) with (members u ++ flatten t). rewrite gen_from_app, run_items_app by (now apply gen_from_no_split).
    destruct (Nat.eq_dec (at_ m) j) as [Eat|Ne].
    + pose proof (unit_step pre u t m s Eu Hr Eat) as ST. cbv zeta in ST. fold j in ST.
      destruct (ustep skip us m) as [m'|l|m'] eqn:Em.
      * specialize (IH (pre ++ [u]) m' (run_items (gen_from (flatten us) skip j (members u)) s) Eu' (ustep_place m m' P Em)).
        rewrite EL in IH. destruct (IH ST) as (q & _ & Hq). exists (S q). split; [lia|]. cbn [ugo]. rewrite Em. exact Hq.
      * exists 1. split; [lia|]. cbn [ugo]. rewrite Em. destruct ST as [S1 S2].
        destruct (dead_stays act tr when_c jump_c iter_c split_c (gen_from (flatten us) skip (j + List.length (members u)) (flatten t))
                    (run_items (gen_from (flatten us) skip j (members u)) s)) as [D1 D2];
          [now apply gen_from_no_split|exact S1|]. cbv zeta. rewrite D2. auto.
      * exists 1. split; [lia|]. cbn [ugo]. rewrite Em. cbv zeta. rewrite away_ok; auto; [apply ST|].
        destruct ST as (_ & X & _). intros i _. lia.
    + assert (Hj : jumped m = true).
      { destruct Hr as (_ & _ & _ & _ & _ & _ & _ & Q). destruct (jumped m); auto. exfalso. apply Ne. symmetry. exact (Q eq_refl). }
      assert (AW : run_items (gen_from (flatten us) skip j (members u)) s = s).
      { destruct Hr as (A & X & R & N & _). apply away_ok; auto; [congruence|]. intros i Hi E.
        apply (place_inside us (at_ m) j u UI Up P Ne). rewrite X in E. lia. }
      rewrite AW. specialize (IH (pre ++ [u]) m s Eu' P). rewrite EL in IH.
      assert (Hr' : rel (j + List.length (members u)) m s).
      { destruct Hr as (A & X & R & N & P' & C & L & Q). unfold rel. repeat split; auto. rewrite Hj. discriminate. }
      destruct (IH Hr') as (q & Hp & Hq). exists q. split; [|exact Hq].
      intro Hi. apply Hp. split; [|lia].
      destruct (Nat.le_gt_cases (j + List.length (members u)) (at_ m)); auto. exfalso.
      apply (place_inside us (at_ m) j u UI Up P Ne). lia.
Qed.
Lemma rel_0 (m : mach) (s : rstate) : rel 0 m s \/ (rel n m s /\ at_ m < n) -> rel 0 m s.
Proof.
  intros [?|[(A & X & R & N & P & C & L & Q) Hlt]]; auto. unfold rel. repeat split; auto. intro J. specialize (Q J). lia.
Qed.
Lemma upass (m : mach) (s : rstate) : place us (at_ m) -> rel 0 m s ->
  exists q, (at_ m < n -> 0 < q) /\
  match ugo q m with
  | Going m' => rel n m' (run_items prog s)
  | Done l => absorbed (pt (run_items prog s)) = true /\ log (run_items prog s) = l
  | Lost _ => stuck (run_items prog s)
  end.
Proof.
  intros P Hr. destruct (upass_ok us [] m s eq_refl P Hr) as (q & Hp & Hq). exists q. split; [intro; apply Hp; cbn; lia|exact Hq].
Qed.
Lemma uwhile_stuck fuel (s : rstate) : stuck s -> run_while fuel n prog s = None.
Proof.
  intros H. induction fuel as [|f IH]; cbn [Raytrace.run_while]; destruct H as (A & X & N); rewrite A; [reflexivity|].
  assert (E : run_items prog s = s) by (apply away_ok; [apply units_no_split|exact N|intros; lia]). rewrite E. unfold end_pass.
  replace (Z.of_nat n <? index (pt s))%Z with false by (symmetry; apply Z.ltb_ge; lia). exact IH.
Qed.
Lemma ustep_beyond m : n <= at_ m -> place us (at_ m) -> ustep skip us m = Done (mlog m).
Proof.
  intros H P. unfold RayUnits.ustep. destruct (unit_at us (at_ m)) as [u|] eqn:E.
  - exfalso. destruct (unit_at_split us _ _ E) as (pre & post & Eu & Ei). rewrite Eu, flatten_app, app_length in H.
    change (flatten (u :: post)) with (members u ++ flatten post) in H. rewrite app_length in H.
    pose proof units_inhabited as UI. rewrite Forall_forall in UI. assert (Hu : members u <> []) by (apply UI; rewrite Eu; apply in_or_app; right; now left).
    destruct (members u); [congruence|]. cbn [List.length] in H. rewrite Ei in H. lia.
  - unfold RaySpec.mstep. now rewrite (proj2 (nth_error_None (flatten us) (at_ m)) H).
Qed.
Lemma end_pass_dead (s : rstate) l : absorbed (pt s) = true /\ log s = l ->
  absorbed (pt (end_pass n s)) = true /\ log (end_pass n s) = l.
Proof. intros [D1 D2]. unfold end_pass. destruct (_ <? _)%Z; auto. Qed.

Lemma loop_to_units : forall fuel m s s', place us (at_ m) -> rel 0 m s \/ (rel n m s /\ at_ m < n) ->
  run_while fuel n prog s = Some s' -> exists f, urun f skip us m = Some (log s').
Proof.
  induction fuel as [|f IH]; intros m s s' P Hr H; apply rel_0 in Hr.
  - cbn [Raytrace.run_while] in H. assert (A : absorbed (pt s) = false) by apply Hr. rewrite A in H. discriminate.
  - cbn [Raytrace.run_while] in H. assert (A : absorbed (pt s) = false) by apply Hr. rewrite A in H.
    destruct (upass m s P Hr) as (q & _ & Hq).
    pose proof (urun_ugo q 1 m) as MM. destruct (ugo q m) as [m'|l|m'] eqn:Em.
    + assert (P' := ugo_place q m m' P Em). assert (X' := proj1 (proj2 Hq)). unfold end_pass in H.
      destruct (Z.of_nat n <? index (pt (run_items prog s)))%Z eqn:El.
      * apply Z.ltb_lt in El. rewrite X' in El. rewrite run_while_dead in H by reflexivity. inversion H; subst. cbn [with_pt log].
        exists (q + 1). rewrite MM. cbn [RayUnits.urun]. rewrite ustep_beyond by (auto; lia). f_equal. symmetry. apply Hq.
      * apply Z.ltb_ge in El. rewrite X' in El. assert (Hlt : at_ m' < n) by lia.
        destruct (IH m' _ s' P' (or_intror (conj Hq Hlt)) H) as [g Hg].
        exists (q + g). pose proof (urun_ugo q g m) as M2. rewrite Em in M2. congruence.
    + exists (q + 1). rewrite MM by lia. destruct (end_pass_dead _ _ Hq) as [Ab Lb].
      rewrite run_while_dead in H by auto. injection H as <-. now rewrite Lb.
    + exfalso. unfold end_pass in H. destruct Hq as (Q1 & Q2 & Q3).
      replace (Z.of_nat n <? index (pt (run_items prog s)))%Z with false in H by (symmetry; apply Z.ltb_ge; lia).
      rewrite uwhile_stuck in H by (repeat split; auto). discriminate.
Qed.

Lemma units_to_loop : forall f m s l, place us (at_ m) -> rel 0 m s \/ (rel n m s /\ at_ m < n) ->
  urun f skip us m = Some l -> exists fuel s', run_while fuel n prog s = Some s' /\ log s' = l.
Proof.
  intro f. induction f as [f IHf] using lt_wf_ind. intros m s l P Hr H. apply rel_0 in Hr.
  destruct (upass m s P Hr) as (q & Hp & Hq). assert (A0 : absorbed (pt s) = false) by apply Hr.
  destruct (ugo q m) as [m'|l'|m'] eqn:Em.
  - assert (P' := ugo_place q m m' P Em). assert (X' := proj1 (proj2 Hq)).
    destruct (Z.of_nat n <? index (pt (run_items prog s)))%Z eqn:El.
    + apply Z.ltb_lt in El. assert (Hge : n <= at_ m') by (rewrite X' in El; lia). exists 1. eexists. split.
      { cbn [Raytrace.run_while]. rewrite A0. unfold end_pass. rewrite (proj2 (Z.ltb_lt _ _) El). reflexivity. }
      cbn [with_pt log]. pose proof (urun_ugo q 1 m) as MM. rewrite Em in MM.
      assert (M1 : urun 1 skip us m' = Some (mlog m')) by (cbn [RayUnits.urun]; now rewrite ustep_beyond).
      rewrite M1 in MM.
      assert (E : Some l = Some (mlog m')).
      { rewrite <- (urun_more _ (f + (q + 1)) _ _ H) by lia. symmetry. erewrite urun_more; [reflexivity|exact MM|lia]. }
      inversion E; subst. apply Hq.
    + apply Z.ltb_ge in El.
      destruct (Nat.lt_ge_cases (at_ m) n) as [Hlt|Hge].
      * specialize (Hp Hlt).
        assert (Hm' : exists f', f' < f /\ urun f' skip us m' = Some l).
        { pose proof (urun_ugo q (f - q) m) as MM. rewrite Em in MM.
          destruct (Nat.le_gt_cases q f) as [Hle|Hgt].
          - exists (f - q). replace (q + (f - q)) with f in MM by lia. split; [|congruence]. destruct f; [discriminate|lia].
          - exfalso. pose proof (urun_ugo q 0 m) as M0. rewrite Em in M0. cbn [RayUnits.urun] in M0.
            assert (urun (q + 0) skip us m = Some l) by (eapply urun_more; [exact H|lia]). congruence. }
        destruct Hm' as (f' & Hf' & Hm'').
        assert (Hlt' : at_ m' < n) by (rewrite X' in El; lia).
        destruct (IHf f' Hf' m' _ l P' (or_intror (conj Hq Hlt')) Hm'') as (fuel & s' & R1 & R2).
        exists (S fuel), s'. split; auto. cbn [Raytrace.run_while]. rewrite A0. unfold end_pass.
        rewrite (proj2 (Z.ltb_ge _ _) El). exact R1.
      * exfalso. destruct q as [|q]; cbn [ugo] in Em; [|rewrite ustep_beyond in Em by auto; discriminate]. inversion Em; subst. lia.
  - assert (E : l = l').
    { pose proof (urun_ugo q 1 m) as MM. rewrite Em in MM. specialize (MM ltac:(lia)).
      assert (Some l = Some l') by (rewrite <- (urun_more _ (f + (q + 1)) _ _ H) by lia; erewrite urun_more; [reflexivity|exact MM|lia]).
      congruence. }
    destruct (end_pass_dead _ _ Hq) as [Ab Lb].
    exists 1, (end_pass n (run_items prog s)). split; [|congruence]. cbn [Raytrace.run_while]. rewrite A0. fold run_while. now rewrite Ab.
  - exfalso. pose proof (urun_ugo q f m) as MM. rewrite Em in MM.
    assert (urun (q + f) skip us m = Some l) by (eapply urun_more; [exact H|lia]). congruence.
Qed.
End Pass.
End Units.
