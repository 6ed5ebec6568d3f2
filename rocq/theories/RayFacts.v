(** Facts connecting the emitted program of Raytrace.v with RaySpec.v. *)
From Coq Require Import List String Bool Arith ZArith QArith Qcanon Lia.
From Verif Require Import PyStr Raytrace RaySpec.
Import ListNotations.
Local Open Scope string_scope.
Local Open Scope list_scope.
Local Open Scope nat_scope.

Lemma ids_from_app i g a b : ids_from i g (a ++ b) = ids_from i g a ++ ids_from (i + List.length a) g b.
Proof.
  revert i. induction a as [|c t IH]; intro i; cbn [ids_from app List.length].
  - now rewrite Nat.add_0_r.
  - rewrite IH, app_assoc. do 2 f_equal. lia.
Qed.
Lemma ids_from_all i g l : Forall (fun c => rc_group c = Some g) l -> ids_from i g l = seq i (List.length l).
Proof.
  revert i. induction l as [|c t IH]; intros i H; [reflexivity|]. inversion H; subst.
  cbn [ids_from seq List.length]. unfold in_group. rewrite H2, String.eqb_refl. now rewrite IH.
Qed.
Lemma ids_from_none i g l : Forall (fun c => rc_group c <> Some g) l -> ids_from i g l = [].
Proof.
  revert i. induction l as [|c t IH]; intros i H; [reflexivity|]. inversion H; subst.
  cbn [ids_from]. unfold in_group. destruct (rc_group c) eqn:E; [destruct (String.eqb_spec s g); [congruence|]|]; now rewrite IH.
Qed.
Lemma last_id_seq i n : last_id (seq i (S n)) = i + n.
Proof.
  revert i. induction n as [|n IH]; intro i.
  - cbn. lia.
  - change (seq i (S (S n))) with (i :: seq (S i) (S n)). cbn [last_id fold_right]. fold (last_id (seq (S i) (S n))).
    rewrite IH. lia.
Qed.

Section Facts.
Context {Ph Uv Rng : Type}.
Notation core := (core Ph Uv Rng).
Notation outcome := (outcome Ph Uv Rng).
Notation rstate := (rstate Ph Uv Rng).
Variable act : nat -> core -> outcome.
Variable tr : nat -> Ph -> Ph.
Variable when_c : nat -> core -> bool.
Variable jump_c : nat -> nat -> core -> bool.
Variable iter_c : nat -> nat -> core -> Z.
Variable split_c : nat -> core -> Z.
Notation run_items := (run_items act tr when_c jump_c iter_c split_c).
Notation run_body := (run_body act tr when_c jump_c iter_c).
Notation run_comp := (run_comp act tr when_c jump_c iter_c).
Notation run1 := (run1 act tr when_c jump_c iter_c).

(** proof helper: an item that is no split *)
Definition no_split (x : item) : bool := match x with Split _ => false | _ => true end.
Lemma run_items_app l1 l2 s : forallb no_split l1 = true -> run_items (l1 ++ l2) s = run_items l2 (run_items l1 s).
Proof.
  revert s. induction l1 as [|x t IH]; intros s H; [reflexivity|]. cbn [forallb] in H. apply andb_prop in H as [H1 H2].
  destruct x; [discriminate| |]; cbn [app Raytrace.run_items]; now rewrite IH.
Qed.
Lemma gen_comp_no_split all skip i c : rc_split c = false -> forallb no_split (gen_comp all skip i c) = true.
Proof. intro H. unfold gen_comp. rewrite H. destruct (skip i); reflexivity. Qed.
Lemma gen_from_app all skip i a b :
  gen_from all skip i (a ++ b) = gen_from all skip i a ++ gen_from all skip (i + List.length a) b.
Proof.
  revert i. induction a as [|c t IH]; intro i; cbn [gen_from app List.length].
  - now rewrite Nat.add_0_r.
  - rewrite IH, <- app_assoc. do 3 f_equal. lia.
Qed.
Lemma gen_from_no_split all skip i cs : Forall (fun c => rc_split c = false) cs -> forallb no_split (gen_from all skip i cs) = true.
Proof.
  revert i. induction cs as [|c t IH]; intros i H; [reflexivity|]. inversion H; subst. cbn [gen_from].
  rewrite forallb_app, IH, gen_comp_no_split; auto.
Qed.
Lemma run_body_app a b s : run_body (a ++ b) s = run_body b (run_body a s).
Proof. apply fold_left_app. Qed.

(** once absorbed nothing is called any more *)
Lemma dead_stays l s : forallb no_split l = true -> absorbed (pt s) = true ->
  absorbed (pt (run_items l s)) = true /\ log (run_items l s) = log s.
Proof.
  revert s. induction l as [|x t IH]; intros s H A; [auto|]. cbn [forallb] in H. apply andb_prop in H as [H1 H2].
  destruct x; [discriminate| |]; cbn [Raytrace.run_items].
  - unfold run_coords. destruct (nocoords (pt s)); [auto|]. exact (IH (with_pt s (set_core (pt s) (core_tr tr i (pc (pt s))))) H2 A).
  - unfold Raytrace.run_comp. rewrite A. cbn [negb andb]. now apply IH.
Qed.

(** the particle is about to enter component i from the one before *)
Definition ready (i : nat) (s : rstate) : Prop :=
  absorbed (pt s) = false /\ index (pt s) = (1 + Z.of_nat i)%Z /\ nocoords (pt s) = false /\ restore (pt s) = false.

(** specification: a component without group, jumps and split *)
Definition lone (c : rcomp) : Prop := rc_group c = None /\ rc_jumps c = [] /\ rc_split c = false.

Lemma run_body_cons x l s : run_body (x :: l) s = run_body l (run1 x s).
Proof. reflexivity. Qed.
Lemma run_body_nil s : run_body [] s = s.
Proof. reflexivity. Qed.
Lemma run1_save p sv lg : run1 ISave (mkS p sv lg) = mkS p p lg.
Proof. reflexivity. Qed.
Lemma run1_trace i w k a sc r ix nc ct sv lg :
  run1 (ITrace i w) (mkS (mkP k a sc r ix nc ct) sv lg) =
  if negb w || when_c i k
  then mkS (mkP (o_core (act i k)) (o_absorbed (act i k)) (o_scattered (act i k)) (o_restore (act i k)) ix nc ct) sv (lg ++ [(i, k)])
  else mkS (mkP k a sc r ix nc ct) sv lg.
Proof. reflexivity. Qed.
Lemma run1_restore k a sc r ix nc ct sv lg :
  run1 IRestore (mkS (mkP k a sc r ix nc ct) sv lg) =
  if r then mkS (mkP (core_restore k (pc sv)) false sc false ix nc ct) sv lg else mkS (mkP k a sc r ix nc ct) sv lg.
Proof. reflexivity. Qed.
Lemma run1_group e last k a sc r ix nc ct sv lg :
  run1 (IGroup e last) (mkS (mkP k a sc r ix nc ct) sv lg) =
  if sc then mkS (mkP k a sc r e nc ct) sv lg
  else if last then mkS (mkP k true sc r ix nc ct) sv lg
  else mkS (mkP (core_restore k (pc sv)) false sc false ix nc ct) sv lg.
Proof. reflexivity. Qed.
Lemma run1_next k a sc r ix nc ct sv lg :
  run1 INext (mkS (mkP k a sc r ix nc ct) sv lg) = mkS (mkP k a sc r (ix + 1) nc ct) sv lg.
Proof. reflexivity. Qed.
Ltac crunch := cbn [pt save log pc absorbed scattered restore index nocoords cnt with_pt set_core set_index set_absorbed
  set_nocoords particle_restore fst snd app Raytrace.run_items gen_from orb negb andb].
Ltac rdy := unfold ready; crunch; repeat split; auto; lia.
Lemma one_ok all skip i c s :
  lone c -> (skip i = true -> rc_code c = false) -> ready i s ->
  let r := spec_one act tr when_c skip i c (pc (pt s)) in
  let s' := run_items (gen_comp all skip i c) s in
  log s' = log s ++ fst r /\
  match snd r with Some k => ready (S i) s' /\ pc (pt s') = k | None => absorbed (pt s') = true end.
Proof.
  intros (G & J & S0) K (A & X & N & R).
  destruct s as [[k ab sc re ix nc ct] sv lg]. cbn [pt pc absorbed index nocoords restore] in *. subst ab ix nc re.
  unfold gen_comp, gen_body, spec_one. rewrite S0, G, J. cbn [gen_jumps app].
  replace (1 + Z.of_nat (S i))%Z with (1 + Z.of_nat i + 1)%Z in * by lia.
  destruct (skip i) eqn:Sk.
  - rewrite (K eq_refl). cbn [andb app Raytrace.run_items]. unfold Raytrace.run_comp. cbn [pt absorbed index negb andb].
    rewrite Z.eqb_refl. crunch. unfold with_pt, set_nocoords. crunch. rewrite run_body_cons, run1_next, run_body_nil. crunch.
    rewrite app_nil_r. split; [reflexivity|]. split; [|reflexivity].
    rdy.
  - cbn [app Raytrace.run_items]. unfold run_coords, with_pt, set_core. cbn [pt nocoords pc absorbed scattered restore index cnt save log].
    unfold Raytrace.run_comp. cbn [pt absorbed index negb andb]. rewrite Z.eqb_refl.
    change (core_tr tr i k) with (moved tr i k).
    unfold with_pt, set_nocoords. crunch.
    destruct (rc_code c).
    + cbn [app andb]. rewrite run_body_cons, run1_save, run_body_cons, run1_trace.
      destruct (negb (rc_when c) || when_c i (moved tr i k)).
      * rewrite run_body_cons, run1_restore.
        destruct (o_restore (act i (moved tr i k))) eqn:Er; rewrite run_body_cons, run1_next, run_body_nil.
        -- crunch. split; [reflexivity|]. split; [rdy|reflexivity].
        -- crunch. split; [reflexivity|]. destruct (o_absorbed (act i (moved tr i k))) eqn:Ea; [reflexivity|].
           split; [rdy|reflexivity].
      * rewrite run_body_cons, run1_restore, run_body_cons, run1_next, run_body_nil. crunch. rewrite app_nil_r.
        split; [reflexivity|]. split; [rdy|reflexivity].
    + cbn [app andb]. rewrite run_body_cons, run1_save, run_body_cons, run1_next, run_body_nil. crunch. rewrite app_nil_r.
      split; [reflexivity|]. split; [rdy|reflexivity].
Qed.

(** * Groups *)
Definition member (g : string) (c : rcomp) : Prop :=
  rc_group c = Some g /\ rc_jumps c = [] /\ rc_split c = false /\ rc_code c = true.

(** passing by members after one has scattered *)
Lemma pass_by all skip i l s :
  Forall (fun c => rc_split c = false) l -> (forall j, i <= j < i + List.length l -> skip j = false) ->
  absorbed (pt s) = false -> nocoords (pt s) = false -> (1 + Z.of_nat (i + List.length l) <= index (pt s))%Z ->
  let s' := run_items (gen_from all skip i l) s in
  pt s' = set_core (pt s) (carry tr i (List.length l) (pc (pt s))) /\ log s' = log s.
Proof.
  revert i s. induction l as [|c t IH]; intros i s F K A N X.
  - cbn. destruct s as [[]]. auto.
  - inversion F; subst. cbn [List.length] in *. cbn [gen_from carry].
    assert (E : gen_comp all skip i c = [Coords i; Comp i (gen_body all skip i c)]).
    { unfold gen_comp. rewrite H1, (K i) by lia. reflexivity. }
    rewrite E. cbn [app Raytrace.run_items]. unfold run_coords. rewrite N. unfold Raytrace.run_comp.
    cbn [with_pt pt set_core absorbed index]. rewrite A. cbn [negb andb].
    destruct (Z.eqb_spec (index (pt s)) (1 + Z.of_nat i)); [lia|].
    set (s1 := with_pt s _).
    assert (H1' : absorbed (pt s1) = false) by exact A. assert (N1 : nocoords (pt s1) = false) by exact N.
    destruct (IH (S i) s1 H2) as [P L]; auto; try (intros j Hj; apply K; lia); try (unfold s1; crunch; lia).
Qed.

Lemma grp_ok all skip g first n : forall t i s,
  ids g all = seq first n -> i + List.length t = first + n -> first <= i -> t <> [] ->
  Forall (member g) t -> (forall j, first <= j < first + n -> skip j = false) ->
  (i = first -> match t with c :: _ => rc_when c = false | [] => True end) ->
  (i <> first -> scattered (pt s) = false /\ ph (pc (save s)) = ph (pc (pt s)) /\ wt (pc (save s)) = wt (pc (pt s))) ->
  ready i s ->
  let r := spec_grp act tr when_c i t (pc (pt s)) in
  let s' := run_items (gen_from all skip i t) s in
  log s' = log s ++ fst r /\
  match snd r with Some k => ready (first + n) s' /\ pc (pt s') = k | None => absorbed (pt s') = true end.
Proof.
  induction t as [|c t IH]; intros i s Hids Hn Hf Hne Hm Hk Hl Hs Hr; [congruence|]. clear Hne.
  inversion Hm as [|? ? (Gg & Gj & Gs & Gc) Hm']; subst. cbn [List.length] in Hn.
  destruct n as [|n]; [lia|].
  assert (Hlast : last_id (ids g all) = first + n) by (rewrite Hids; apply last_id_seq).
  assert (Hlead : is_leader (ids g all) i = Nat.eqb first i) by (rewrite Hids; reflexivity).
  destruct Hr as (A & X & N & R).
  destruct s as [[k ab sc re ix nc ct] sv lg]. cbn [pt pc absorbed index nocoords restore scattered save] in *. subst ab ix nc re.
  cbn [gen_from].
  rewrite run_items_app by (now apply gen_comp_no_split).
  unfold gen_comp. rewrite Gs, (Hk i) by lia. cbn [app].
  unfold gen_body. rewrite Gg, Gj, Gc, Hlead, Hlast. cbn [gen_jumps app].
  set (saving := if first =? i then if skip i then [] else [ISave] else [ISaveCoords i]).
  cbn [Raytrace.run_items]. unfold run_coords. cbn [pt nocoords]. unfold Raytrace.run_comp.
  cbn [with_pt pt set_core absorbed index negb andb pc scattered restore nocoords cnt save log]. rewrite Z.eqb_refl.
  change (core_tr tr i k) with (moved tr i k).
  set (k1 := moved tr i k).
  rewrite run_body_app.
  (* after saving *)
  assert (SV : exists sv', run_body saving (mkS (set_nocoords (mkP k1 false sc false (1 + Z.of_nat i) false ct) false) sv lg) =
             mkS (mkP k1 false sc false (1 + Z.of_nat i) false ct) sv' lg /\ ph (pc sv') = ph k1 /\ wt (pc sv') = wt k1).
  { unfold saving. destruct (Nat.eqb_spec first i) as [<-|Ne].
    - rewrite (Hk first) by lia. cbn. eexists. split; [reflexivity|]. auto.
    - destruct (Hs (not_eq_sym Ne)) as (_ & P1 & P2). cbn. eexists. split; [reflexivity|].
      cbn. rewrite P1, P2. auto. }
  destruct SV as (sv' & E & P1 & P2).
  unfold with_pt, set_core, set_nocoords in *. cbn [pt save log pc absorbed scattered restore index nocoords cnt] in *.
  rewrite E. clear E saving.
  cbn [app]. rewrite run_body_cons, run1_trace.
  cbn [spec_grp]. fold k1.
  assert (NE : t <> [] -> Nat.eqb i (first + n) = false).
  { intro H. apply Nat.eqb_neq. destruct t; [congruence|]. cbn [List.length] in Hn. lia. }
  assert (EL : t = [] -> Nat.eqb i (first + n) = true).
  { intros ->. apply Nat.eqb_eq. cbn [List.length] in Hn. lia. }
  assert (NSP : Forall (fun c => rc_split c = false) t).
  { eapply Forall_impl; [|exact Hm']. intros a (_ & _ & H & _). exact H. }
  assert (NEXT : (1 + Z.of_nat (first + n) + 1 = 1 + Z.of_nat (first + S n))%Z) by lia.
  destruct (negb (rc_when c) || when_c i k1) eqn:W.
  - (* tried *)
    set (o := act i k1). rewrite run_body_cons, run1_restore.
    set (s1 := if o_restore o then _ else _).
    assert (S1 : exists k2 a2, s1 = mkS (mkP k2 a2 (o_scattered o) false (1 + Z.of_nat i) false ct) sv' (lg ++ [(i, k1)]) /\
       (k2 = if o_restore o then undone k1 (o_core o) else o_core o) /\ a2 = (if o_restore o then false else o_absorbed o)).
    { unfold s1. destruct (o_restore o) eqn:Er.
      - eexists _, _. split; [reflexivity|]. split; [|reflexivity]. unfold core_restore, undone. now rewrite P1, P2.
      - eexists _, _. split; [reflexivity|]. split; reflexivity. }
    destruct S1 as (k2 & a2 & E1 & E2 & E3). rewrite E1. clear E1 s1.
    rewrite run_body_cons, run1_group.
    destruct (o_scattered o) eqn:Esc.
    + (* scattered *)
      rewrite run_body_cons, run1_next, run_body_nil, NEXT.
      destruct a2 eqn:Ea.
      * (* and absorbed *)
        destruct (o_restore o); [discriminate|]. rewrite <- E3.
        match goal with |- context [Raytrace.run_items _ _ _ _ _ _ ?l ?s] => destruct (dead_stays l s) as [D1 D2]; [now apply gen_from_no_split|reflexivity|] end.
        rewrite D2. cbn [fst snd log]. split; [reflexivity|exact D1].
      * match goal with |- context [Raytrace.run_items _ _ _ _ _ _ (gen_from all skip (S i) t) ?s] =>
          destruct (pass_by all skip (S i) t s) as [D1 D2]; auto end.
        -- intros j Hj. apply Hk. lia.
        -- crunch. lia.
        -- rewrite D2. unfold ready. rewrite D1. crunch. split; [destruct (o_restore o); reflexivity|].
           destruct (o_restore o) eqn:Er.
           ++ split; [repeat split; auto|now rewrite E2].
           ++ rewrite <- E3. split; [repeat split; auto|now rewrite E2].
    + (* not scattered *)
      destruct t as [|c' t'].
      * rewrite (EL eq_refl), run_body_cons, run1_next, run_body_nil. cbn [gen_from Raytrace.run_items spec_grp]. crunch. auto.
      * rewrite (NE ltac:(discriminate)), run_body_cons, run1_next, run_body_nil.
        match goal with |- context [Raytrace.run_items _ _ _ _ _ _ (gen_from all skip (S i) (c' :: t')) ?s] => set (s2 := s) end.
        assert (KK : pc (pt s2) = undone k1 (o_core o)).
        { unfold s2. crunch. unfold core_restore, undone. rewrite P1, P2, E2. destruct (o_restore o); reflexivity. }
        assert (HH : let r := spec_grp act tr when_c (S i) (c' :: t') (pc (pt s2)) in
          let s' := run_items (gen_from all skip (S i) (c' :: t')) s2 in
          log s' = log s2 ++ fst r /\
          match snd r with Some k => ready (first + S n) s' /\ pc (pt s') = k | None => absorbed (pt s') = true end).
        { apply IH; auto; try lia; try discriminate; try (intro; lia); try (intros _; unfold s2; crunch; auto); try (unfold s2; rdy). }
        cbv zeta in HH. destruct HH as [L1 L2].
        rewrite KK in L1, L2. destruct (spec_grp act tr when_c (S i) (c' :: t') (undone k1 (o_core o))) as [lg' r'].
           cbn [fst snd] in *. rewrite L1. unfold s2 at 1. cbn [log]. rewrite <- app_assoc. split; [reflexivity|exact L2].
  - (* WHEN does not hold *)
    assert (NL : i <> first).
    { intro Hi. specialize (Hl Hi). cbn in Hl. rewrite Hl in W. discriminate. }
    destruct (Hs NL) as (Hsc & _ & _). subst sc.
    rewrite run_body_cons, run1_restore, run_body_cons, run1_group.
    destruct t as [|c' t'].
    + rewrite (EL eq_refl), run_body_cons, run1_next, run_body_nil. cbn [gen_from Raytrace.run_items spec_grp]. crunch. rewrite app_nil_r. auto.
    + rewrite (NE ltac:(discriminate)), run_body_cons, run1_next, run_body_nil.
      match goal with |- context [Raytrace.run_items _ _ _ _ _ _ (gen_from all skip (S i) (c' :: t')) ?s] => set (s2 := s) end.
      assert (KK : pc (pt s2) = k1).
      { unfold s2. crunch. unfold core_restore. rewrite P1, P2. destruct k1; reflexivity. }
      assert (HH : let r := spec_grp act tr when_c (S i) (c' :: t') (pc (pt s2)) in
          let s' := run_items (gen_from all skip (S i) (c' :: t')) s2 in
          log s' = log s2 ++ fst r /\
          match snd r with Some k => ready (first + S n) s' /\ pc (pt s') = k | None => absorbed (pt s') = true end).
        { apply IH; auto; try lia; try discriminate; try (intro; lia); try (intros _; unfold s2; crunch; auto); try (unfold s2; rdy). }
        cbv zeta in HH. destruct HH as [L1 L2].
      rewrite KK in L1, L2. split; [exact L1|exact L2].
Qed.

(** * Whole instruments *)
Definition good_unit (u : unit_) : Prop :=
  match u with
  | One c => lone c
  | Grp g l => l <> [] /\ Forall (member g) l /\ match l with c :: _ => rc_when c = false | [] => True end
  end.
(** proof helper: the name of a group *)
Definition group_of (u : unit_) : list string := match u with One _ => [] | Grp g _ => [g] end.

Lemma not_mine us g : Forall good_unit us -> ~ In g (flat_map group_of us) -> Forall (fun c => rc_group c <> Some g) (flatten us).
Proof.
  intros F H. induction us as [|u t IH]; [constructor|]. inversion F as [|? ? Gu Gt]; subst.
  cbn [flatten flat_map] in *. apply Forall_app. split.
  - destruct u as [c|g' l]; cbn [members].
    + constructor; [|constructor]. destruct Gu as (-> & _). discriminate.
    + destruct Gu as (_ & M & _). eapply Forall_impl; [|exact M]. intros a (-> & _) E. inversion E; subst. apply H. now left.
  - apply IH; auto. intro K. apply H. apply in_or_app. now right.
Qed.

Lemma units_ok all skip : forall post pre after s,
  Forall good_unit (pre ++ post ++ after) -> NoDup (flat_map group_of (pre ++ post ++ after)) ->
  (forall g, ids g all = ids g (flatten (pre ++ post ++ after))) ->
  (forall i c, nth_error (flatten (pre ++ post ++ after)) i = Some c -> skip i = true -> rc_code c = false) ->
  let i := List.length (flatten pre) in
  ready i s ->
  let r := spec_units act tr when_c skip i post (pc (pt s)) in
  let s' := run_items (gen_from all skip i (flatten post)) s in
  log s' = log s ++ fst r /\
  match snd r with Some k => ready (List.length (flatten (pre ++ post))) s' /\ pc (pt s') = k | None => absorbed (pt s') = true end.
Proof.
  induction post as [|u t IH]; intros pre after s F D Ea K i Hr.
  - cbn. rewrite app_nil_r. split; [reflexivity|]. split; [|reflexivity]. rewrite app_nil_r. exact Hr.
  - assert (Gu : good_unit u) by (eapply Forall_forall; [exact F|]; apply in_or_app; right; now left).
    assert (NSu : Forall (fun c => rc_split c = false) (members u)).
    { destruct u as [c|g l]; cbn in *.
      - constructor; auto. destruct Gu as (_ & _ & ?); auto.
      - destruct Gu as (_ & M & _). eapply Forall_impl; [|exact M]. intros a (_ & _ & ? & _); auto. }
    assert (Eall : flatten (pre ++ (u :: t) ++ after) = flatten pre ++ members u ++ flatten (t ++ after)).
    { unfold flatten. rewrite flat_map_app. reflexivity. }
    change (flatten (u :: t)) with (members u ++ flatten t). rewrite gen_from_app, run_items_app by (now apply gen_from_no_split).
    cbn [spec_units].
    set (r := match u with One c => spec_one act tr when_c skip i c (pc (pt s)) | Grp _ l => spec_grp act tr when_c i l (pc (pt s)) end).
    assert (U : log (run_items (gen_from all skip i (members u)) s) = log s ++ fst r /\
                match snd r with Some k => ready (i + List.length (members u)) (run_items (gen_from all skip i (members u)) s) /\
                                           pc (pt (run_items (gen_from all skip i (members u)) s)) = k
                               | None => absorbed (pt (run_items (gen_from all skip i (members u)) s)) = true end).
    { destruct u as [c|g l]; cbn [members List.length] in *.
      - cbn [gen_from]. rewrite app_nil_r, Nat.add_1_r. apply one_ok; auto. apply (K i c).
        rewrite Eall. unfold i. rewrite nth_error_app2, Nat.sub_diag; auto.
      - destruct Gu as (Gn & Gm & Gw).
        assert (Hids : ids g all = seq i (List.length l)).
        { rewrite flat_map_app in D. cbn [flat_map group_of] in D. apply NoDup_remove_2 in D.
          apply Forall_app in F as [Fp Ft]. inversion Ft as [|? ? _ Ft']; subst.
          rewrite Ea, Eall. unfold ids. rewrite !ids_from_app.
          rewrite (ids_from_none 0 g (flatten pre)) by (apply not_mine; auto; intro; apply D; apply in_or_app; now left).
          rewrite (ids_from_none _ g (flatten (t ++ after))) by (apply not_mine; auto; intro; apply D; apply in_or_app; now right).
          rewrite app_nil_r. cbn [app]. rewrite ids_from_all; [reflexivity|]. eapply Forall_impl; [|exact Gm]. intros a (? & _); auto. }
        apply (grp_ok all skip g i (List.length l) l i s Hids); auto.
        + intros j Hj. destruct (skip j) eqn:Sj; auto.
          assert (exists c, nth_error (flatten (pre ++ (Grp g l :: t) ++ after)) j = Some c /\ In c l) as (c & E & Ic).
          { rewrite Eall. rewrite nth_error_app2 by (unfold i in Hj; lia). rewrite nth_error_app1 by (unfold i in Hj; lia).
            destruct (nth_error l (j - List.length (flatten pre))) eqn:E.
            - exists r0. split; auto. eapply nth_error_In; eauto.
            - apply nth_error_None in E. unfold i in Hj. lia. }
          rewrite Forall_forall in Gm. destruct (Gm c Ic) as (_ & _ & _ & Cc). rewrite (K j c E Sj) in Cc. discriminate.
        + congruence. }
    destruct U as [U1 U2]. destruct r as [lg [k|]]; cbn [fst snd] in *.
    + destruct U2 as [R2 K2]. set (s1 := run_items (gen_from all skip i (members u)) s) in *.
      specialize (IH (pre ++ [u]) after s1).
      replace ((pre ++ [u]) ++ t ++ after) with (pre ++ (u :: t) ++ after) in IH by (now rewrite <- app_assoc).
      replace ((pre ++ [u]) ++ t) with (pre ++ u :: t) in IH by (now rewrite <- app_assoc). specialize (IH F D Ea K).
      assert (EL : List.length (flatten (pre ++ [u])) = i + List.length (members u)).
      { unfold flatten. rewrite flat_map_app, app_length. cbn [flat_map]. now rewrite app_nil_r. }
      cbv zeta in IH. rewrite EL in IH. specialize (IH R2). rewrite K2 in IH. destruct IH as [I1 I2].
      destruct (spec_units act tr when_c skip (i + List.length (members u)) t k) as [lg' r']. cbn [fst snd] in *.
      rewrite I1, U1, <- app_assoc. split; [reflexivity|exact I2].
    + assert (NSt : Forall (fun c => rc_split c = false) (flatten t)).
      { apply Forall_forall. intros c Hc. unfold flatten in Hc. apply in_flat_map in Hc as (v & Hv & Hc).
        assert (Gv : good_unit v) by (eapply Forall_forall; [exact F|]; apply in_or_app; right; right; apply in_or_app; now left).
        destruct v as [d|g l]; cbn in *.
        - destruct Hc as [<-|[]]. destruct Gv as (_ & _ & ?); auto.
        - destruct Gv as (_ & M & _). rewrite Forall_forall in M. destruct (M c Hc) as (_ & _ & ? & _); auto. }
      destruct (dead_stays (gen_from all skip (i + List.length (members u)) (flatten t)) (run_items (gen_from all skip i (members u)) s)) as [D1 D2];
        [now apply gen_from_no_split|exact U2|].
      rewrite D2, U1. auto.
Qed.
End Facts.
