(** Any number of SPLITs in the trace loop of Raytrace.v (translators/c_raytrace.py:39-56, 139-147): what is called with what, as a function
    without loops over programs, and the facts that the loop does just that.  Used to state C43. *)
From Coq Require Import List String Bool Arith ZArith QArith Qcanon Lia.
From Verif Require Import PyStr Raytrace RaySpec RayFacts RaySplit.
Import ListNotations.
Local Open Scope string_scope.
Local Open Scope list_scope.
Local Open Scope nat_scope.

(** a component, or the first of a group, with SPLIT *)
Definition splits (u : unit_) : bool := match u with One c => rc_split c | Grp _ (c :: _) => rc_split c | Grp _ [] => false end.
(** the same without SPLIT *)
Definition whole (u : unit_) : unit_ := match u with One c => One (unsplit c) | Grp g (c :: l) => Grp g (unsplit c :: l) | Grp g [] => Grp g [] end.

Section S.
Context {Ph Uv Rng : Type}.
Notation core := (core Ph Uv Rng).
Notation outcome := (outcome Ph Uv Rng).
Notation rstate := (rstate Ph Uv Rng).
Variable act : nat -> core -> outcome.
Variable tr : nat -> Ph -> Ph.
Variable when_c : nat -> core -> bool.
Variable jump_c : nat -> nat -> core -> bool.
Variable iter_c : nat -> nat -> core -> Z.
Variable split_c : nat -> core -> Z.
Notation run_items := (run_items act tr when_c jump_c iter_c split_c).
Notation run_body := (run_body act tr when_c jump_c iter_c).
Notation run1 := (run1 act tr when_c jump_c iter_c).

(** * Specification *)
(** the random state after some calls *)
Definition left_rng (r : Rng) (l : list (nat * core)) : Rng := fold_left (fun _ e => rng (o_core (act (fst e) (snd e)))) l r.
(** each call starts with the random state the one before left *)
Fixpoint chained (r : Rng) (l : list (nat * core)) : Prop :=
  match l with [] => True | e :: t => rng (snd e) = r /\ chained (rng (o_core (act (fst e) (snd e)))) t end.
(** specification: one of n copies of a particle *)
Definition share (k : core) (n : Z) (r : Rng) : core := mkCore (ph k) (wt k / Q2Qc (inject_Z n))%Qc (uv k) r.
(** specification: one unit *)
Definition spec_unit (skip : nat -> bool) (i : nat) (u : unit_) (k : core) : list (nat * core) * option core :=
  match u with One c => spec_one act tr when_c skip i c k | Grp _ l => spec_grp act tr when_c i l k end.
(** n copies, each with its share of the weight, go through everything that follows, one after the other *)
Fixpoint spec_splits (skip : nat -> bool) (i : nat) (us : list unit_) (k : core) : list (nat * core) :=
  match us with
  | [] => []
  | u :: t =>
      let once q := match spec_unit skip i u q with
                    | (lg, None) => lg
                    | (lg, Some q') => lg ++ spec_splits skip (i + List.length (members u)) t q'
                    end in
      if splits u
      then let n := split_c i k in Nat.iter (Z.to_nat n) (fun lg => lg ++ once (share k n (left_rng (rng k) lg))) []
      else once k
  end.

(** * Random numbers *)
Lemma left_app r a b : left_rng r (a ++ b) = left_rng (left_rng r a) b.
Proof. apply fold_left_app. Qed.
Lemma chained_app r a b : chained r a -> chained (left_rng r a) b -> chained r (a ++ b).
Proof. revert r. induction a as [|e a IH]; intros r A B; [exact B|]. destruct A as [A1 A2]. split; [exact A1|]. now apply IH. Qed.
(** proof helper: how the random state goes on *)
Definition goes (s s' : rstate) : Prop :=
  exists new, log s' = log s ++ new /\ chained (rng (pc (pt s))) new /\ rng (pc (pt s')) = left_rng (rng (pc (pt s))) new.
Lemma goes_same (s s' : rstate) : log s' = log s -> rng (pc (pt s')) = rng (pc (pt s)) -> goes s s'.
Proof. intros A B. exists []. rewrite app_nil_r. repeat split; auto. Qed.
Lemma goes_trans (a b c : rstate) : goes a b -> goes b c -> goes a c.
Proof.
  intros (x & A1 & A2 & A3) (y & B1 & B2 & B3). exists (x ++ y). split; [now rewrite B1, A1, app_assoc|]. rewrite A3 in B2, B3. split; [now apply chained_app|]. now rewrite left_app.
Qed.
Lemma goes_run1 x (s : rstate) : goes s (run1 x s).
Proof.
  destruct x; cbn [Raytrace.run1]; try (apply goes_same; reflexivity).
  - destruct (negb guarded || when_c i (pc (pt s))); [|now apply goes_same]. exists [(i, pc (pt s))]. repeat split.
  - destruct (restore (pt s)); now apply goes_same.
  - destruct (jump_c i k (pc (pt s))); now apply goes_same.
  - destruct (_ <? _)%Z; now apply goes_same.
  - destruct (scattered (pt s)); [|destruct last]; now apply goes_same.
Qed.
Lemma goes_body l : forall s : rstate, goes s (run_body l s).
Proof. induction l as [|x l IH]; intro s; [now apply goes_same|]. rewrite run_body_cons. eapply goes_trans; [apply goes_run1|apply IH]. Qed.
Lemma goes_items l : forall s : rstate, goes s (run_items l s).
Proof.
  induction l as [|x l IH]; intro s; [now apply goes_same|]. destruct x; cbn [Raytrace.run_items].
  - destruct (absorbed (pt s)); [now apply goes_same|]. set (n := split_c i (pc (pt s))). generalize (Z.to_nat n). intro m. set (p0 := pt s). clearbody p0.
    induction m as [|m IHm]; [now apply goes_same|]. cbn [Nat.iter nat_rect]. eapply goes_trans; [exact IHm|]. eapply goes_trans; [|apply IH]. now apply goes_same.
  - eapply goes_trans; [|apply IH]. unfold run_coords. destruct (nocoords (pt s)); now apply goes_same.
  - eapply goes_trans; [|apply IH]. unfold run_comp. destruct (_ && _); [|now apply goes_same]. eapply goes_trans; [|apply goes_body]. now apply goes_same.
Qed.
Lemma goes_while n prog : forall fuel s s', run_while act tr when_c jump_c iter_c split_c fuel n prog s = Some s' -> goes s s'.
Proof.
  induction fuel as [|f IH]; intros s s' H; cbn [Raytrace.run_while] in H.
  - destruct (absorbed (pt s)); [|discriminate]. injection H as <-. now apply goes_same.
  - destruct (absorbed (pt s)); [injection H as <-; now apply goes_same|]. eapply goes_trans; [apply (goes_items prog)|]. eapply goes_trans; [|apply IH; exact H].
    unfold end_pass. destruct (_ <? _)%Z; now apply goes_same.
Qed.

(** * The loop *)
Lemma dead_all l : forall s : rstate, absorbed (pt s) = true -> absorbed (pt (run_items l s)) = true /\ log (run_items l s) = log s.
Proof.
  induction l as [|x t IH]; intros s A; [auto|]. destruct x; cbn [Raytrace.run_items].
  - rewrite A. auto.
  - unfold run_coords. destruct (nocoords (pt s)); [now apply IH|]. exact (IH (with_pt s (set_core (pt s) (core_tr tr i (pc (pt s))))) A).
  - unfold Raytrace.run_comp. rewrite A. cbn [negb andb]. now apply IH.
Qed.
Lemma gen_members all skip i u : gen_from all skip i (members u) = (if splits u then [Split i] else []) ++ gen_from all skip i (members (whole u)).
Proof.
  assert (G : forall c t, gen_from all skip i (c :: t) = (if rc_split c then [Split i] else []) ++ gen_from all skip i (unsplit c :: t)).
  { intros c t. cbn [gen_from]. unfold gen_comp. cbn [unsplit rc_split]. rewrite app_nil_l, <- !app_assoc. reflexivity. }
  destruct u as [c|g [|c l]]; cbn [members splits whole]; [apply G|reflexivity|apply G].
Qed.
Lemma whole_length u : List.length (members (whole u)) = List.length (members u).
Proof. destruct u as [c|g [|c l]]; reflexivity. Qed.
Lemma flatten_length l : List.length (flatten (map whole l)) = List.length (flatten l).
Proof. unfold flatten. induction l as [|u l IH]; [reflexivity|]. cbn [map flat_map]. now rewrite !app_length, IH, whole_length. Qed.
Lemma whole_no_split u : good_unit (whole u) -> Forall (fun c => rc_split c = false) (members (whole u)).
Proof.
  intro G. destruct (whole u) as [c|g l]; cbn in *.
  - constructor; auto. destruct G as (_ & _ & ?); auto.
  - destruct G as (_ & M & _). eapply Forall_impl; [|exact M]. intros a (_ & _ & ? & _); auto.
Qed.
Lemma spec_unit_whole skip i u k : spec_unit skip i (whole u) k = spec_unit skip i u k.
Proof. destruct u as [c|g [|c l]]; reflexivity. Qed.

Lemma splits_ok all skip : (forall i k, (1 <= split_c i k)%Z) -> forall post pre s,
  let us := map whole (pre ++ post) in
  Forall good_unit us -> NoDup (flat_map group_of us) -> (forall g, ids g all = ids g (flatten us)) ->
  (forall i c, nth_error (flatten us) i = Some c -> skip i = true -> rc_code c = false) ->
  ready (List.length (flatten pre)) s ->
  log (run_items (gen_from all skip (List.length (flatten pre)) (flatten post)) s) = log s ++ spec_splits skip (List.length (flatten pre)) post (pc (pt s)).
Proof.
  intro P. induction post as [|u t IH]; intros pre s us F D Ea K Hr; [cbn; now rewrite app_nil_r|].
  set (i := List.length (flatten pre)) in *. change (flatten (u :: t)) with (members u ++ flatten t). rewrite gen_from_app, gen_members, <- app_assoc.
  assert (Eus : us = map whole pre ++ [whole u] ++ map whole t) by (unfold us; now rewrite map_app).
  assert (Gu : good_unit (whole u)) by (eapply Forall_forall; [exact F|]; rewrite Eus; apply in_or_app; right; now left).
  cbn [spec_splits]. cbv zeta.
  set (once := fun q : core => match spec_unit skip i u q with (lg, None) => lg | (lg, Some q') => lg ++ spec_splits skip (i + List.length (members u)) t q' end).
  set (prog := gen_from all skip i (members (whole u)) ++ gen_from all skip (i + List.length (members u)) (flatten t)).
  assert (O : forall s0, ready i s0 -> log (run_items prog s0) = log s0 ++ once (pc (pt s0))).
  { intros s0 H0. unfold prog. rewrite run_items_app by (now apply gen_from_no_split, whole_no_split).
    destruct (units_ok act tr when_c jump_c iter_c split_c all skip [whole u] (map whole pre) (map whole t) s0) as [L V]; try (rewrite <- Eus; auto).
    { rewrite flatten_length. exact H0. }
    rewrite flatten_length in L, V. fold i in L, V. assert (Ew : flatten [whole u] = members (whole u)) by apply app_nil_r. rewrite Ew in L, V.
    cbn [spec_units] in L, V. change (match whole u with One c => spec_one act tr when_c skip i c (pc (pt s0)) | Grp _ l => spec_grp act tr when_c i l (pc (pt s0)) end) with (spec_unit skip i (whole u) (pc (pt s0))) in L, V.
    rewrite spec_unit_whole in L, V. unfold once. destruct (spec_unit skip i u (pc (pt s0))) as [lg [k'|]]; cbn [fst snd] in *.
    - rewrite app_nil_r in L. destruct V as [V1 V2].
      assert (Ei : List.length (flatten (map whole pre ++ [whole u])) = i + List.length (members u)).
      { unfold flatten. rewrite flat_map_app, app_length. change (flat_map members (map whole pre)) with (flatten (map whole pre)). rewrite flatten_length. cbn [flat_map]. rewrite app_nil_r, whole_length. reflexivity. }
      assert (Ej : List.length (flatten (pre ++ [u])) = i + List.length (members u)).
      { unfold flatten. rewrite flat_map_app, app_length. cbn [flat_map]. now rewrite app_nil_r. }
      rewrite Ei in V1. assert (Eus' : us = map whole ((pre ++ [u]) ++ t)) by (unfold us; now rewrite <- app_assoc).
      pose proof (IH (pre ++ [u]) (run_items (gen_from all skip i (members (whole u))) s0)) as H. cbv zeta in H. rewrite <- Eus', Ej in H. rewrite H by auto. rewrite L, V2. now rewrite app_assoc.
    - now rewrite (proj2 (dead_all _ _ V)), L. }
  destruct (splits u); [|cbn [app]; now apply O].
  cbn [app Raytrace.run_items]. fold prog. destruct Hr as (A & X & N & R). rewrite A. set (k := pc (pt s)). set (n := split_c i k).
  assert (Pn : (1 <= n)%Z) by apply P. generalize (Z.to_nat n). intro m.
  assert (J : log (Nat.iter m (fun s' => run_items prog (with_pt s' (split_copy (pt s) n (pt s')))) s) = log s ++ Nat.iter m (fun lg => lg ++ once (share k n (left_rng (rng k) lg))) [] /\
    rng (pc (pt (Nat.iter m (fun s' => run_items prog (with_pt s' (split_copy (pt s) n (pt s')))) s))) = left_rng (rng k) (Nat.iter m (fun lg => lg ++ once (share k n (left_rng (rng k) lg))) [])); [|exact (proj1 J)].
  induction m as [|m [I1 I2]]; [cbn; rewrite app_nil_r; auto|]. cbn [Nat.iter nat_rect].
  change (nat_rect _ s (fun _ => ?f) m) with (Nat.iter m f s). change (nat_rect _ (@nil ?X) (fun _ => ?f) m) with (Nat.iter m f (@nil X)).
  set (s1 := Nat.iter m _ s) in *. set (l1 := Nat.iter m _ []) in *. set (s2 := with_pt s1 (split_copy (pt s) n (pt s1))).
  assert (E2 : pc (pt s2) = share k n (left_rng (rng k) l1)).
  { unfold s2, with_pt, split_copy, set_core, share. cbn [pt pc]. rewrite (proj2 (Z.ltb_lt 0 n)) by lia. now rewrite I2. }
  assert (L2 : log (run_items prog s2) = log s2 ++ once (share k n (left_rng (rng k) l1))).
  { rewrite <- E2. apply O. unfold s2, ready, with_pt, split_copy, set_core. cbn [pt absorbed index nocoords restore]. repeat split; auto. }
  destruct (goes_items prog s2) as (new & G1 & _ & G3). rewrite L2 in G1. apply app_inv_head in G1. subst new. split.
  - rewrite L2. unfold s2. cbn [with_pt log]. now rewrite I1, app_assoc.
  - rewrite G3, E2. rewrite left_app. reflexivity.
Qed.

(** * Weight *)
Lemma spec_splits_ge skip us : forall i k, Forall (fun e => i <= fst e < i + List.length (flatten us)) (spec_splits skip i us k).
Proof.
  assert (G : forall l i k, Forall (fun e => i <= fst e < i + List.length l) (fst (spec_grp act tr when_c i l k))).
  { induction l as [|c t IH]; intros i k; cbn [spec_grp List.length]; [constructor|].
    assert (W : forall (x : list (nat * core)), Forall (fun e => S i <= fst e < S i + List.length t) x -> Forall (fun e => i <= fst e < i + S (List.length t)) x).
    { intros x H. eapply Forall_impl; [|exact H]. cbn. intros. lia. }
    destruct (negb (rc_when c) || when_c i (moved tr i k)); [|apply W; auto].
    destruct (o_scattered _).
    - cbn. constructor; [cbn; lia|constructor].
    - match goal with |- context [spec_grp act tr when_c (S i) t ?k2] => pose proof (IH (S i) k2) as H; destruct (spec_grp act tr when_c (S i) t k2) as [lg r] end.
      cbn [fst] in *. constructor; [cbn; lia|apply W; auto]. }
  induction us as [|u t IH]; intros i k; cbn [spec_splits]; [constructor|].
  assert (LU : List.length (flatten (u :: t)) = List.length (members u) + List.length (flatten t)) by (unfold flatten; cbn [flat_map]; now rewrite app_length).
  rewrite LU. cbv zeta.
  assert (O : forall q, Forall (fun e => i <= fst e < i + (List.length (members u) + List.length (flatten t)))
    (match spec_unit skip i u q with (lg, None) => lg | (lg, Some q') => lg ++ spec_splits skip (i + List.length (members u)) t q' end)).
  { intro q. assert (U : Forall (fun e => i <= fst e < i + List.length (members u)) (fst (spec_unit skip i u q))).
    { destruct u as [c|g l]; [|apply G]. cbn [spec_unit]. unfold spec_one. destruct (rc_code c && _); cbn; [|constructor]. constructor; [cbn; lia|constructor]. }
    destruct (spec_unit skip i u q) as [lg [q'|]]; cbn [fst] in U.
    - apply Forall_app. split; [eapply Forall_impl; [|exact U]|eapply Forall_impl; [|apply IH]]; cbn; intros; lia.
    - eapply Forall_impl; [|exact U]. cbn. intros. lia. }
  destruct (splits u); [|apply O]. generalize (Z.to_nat (split_c i k)). intro m. induction m as [|m IHm]; [constructor|]. cbn [Nat.iter nat_rect]. apply Forall_app. split; [exact IHm|apply O].
Qed.
End S.
