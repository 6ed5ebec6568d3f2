(* C43 continued: any number of SPLITs. *)
From Coq Require Import List String Bool Arith ZArith QArith Qcanon Lia.
From Verif Require Import PyStr Raytrace RaySpec RayFacts RayJumps RaySplit RaySplits Properties_Trace.
Import ListNotations.
Local Open Scope string_scope.
Local Open Scope list_scope.
Local Open Scope nat_scope.

(** * Random numbers *)
(* Whatever the instrument: every call of a component starts with the random state that the call before it left, the first one with that of
   the particle; no random number is used twice, by copies of SPLIT neither. *)
Theorem C43_random_numbers_go_on :
  forall {Ph Uv Rng} (act : nat -> core Ph Uv Rng -> outcome Ph Uv Rng) tr when_c jump_c iter_c split_c cs skip (p : particle Ph Uv Rng) fuel s,
    raytrace act tr when_c jump_c iter_c split_c fuel cs skip p = Some s ->
    chained act (rng (pc p)) (log s).
Proof.
  intros Ph Uv Rng act tr when_c jump_c iter_c split_c cs skip p fuel s H. unfold raytrace in H.
  destruct (run_while _ _ _ _ _ _ _ _ _ _) as [s1|] eqn:E; [|discriminate]. injection H as <-. cbn [with_pt log].
  apply goes_while in E as (new & L & Ch & _). cbn [log app pt] in L, Ch. rewrite L. now rewrite (proj1 (start_pc cs p)) in Ch.
Qed.
Print Assumptions C43_random_numbers_go_on.

(** * What is called *)
Lemma whole_skips us : forall i c, nth_error (flatten (map whole us)) i = Some c -> skips (flatten us) i = true -> rc_code c = false.
Proof.
  assert (G : forall us i c, nth_error (flatten (map whole us)) i = Some c -> exists d, nth_error (flatten us) i = Some d /\ rc_code d = rc_code c).
  { clear. induction us as [|u us IH]; intros i c H; [destruct i; discriminate|]. change (flatten (map whole (u :: us))) with (members (whole u) ++ flatten (map whole us)) in H. change (flatten (u :: us)) with (members u ++ flatten us).
    destruct (Nat.lt_ge_cases i (List.length (members u))) as [Lt|Ge].
    - rewrite nth_error_app1 in H by (now rewrite whole_length). rewrite nth_error_app1 by exact Lt.
      destruct u as [d|g [|d l]]; cbn [members whole] in *; try (destruct i as [|i]; [injection H as <-; exists d; split; reflexivity|]); try (destruct i; discriminate); eauto.
    - rewrite nth_error_app2 in H by (now rewrite whole_length). rewrite whole_length in H. rewrite nth_error_app2 by exact Ge. now apply IH. }
  intros i c H S. destruct (G us i c H) as (d & E & <-). now apply (skips_code (flatten us) i d).
Qed.
Lemma whole_ids us g : ids g (flatten us) = ids g (flatten (map whole us)).
Proof.
  unfold ids. generalize 0. induction us as [|u us IH]; intro i; [reflexivity|]. change (flatten (map whole (u :: us))) with (members (whole u) ++ flatten (map whole us)). change (flatten (u :: us)) with (members u ++ flatten us).
  rewrite !ids_from_app, whole_length, IH. f_equal. destruct u as [d|h [|d l]]; reflexivity.
Qed.
Lemma whole_jumps us : Forall good_unit (map whole us) -> Forall (fun c => rc_jumps c = []) (flatten us).
Proof.
  induction us as [|u us IH]; intro F; [constructor|]. inversion F as [|? ? G F']; subst. change (flatten (u :: us)) with (members u ++ flatten us). apply Forall_app. split; [|now apply IH].
  destruct u as [d|h [|d l]]; cbn [members whole good_unit] in *; [| constructor |].
  - constructor; [|constructor]. destruct G as (_ & J & _). exact J.
  - destruct G as (_ & M & _). inversion M as [|? ? M1 M2]; subst. constructor; [destruct M1 as (_ & J & _); exact J|]. eapply Forall_impl; [|exact M2]. intros a (_ & J & _). exact J.
Qed.

(* Components and groups, any of them with SPLIT: each copy goes through everything that follows before the next copy is made, with an equal share of
   the weight that arrives, the state that arrives, and the random numbers that follow. *)
Theorem C43_calls_with_splits :
  forall {Ph Uv Rng} (act : nat -> core Ph Uv Rng -> outcome Ph Uv Rng) tr when_c jump_c iter_c split_c us (p : particle Ph Uv Rng) fuel,
    Forall good_unit (map whole us) -> NoDup (flat_map group_of us) -> (forall i k, (1 <= split_c i k)%Z) -> fresh p -> 1 <= fuel ->
    exists s, raytrace act tr when_c jump_c iter_c split_c fuel (flatten us) (skips (flatten us)) p = Some s /\
      log s = spec_splits act tr when_c split_c (skips (flatten us)) 0 us (pc p).
Proof.
  intros Ph Uv Rng act tr when_c jump_c iter_c split_c us p fuel F D P (A & R & X) Hf. set (cs := flatten us).
  destruct fuel as [|f]; [lia|]. destruct (start_pc cs p) as (S1 & S2 & S3 & S4 & S5). set (s0 := mkS (start cs p) p []).
  assert (D' : NoDup (flat_map group_of (map whole us))).
  { replace (flat_map group_of (map whole us)) with (flat_map group_of us); [exact D|]. clear. induction us as [|u us IH]; [reflexivity|]. cbn [map flat_map]. rewrite IH. destruct u as [d|h [|d l]]; reflexivity. }
  pose proof (splits_ok act tr when_c jump_c iter_c split_c cs (skips cs) P us [] s0) as L. cbn [app] in L. cbv zeta in L. change (List.length (flatten [])) with 0 in L.
  change (gen_from cs (skips cs) 0 (flatten us)) with (cogen_raytrace cs (skips cs)) in L.
  assert (E0 : pc (pt s0) = pc p) by exact S1. rewrite E0 in L. change (log s0) with (@nil (nat * core Ph Uv Rng)) in L. cbn [app] in L.
  specialize (L F D' (whole_ids us) (whole_skips us)). assert (Rd : ready 0 s0) by (unfold ready, s0; cbn [pt]; rewrite S2, S3, S4, S5; repeat split; auto). specialize (L Rd).
  set (s2 := run_items act tr when_c jump_c iter_c split_c (cogen_raytrace cs (skips cs)) s0) in *.
  assert (AH : ahead (0 + List.length cs) s2).
  { apply all_ahead; auto. - now apply whole_jumps. - right. unfold s0. cbn [pt]. rewrite S4, X. cbn. lia. }
  unfold raytrace. cbn [Raytrace.run_while pt]. rewrite S2, A. fold s0. fold s2.
  assert (E : absorbed (pt (end_pass (List.length cs) s2)) = true /\ log (end_pass (List.length cs) s2) = log s2).
  { unfold end_pass. destruct (Z.ltb_spec (Z.of_nat (List.length cs)) (index (pt s2))); [split; reflexivity|]. destruct AH as [AH|AH]; [auto|]. cbn [plus] in AH. lia. }
  destruct E as [E1 E2]. rewrite run_while_dead by exact E1. eexists. split; [reflexivity|]. cbn [with_pt log]. now rewrite E2.
Qed.
Print Assumptions C43_calls_with_splits.

(** * Weight *)
Section W.
Context {Ph Uv Rng : Type}.
Notation core := (core Ph Uv Rng).
Variable act : nat -> core -> outcome Ph Uv Rng.
Variable tr : nat -> Ph -> Ph.
Variable when_c : nat -> core -> bool.
Variable split_c : nat -> core -> Z.
Variable skip : nat -> bool.
Notation spec_splits := (spec_splits act tr when_c split_c skip).
Notation spec_unit := (spec_unit act tr when_c skip).

(** the weight that leaves component code called with k: none if the particle is absorbed there, what came if it is restored *)
Definition leaving (e : nat * core) : Qc :=
  let o := act (fst e) (snd e) in if o_restore o then wt (snd e) else if o_absorbed o then 0%Qc else wt (o_core o).
(** of a group, through the member that scatters *)
Definition leaves (u : unit_) (e : nat * core) : Qc :=
  match u with One _ => leaving e | Grp _ _ => if o_scattered (act (fst e) (snd e)) then leaving e else 0%Qc end.
(** always called *)
Definition called (u : unit_) : Prop := match u with One c => rc_code c = true /\ rc_when c = false | Grp _ (c :: _) => rc_when c = false | Grp _ [] => False end.

Lemma total_app a b : total (a ++ b) = (total a + total b)%Qc.
Proof. unfold total. induction a as [|x a IH]; cbn [app fold_right]; [ring|]. rewrite IH. ring. Qed.
Definition arriving (m : nat) (l : list (nat * core)) : Qc := total (weights_at m l).
Definition left_in (u : unit_) (j : nat) (l : list (nat * core)) : Qc :=
  total (map (leaves u) (filter (fun e => (j <=? fst e) && (fst e <? j + List.length (members u))) l)).
Lemma arriving_app m a b : arriving m (a ++ b) = (arriving m a + arriving m b)%Qc.
Proof. unfold arriving. now rewrite weights_at_app, total_app. Qed.
Lemma left_app u j a b : left_in u j (a ++ b) = (left_in u j a + left_in u j b)%Qc.
Proof. unfold left_in. now rewrite filter_app, map_app, total_app. Qed.
Lemma arriving_none m a : Forall (fun e => fst e <> m) a -> arriving m a = 0%Qc.
Proof. intro H. unfold arriving. now rewrite weights_at_none. Qed.
Lemma left_none u j a : Forall (fun e => ~ (j <= fst e < j + List.length (members u))) a -> left_in u j a = 0%Qc.
Proof.
  intro H. unfold left_in. replace (filter _ a) with (@nil (nat * core)); [reflexivity|]. symmetry. induction H as [|e a He _ IH]; [reflexivity|]. cbn [filter].
  destruct (Nat.leb_spec j (fst e)), (Nat.ltb_spec (fst e) (j + List.length (members u))); cbn [andb]; try exact IH. exfalso. apply He. split; assumption.
Qed.
Lemma left_all u j a : Forall (fun e => j <= fst e < j + List.length (members u)) a -> left_in u j a = total (map (leaves u) a).
Proof.
  intro H. unfold left_in. f_equal. f_equal. induction H as [|e a [H1 H2] _ IH]; [reflexivity|]. cbn [filter]. rewrite (proj2 (Nat.leb_le _ _) H1), (proj2 (Nat.ltb_lt _ _) H2). cbn [andb]. now rewrite IH.
Qed.
Lemma share_total k n m : (1 <= n)%Z -> m = Z.to_nat n -> (Q2Qc (inject_Z (Z.of_nat m)) * (k / Q2Qc (inject_Z n)))%Qc = k.
Proof.
  intros Pn ->. rewrite Z2Nat.id by lia. field. intro E. assert (E' : (inject_Z n == 0)%Q).
  { apply (f_equal this) in E. unfold Q2Qc in E. cbn [this] in E. rewrite <- (Qred_correct (inject_Z n)). rewrite E. reflexivity. }
  unfold Qeq in E'. cbn in E'. lia.
Qed.
Lemma next_count m : (Q2Qc (inject_Z (Z.of_nat (S m))) = 1 + Q2Qc (inject_Z (Z.of_nat m)))%Qc.
Proof. apply Qc_is_canon. unfold Qcplus, Q2Qc. cbn [this]. rewrite !Qred_correct. rewrite Nat2Z.inj_succ. unfold Z.succ. rewrite inject_Z_plus. ring. Qed.

Lemma unit_range i u q : Forall (fun e => i <= fst e < i + List.length (members u)) (fst (spec_unit i u q)).
Proof.
  pose proof (spec_splits_ge act tr when_c (fun _ _ => 1%Z) skip [whole u] i q) as H. cbn [RaySplits.spec_splits] in H.
  assert (E : splits (whole u) = false) by (destruct u as [c|g [|c l]]; reflexivity). rewrite E in H. cbv zeta in H. rewrite spec_unit_whole in H.
  assert (L : List.length (flatten [whole u]) = List.length (members u)) by (unfold flatten; cbn [flat_map]; now rewrite app_nil_r, whole_length).
  rewrite L in H. destruct (spec_unit i u q) as [lg [q'|]]; cbn [fst]; [|exact H]. now rewrite app_nil_r in H.
Qed.
Lemma unit_leaves i u q : called u -> total (map (leaves u) (fst (spec_unit i u q))) = match snd (spec_unit i u q) with Some q' => wt q' | None => 0%Qc end.
Proof.
  assert (C : forall n i (k : core), wt (carry tr i n k) = wt k) by (induction n as [|n IH]; intros; cbn [carry]; [reflexivity|]; now rewrite IH).
  destruct u as [c|g l]; intro H.
  - destruct H as [H1 H2]. cbn [RaySplits.spec_unit]. unfold spec_one. rewrite H1, H2. cbn [negb orb andb]. cbv zeta. cbn [fst snd map]. unfold leaves, leaving. cbn [fst snd].
    set (k1 := if skip i then q else moved tr i q). destruct (o_restore (act i k1)); [cbn; ring|]. destruct (o_absorbed (act i k1)); cbn; ring.
  - cbn [RaySplits.spec_unit]. clear H. revert i q. induction l as [|c l IH]; intros i q; cbn [spec_grp]; [reflexivity|].
    set (k1 := moved tr i q). destruct (negb (rc_when c) || when_c i k1); [|apply IH].
    destruct (o_scattered (act i k1)) eqn:Sc.
    + cbn [fst snd map leaves]. rewrite Sc. unfold leaving. cbn [fst snd]. destruct (o_restore (act i k1)); [rewrite C; cbn; ring|]. destruct (o_absorbed (act i k1)); [|rewrite C]; cbn; ring.
    + pose proof (IH (S i) (undone k1 (o_core (act i k1)))) as H. destruct (spec_grp act tr when_c (S i) l (undone k1 (o_core (act i k1)))) as [lg r]. cbn [fst snd map leaves] in *. rewrite Sc.
      change (total (0%Qc :: ?x)) with (0 + total x)%Qc. change (map (leaves (Grp g (c :: l))) lg) with (map (leaves (Grp g l)) lg). rewrite H. ring.
Qed.
Lemma unit_first i u q : called u -> arriving i (fst (spec_unit i u q)) = wt q.
Proof.
  intro H. assert (X : exists k1 lg, fst (spec_unit i u q) = (i, k1) :: lg /\ wt k1 = wt q /\ Forall (fun e => fst e <> i) lg).
  { destruct u as [c|g [|c l]]; [| destruct H |].
    - destruct H as [H1 H2]. cbn [RaySplits.spec_unit]. unfold spec_one. rewrite H1, H2. cbn [negb orb andb]. cbv zeta. cbn [fst]. eexists _, _. split; [reflexivity|]. split; [destruct (skip i); reflexivity|constructor].
    - cbn [called] in H. cbn [RaySplits.spec_unit spec_grp]. rewrite H. cbn [negb orb]. set (k1 := moved tr i q). destruct (o_scattered (act i k1)).
      + eexists _, _. split; [reflexivity|]. split; [reflexivity|constructor].
      + pose proof (unit_range (S i) (Grp g l) (undone k1 (o_core (act i k1)))) as R. cbn [RaySplits.spec_unit] in R. destruct (spec_grp act tr when_c (S i) l (undone k1 (o_core (act i k1)))) as [lg r]. cbn [fst] in *.
        exists k1, lg. split; [reflexivity|]. split; [reflexivity|]. eapply Forall_impl; [|exact R]. cbn. intros. lia. }
  destruct X as (k1 & lg & -> & W & F). change ((i, k1) :: lg) with ([(i, k1)] ++ lg). rewrite arriving_app, (arriving_none i lg F). unfold arriving, weights_at. cbn [filter fst]. rewrite Nat.eqb_refl. cbn. rewrite W. ring.
Qed.
Lemma called_members u : called u -> 1 <= List.length (members u).
Proof. destruct u as [c|g [|c l]]; cbn; intros; try contradiction; lia. Qed.

Definition positive : Prop := forall i k, (1 <= split_c i k)%Z.
Lemma arrives i u t k : positive -> called u -> arriving i (spec_splits i (u :: t) k) = wt k.
Proof.
  intros P H. cbn [RaySplits.spec_splits]. cbv zeta. set (once := fun q : core => match spec_unit i u q with (lg, None) => lg | (lg, Some q') => lg ++ spec_splits (i + List.length (members u)) t q' end).
  assert (O : forall q, arriving i (once q) = wt q).
  { intro q. unfold once. pose proof (unit_first i u q H) as U. destruct (spec_unit i u q) as [lg [q'|]]; cbn [fst] in U; [|exact U]. rewrite arriving_app, U, (arriving_none i); [ring|].
    eapply Forall_impl; [|apply spec_splits_ge]. cbn. pose proof (called_members u H). intros. lia. }
  destruct (splits u); [|apply O]. set (n := split_c i k).
  assert (T : forall m, arriving i (Nat.iter m (fun lg => lg ++ once (share k n (left_rng act (rng k) lg))) []) = (Q2Qc (inject_Z (Z.of_nat m)) * (wt k / Q2Qc (inject_Z n)))%Qc).
  { induction m as [|m IH]; [change (0%Qc = (0 * (wt k / Q2Qc (inject_Z n)))%Qc); ring|]. cbn [Nat.iter nat_rect]. rewrite arriving_app, O, next_count. change (wt (share k n ?r)) with (wt k / Q2Qc (inject_Z n))%Qc. unfold Nat.iter in IH. rewrite IH. ring. }
  rewrite T. apply share_total; auto. apply P.
Qed.
Definition once i u t (q : core) := match spec_unit i u q with (lg, None) => lg | (lg, Some q') => lg ++ spec_splits (i + List.length (members u)) t q' end.
Lemma spec_cons i u t k : spec_splits i (u :: t) k =
  if splits u then Nat.iter (Z.to_nat (split_c i k)) (fun lg => lg ++ once i u t (share k (split_c i k) (left_rng act (rng k) lg))) [] else once i u t k.
Proof. reflexivity. Qed.
Lemma flux u v t : positive -> called u -> called v -> forall pre i k,
  arriving (i + List.length (flatten pre) + List.length (members u)) (spec_splits i (pre ++ u :: v :: t) k) = left_in u (i + List.length (flatten pre)) (spec_splits i (pre ++ u :: v :: t) k).
Proof.
  intros P Hu Hv. pose proof (called_members u Hu) as Lu. induction pre as [|w pre IH]; intros i k; cbn [app]; rewrite spec_cons.
  - change (flatten []) with (@nil rcomp). cbn [List.length]. rewrite Nat.add_0_r.
    assert (O : forall q, arriving (i + List.length (members u)) (once i u (v :: t) q) = left_in u i (once i u (v :: t) q)).
    { intro q. unfold once. pose proof (unit_range i u q) as R. pose proof (unit_leaves i u q Hu) as U. destruct (spec_unit i u q) as [lg [q'|]]; cbn [fst snd] in R, U.
      - rewrite arriving_app, left_app, arrives by assumption. rewrite (arriving_none _ lg) by (eapply Forall_impl; [|exact R]; cbn; intros; lia). rewrite (left_all u i lg R), U.
        rewrite (left_none u i) by (eapply Forall_impl; [|apply spec_splits_ge]; cbn; intros; lia). ring.
      - rewrite (arriving_none _ lg) by (eapply Forall_impl; [|exact R]; cbn; intros; lia). now rewrite (left_all u i lg R), U. }
    destruct (splits u); [|apply O]. generalize (Z.to_nat (split_c i k)). intro m. induction m as [|m IHm]; [reflexivity|]. cbn [Nat.iter nat_rect]. rewrite arriving_app, left_app, O. unfold Nat.iter in IHm. rewrite IHm. reflexivity.
  - assert (E : List.length (flatten (w :: pre)) = List.length (members w) + List.length (flatten pre)) by (unfold flatten; cbn [flat_map]; apply app_length). rewrite E.
    assert (O : forall q, arriving (i + (List.length (members w) + List.length (flatten pre)) + List.length (members u)) (once i w (pre ++ u :: v :: t) q) = left_in u (i + (List.length (members w) + List.length (flatten pre))) (once i w (pre ++ u :: v :: t) q)).
    { intro q. unfold once. pose proof (unit_range i w q) as R. destruct (spec_unit i w q) as [lg [q'|]]; cbn [fst] in R.
      - rewrite arriving_app, left_app. rewrite Nat.add_assoc, IH. rewrite (arriving_none _ lg), (left_none u _ lg); [reflexivity| |]; (eapply Forall_impl; [|exact R]; cbn; intros; lia).
      - rewrite (arriving_none _ lg), (left_none u _ lg); [reflexivity| |]; (eapply Forall_impl; [|exact R]; cbn; intros; lia). }
    destruct (splits w); [|apply O]. generalize (Z.to_nat (split_c i k)). intro m. induction m as [|m IHm]; [reflexivity|]. cbn [Nat.iter nat_rect]. rewrite arriving_app, left_app, O. unfold Nat.iter in IHm. rewrite IHm. reflexivity.
Qed.
End W.

(* Between two neighbours no weight is lost or made, however many SPLITs stand before, at and after them: what arrives at the second, over all copies,
   is what left the first.  Each of the two is a component without WHEN or a group; a particle leaves a group through the member that scatters it. *)
Theorem C43_weight_between_neighbours :
  forall {Ph Uv Rng} (act : nat -> core Ph Uv Rng -> outcome Ph Uv Rng) tr when_c jump_c iter_c split_c pre u v post (p : particle Ph Uv Rng) fuel,
    let us := pre ++ u :: v :: post in
    let j := List.length (flatten pre) in
    Forall good_unit (map whole us) -> NoDup (flat_map group_of us) -> (forall i k, (1 <= split_c i k)%Z) -> fresh p -> 1 <= fuel -> called u -> called v ->
    exists s, raytrace act tr when_c jump_c iter_c split_c fuel (flatten us) (skips (flatten us)) p = Some s /\
      total (weights_at (j + List.length (members u)) (log s)) =
      total (map (leaves act u) (filter (fun e => (j <=? fst e) && (fst e <? j + List.length (members u))) (log s))).
Proof.
  intros Ph Uv Rng act tr when_c jump_c iter_c split_c pre u v post p fuel us j F D P Hp Hf Hu Hv.
  destruct (C43_calls_with_splits act tr when_c jump_c iter_c split_c us p fuel F D P Hp Hf) as (s & E & L). exists s. split; [exact E|]. rewrite L.
  exact (flux act tr when_c split_c (skips (flatten us)) u v post P Hu Hv pre 0 (pc p)).
Qed.
Print Assumptions C43_weight_between_neighbours.

(* If no component changes the weight or absorbs, the copies that arrive at any component have together the weight of the particle. *)
Theorem C43_weight_everywhere :
  forall {Ph Uv Rng} (act : nat -> core Ph Uv Rng -> outcome Ph Uv Rng) tr when_c jump_c iter_c split_c us (p : particle Ph Uv Rng) fuel,
    Forall good_unit (map whole us) -> NoDup (flat_map group_of us) -> (forall i k, (1 <= split_c i k)%Z) -> fresh p -> 1 <= fuel ->
    Forall called us -> (forall u, In u us -> match u with One _ => True | Grp _ _ => False end) ->
    (forall i k, o_absorbed (act i k) = false /\ wt (o_core (act i k)) = wt k) ->
    exists s, raytrace act tr when_c jump_c iter_c split_c fuel (flatten us) (skips (flatten us)) p = Some s /\
      forall j, j < List.length us -> total (weights_at j (log s)) = wt (pc p).
Proof.
  intros Ph Uv Rng act tr when_c jump_c iter_c split_c us p fuel F D P Hp Hf Hc Ho Ha.
  destruct (C43_calls_with_splits act tr when_c jump_c iter_c split_c us p fuel F D P Hp Hf) as (s & E & L). exists s. split; [exact E|].
  assert (Ones : forall l, (forall u, In u l -> match u with One _ => True | Grp _ _ => False end) -> List.length (flatten l) = List.length l).
  { induction l as [|u l IH]; intro H; [reflexivity|]. unfold flatten in *. cbn [flat_map]. rewrite app_length, IH by (intros; apply H; now right). specialize (H u (or_introl eq_refl)). destruct u; [reflexivity|contradiction]. }
  induction j as [|j IH]; intro Lt; rewrite L in *.
  - destruct us as [|u us]; [cbn in Lt; lia|]. inversion Hc; subst. change (total (weights_at 0 ?l)) with (arriving 0 l). now apply arrives.
  - destruct (nth_error us j) as [u|] eqn:Eu; [|apply nth_error_None in Eu; lia]. apply nth_error_split in Eu as (pre & post & Es & Lp).
    destruct post as [|v post]; [rewrite Es, app_length in Lt; cbn in Lt; lia|].
    assert (Hu : called u) by (eapply Forall_forall; [exact Hc|]; rewrite Es; apply in_or_app; right; now left).
    assert (Hv : called v) by (eapply Forall_forall; [exact Hc|]; rewrite Es; apply in_or_app; right; right; now left).
    pose proof (flux act tr when_c split_c (skips (flatten us)) u v post P Hu Hv pre 0 (pc p)) as X. rewrite <- Es in X. cbn [plus] in X.
    rewrite (Ones pre) in X by (intros w Hw; apply Ho; rewrite Es; apply in_or_app; now left).
    assert (Ou : match u with One _ => True | Grp _ _ => False end) by (apply Ho; rewrite Es; apply in_or_app; right; now left).
    destruct u as [c|]; [|contradiction]. cbn [members List.length] in X. rewrite Lp, Nat.add_1_r in X. unfold arriving in X. rewrite X.
    rewrite <- (IH ltac:(lia)). unfold left_in, weights_at. cbn [members List.length]. f_equal.
    replace (filter (fun e : nat * core Ph Uv Rng => fst e =? j) (spec_splits act tr when_c split_c (skips (flatten us)) 0 us (pc p)))
      with (filter (fun e : nat * core Ph Uv Rng => (j <=? fst e) && (fst e <? j + 1)) (spec_splits act tr when_c split_c (skips (flatten us)) 0 us (pc p))).
    + apply map_ext. intros [i k]. cbn [leaves fst snd]. unfold leaving. cbn [fst snd]. destruct (Ha i k) as [-> ->]. destruct (o_restore _); reflexivity.
    + apply filter_ext. intros [i k]. cbn [fst]. destruct (Nat.leb_spec j i), (Nat.ltb_spec i (j + 1)), (Nat.eqb_spec i j); try reflexivity; lia.
Qed.
Print Assumptions C43_weight_everywhere.

(** ** Examples *)
(* Two SPLITs into 2 and 3, the second on a group; the components half the weight *)
Definition half_act (i : nat) (k : C) : O_ := mkOut (mkCore (ph k) (wt k * Q2Qc (1 # 2)) (uv k) tt) false (i =? 3) false.
Definition two_splits : list unit_ :=
  [One (cp "a"); One (mkRc "b" true false None [] true); Grp "g" [mkRc "c" true false (Some "g") [] true; cg "d" "g"]; One (cp "e")].
Example C43_weight_between_neighbours_example :
  Forall good_unit (map whole two_splits) /\ NoDup (flat_map group_of two_splits) /\ Forall called two_splits /\ fresh (pz 0 1) /\
  let n := fun i (_ : C) => if i =? 1 then 2%Z else 3%Z in
  exists s, raytrace half_act (fun _ x => x) (fun _ _ => true) nojump noiter n 9 (flatten two_splits) (skips (flatten two_splits)) (pz 0 1) = Some s /\
    map fst (log s) = [0; 1; 2; 3; 4; 2; 3; 4; 2; 3; 4; 1; 2; 3; 4; 2; 3; 4; 2; 3; 4] /\
    total (weights_at 0 (log s)) = 1%Qc /\ total (weights_at 1 (log s)) = Q2Qc (1 # 2) /\ total (weights_at 2 (log s)) = Q2Qc (1 # 4) /\ total (weights_at 4 (log s)) = Q2Qc (1 # 8).
Proof.
  split; [repeat constructor; cbn; try discriminate; auto|]. split; [repeat constructor; cbn; auto|]. split; [repeat constructor|]. split; [repeat split|].
  cbv zeta. eexists. split; [vm_compute; reflexivity|]. split; [reflexivity|]. repeat split; apply Qc_is_canon; vm_compute; reflexivity.
Qed.
(* random state as a counter: every call takes the next number *)
Definition count_act (i : nat) (k : core Z Z nat) : outcome Z Z nat := mkOut (mkCore (ph k) (wt k) (uv k) (S (rng k))) false false false.
Example C43_random_numbers_go_on_example :
  exists s, raytrace count_act (fun _ x => x) (fun _ _ => true) (fun _ _ _ => false) (fun _ _ _ => 0%Z) (fun _ _ => 2%Z) 9
      [cp "a"; mkRc "b" true false None [] true; cp "c"; mkRc "d" true false None [] true] (fun _ => false)
      (mkP (mkCore 0%Z 1%Qc 0%Z 5) false false false 1 false (fun _ => 0%Z)) = Some s /\
    map (fun e => (fst e, rng (snd e))) (log s) = [(0, 5); (1, 6); (2, 7); (3, 8); (3, 9); (1, 10); (2, 11); (3, 12); (3, 13)].
Proof. eexists. split; [vm_compute; reflexivity|]. reflexivity. Qed.
Example C43_weight_everywhere_example :
  let us := [One (cp "a"); One (mkRc "b" true false None [] true); One (mkRc "c" true false None [] true)] in
  Forall good_unit (map whole us) /\ NoDup (flat_map group_of us) /\ Forall called us /\ (forall u, In u us -> match u with One _ => True | Grp _ _ => False end) /\
  (forall i (k : core Z Z nat), o_absorbed (count_act i k) = false /\ wt (o_core (count_act i k)) = wt k).
Proof.
  cbv zeta. split; [repeat constructor|]. split; [constructor|]. split; [repeat constructor|]. split; [|intros; split; reflexivity].
  intros u [<-|[<-|[<-|[]]]]; exact Logic.I.
Qed.
Example C43_calls_with_splits_example :
  map fst (spec_splits half_act (fun _ x => x) (fun _ _ => true) (fun i _ => if i =? 1 then 2%Z else 3%Z) (skips (flatten two_splits)) 0 two_splits (pc (pz 0 1))) =
  [0; 1; 2; 3; 4; 2; 3; 4; 2; 3; 4; 1; 2; 3; 4; 2; 3; 4; 2; 3; 4].
Proof. vm_compute. reflexivity. Qed.
