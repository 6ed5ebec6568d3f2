(* Property C32: combining simulation descriptions. *)
From Coq Require Import List String Bool ZArith Reals Lia Lra Permutation.
From Verif Require Import PyStr SimCombine.
Import ListNotations.
Local Open Scope string_scope.
Local Open Scope list_scope.

Lemma opt_eqb_eq a b : opt_eqb a b = true <-> a = b.
Proof. destruct a, b; cbn; rewrite ?String.eqb_eq; split; intro H; try discriminate; try congruence; auto. Qed.
Lemma key_eqb_eq a b : key_eqb a b = true <-> a = b.
Proof.
  destruct a as [a1 a2], b as [b1 b2]. unfold key_eqb. cbn [fst snd]. rewrite andb_true_iff, !opt_eqb_eq. split; [intros [-> ->]; reflexivity|].
  intro H; inversion H; auto.
Qed.
Lemma key_eqb_refl k : key_eqb k k = true.
Proof. now apply key_eqb_eq. Qed.
Lemma key_eqb_neq a b : a <> b -> key_eqb a b = false.
Proof. intro H. destruct (key_eqb a b) eqn:E; [apply key_eqb_eq in E; congruence|reflexivity]. Qed.

Definition keys (d : list (key * monitor)) : list key := map fst d.
Lemma find_put d k v x : find_key (put d k v) x = if key_eqb k x then Some v else find_key d x.
Proof.
  induction d as [|[a w] t IH]; cbn; [reflexivity|]. destruct (key_eqb a k) eqn:E; cbn.
  - apply key_eqb_eq in E. subst. destruct (key_eqb k x); reflexivity.
  - rewrite IH. destruct (key_eqb a x) eqn:Ex; [|reflexivity]. apply key_eqb_eq in Ex. subst a.
    destruct (key_eqb k x) eqn:Ek; [|reflexivity]. apply key_eqb_eq in Ek. subst. rewrite key_eqb_refl in E. discriminate.
Qed.
Lemma find_none d k : find_key d k = None <-> ~ In k (keys d).
Proof.
  induction d as [|[a w] t IH]; cbn; [tauto|]. destruct (key_eqb a k) eqn:E.
  - apply key_eqb_eq in E. split; [discriminate|tauto].
  - rewrite IH. split; [intros H [->|H2]; [rewrite key_eqb_refl in E; discriminate|tauto]|tauto].
Qed.
Lemma find_some d k v : find_key d k = Some v -> In k (keys d).
Proof.
  induction d as [|[a w] t IH]; cbn; [discriminate|]. destruct (key_eqb a k) eqn:E; [apply key_eqb_eq in E; auto|auto].
Qed.
Lemma put_keys d k v : keys (put d k v) = if find_key d k then keys d else keys d ++ [k].
Proof.
  induction d as [|[a w] t IH]; cbn; [reflexivity|]. destruct (key_eqb a k) eqn:E; cbn; [reflexivity|]. fold (keys (put t k v)). rewrite IH.
  unfold keys. destruct (find_key t k); reflexivity.
Qed.
Lemma put_nodup d k v : NoDup (keys d) -> NoDup (keys (put d k v)).
Proof.
  intro H. rewrite put_keys. destruct (find_key d k) eqn:E; [exact H|]. apply find_none in E.
  apply (Permutation_NoDup (l := k :: keys d)); [apply Permutation_cons_append|]. now constructor.
Qed.

(** * The set of monitors *)
Lemma put_in d k v x : In x (keys (put d k v)) <-> In x (keys d) \/ x = k.
Proof.
  rewrite put_keys. destruct (find_key d k) eqn:E.
  - split; [now left|]. intros [H| ->]; [exact H|]. apply find_some in E. exact E.
  - rewrite in_app_iff. cbn. intuition.
Qed.
Lemma first_data_keys l : forall d, NoDup (keys d) ->
  NoDup (keys (fold_left (fun d m => put d (key_of m) m) l d)) /\
  forall x, In x (keys (fold_left (fun d m => put d (key_of m) m) l d)) <-> In x (keys d) \/ In x (map key_of l).
Proof.
  induction l as [|m t IH]; intros d N; cbn [fold_left map].
  - split; [exact N|]. cbn. tauto.
  - destruct (IH (put d (key_of m) m) (put_nodup _ _ _ N)) as [H1 H2]. split; [exact H1|]. intro x. rewrite H2, put_in. cbn. intuition.
Qed.
Lemma add_data_keys l : forall d r, NoDup (keys d) -> add_data d l = Some r ->
  NoDup (keys r) /\ forall x, In x (keys r) <-> In x (keys d) \/ In x (map key_of l).
Proof.
  induction l as [|m t IH]; intros d r N H; cbn [add_data map] in *.
  - inversion H; subst. split; [exact N|]. cbn. tauto.
  - assert (S : exists v, add_data (put d (key_of m) v) t = Some r).
    { destruct (find_key d (key_of m)) as [w|]; [|eauto]. destruct (monitor_combine w m); [eauto|discriminate]. }
    destruct S as [v S]. destruct (IH _ r (put_nodup _ _ _ N) S) as [H1 H2]. split; [exact H1|]. intro x. rewrite H2, put_in. cbn. intuition.
Qed.
(** the dictionary the loop ends with *)
Fixpoint final_data (d : list (key * monitor)) (l : list simfile) : option (list (key * monitor)) :=
  match l with [] => Some d | f :: t => match add_data d (f_data f) with Some d' => final_data d' t | None => None end end.
Lemma loop_data l : forall h i s d r, combine_loop h i s d l = Some r -> exists d', final_data d l = Some d' /\ f_data r = map snd d'.
Proof.
  induction l as [|f t IH]; intros h i s d r H; cbn in *; [inversion H; eauto|]. destruct (add_data d (f_data f)); [eauto|discriminate].
Qed.
Definition keyed (d : list (key * monitor)) : Prop := Forall (fun e => key_of (snd e) = fst e) d.
Lemma put_keyed d k v : keyed d -> key_of v = k -> keyed (put d k v).
Proof.
  intros H E. induction H as [|[a w] t Ha Ht IH]; cbn [put]; [repeat constructor; exact E|]. destruct (key_eqb a k) eqn:K.
  - apply key_eqb_eq in K. constructor; [cbn; congruence|exact Ht].
  - constructor; [exact Ha|exact IH].
Qed.
Lemma combine_key a b c : monitor_combine a b = Some c -> key_of c = key_of a.
Proof.
  unfold monitor_combine. destruct (is_repeat a b); [|discriminate]. destruct (py_sqrt _); [|discriminate]. destruct (combine_signal _ _ _ _); [|discriminate].
  destruct (combine_stats _ _ _ _); [|discriminate]. intro H; inversion H; reflexivity.
Qed.
Lemma find_keyed d k w : keyed d -> find_key d k = Some w -> key_of w = k.
Proof.
  intro H. induction H as [|[a v] t E _ IH]; cbn; [discriminate|]. destruct (key_eqb a k) eqn:K; [|auto]. apply key_eqb_eq in K. intro H; inversion H; subst. exact E.
Qed.
Lemma add_data_keyed l : forall d r, keyed d -> add_data d l = Some r -> keyed r.
Proof.
  induction l as [|m t IH]; intros d r K H; cbn [add_data] in H; [inversion H; subst; exact K|]. destruct (find_key d (key_of m)) as [w|] eqn:F.
  - destruct (monitor_combine w m) as [c|] eqn:C; [|discriminate]. apply (IH _ _ (put_keyed _ _ c K ltac:(rewrite (combine_key _ _ _ C); eapply find_keyed; eauto)) H).
  - apply (IH _ _ (put_keyed _ _ m K eq_refl) H).
Qed.
Lemma first_keyed l : forall d, keyed d -> keyed (fold_left (fun d m => put d (key_of m) m) l d).
Proof. induction l as [|m t IH]; intros d K; cbn; [exact K|]. apply IH. now apply put_keyed. Qed.
Lemma final_keyed l : forall d r, keyed d -> NoDup (keys d) -> final_data d l = Some r ->
  keyed r /\ NoDup (keys r) /\ forall x, In x (keys r) <-> In x (keys d) \/ exists f, In f l /\ In x (map key_of (f_data f)).
Proof.
  induction l as [|f t IH]; intros d r K N H; cbn [final_data] in H.
  - inversion H; subst. split; [exact K|]. split; [exact N|]. intro x. split; [now left|]. intros [?|(f & [] & _)]; auto.
  - destruct (add_data d (f_data f)) as [d'|] eqn:E; [|discriminate]. destruct (add_data_keys _ _ _ N E) as [N' I']. pose proof (add_data_keyed _ _ _ K E) as K'.
    destruct (IH _ _ K' N' H) as (K2 & N2 & I2). split; [exact K2|]. split; [exact N2|]. intro x. rewrite I2, I'. split.
    + intros [[?|?]|(g & G & X)]; [now left|right; exists f; split; [now left|auto]|right; exists g; split; [now right|auto]].
    + intros [?|(g & [->|G] & X)]; [now left; left|left; now right|right; eauto].
Qed.
Lemma keyed_map d : keyed d -> map key_of (map snd d) = keys d.
Proof. induction 1 as [|[a v] t E _ IH]; cbn; [reflexivity|]. cbn in E. now rewrite E, IH. Qed.

(* The monitors of the result: the union, each once. *)
Theorem C32_monitors_are_the_union :
  forall fs r, combine_mccode_sims fs = Some r ->
    NoDup (map key_of (f_data r)) /\
    forall k, In k (map key_of (f_data r)) <-> exists f, In f fs /\ In k (map key_of (f_data f)).
Proof.
  intros [|f fs] r H; [discriminate|]. cbn [combine_mccode_sims] in H. apply loop_data in H as (d & F & E).
  destruct (first_data_keys (f_data f) [] ltac:(constructor)) as [N0 I0]. fold (first_data (f_data f)) in N0, I0.
  assert (K0 : keyed (first_data (f_data f))) by (apply first_keyed; constructor).
  destruct (final_keyed _ _ _ K0 N0 F) as (K & N & I). rewrite E, keyed_map by exact K. split; [exact N|].
  intro k. rewrite I, I0. cbn. split.
  - intros [[[]|X]|(g & G & X)]; [exists f; auto|exists g; auto].
  - intros (g & [->|G] & X); [left; now right|right; eauto].
Qed.
Print Assumptions C32_monitors_are_the_union.

(** * Sums *)
Local Open Scope R_scope.
Definition rsum (l : list R) : R := fold_right Rplus 0 l.
Definition zsum (l : list Z) : Z := fold_right Z.add 0%Z l.
Lemma rsum_cons x l : rsum (x :: l) = x + rsum l.
Proof. reflexivity. Qed.
Lemma rsum_nil : rsum [] = 0.
Proof. reflexivity. Qed.
Lemma rsum_app a b : rsum (a ++ b) = rsum a + rsum b.
Proof. induction a as [|x t IH]; cbn [app]; rewrite ?rsum_cons, ?rsum_nil, ?IH; ring. Qed.
(** a quantity that is added *)
Definition additive (q : monitor -> R) : Prop := forall a b c, monitor_combine a b = Some c -> q c = q a + q b.
Lemma combine_inv a b c : monitor_combine a b = Some c ->
  v_int c = v_int a + v_int b /\ v_cnt c = v_cnt a + v_cnt b /\ v_ncount c = (v_ncount a + v_ncount b)%Z /\
  v_attr c = v_attr a /\ v_keywords c = v_keywords a /\ is_repeat a b = true /\
  py_sqrt (v_err a * v_err a + v_err b + v_err b) = Some (v_err c) /\
  combine_signal (v_cnt a) (v_cnt b) (v_signal a) (v_signal b) = Some (v_signal c).
Proof.
  unfold monitor_combine. destruct (is_repeat a b); [|discriminate]. destruct (py_sqrt _); [|discriminate]. destruct (combine_signal _ _ _ _); [|discriminate].
  destruct (combine_stats _ _ _ _); [|discriminate]. intro H; inversion H; subst. cbn. repeat split.
Qed.
(** what is put into the dictionary is not lost *)
Definition at_key (q : monitor -> R) (k : key) (l : list monitor) : R := rsum (map q (filter (fun m => key_eqb (key_of m) k) l)).
Definition got (q : monitor -> R) (o : option monitor) : R := match o with Some m => q m | None => 0 end.
Lemma at_key_cons q k m l : at_key q k (m :: l) = (if key_eqb (key_of m) k then q m else 0) + at_key q k l.
Proof. unfold at_key. cbn [filter]. destruct (key_eqb (key_of m) k); cbn [map]; rewrite ?rsum_cons; ring. Qed.
Lemma at_key_nil q k : at_key q k [] = 0.
Proof. reflexivity. Qed.
Lemma at_key_app q k a b : at_key q k (a ++ b) = at_key q k a + at_key q k b.
Proof. unfold at_key. now rewrite filter_app, map_app, rsum_app. Qed.
Lemma add_data_sum q : additive q -> forall l d r, add_data d l = Some r -> forall k, got q (find_key r k) = got q (find_key d k) + at_key q k l.
Proof.
  intro A. induction l as [|m t IH]; intros d r H k; cbn [add_data] in H.
  - inversion H; subst. rewrite at_key_nil. ring.
  - rewrite at_key_cons. destruct (find_key d (key_of m)) as [w|] eqn:F.
    + destruct (monitor_combine w m) as [c|] eqn:C; [|discriminate]. rewrite (IH _ _ H), find_put. destruct (key_eqb (key_of m) k) eqn:K; [|ring].
      apply key_eqb_eq in K. subst k. rewrite F. cbn [got]. rewrite (A _ _ _ C). ring.
    + rewrite (IH _ _ H), find_put. destruct (key_eqb (key_of m) k) eqn:K; [|ring]. apply key_eqb_eq in K. subst k. rewrite F. cbn [got]. ring.
Qed.
Lemma first_data_sum q l : NoDup (map key_of l) -> forall d, (forall m, In m l -> find_key d (key_of m) = None) -> forall k,
  got q (find_key (fold_left (fun d m => put d (key_of m) m) l d) k) = got q (find_key d k) + at_key q k l.
Proof.
  induction l as [|m t IH]; intros N d H k; cbn [fold_left].
  - rewrite at_key_nil. ring.
  - cbn in N. inversion N as [|? ? Nm Nt]; subst. rewrite IH; auto.
    + rewrite find_put, at_key_cons. destruct (key_eqb (key_of m) k) eqn:K; [|ring]. apply key_eqb_eq in K. subst k. rewrite H by (now left). cbn [got]. ring.
    + intros x I. rewrite find_put. destruct (key_eqb (key_of m) (key_of x)) eqn:K; [|apply H; now right]. apply key_eqb_eq in K. exfalso. apply Nm. rewrite K. now apply in_map.
Qed.
Lemma final_sum q : additive q -> forall l d r, final_data d l = Some r -> forall k,
  got q (find_key r k) = got q (find_key d k) + rsum (map (fun f => at_key q k (f_data f)) l).
Proof.
  intro A. induction l as [|f t IH]; intros d r H k; cbn [final_data] in H.
  - inversion H; subst. cbn [map]. rewrite rsum_nil. ring.
  - destruct (add_data d (f_data f)) as [d'|] eqn:E; [|discriminate]. rewrite (IH _ _ H), (add_data_sum q A _ _ _ E). cbn [map]. rewrite rsum_cons. ring.
Qed.
Lemma got_at q d k : keyed d -> NoDup (keys d) -> got q (find_key d k) = at_key q k (map snd d).
Proof.
  intros K N. induction K as [|[a v] t E Kt IH]; [reflexivity|]. cbn [map snd]. rewrite at_key_cons. cbn in E. rewrite E. cbn [find_key].
  cbn in N. inversion N as [|? ? Na Nt]; subst. destruct (key_eqb (key_of v) k) eqn:Q.
  - cbn [got]. apply key_eqb_eq in Q. subst k. rewrite <- IH by exact Nt. apply find_none in Na. rewrite Na. cbn [got]. ring.
  - rewrite IH by exact Nt. ring.
Qed.

(* Per monitor: intensity, events and Ncount of the result are the sums over all inputs.
   The monitors of the first file are taken to be distinct. *)
Theorem C32_sums_per_monitor_partial :
  forall f fs r q, (q = v_int \/ q = v_cnt \/ q = (fun m => IZR (v_ncount m))) ->
    NoDup (map key_of (f_data f)) -> combine_mccode_sims (f :: fs) = Some r ->
    forall k, at_key q k (f_data r) = rsum (map (fun g => at_key q k (f_data g)) (f :: fs)).
Proof.
  intros f fs r q Q N H k. cbn [combine_mccode_sims] in H. apply loop_data in H as (d & F & E).
  assert (A : additive q).
  { intros a b c Hc. apply combine_inv in Hc as (H1 & H2 & H3 & _). destruct Q as [->|[->| ->]]; auto. rewrite H3. apply plus_IZR. }
  destruct (first_data_keys (f_data f) [] ltac:(constructor)) as [N0 I0]. fold (first_data (f_data f)) in N0, I0.
  assert (K0 : keyed (first_data (f_data f))) by (apply first_keyed; constructor).
  destruct (final_keyed _ _ _ K0 N0 F) as (K & Nd & _). rewrite E, <- got_at by assumption.
  rewrite (final_sum q A _ _ _ F). unfold first_data. rewrite first_data_sum by (auto; intros; reflexivity). cbn [map find_key got]. rewrite rsum_cons. ring.
Qed.
Print Assumptions C32_sums_per_monitor_partial.
(* Over all monitors. *)
Lemma total_by_key q l : forall ks, NoDup ks -> (forall m, In m l -> In (key_of m) ks) -> rsum (map (fun k => at_key q k l) ks) = rsum (map q l).
Proof.
  induction l as [|m t IH]; intros ks N H.
  - clear. induction ks as [|k ks IH]; cbn [map] in *; [reflexivity|]. rewrite rsum_cons, at_key_nil, IH, rsum_nil. ring.
  - cbn [map]. transitivity (rsum (map (fun k => if key_eqb (key_of m) k then q m else 0) ks) + rsum (map (fun k => at_key q k t) ks)).
    + clear. induction ks as [|k ks IH]; cbn [map]; rewrite ?rsum_nil, ?rsum_cons; [ring|]. rewrite at_key_cons, IH. ring.
    + rewrite IH by (auto; intros; apply H; now right). change (rsum (q m :: map q t)) with (q m + rsum (map q t)). f_equal.
      assert (I : In (key_of m) ks) by (apply H; now left). clear - N I. induction ks as [|k ks IH]; [destruct I|]. inversion N as [|? ? Nk Nt]; subst. cbn [map]. rewrite rsum_cons.
      destruct (key_eqb (key_of m) k) eqn:E.
      * apply key_eqb_eq in E. subst k. assert (Z : rsum (map (fun k => if key_eqb (key_of m) k then q m else 0) ks) = 0).
        { clear - Nk. induction ks as [|k ks IH]; cbn [map]; [reflexivity|]. rewrite rsum_cons, key_eqb_neq by (intro X; apply Nk; left; auto). rewrite IH by (intro; apply Nk; now right). ring. }
        rewrite Z. ring.
      * destruct I as [->|I]; [rewrite key_eqb_refl in E; discriminate|]. rewrite IH by auto. ring.
Qed.
Theorem C32_total_conserved_partial :
  forall f fs r q, (q = v_int \/ q = v_cnt \/ q = (fun m => IZR (v_ncount m))) ->
    NoDup (map key_of (f_data f)) -> combine_mccode_sims (f :: fs) = Some r ->
    rsum (map q (f_data r)) = rsum (map (fun g => rsum (map q (f_data g))) (f :: fs)).
Proof.
  intros f fs r q Q N H. destruct (C32_monitors_are_the_union _ _ H) as [U1 U2].
  pose proof (C32_sums_per_monitor_partial f fs r q Q N H) as S.
  set (ks := map key_of (f_data r)) in *.
  rewrite <- (total_by_key q (f_data r) ks U1) by (intros m I; now apply in_map).
  rewrite (map_ext _ _ S).
  assert (L : forall l, (forall g, In g l -> In g (f :: fs)) -> rsum (map (fun k => rsum (map (fun g => at_key q k (f_data g)) l)) ks) = rsum (map (fun g => rsum (map q (f_data g))) l)).
  { induction l as [|g l IH]; intro I.
    - clear. cbn [map]. induction ks as [|k ks IH]; cbn [map]; [reflexivity|]. rewrite rsum_cons, IH, rsum_nil. ring.
    - cbn [map]. rewrite rsum_cons.
      transitivity (rsum (map (fun k => at_key q k (f_data g)) ks) + rsum (map (fun k => rsum (map (fun g => at_key q k (f_data g)) l)) ks)).
      + clear. induction ks as [|k ks IH]; cbn [map]; rewrite ?rsum_nil, ?rsum_cons; [ring|]. rewrite IH. ring.
      + rewrite IH by (intros; apply I; now right). rewrite total_by_key; [reflexivity|exact U1|].
        intros m Im. apply U2. exists g. split; [apply I; now left|now apply in_map]. }
  apply L. auto.
Qed.
Print Assumptions C32_total_conserved_partial.

(** * Each monitor is the chain of its inputs *)
Fixpoint chain (m : monitor) (l : list monitor) : option monitor :=
  match l with [] => Some m | x :: t => match monitor_combine m x with Some c => chain c t | None => None end end.
Lemma chain_app m l l' : chain m (l ++ l') = match chain m l with Some c => chain c l' | None => None end.
Proof. revert m. induction l as [|x t IH]; intro m; cbn; [reflexivity|]. destruct (monitor_combine m x); [apply IH|reflexivity]. Qed.
Definition of_key (k : key) (l : list monitor) : list monitor := filter (fun m => key_eqb (key_of m) k) l.
Definition chained (seen : list monitor) (d : list (key * monitor)) : Prop :=
  forall k, match find_key d k with
            | None => of_key k seen = []
            | Some w => exists m0 ms, of_key k seen = m0 :: ms /\ chain m0 ms = Some w
            end.
Lemma chained_snoc_new seen d m : chained seen d -> find_key d (key_of m) = None -> chained (seen ++ [m]) (put d (key_of m) m).
Proof.
  intros C F k. rewrite find_put. unfold of_key. rewrite filter_app. cbn [filter]. specialize (C k). destruct (key_eqb (key_of m) k) eqn:E.
  - apply key_eqb_eq in E. subst k. rewrite F in C. unfold of_key in C. rewrite C. exists m, []. split; reflexivity.
  - rewrite app_nil_r. exact C.
Qed.
Lemma chained_snoc_old seen d m w c : chained seen d -> find_key d (key_of m) = Some w -> monitor_combine w m = Some c -> chained (seen ++ [m]) (put d (key_of m) c).
Proof.
  intros C F M k. rewrite find_put. unfold of_key. rewrite filter_app. cbn [filter]. specialize (C k). destruct (key_eqb (key_of m) k) eqn:E.
  - apply key_eqb_eq in E. subst k. rewrite F in C. destruct C as (m0 & ms & C1 & C2). unfold of_key in C1. rewrite C1. exists m0, (ms ++ [m]). split; [reflexivity|].
    rewrite chain_app, C2. cbn. now rewrite M.
  - rewrite app_nil_r. exact C.
Qed.
Lemma add_data_chained l : forall seen d r, chained seen d -> add_data d l = Some r -> chained (seen ++ l) r.
Proof.
  induction l as [|m t IH]; intros seen d r C H; cbn [add_data] in H.
  - inversion H; subst. now rewrite app_nil_r.
  - change (m :: t) with ([m] ++ t). rewrite app_assoc. destruct (find_key d (key_of m)) as [w|] eqn:F.
    + destruct (monitor_combine w m) as [c|] eqn:M; [|discriminate]. eapply IH; [|exact H]. eapply chained_snoc_old; eassumption.
    + eapply IH; [|exact H]. now apply chained_snoc_new.
Qed.
Lemma first_chained l : NoDup (map key_of l) -> forall seen d, chained seen d -> (forall m, In m l -> find_key d (key_of m) = None) ->
  chained (seen ++ l) (fold_left (fun d m => put d (key_of m) m) l d).
Proof.
  induction l as [|m t IH]; intros N seen d C H; cbn [fold_left].
  - now rewrite app_nil_r.
  - cbn in N. inversion N as [|? ? Nm Nt]; subst. change (m :: t) with ([m] ++ t). rewrite app_assoc. apply IH; [exact Nt| |].
    + apply chained_snoc_new; [exact C|]. apply H. now left.
    + intros x I. rewrite find_put, key_eqb_neq; [apply H; now right|]. intro K. apply Nm. rewrite K. now apply in_map.
Qed.
Lemma final_chained l : forall seen d r, chained seen d -> final_data d l = Some r -> chained (seen ++ List.concat (map f_data l)) r.
Proof.
  induction l as [|f t IH]; intros seen d r C H; cbn [final_data] in H.
  - inversion H; subst. cbn. now rewrite app_nil_r.
  - destruct (add_data d (f_data f)) as [d'|] eqn:E; [|discriminate]. cbn [map List.concat]. rewrite app_assoc. eapply IH; [|exact H]. eapply add_data_chained; eassumption.
Qed.
Lemma keyed_find d e : keyed d -> NoDup (keys d) -> In e d -> find_key d (key_of (snd e)) = Some (snd e).
Proof.
  intros K N I. induction K as [|[a v] t E Kt IH]; [destruct I|]. cbn in E, N. inversion N as [|? ? Na Nt]; subst. cbn [find_key]. destruct I as [<-|I].
  - cbn. now rewrite key_eqb_refl.
  - rewrite key_eqb_neq; [auto|]. intro X. apply Na. rewrite X. rewrite Forall_forall in Kt. rewrite (Kt e I). now apply in_map.
Qed.
Theorem C32_each_monitor_from_its_inputs_partial :
  forall f fs r, NoDup (map key_of (f_data f)) -> combine_mccode_sims (f :: fs) = Some r ->
    forall m, In m (f_data r) -> exists m0 ms,
      of_key (key_of m) (List.concat (map f_data (f :: fs))) = m0 :: ms /\ chain m0 ms = Some m.
Proof.
  intros f fs r N H m I. cbn [combine_mccode_sims] in H. apply loop_data in H as (d & F & E).
  destruct (first_data_keys (f_data f) [] ltac:(constructor)) as [N0 _]. fold (first_data (f_data f)) in N0.
  assert (K0 : keyed (first_data (f_data f))) by (apply first_keyed; constructor).
  destruct (final_keyed _ _ _ K0 N0 F) as (K & Nd & _).
  assert (C0 : chained (f_data f) (first_data (f_data f))) by (apply (first_chained (f_data f) N [] []); [intro k; reflexivity|reflexivity]).
  pose proof (final_chained _ _ _ _ C0 F (key_of m)) as C. rewrite E in I. apply in_map_iff in I as (e & <- & I).
  rewrite (keyed_find d e K Nd I) in C. exact C.
Qed.
Print Assumptions C32_each_monitor_from_its_inputs_partial.

(** * Signal: extremes and mean *)
Definition sig_min (m : monitor) : option R := option_map (fun s => fst (fst s)) (v_signal m).
Definition sig_max (m : monitor) : option R := option_map (fun s => snd (fst s)) (v_signal m).
Definition sig_mean (m : monitor) : R := match v_signal m with Some s => snd s | None => 0 end.
Theorem C32_signal_extremes :
  forall ms m0 w lo hi mu, chain m0 ms = Some w -> v_signal w = Some (lo, hi, mu) ->
    (forall x, In x (m0 :: ms) -> exists a b c, v_signal x = Some (a, b, c) /\ lo <= a /\ b <= hi) /\
    (exists x, In x (m0 :: ms) /\ sig_min x = Some lo) /\ (exists x, In x (m0 :: ms) /\ sig_max x = Some hi).
Proof.
  induction ms as [|y t IH]; intros m0 w lo hi mu H S; cbn [chain] in H.
  - inversion H; subst. split; [|split].
    + intros x [<-|[]]. exists lo, hi, mu. repeat split; [exact S|lra|lra].
    + exists w. split; [now left|]. unfold sig_min. now rewrite S.
    + exists w. split; [now left|]. unfold sig_max. now rewrite S.
  - destruct (monitor_combine m0 y) as [c|] eqn:C; [|discriminate]. destruct (IH _ _ _ _ _ H S) as (A & B & D).
    apply combine_inv in C as (_ & _ & _ & _ & _ & _ & _ & C).
    destruct (A c ltac:(now left)) as (a1 & b1 & c1 & Sc & La & Lb). unfold combine_signal in C.
    destruct (v_signal m0) as [[[x1 x2] x3]|] eqn:S0; [|congruence]. destruct (v_signal y) as [[[y1 y2] y3]|] eqn:Sy; [|congruence].
    destruct (weighted _ _ _ _) as [q|]; [|discriminate]. rewrite Sc in C. inversion C; subst a1 b1 c1. split; [|split].
    + intros x [<-|[<-|I]].
      * exists x1, x2, x3. split; [exact S0|]. split; [eapply Rle_trans; [exact La|apply Rmin_l]|eapply Rle_trans; [apply Rmax_l|exact Lb]].
      * exists y1, y2, y3. split; [exact Sy|]. split; [eapply Rle_trans; [exact La|apply Rmin_r]|eapply Rle_trans; [apply Rmax_r|exact Lb]].
      * apply A. now right.
    + destruct B as (x & [<-|I] & B).
      * unfold sig_min in B. rewrite Sc in B. cbn in B. inversion B. unfold Rmin. destruct (Rle_dec x1 y1).
        -- exists m0. split; [now left|]. unfold sig_min. now rewrite S0.
        -- exists y. split; [right; now left|]. unfold sig_min. now rewrite Sy.
      * exists x. split; [right; now right|exact B].
    + destruct D as (x & [<-|I] & D).
      * unfold sig_max in D. rewrite Sc in D. cbn in D. inversion D. unfold Rmax. destruct (Rle_dec x2 y2).
        -- exists y. split; [right; now left|]. unfold sig_max. now rewrite Sy.
        -- exists m0. split; [now left|]. unfold sig_max. now rewrite S0.
      * exists x. split; [right; now right|exact D].
Qed.
Print Assumptions C32_signal_extremes.
Theorem C32_signal_mean :
  forall ms m0 w, chain m0 ms = Some w -> v_signal w <> None ->
    sig_mean w * v_cnt w = rsum (map (fun m => sig_mean m * v_cnt m) (m0 :: ms)) /\ v_cnt w = rsum (map v_cnt (m0 :: ms)).
Proof.
  induction ms as [|y t IH]; intros m0 w H S; cbn [chain] in H.
  - inversion H; subst. cbn [map]. rewrite !rsum_cons, !rsum_nil. split; ring.
  - destruct (monitor_combine m0 y) as [c|] eqn:C; [|discriminate]. destruct (IH _ _ H S) as [A B]. rewrite A, B.
    assert (Sc : v_signal c <> None).
    { destruct (v_signal w) as [[[lo hi] mu]|] eqn:Sw; [|congruence]. destruct (C32_signal_extremes _ _ _ _ _ _ H Sw) as [X _].
      destruct (X c ltac:(now left)) as (? & ? & ? & E & _). congruence. }
    apply combine_inv in C as (_ & Cn & _ & _ & _ & _ & _ & C). cbn [map]. rewrite !rsum_cons. split; [|rewrite Cn; ring].
    unfold combine_signal in C. unfold sig_mean at 1 3 4. destruct (v_signal m0) as [[[x1 x2] x3]|]; [|congruence]. destruct (v_signal y) as [[[y1 y2] y3]|]; [|congruence].
    unfold weighted in C. destruct (Req_EM_T _ _) as [|Z]; [discriminate|]. inversion C as [Q]. cbn [snd]. rewrite Cn. field_simplify; [|exact Z]. ring.
Qed.
Print Assumptions C32_signal_mean.

(** * Errors of the error bar *)
Theorem C32_error_bars_refuted :
  forall a b c, monitor_combine a b = Some c -> v_err b <> 0 -> v_err b <> 2 ->
    v_err c * v_err c <> v_err a * v_err a + v_err b * v_err b.
Proof.
  intros a b c H Z T E. apply combine_inv in H as (_ & _ & _ & _ & _ & _ & S & _). unfold py_sqrt in S.
  destruct (Rlt_dec _ 0) as [|N]; [discriminate|]. inversion S as [Q]. rewrite <- Q, sqrt_sqrt in E by lra.
  assert (X : v_err b * (v_err b - 2) = 0) by lra. apply Rmult_integral in X as [X|X]; lra.
Qed.
Print Assumptions C32_error_bars_refuted.
Definition plain (k : string) : option string :=
  if k =?s "component" then Some "psd" else if k =?s "filename" then Some "psd.dat" else if k =?s "type" then Some "array_1d(20)" else None.
Definition mon (n : Z) (i e c : R) (dx : R) : monitor :=
  mkMon ["Date"; "type"; "component"; "Ncount"; "filename"; "statistics"; "signal"; "values"] plain n i e c (Some (0, i, i / 2)) (Some (Some 0, Some dx, None, None)).
Lemma mon_combine n i e c dx n' i' e' c' dx' : 0 <= e' -> 0 < c -> 0 < c' -> exists r,
  monitor_combine (mon n i e c dx) (mon n' i' e' c' dx') = Some r /\ v_int r = i + i' /\ v_cnt r = c + c' /\ v_ncount r = (n + n')%Z /\
  v_err r = sqrt (e * e + e' + e') /\
  v_stats r = Some (Some 0, Some (sqrt (dx * c * (dx * c) + dx' * c' * (dx' * c')) / (c + c')), None, None).
Proof.
  intros He Hc Hc'. unfold monitor_combine, is_repeat, mon. cbn -[sqrt]. unfold py_sqrt, weighted, weighted_sqrt.
  destruct (Rlt_dec _ 0) as [L|L]; [exfalso; nra|]. destruct (Req_EM_T (c + c') 0) as [Z|Z]; [lra|]. cbn -[sqrt].
  eexists. split; [reflexivity|]. cbn -[sqrt]. repeat split. replace ((0 * c + 0 * c') / (c + c')) with 0 by (field; exact Z). reflexivity.
Qed.
(* two runs with errors 3 and 4: the two orders give different error bars, neither is 5 *)
Theorem C32_error_depends_on_order_refuted :
  exists a b c c', monitor_combine a b = Some c /\ monitor_combine b a = Some c' /\ v_err c <> v_err c' /\ v_err c <> 5 /\ v_err c' <> 5.
Proof.
  destruct (mon_combine 1 1 3 1 1 1 1 4 1 1) as (c & C & _ & _ & _ & E & _); try lra.
  destruct (mon_combine 1 1 4 1 1 1 1 3 1 1) as (c' & C' & _ & _ & _ & E' & _); try lra.
  exists (mon 1 1 3 1 1), (mon 1 1 4 1 1), c, c'. split; [exact C|]. split; [exact C'|]. rewrite E, E'.
  assert (A : sqrt (3 * 3 + 4 + 4) * sqrt (3 * 3 + 4 + 4) = 17) by (rewrite sqrt_sqrt; lra).
  assert (B : sqrt (4 * 4 + 3 + 3) * sqrt (4 * 4 + 3 + 3) = 22) by (rewrite sqrt_sqrt; lra).
  repeat split; intro X; [rewrite X in A; lra|rewrite X in A; lra|rewrite X in B; lra].
Qed.
Print Assumptions C32_error_depends_on_order_refuted.
(* adding a run to itself narrows the recorded width by a factor sqrt 2 *)
Theorem C32_width_shrinks_refuted :
  forall n i e c dx, 0 <= e -> 0 < c -> 0 < dx -> exists r w,
    monitor_combine (mon n i e c dx) (mon n i e c dx) = Some r /\ v_stats r = Some (Some 0, Some w, None, None) /\ w < dx.
Proof.
  intros n i e c dx He Hc Hd. destruct (mon_combine n i e c dx n i e c dx He Hc Hc) as (r & R1 & _ & _ & _ & _ & R2). exists r. eexists. split; [exact R1|]. split; [exact R2|].
  assert (D : 0 < dx * c) by (apply Rmult_lt_0_compat; assumption).
  assert (Q : sqrt (dx * c * (dx * c) + dx * c * (dx * c)) < dx * c + dx * c).
  { rewrite <- (sqrt_square (dx * c + dx * c)) by lra. apply sqrt_lt_1; nra. }
  apply (Rmult_lt_reg_r (c + c)); [lra|]. unfold Rdiv. rewrite Rmult_assoc, Rinv_l, Rmult_1_r by lra. lra.
Qed.
Print Assumptions C32_width_shrinks_refuted.

(** * Loss of monitors, Ncount of the simulation block *)
Definition head0 : header := mkHeader "d" "t" "p".
Definition instr0 : instrument := mkInstrument "i" "i.instr" "i" "" true true true.
Definition run (dir : string) (n : Z) : simulation := mkSim "s" "McCode" "u" "c" "i" n true false 1 dir ["E=5"].
(* a file that lists one monitor twice: as the first file it loses one entry, as a later file
   both are added *)
Theorem C32_first_file_duplicates_refuted :
  exists f g r r', combine_mccode_sims [f; g] = Some r /\ combine_mccode_sims [g; f] = Some r' /\ rsum (map v_cnt (f_data r)) = 2 /\ rsum (map v_cnt (f_data r')) = 3.
Proof.
  pose (m := mon 1 1 1 1 1). destruct (mon_combine 1 1 1 1 1 1 1 1 1 1) as (c & C & _ & Cc & _); try lra. fold m in C.
  exists (mkFile head0 instr0 (run "a" 1) [m; m]), (mkFile head0 instr0 (run "a" 1) [m]).
  assert (K : key_of m = (Some "psd", Some "psd.dat")) by reflexivity.
  assert (Kc : key_of c = (Some "psd", Some "psd.dat")) by (rewrite (combine_key _ _ _ C); exact K).
  assert (D : exists c', monitor_combine c m = Some c' /\ v_cnt c' = 3).
  { unfold monitor_combine in C. cbn -[sqrt] in C. unfold py_sqrt, weighted, weighted_sqrt in C. destruct (Rlt_dec _ 0) as [|L]; [discriminate|].
    destruct (Req_EM_T (1 + 1) 0) as [|Z]; [discriminate|]. cbn -[sqrt] in C. inversion C; subst c. unfold monitor_combine. cbn -[sqrt].
    unfold py_sqrt, weighted, weighted_sqrt. destruct (Rlt_dec _ 0) as [L'|L'].
    - exfalso. rewrite sqrt_sqrt in L' by lra. lra.
    - destruct (Req_EM_T (1 + 1 + 1) 0) as [|Z']; [lra|]. eexists. split; [reflexivity|]. cbn -[sqrt]. lra. }
  destruct D as (c' & D & Dc).
  unfold combine_mccode_sims, first_data. cbn [f_data f_header f_instrument f_sim fold_left put combine_loop add_data find_key].
  rewrite !K, !key_eqb_refl. cbn [put find_key add_data]. rewrite ?K, !key_eqb_refl, !C. cbn [put find_key add_data]. rewrite ?K, ?key_eqb_refl, ?D. cbn [put find_key add_data].
  rewrite ?key_eqb_refl. eexists _, _. split; [reflexivity|]. split; [reflexivity|]. cbn [f_data map snd]. rewrite !rsum_cons, !rsum_nil, Cc, Dc. split; lra.
Qed.
Print Assumptions C32_first_file_duplicates_refuted.

(** Two runs that agree in everything but Ncount and Seed *)
Definition repeat_of (a b : simulation) : Prop :=
  u_name a = u_name b /\ u_format a = u_format b /\ u_url a = u_url b /\ u_creator a = u_creator b /\ u_instrument a = u_instrument b /\
  u_trace a = u_trace b /\ u_grav a = u_grav b /\ u_dir a = u_dir b /\ u_params a = u_params b.
Lemma mem_in x l : In x l -> mem x l = true.
Proof. intro H. apply existsb_exists. exists x. split; [exact H|apply String.eqb_refl]. Qed.
Lemma repeat_combine a b : repeat_of a b -> sim_combine a b = with_ncount a (u_ncount a + u_ncount b).
Proof.
  intros (H1 & H2 & H3 & H4 & H5 & H6 & H7 & H8 & H9). unfold sim_combine. replace (sim_eq b a) with true; [reflexivity|]. symmetry. unfold sim_eq.
  rewrite H1, H2, H3, H4, H5, H6, H7, H8, H9, !String.eqb_refl, !Bool.eqb_reflx. cbn. apply forallb_forall. intros x I. now apply mem_in.
Qed.
Theorem C32_ncount_of_repeats_partial :
  forall fs f r, (forall g, In g fs -> repeat_of (f_sim f) (f_sim g)) -> combine_mccode_sims (f :: fs) = Some r ->
    u_ncount (f_sim r) = zsum (map (fun g => u_ncount (f_sim g)) (f :: fs)) /\ repeat_of (f_sim r) (f_sim f).
Proof.
  intros fs f r H C. cbn [combine_mccode_sims] in C.
  assert (G : forall l h i s d r, (forall g, In g l -> repeat_of s (f_sim g)) -> combine_loop h i s d l = Some r ->
    u_ncount (f_sim r) = (u_ncount s + zsum (map (fun g => u_ncount (f_sim g)) l))%Z /\ repeat_of (f_sim r) s).
  { clear. induction l as [|g t IH]; intros h i s d r H C; cbn [combine_loop] in C.
    - inversion C; subst. cbn. split; [lia|]. unfold repeat_of. auto 10.
    - destruct (add_data d (f_data g)); [|discriminate]. rewrite repeat_combine in C by (apply H; now left).
      apply IH in C as [A B]; [|intros x I; exact (H x (or_intror I))]. split; [|exact B]. rewrite A. cbn [map with_ncount u_ncount]. unfold zsum. cbn [fold_right]. lia. }
  destruct (G _ _ _ _ _ _ H C) as [A B]. split; [exact A|exact B].
Qed.
Print Assumptions C32_ncount_of_repeats_partial.
Example repeats_example :
  exists r, combine_mccode_sims [mkFile head0 instr0 (run "a" 100) [mon 100 1 1 1 1]; mkFile head0 instr0 (run "a" 50) [mon 50 2 1 3 1]] = Some r /\
    u_ncount (f_sim r) = 150%Z /\ NoDup (map key_of (f_data r)).
Proof.
  destruct (mon_combine 100 1 1 1 1 50 2 1 3 1) as (c & C & _ & Cc & _); try lra.
  assert (H : exists r, combine_mccode_sims [mkFile head0 instr0 (run "a" 100) [mon 100 1 1 1 1]; mkFile head0 instr0 (run "a" 50) [mon 50 2 1 3 1]] = Some r).
  { unfold combine_mccode_sims, first_data. cbn [f_data f_header f_instrument f_sim fold_left put combine_loop add_data find_key]. 
    change (key_of (mon 50 2 1 3 1)) with (key_of (mon 100 1 1 1 1)). rewrite key_eqb_refl, C. eexists; reflexivity. }
  destruct H as [r H]. exists r. split; [exact H|]. split; [|exact (proj1 (C32_monitors_are_the_union _ _ H))].
  apply C32_ncount_of_repeats_partial in H as [A _]; [rewrite A; reflexivity|]. intros g [<-|[]]. repeat split.
Qed.

(* every run of mcrun writes to its own directory; then the smaller Ncount is kept, or, when
   one directory name is part of the other, that of one of the runs *)
Theorem C32_ncount_other_directory_refuted :
  forall n m, u_ncount (sim_combine (run "a" n) (run "b" m)) = Z.min n m /\
    u_ncount (sim_combine (run "run" n) (run "run_2" m)) = m /\ u_ncount (sim_combine (run "run_2" n) (run "run" m)) = n.
Proof. intros n m. repeat split. Qed.
Print Assumptions C32_ncount_other_directory_refuted.
(* a run with one more parameter counts as a repeat, and the parameter is lost *)
Theorem C32_parameter_lost_refuted :
  exists a b, u_params (sim_combine a b) = u_params a /\ In "T=7" (u_params b) /\ ~ In "T=7" (u_params (sim_combine a b)) /\
    u_ncount (sim_combine a b) = (u_ncount a + u_ncount b)%Z.
Proof.
  exists (run "a" 1), (mkSim "s" "McCode" "u" "c" "i" 1 true false 1 "a" ["E=5"; "T=7"]).
  split; [reflexivity|]. split; [right; now left|]. split; [|reflexivity]. cbn. intros [X|[]]; discriminate.
Qed.
Print Assumptions C32_parameter_lost_refuted.

(** * Order of the files *)
Lemma rsum_perm a b : Permutation a b -> rsum a = rsum b.
Proof. induction 1; rewrite ?rsum_cons; [reflexivity|rewrite IHPermutation; ring|ring|congruence]. Qed.
Theorem C32_order_does_not_matter_partial :
  forall fs gs r r' q, (q = v_int \/ q = v_cnt \/ q = (fun m => IZR (v_ncount m))) ->
    (forall f, In f fs -> NoDup (map key_of (f_data f))) -> Permutation fs gs ->
    combine_mccode_sims fs = Some r -> combine_mccode_sims gs = Some r' ->
    Permutation (map key_of (f_data r)) (map key_of (f_data r')) /\ forall k, at_key q k (f_data r) = at_key q k (f_data r').
Proof.
  intros fs gs r r' q Q N P H H'. split.
  - destruct (C32_monitors_are_the_union _ _ H) as [U1 U2], (C32_monitors_are_the_union _ _ H') as [V1 V2]. apply NoDup_Permutation; auto.
    intro k. rewrite U2, V2. split; intros (f & I & X); exists f; (split; [|exact X]); [eapply Permutation_in; eauto|eapply Permutation_in; [apply Permutation_sym|]; eauto].
  - intro k. destruct fs as [|f fs]; [discriminate|]. destruct gs as [|g gs]; [discriminate|].
    rewrite (C32_sums_per_monitor_partial f fs r q Q (N f (or_introl eq_refl)) H).
    assert (Ig : In g (f :: fs)) by (eapply Permutation_in; [apply Permutation_sym; exact P|now left]).
    rewrite (C32_sums_per_monitor_partial g gs r' q Q (N g Ig) H'). apply rsum_perm. now apply Permutation_map.
Qed.
Print Assumptions C32_order_does_not_matter_partial.

(** * Compatible inputs combine *)
Definition sound_mon (m : monitor) : Prop := 0 <= v_err m /\ 0 < v_cnt m.
Definition like (w m : monitor) : Prop := v_attr w = v_attr m /\ v_keywords w = v_keywords m.
Lemma combine_ok a b : sound_mon a -> sound_mon b -> is_repeat a b = true -> exists c, monitor_combine a b = Some c /\ sound_mon c /\ like c a.
Proof.
  intros [Ea Ca] [Eb Cb] Rp. unfold monitor_combine. rewrite Rp. unfold py_sqrt. destruct (Rlt_dec _ 0) as [L|L]; [exfalso; nra|].
  assert (Z : v_cnt a + v_cnt b <> 0) by lra.
  assert (W : forall x y, exists z, weighted x (v_cnt a) y (v_cnt b) = Some z) by (intros; unfold weighted; destruct (Req_EM_T _ _); [contradiction|eauto]).
  assert (V : forall x y, exists z, weighted_sqrt x (v_cnt a) y (v_cnt b) = Some z) by (intros; unfold weighted_sqrt; destruct (Req_EM_T _ _); [contradiction|eauto]).
  assert (S1 : exists s, combine_signal (v_cnt a) (v_cnt b) (v_signal a) (v_signal b) = Some s).
  { unfold combine_signal. destruct (v_signal a) as [[[? ?] x]|]; [|eauto]. destruct (v_signal b) as [[[? ?] y]|]; [|eauto]. destruct (W x y) as [z ->]. eauto. }
  assert (B1 : forall f, (forall x y, exists z, f x y = Some z) -> forall x y, exists z, both f x y = Some z).
  { intros f F [x|] [y|]; cbn; eauto. destruct (F x y) as [z ->]. eauto. }
  assert (S2 : exists s, combine_stats (v_cnt a) (v_cnt b) (v_stats a) (v_stats b) = Some s).
  { unfold combine_stats. destruct (v_stats a) as [[[[? ?] ?] ?]|]; [|eauto]. destruct (v_stats b) as [[[[? ?] ?] ?]|]; [|eauto].
    destruct (B1 _ W o o3) as [? ->], (B1 _ V o0 o4) as [? ->], (B1 _ W o1 o5) as [? ->], (B1 _ V o2 o6) as [? ->]. eauto. }
  destruct S1 as [s ->], S2 as [t ->]. eexists. split; [reflexivity|]. split; [|split; reflexivity]. split; cbn [v_err v_cnt]; [apply sqrt_pos|lra].
Qed.
Lemma like_repeat a b m : like a m -> is_repeat m b = true -> is_repeat a b = true.
Proof. intros [A K] H. unfold is_repeat in *. now rewrite K, A. Qed.
Definition good_in (all : list monitor) (d : list (key * monitor)) : Prop :=
  forall k w, find_key d k = Some w -> sound_mon w /\ exists m, In m all /\ like w m /\ key_of m = k.
Lemma good_put all d m w : good_in all d -> In m all -> sound_mon w -> (exists x, In x all /\ like w x /\ key_of x = key_of m) -> good_in all (put d (key_of m) w).
Proof.
  intros G I S X k v. rewrite find_put. destruct (key_eqb (key_of m) k) eqn:E; [|apply G]. apply key_eqb_eq in E. intro H; inversion H; subst. split; [exact S|exact X].
Qed.
Lemma like_refl m : like m m.
Proof. split; reflexivity. Qed.
Lemma add_data_ok all : (forall m, In m all -> sound_mon m) -> (forall m m', In m all -> In m' all -> key_of m = key_of m' -> is_repeat m m' = true) ->
  forall l d, (forall m, In m l -> In m all) -> good_in all d -> exists r, add_data d l = Some r /\ good_in all r.
Proof.
  intros SO RE. induction l as [|m t IH]; intros d I G; cbn [add_data]; [eauto|]. assert (Im : In m all) by (apply I; now left).
  destruct (find_key d (key_of m)) as [w|] eqn:F.
  - destruct (G _ _ F) as (Sw & x & Ix & Lx & Kx). destruct (combine_ok w m Sw (SO m Im)) as (c & C & Sc & Lc).
    { eapply like_repeat; [exact Lx|]. now apply RE. }
    rewrite C. apply IH; [intros y Iy; apply I; now right|]. apply good_put; auto. exists x. split; [exact Ix|]. split; [|exact Kx].
    destruct Lc, Lx. split; congruence.
  - apply IH; [intros y Iy; apply I; now right|]. apply good_put; auto. exists m. split; [exact Im|]. split; [apply like_refl|reflexivity].
Qed.
Theorem C32_compatible_files_combine :
  forall f fs, let all := List.concat (map f_data (f :: fs)) in
    (forall m, In m all -> 0 <= v_err m /\ 0 < v_cnt m) ->
    (forall m m', In m all -> In m' all -> key_of m = key_of m' -> is_repeat m m' = true) ->
    exists r, combine_mccode_sims (f :: fs) = Some r.
Proof.
  intros f fs all SO RE. cbn [combine_mccode_sims].
  assert (G : forall l h i s d, (forall g m, In g l -> In m (f_data g) -> In m all) -> good_in all d -> exists r, combine_loop h i s d l = Some r).
  { induction l as [|g t IH]; intros h i s d I G; cbn [combine_loop]; [eauto|].
    destruct (add_data_ok all SO RE (f_data g) d) as (r & -> & Gr); [intros m Im; exact (I g m (or_introl eq_refl) Im)|exact G|].
    apply IH; [intros x m Ix; apply I; now right|exact Gr]. }
  apply G.
  - intros g m Ig Im. unfold all. apply in_concat. exists (f_data g). split; [apply in_map; now right|exact Im].
  - assert (F : forall l d, (forall m, In m l -> In m all) -> good_in all d -> good_in all (fold_left (fun d m => put d (key_of m) m) l d)).
    { induction l as [|m t IH]; intros d I Gd; cbn [fold_left]; [exact Gd|]. assert (Im : In m all) by (apply I; now left). apply IH; [intros x Ix; apply I; now right|].
      apply good_put; auto; [apply SO; exact Im|]. exists m. split; [exact Im|]. split; [apply like_refl|reflexivity]. }
    apply F; [|intros k w X; discriminate]. intros m Im. unfold all. cbn [map List.concat]. apply in_or_app. now left.
Qed.
Print Assumptions C32_compatible_files_combine.
(* a monitor that counted nothing in any run cannot be combined *)
Theorem C32_no_events_refuted :
  exists a b, is_repeat a b = true /\ v_cnt a = 0 /\ v_cnt b = 0 /\ monitor_combine a b = None.
Proof.
  exists (mon 1 0 0 0 0), (mon 1 0 0 0 0). split; [reflexivity|]. split; [reflexivity|]. split; [reflexivity|].
  unfold monitor_combine. cbn -[sqrt]. unfold py_sqrt, weighted. destruct (Rlt_dec _ 0); [reflexivity|]. destruct (Req_EM_T (0 + 0) 0) as [|Z]; [reflexivity|]. exfalso. apply Z. lra.
Qed.
Print Assumptions C32_no_events_refuted.
