(** Facts about DatFile.v used for C31. *)
From Coq Require Import List String Ascii Bool Arith ZArith QArith Qcanon Lia Permutation.
From Verif Require Import PyStr DatFile.
Import ListNotations.
Local Open Scope string_scope.
Local Open Scope list_scope.
Local Open Scope nat_scope.

(** * Dictionaries *)
Lemma get_set d k v x : get (set d k v) x = if k =?s x then Some v else get d x.
Proof.
  induction d as [|[a w] t IH]; cbn; [destruct (k =?s x); reflexivity|].
  destruct (String.eqb_spec a k) as [->|N]; cbn.
  - destruct (String.eqb_spec k x); reflexivity.
  - rewrite IH. destruct (String.eqb_spec a x) as [->|Nx]; [|reflexivity]. destruct (String.eqb_spec k x); [congruence|reflexivity].
Qed.
(** specification: the keys of a dictionary *)
Definition keys (d : dict) : list string := map fst d.
Lemma get_in d k v : get d k = Some v -> In (k, v) d.
Proof.
  induction d as [|[a w] t IH]; cbn; [discriminate|]. destruct (String.eqb_spec a k) as [->|]; intro H; [inversion H; now left|right; auto].
Qed.
Lemma get_nodup d k v : NoDup (keys d) -> In (k, v) d -> get d k = Some v.
Proof.
  induction d as [|[a w] t IH]; cbn; [tauto|]. intros N [H|H]; inversion N; subst.
  - inversion H; subst. now rewrite String.eqb_refl.
  - destruct (String.eqb_spec a k) as [->|]; [|auto]. exfalso. apply H2. apply (in_map fst) in H. exact H.
Qed.
Lemma get_none d k : get d k = None <-> ~ In k (keys d).
Proof.
  induction d as [|[a w] t IH]; cbn; [tauto|]. destruct (String.eqb_spec a k) as [->|N]; [split; [discriminate|tauto]|].
  rewrite IH. tauto.
Qed.

(** what one key becomes *)
Definition merge (k : string) (w v : mval) : option mval :=
  if special_add k then match int_of w, int_of v with Some x, Some y => Some (VI (x + y)) | _, _ => None end
  else if special_concatenate k then
    match not_in v w with Some true => Some (VS ((str_of w ++ " " ++ str_of v)%string)) | Some false => Some w | None => None end
  else if special_ignore k then Some w
  else if mval_eqb w v then Some w else None.
(** specification: the keys that are neither added nor concatenated but ignored *)
Definition plain_ignored (k : string) : bool := negb (special_add k) && negb (special_concatenate k) && special_ignore k.

Lemma combine_key_get c k v c' : combine_key c (k, v) = Some c' ->
  (plain_ignored k = true /\ c' = c) \/
  (exists w m, get c k = Some w /\ merge k w v = Some m /\ forall x, get c' x = if k =?s x then Some m else get c x).
Proof.
  unfold combine_key, merge, plain_ignored. destruct (special_add k); cbn [negb andb].
  - destruct (get c k) as [w|] eqn:G; [|discriminate]. destruct (int_of w) eqn:Iw, (int_of v) eqn:Iv; try discriminate. intro H; inversion H; subst.
    right. exists w. eexists. split; [reflexivity|]. rewrite Iw. split; [reflexivity|]. intro x. apply get_set.
  - destruct (special_concatenate k); cbn [negb andb].
    + destruct (get c k) as [w|] eqn:G; [|discriminate]. destruct (not_in v w) as [[|]|] eqn:Nw; try discriminate; intro H; inversion H; subst; right; exists w; eexists;
        (split; [reflexivity|]); rewrite Nw; (split; [reflexivity|]); intro x; [apply get_set|]. destruct (String.eqb_spec k x); [subst; auto|reflexivity].
    + destruct (special_ignore k); cbn [negb andb].
      * intro H; inversion H; now left.
      * destruct (get c k) as [w|] eqn:G; [|discriminate]. destruct (mval_eqb w v) eqn:Mw; [|discriminate]. intro H; inversion H; subst. right. exists w, w.
        split; [reflexivity|]. rewrite Mw. split; [reflexivity|]. intro x. destruct (String.eqb_spec k x); [subst; auto|reflexivity].
Qed.
Lemma combine_keys_get b : forall c r, NoDup (keys b) -> combine_keys c b = Some r -> forall x,
  match get b x with
  | None => get r x = get c x
  | Some v => if plain_ignored x then get r x = get c x
              else exists w m, get c x = Some w /\ merge x w v = Some m /\ get r x = Some m
  end.
Proof.
  induction b as [|[k v] t IH]; intros c r N H x; cbn [combine_keys get] in *.
  - inversion H; subst. reflexivity.
  - cbn [keys map] in N. inversion N as [|? ? Nk Nt]; subst. destruct (combine_key c (k, v)) as [c1|] eqn:E; [|discriminate].
    specialize (IH c1 r Nt H x). apply combine_key_get in E.
    destruct (String.eqb_spec k x) as [->|Nx].
    + assert (G : get t x = None) by (now apply get_none). rewrite G in IH. cbn [fst] in *. rewrite IH.
      destruct E as [[P ->]|(w & m & G1 & M & G2)].
      * now rewrite P.
      * destruct (plain_ignored x) eqn:P.
        -- unfold plain_ignored in P. unfold merge in M. destruct (special_add x); [discriminate|]. destruct (special_concatenate x); [discriminate|].
           cbn in P. rewrite P in M. inversion M; subst. rewrite (G2 x), String.eqb_refl. auto.
        -- exists w, m. rewrite (G2 x), String.eqb_refl. auto.
    + assert (Gx : get c1 x = get c x).
      { destruct E as [[_ ->]|(w & m & _ & _ & G2)]; [reflexivity|]. rewrite G2. destruct (String.eqb_spec k x); [congruence|reflexivity]. }
      rewrite Gx in IH. exact IH.
Qed.
(** success *)
Definition mergeable (c : dict) (k : string) (v : mval) : Prop :=
  plain_ignored k = true \/ exists w m, get c k = Some w /\ merge k w v = Some m.
Lemma combine_keys_ok b : forall c, NoDup (keys b) -> (forall k v, In (k, v) b -> mergeable c k v) -> exists r, combine_keys c b = Some r.
Proof.
  induction b as [|[k v] t IH]; intros c N H; cbn [combine_keys]; [eauto|]. inversion N as [|? ? Nk Nt]; subst.
  assert (M : mergeable c k v) by (apply H; now left).
  assert (E : exists c1, combine_key c (k, v) = Some c1).
  { unfold combine_key. destruct M as [P|(w & m & G & M)].
    - unfold plain_ignored in P. destruct (special_add k); [discriminate|]. destruct (special_concatenate k); [discriminate|]. cbn in P. rewrite P. eauto.
    - unfold merge in M. rewrite G. destruct (special_add k); [destruct (int_of w), (int_of v); eauto; discriminate|].
      destruct (special_concatenate k); [destruct (not_in v w) as [[|]|]; eauto; discriminate|]. destruct (special_ignore k); [eauto|].
      destruct (mval_eqb w v); eauto; discriminate. }
  destruct E as [c1 E]. rewrite E. apply IH; auto. intros k' v' I. destruct (H k' v' (or_intror I)) as [P|(w & m & G & M')]; [now left|right].
  assert (Nk' : k <> k') by (intros ->; apply Nk; apply (in_map fst) in I; exact I).
  exists w, m. split; [|exact M']. apply combine_key_get in E. destruct E as [[_ ->]|(w1 & m1 & _ & _ & G2)]; [exact G|].
  rewrite G2. destruct (String.eqb_spec k k'); [congruence|exact G].
Qed.

(** * Arrays *)
Lemma add_all_nth x : forall y j, List.length x = List.length y -> nth j (add_all x y) 0%Qc = (nth j x 0 + nth j y 0)%Qc.
Proof.
  induction x as [|a x IH]; intros [|b y] j L; try discriminate; cbn.
  - destruct j; rewrite Qcplus_0_r; reflexivity.
  - destruct j as [|j]; [reflexivity|]. cbn in L. apply IH. lia.
Qed.
Lemma add_all_length x y : List.length x = List.length y -> List.length (add_all x y) = List.length x.
Proof. intro L. unfold add_all. rewrite map_length, combine_length. lia. Qed.
Lemma nth_firstn_skip {A} (l : list A) d : forall k j, nth j (firstn k l ++ skipn k l) d = nth j l d.
Proof. intros. now rewrite firstn_skipn. Qed.

(** entries that hold positions on the axes: everything above the last three rows *)
Definition axis (a : arr) : nat := match shape a with [nv; n] => (nv - 3) * n | _ => 0 end.
Lemma combine_data_nth a b r : well_shaped a -> well_shaped b -> combine_scan_data a b = Some r ->
  shape a = shape b /\ shape r = shape a /\ well_shaped r /\
  forall j, nth j (flat r) 0%Qc = if j <? axis a then nth j (flat a) 0%Qc else (nth j (flat a) 0 + nth j (flat b) 0)%Qc.
Proof.
  unfold combine_scan_data, well_shaped, axis. intros Wa Wb H. destruct (nats_eqb (shape a) (shape b)) eqn:E; [|discriminate].
  apply nats_eqb_eq in E. assert (L : List.length (flat a) = List.length (flat b)) by (unfold size in *; congruence).
  split; [exact E|].
  destruct (shape a) as [|nv [|n [|q [|? ?]]]] eqn:S; try discriminate; inversion H; subst r; cbn [shape flat].
  - set (k := (nv - 3) * n). assert (Lk : List.length (skipn k (flat a)) = List.length (skipn k (flat b))) by (rewrite !skipn_length; lia).
    split; [reflexivity|]. split.
    + unfold size. cbn [shape]. rewrite app_length, add_all_length by exact Lk. rewrite <- app_length, firstn_skipn. rewrite Wa. unfold size. now rewrite S.
    + intro j. destruct (Nat.ltb_spec j k) as [Lt|Ge].
      * destruct (Nat.lt_ge_cases j (List.length (firstn k (flat a)))) as [L1|L1].
        -- rewrite app_nth1 by exact L1. rewrite <- (firstn_skipn k (flat a)) at 2. now rewrite app_nth1.
        -- rewrite firstn_length in L1. assert (HH : List.length (flat a) <= j) by lia.
           rewrite (nth_overflow (flat a)) by exact HH.
           rewrite nth_overflow; [reflexivity|]. rewrite app_length, add_all_length by exact Lk. rewrite <- app_length, firstn_skipn. exact HH.
      * destruct (Nat.lt_ge_cases j (List.length (flat a))) as [La|La].
        -- assert (F : List.length (firstn k (flat a)) = k) by (rewrite firstn_length; lia).
           assert (Fb : List.length (firstn k (flat b)) = k) by (rewrite firstn_length; lia).
           rewrite app_nth2 by lia. rewrite F, add_all_nth by exact Lk.
           f_equal.
           ++ rewrite <- (firstn_skipn k (flat a)) at 2. rewrite app_nth2 by lia. now rewrite F.
           ++ rewrite <- (firstn_skipn k (flat b)) at 2. rewrite app_nth2 by lia. now rewrite Fb.
        -- rewrite (nth_overflow (flat a)), (nth_overflow (flat b)) by lia. rewrite nth_overflow; [now rewrite Qcplus_0_r|].
           rewrite app_length, add_all_length by exact Lk. rewrite <- app_length, firstn_skipn. exact La.
  - split; [reflexivity|]. split.
    + unfold size in *. rewrite S in Wa. cbn [shape]. now rewrite add_all_length.
    + intro j. replace (j <? 0) with false by (symmetry; apply Nat.ltb_ge; lia). now apply add_all_nth.
Qed.

(** * Files *)
(** a file as the constructor leaves it, with dictionaries that are dictionaries *)
Definition made (d : dat) : Prop :=
  post_init d = Some d /\ well_shaped (data d) /\ NoDup (keys (metadata d)) /\ NoDup (keys (parameters d)).

Lemma zshape_is_refl a l : zshape_is a l = true <-> map Z.of_nat (shape a) = l.
Proof.
  unfold zshape_is. generalize (shape a). clear a. intro s. revert l. induction s as [|x s IH]; intros [|y l]; cbn; split; intro H; try discriminate; auto.
  - apply andb_prop in H as [H1 H2]. apply andb_prop in H2 as [H2 H3]. apply Z.eqb_eq in H2. f_equal; [auto|]. apply IH. cbn in H1. now rewrite H1, H3.
  - inversion H; subst. rewrite Z.eqb_refl. apply IH. reflexivity.
Qed.
Lemma made_again k m m' p p' v x y : kind_after k = k -> post_init (mkDat k m p v x) = Some (mkDat k m p v x) ->
  get m' "type" = get m "type" -> shape y = shape x -> post_init (mkDat k m' p' v y) = Some (mkDat k m' p' v y).
Proof.
  intros K H T S. unfold post_init in *. cbn [dkind variables data metadata parameters] in *.
  assert (Tt : type_text m' = type_text m) by (unfold type_text; now rewrite T).
  assert (Nx : nx_of m' = nx_of m) by (unfold nx_of; now rewrite Tt).
  assert (Nxy : nxy_of m' = nxy_of m) by (unfold nxy_of; now rewrite Tt).
  assert (Zs : forall l, zshape_is y l = zshape_is x l) by (intro l; unfold zshape_is; now rewrite S).
  destruct k.
  - discriminate.
  - rewrite Nx. destruct (nx_of m) as [nx|]; [|discriminate]. rewrite Zs. destruct (zshape_is x _) eqn:Z0; [reflexivity|].
    exfalso. destruct (shape x) as [|r [|c [|? ?]]] eqn:Sx; try discriminate. destruct (_ && _) eqn:E; [|discriminate].
    apply andb_prop in E as [E1 E2]. apply Z.eqb_eq in E1. apply Nat.eqb_eq in E2. inversion H as [H1]. apply (f_equal shape) in H1. cbn in H1. rewrite Sx in H1.
    inversion H1; subst. assert (zshape_is x [Z.of_nat (List.length v); Z.of_nat (List.length v)] = true) by (apply zshape_is_refl; rewrite Sx; reflexivity).
    congruence.
  - rewrite Nxy. destruct (nxy_of m) as [[nx ny]|]; [|discriminate]. rewrite Zs. destruct (zshape_is x _) eqn:Z0; [reflexivity|].
    exfalso. destruct (shape x) as [|r [|c [|? ?]]] eqn:Sx; try discriminate. destruct (_ && _); [|discriminate].
    inversion H as [H1]. apply (f_equal shape) in H1. cbn in H1. rewrite Sx in H1. discriminate.
Qed.

Lemma combine_type b : forall c r, combine_keys c b = Some r -> get r "type" = get c "type".
Proof.
  induction b as [|[k v] t IH]; intros c r H; cbn [combine_keys] in H; [now inversion H|].
  destruct (combine_key c (k, v)) as [c1|] eqn:E; [|discriminate]. rewrite (IH _ _ H). apply combine_key_get in E.
  destruct E as [[_ ->]|(w & m & G & M & G2)]; [reflexivity|]. rewrite G2. destruct (String.eqb_spec k "type") as [->|]; [|reflexivity].
  rewrite G. unfold merge in M. cbn in M. destruct (mval_eqb w v); congruence.
Qed.
Lemma set_keys d k v w : get d k = Some w -> keys (set d k v) = keys d.
Proof.
  induction d as [|[a u] t IH]; cbn; [discriminate|]. destruct (String.eqb_spec a k); cbn; [reflexivity|]. intro H. f_equal. exact (IH H).
Qed.
Lemma combine_keeps_keys b : forall c r, combine_keys c b = Some r -> keys r = keys c.
Proof.
  induction b as [|[k v] t IH]; intros c r H; cbn [combine_keys] in H; [now inversion H|].
  destruct (combine_key c (k, v)) as [c1|] eqn:E; [|discriminate]. rewrite (IH _ _ H). unfold combine_key in E.
  destruct (get c k) as [w|] eqn:G.
  - destruct (special_add k); [destruct (int_of w), (int_of v); inversion E; now apply (set_keys _ _ _ w)|].
    destruct (special_concatenate k); [destruct (not_in v w) as [[|]|]; inversion E; auto; now apply (set_keys _ _ _ w)|].
    destruct (special_ignore k); [now inversion E|]. destruct (mval_eqb w v); now inversion E.
  - destruct (special_add k); [discriminate|]. destruct (special_concatenate k); [discriminate|]. destruct (special_ignore k); now inversion E.
Qed.

(** one addition *)
Lemma dat_add_inv a b r : made a -> well_shaped (data b) -> dat_add a b = Some r ->
  dkind a <> D0 /\ dkind b = dkind a /\ variables b = variables a /\ dkind r = dkind a /\ variables r = variables a /\ made r /\
  combine_scan_dicts (metadata a) (metadata b) = Some (metadata r) /\
  combine_scan_dicts (parameters a) (parameters b) = Some (parameters r) /\
  combine_scan_data (data a) (data b) = Some (data r).
Proof.
  intros (Pa & Wa & Na & Qa) Wb. unfold dat_add. destruct (safe_to_combine a b) as [[|]|] eqn:Sf; try discriminate.
  destruct (combine_scan_dicts (metadata a) (metadata b)) as [m|] eqn:Em; [|discriminate].
  destruct (combine_scan_dicts (parameters a) (parameters b)) as [p|] eqn:Ep; [|discriminate].
  unfold combine_scan_lists. destruct (lists_eqb (variables a) (variables b)) eqn:Ev; [|discriminate]. apply lists_eqb_eq in Ev.
  destruct (combine_scan_data (data a) (data b)) as [x|] eqn:Ex; [|discriminate].
  assert (Ka : dkind a <> D0).
  { intro K. assert (exists n, shape (data a) = [n]) as [n Sn].
    { unfold post_init in Pa. rewrite K in Pa. destruct (nats_eqb (shape (data a)) _) eqn:E; [apply nats_eqb_eq in E; eauto|].
      destruct (size (data a) =? _); [|discriminate]. apply (f_equal (fun o => match o with Some d => shape (data d) | None => [] end)) in Pa. cbn in Pa. eauto. }
    unfold combine_scan_data in Ex. rewrite Sn in Ex. destruct (nats_eqb _ _); discriminate. }
  assert (Kb : dkind b = dkind a) by (unfold safe_to_combine in Sf; destruct (dkind a), (dkind b); congruence).
  intro H. destruct (combine_data_nth _ _ _ Wa Wb Ex) as (S1 & S2 & W2 & _).
  assert (Kk : kind_after (dkind a) = dkind a) by (destruct (dkind a); [congruence|reflexivity|reflexivity]).
  rewrite Kk in H. destruct a as [k ma pa va xa]. cbn [dkind metadata parameters variables data] in *.
  rewrite (made_again k ma m pa p va xa x Kk Pa) in H; auto; [|now apply combine_type with (b := metadata b)].
  inversion H; subst r. cbn [dkind metadata parameters variables data]. repeat split; auto.
  - apply (made_again k ma m pa p va xa x); auto. now apply combine_type with (b := metadata b).
  - cbn [metadata]. rewrite (combine_keeps_keys _ _ _ Em). exact Na.
  - cbn [parameters]. rewrite (combine_keeps_keys _ _ _ Ep). exact Qa.
Qed.

(** specification: a sum *)
Definition qsum (l : list Qc) : Qc := fold_right Qcplus 0%Qc l.
Lemma qsum_perm l l' : Permutation l l' -> qsum l = qsum l'.
Proof. induction 1; cbn in *; [reflexivity|now f_equal|ring|congruence]. Qed.
Lemma qsum_app l l' : qsum (l ++ l') = (qsum l + qsum l')%Qc.
Proof. induction l as [|a l IH]; [symmetry; apply Qcplus_0_l|]. change (a + qsum (l ++ l') = (a + qsum l) + qsum l')%Qc. rewrite IH. apply Qcplus_assoc. Qed.

Lemma qsum_cons a l : qsum (a :: l) = (a + qsum l)%Qc.
Proof. reflexivity. Qed.

Lemma add_from_data ds : forall d r, made d -> Forall made ds -> add_from d ds = Some r ->
  made r /\ dkind r = dkind d /\ variables r = variables d /\ shape (data r) = shape (data d) /\
  (forall j, nth j (flat (data r)) 0%Qc =
     if j <? axis (data d) then nth j (flat (data d)) 0%Qc else qsum (map (fun x => nth j (flat (data x)) 0%Qc) (d :: ds))) /\
  Forall (fun x => dkind x = dkind d /\ variables x = variables d /\ shape (data x) = shape (data d)) ds.
Proof.
  induction ds as [|x ds IH]; intros d r Md F H; cbn [add_from] in H.
  - inversion H; subst. repeat split; auto; try apply Md. intro j. destruct (j <? axis (data r)); [reflexivity|]. cbn [map qsum fold_right]. symmetry. apply Qcplus_0_r.
  - inversion F as [|? ? Mx Fs]; subst. destruct (dat_add d x) as [s|] eqn:E; [|discriminate].
    assert (Wx : well_shaped (data x)) by apply Mx.
    destruct (dat_add_inv _ _ _ Md Wx E) as (K0 & K1 & V1 & K2 & V2 & Ms & _ & _ & Ex).
    assert (Wd : well_shaped (data d)) by apply Md.
    destruct (combine_data_nth _ _ _ Wd Wx Ex) as (S1 & S2 & W2 & Nj).
    destruct (IH s r Ms Fs H) as (Mr & Kr & Vr & Sr & Nr & Fr).
    assert (Ax : axis (data s) = axis (data d)) by (unfold axis; now rewrite S2).
    repeat split; try congruence; try apply Mr.
    + intro j. rewrite Nr, Ax. destruct (j <? axis (data d)) eqn:Ej.
      * rewrite Nj, Ej. reflexivity.
      * cbn [map]. rewrite !qsum_cons, Nj, Ej. symmetry. apply Qcplus_assoc.
    + constructor; [repeat split; congruence|]. eapply Forall_impl; [|exact Fr]. cbn. intros y (Y1 & Y2 & Y3). repeat split; congruence.
Qed.
