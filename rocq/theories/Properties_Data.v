(* Property C31: combining monitor files. *)
From Coq Require Import List String Ascii Bool Arith ZArith QArith Qcanon Lia Permutation.
From Verif Require Import PyStr DatFile DatFacts.
Import ListNotations.
Local Open Scope string_scope.
Local Open Scope list_scope.
Local Open Scope nat_scope.

(* Entry j of the combined data is the sum over all files, but for the axis rows, which
   are those of the first file.  One dimensional files keep their axis above the last three
   rows (intensity, error, events); two dimensional files have no axis rows. *)
Theorem C31_data_added :
  forall d ds r, made d -> Forall made ds -> combine_mccode_dats (d :: ds) = Some r ->
    shape (data r) = shape (data d) /\ variables r = variables d /\ dkind r = dkind d /\
    forall j, nth j (flat (data r)) 0%Qc =
      if j <? axis (data d) then nth j (flat (data d)) 0%Qc
      else qsum (map (fun x => nth j (flat (data x)) 0%Qc) (d :: ds)).
Proof.
  intros d ds r Md F H. destruct (add_from_data ds d r Md F H) as (_ & K & V & S & N & _). auto.
Qed.
Print Assumptions C31_data_added.

(* Any order: the same counts, and the same axis if the files agree about it. *)
Theorem C31_order_does_not_matter :
  forall l l' r r', Permutation l l' -> Forall made l ->
    combine_mccode_dats l = Some r -> combine_mccode_dats l' = Some r' ->
    shape (data r) = shape (data r') /\
    (forall j, axis (data r) <= j -> nth j (flat (data r)) 0%Qc = nth j (flat (data r')) 0%Qc) /\
    ((forall x y j, In x l -> In y l -> j < axis (data r) -> nth j (flat (data x)) 0%Qc = nth j (flat (data y)) 0%Qc) ->
     forall j, nth j (flat (data r)) 0%Qc = nth j (flat (data r')) 0%Qc).
Proof.
  intros l l' r r' P M H H'. assert (M' : Forall made l') by (eapply Permutation_Forall; eauto).
  destruct l as [|d ds]; [discriminate|]. destruct l' as [|e es]; [discriminate|].
  inversion M as [|? ? Md Mds]; inversion M' as [|? ? Me Mes]; subst.
  destruct (add_from_data ds d r Md Mds H) as (_ & _ & _ & S & N & F).
  destruct (add_from_data es e r' Me Mes H') as (_ & _ & _ & S' & N' & F').
  assert (Sd : shape (data e) = shape (data d)).
  { assert (I : In e (d :: ds)) by (eapply Permutation_in; [apply Permutation_sym; exact P|now left]).
    destruct I as [->|I]; [reflexivity|]. rewrite Forall_forall in F. now destruct (F e I) as (_ & _ & ?). }
  assert (Ax : axis (data e) = axis (data d)) by (unfold axis; now rewrite Sd).
  assert (Ar : axis (data r) = axis (data d)) by (unfold axis; now rewrite S).
  assert (Q : forall j, qsum (map (fun x => nth j (flat (data x)) 0%Qc) (d :: ds)) = qsum (map (fun x => nth j (flat (data x)) 0%Qc) (e :: es)))
    by (intro j; apply qsum_perm, Permutation_map, P).
  assert (G : forall j, axis (data r) <= j -> nth j (flat (data r)) 0%Qc = nth j (flat (data r')) 0%Qc).
  { intros j Hj. rewrite N, N', Ax. replace (j <? axis (data d)) with false by (symmetry; apply Nat.ltb_ge; lia). apply Q. }
  split; [congruence|]. split; [exact G|].
  intros A j. destruct (Nat.lt_ge_cases j (axis (data r))) as [Lt|Ge]; [|auto].
  rewrite N, N', Ax. replace (j <? axis (data d)) with true by (symmetry; apply Nat.ltb_lt; lia).
  apply A; auto; [now left|]. eapply Permutation_in; [apply Permutation_sym; exact P|now left].
Qed.
Print Assumptions C31_order_does_not_matter.

(* Any grouping. *)
Theorem C31_grouping_does_not_matter :
  forall l l' a b r r', Forall made (l ++ l') ->
    combine_mccode_dats l = Some a -> combine_mccode_dats l' = Some b -> dat_add a b = Some r ->
    combine_mccode_dats (l ++ l') = Some r' ->
    shape (data r) = shape (data r') /\ forall j, nth j (flat (data r)) 0%Qc = nth j (flat (data r')) 0%Qc.
Proof.
  intros l l' a b r r' M Ha Hb Hr Hr'. apply Forall_app in M as [M M'].
  destruct l as [|d ds]; [discriminate|]. destruct l' as [|e es]; [discriminate|].
  inversion M as [|? ? Md Mds]; inversion M' as [|? ? Me Mes]; subst.
  destruct (add_from_data ds d a Md Mds Ha) as (Ma & _ & _ & S & N & F).
  destruct (add_from_data es e b Me Mes Hb) as (Mb & _ & _ & S' & N' & F').
  assert (Hr2 : add_from a [b] = Some r) by (cbn [add_from]; now rewrite Hr).
  destruct (add_from_data [b] a r Ma ltac:(repeat constructor; apply Mb) Hr2) as (_ & _ & _ & S2 & N2 & F2).
  assert (F3 : Forall made (ds ++ e :: es)) by (apply Forall_app; auto).
  destruct (add_from_data (ds ++ e :: es) d r' Md F3 Hr') as (_ & _ & _ & S3 & N3 & _).
  inversion F2 as [|? ? (_ & _ & Sab) _]; subst.
  assert (A1 : axis (data a) = axis (data d)) by (unfold axis; now rewrite S).
  assert (A2 : axis (data e) = axis (data d)) by (unfold axis; now rewrite <- S', Sab, S).
  split; [congruence|]. intro j. rewrite N2, N3, A1. destruct (j <? axis (data d)) eqn:E.
  - now rewrite N, E.
  - cbn [map]. rewrite !qsum_cons, N, N', A2, E. cbn [map]. rewrite map_app, qsum_app. cbn [map]. rewrite !qsum_cons.
    change (qsum []) with 0%Qc. ring.
Qed.
Print Assumptions C31_grouping_does_not_matter.

(* Ncount (and every other key that contains the word): the sum. *)
Definition zsum (l : list Z) : Z := fold_right Z.add 0%Z l.
Definition int_at (k : string) (d : dat) : option Z := match get (metadata d) k with Some v => int_of v | None => None end.
Theorem C31_ncount_added :
  forall ds d r k, made d -> Forall made ds -> combine_mccode_dats (d :: ds) = Some r ->
    contains "Ncount" k = true -> Forall (fun x => get (metadata x) k <> None) ds -> int_at k d <> None ->
    exists zs, map (int_at k) (d :: ds) = map Some zs /\ int_at k r = Some (zsum zs).
Proof.
  induction ds as [|x ds IH]; intros d r k Md F H K G D.
  - inversion H; subst. destruct (int_at k r) as [z|] eqn:E; [|congruence]. exists [z]. split; [cbn; now rewrite E|]. cbn. now rewrite Z.add_0_r.
  - cbn [combine_mccode_dats add_from] in H. destruct (dat_add d x) as [s|] eqn:E; [|discriminate].
    inversion F as [|? ? Mx Fs]; inversion G as [|? ? Gx Gs]; subst.
    assert (Wx : well_shaped (data x)) by apply Mx.
    destruct (dat_add_inv _ _ _ Md Wx E) as (_ & _ & _ & _ & _ & Ms & Em & _ & _).
    pose proof (combine_keys_get _ _ _ (proj1 (proj2 (proj2 Mx))) Em k) as C.
    destruct (get (metadata x) k) as [v|] eqn:Gv; [|congruence].
    assert (Pk : plain_ignored k = false) by (unfold plain_ignored, special_add; now rewrite K). rewrite Pk in C.
    destruct C as (w & m & Gw & Mg & Gs'). unfold merge, special_add in Mg. rewrite K in Mg.
    destruct (int_of w) as [zw|] eqn:Iw; [|discriminate]. destruct (int_of v) as [zv|] eqn:Iv; [|discriminate]. inversion Mg; subst m.
    assert (Ds : int_at k s = Some (zw + zv)%Z) by (unfold int_at; now rewrite Gs').
    destruct (IH s r k Ms Fs H K Gs) as (zs & Z1 & Z2); [congruence|].
    destruct zs as [|z zs]; [discriminate|]. cbn [map] in Z1. inversion Z1 as [[Z3 Z4]]. rewrite Ds in Z3. inversion Z3; subst z.
    exists (zw :: zv :: zs). cbn [map]. split.
    + unfold int_at at 1 2. rewrite Gw, Gv, Iw, Iv. now rewrite Z4.
    + rewrite Z2. cbn. now rewrite Z.add_assoc.
Qed.
Print Assumptions C31_ncount_added.

(* Other metadata: all files that have the key have the value of the first file, else an
   exception is raised; the value is kept. *)
Definition ordinary (k : string) : bool := negb (special_add k) && negb (special_concatenate k) && negb (special_ignore k).
Theorem C31_contradictions_reported_partial :
  forall ds d r k, made d -> Forall made ds -> combine_mccode_dats (d :: ds) = Some r -> ordinary k = true ->
    get (metadata r) k = get (metadata d) k /\ get (parameters r) k = get (parameters d) k /\
    Forall (fun x => (forall v, get (metadata x) k = Some v -> get (metadata d) k = Some v) /\
                     (forall v, get (parameters x) k = Some v -> get (parameters d) k = Some v)) ds.
Proof.
  induction ds as [|x ds IH]; intros d r k Md F H O.
  - inversion H; subst. repeat split; constructor.
  - cbn [combine_mccode_dats add_from] in H. destruct (dat_add d x) as [s|] eqn:E; [|discriminate].
    inversion F as [|? ? Mx Fs]; subst. assert (Wx : well_shaped (data x)) by apply Mx.
    destruct (dat_add_inv _ _ _ Md Wx E) as (_ & _ & _ & _ & _ & Ms & Em & Ep & _).
    assert (STEP : forall c b q, NoDup (keys b) -> combine_scan_dicts c b = Some q -> get q k = get c k /\ forall v, get b k = Some v -> get c k = Some v).
    { intros c b q Nb Eq. pose proof (combine_keys_get _ _ _ Nb Eq k) as C. unfold ordinary in O. apply andb_prop in O as [O O3]. apply andb_prop in O as [O1 O2].
      unfold plain_ignored in C. unfold merge in C. rewrite !negb_true_iff in *. rewrite O1, O2, O3 in C. cbn in C.
      destruct (get b k) as [v|]; [|split; [exact C|discriminate]]. destruct C as (w & m & Gw & Mg & Gs). destruct (mval_eqb w v) eqn:Ee; [|discriminate].
      apply mval_eqb_eq in Ee. inversion Mg; subst. rewrite Gw, Gs. split; [reflexivity|]. congruence. }
    destruct (STEP _ _ _ (proj1 (proj2 (proj2 Mx))) Em) as [A1 A2]. destruct (STEP _ _ _ (proj2 (proj2 (proj2 Mx))) Ep) as [B1 B2].
    destruct (IH s r k Ms Fs H O) as (C1 & C2 & C3). rewrite A1 in *. rewrite B1 in *. split; [exact C1|]. split; [exact C2|]. constructor; auto.
Qed.
Print Assumptions C31_contradictions_reported_partial.

(* When it works: same kind, variables, axes and shape; every key of a later file is in the
   first file and the values can be put together. *)
Definition dict_compat (c b : dict) : Prop :=
  forall k v, In (k, v) b -> plain_ignored k = true \/ exists w, get c k = Some w /\
    (if special_add k then int_of w <> None /\ int_of v <> None
     else if special_concatenate k then exists s t, w = VS s /\ v = VS t
     else w = v).
Definition labels (k : kind) : list string := match k with D0 => [] | D1 => ["xlabel"; "xlimits"] | D2 => ["xlabel"; "ylabel"; "xylimits"] end.
Definition compatible (a b : dat) : Prop :=
  dkind a <> D0 /\ dkind b = dkind a /\ variables b = variables a /\ shape (data b) = shape (data a) /\
  Forall (fun l => get (metadata a) l <> None /\ get (metadata b) l = get (metadata a) l) (labels (dkind a)) /\
  dict_compat (metadata a) (metadata b) /\ dict_compat (parameters a) (parameters b).

Lemma compat_merges c b : dict_compat c b -> forall k v, In (k, v) b -> mergeable c k v.
Proof.
  intros H k v I. destruct (H k v I) as [P|(w & G & Q)]; [now left|]. destruct (plain_ignored k) eqn:P; [now left|]. right. exists w.
  unfold merge. unfold plain_ignored in P. destruct (special_add k).
  - destruct Q as [Q1 Q2]. destruct (int_of w); [|congruence]. destruct (int_of v); [|congruence]. eauto.
  - destruct (special_concatenate k).
    + destruct Q as (s & t & -> & ->). cbn [not_in]. destruct (negb (contains t s)); eauto.
    + cbn in P. rewrite P. subst. assert (M : mval_eqb v v = true) by (now apply mval_eqb_eq). rewrite M. eauto.
Qed.
Lemma compat_kept c b b' r : NoDup (keys b) -> dict_compat c b -> combine_scan_dicts c b = Some r -> dict_compat c b' -> dict_compat r b'.
Proof.
  intros N H E H' k v I. destruct (H' k v I) as [P|(w & G & Q)]; [now left|]. pose proof (combine_keys_get _ _ _ N E k) as C.
  destruct (get b k) as [u|] eqn:Gb; [|right; exists w; rewrite C; auto].
  destruct (plain_ignored k) eqn:P; [now left|]. destruct C as (w' & m & G' & M & R). rewrite G in G'. inversion G'; subst w'. right. exists m. split; [exact R|].
  unfold merge in M. unfold plain_ignored in P. destruct (special_add k).
  - destruct (int_of w), (int_of u); try discriminate. inversion M; subst. split; [discriminate|tauto].
  - destruct (special_concatenate k).
    + destruct Q as (s & t & -> & ->). unfold not_in in M. destruct u as [s0|]; [|discriminate]. destruct (negb (contains s0 s)); inversion M; subst; do 2 eexists; split; reflexivity.
    + cbn in P. rewrite P in M. destruct (mval_eqb w u); inversion M; subst. reflexivity.
Qed.
Lemma label_kept c b r l : In l ["xlabel"; "xlimits"; "ylabel"; "xylimits"] -> combine_keys c b = Some r -> get r l = get c l.
Proof.
  intro L. revert c. induction b as [|[k v] t IH]; intros c H; cbn [combine_keys] in H; [now inversion H|].
  destruct (combine_key c (k, v)) as [c1|] eqn:E; [|discriminate]. rewrite (IH _ H). apply combine_key_get in E.
  destruct E as [[_ ->]|(w & m & G & M & G2)]; [reflexivity|]. rewrite G2. destruct (String.eqb_spec k l) as [->|]; [|reflexivity].
  rewrite G. unfold merge in M. cbn in L. destruct L as [<-|[<-|[<-|[<-|[]]]]]; cbn in M; destruct (mval_eqb w v); congruence.
Qed.
Lemma compatible_adds a b : made a -> made b -> compatible a b -> exists r, dat_add a b = Some r.
Proof.
  intros (Pa & Wa & Na & Qa) (_ & Wb & Nb & Qb) (K0 & K & V & S & L & Cm & Cp).
  destruct (combine_keys_ok _ _ Nb (compat_merges _ _ Cm)) as [m Em]. destruct (combine_keys_ok _ _ Qb (compat_merges _ _ Cp)) as [p Ep].
  assert (SF : safe_to_combine a b = Some true).
  { unfold safe_to_combine. rewrite K. rewrite V, S. assert (R1 : lists_eqb (variables a) (variables a) = true) by (now apply lists_eqb_eq).
    assert (R2 : nats_eqb (shape (data a)) (shape (data a)) = true) by (now apply nats_eqb_eq).
    assert (ME : forall l, In l (labels (dkind a)) -> meta_eq l a b = Some true).
    { intros l I. rewrite Forall_forall in L. destruct (L l I) as [L1 L2]. unfold meta_eq. rewrite L2. destruct (get (metadata a) l) as [v|]; [|congruence].
      assert (M : mval_eqb v v = true) by (now apply mval_eqb_eq). now rewrite M. }
    destruct (dkind a); [congruence| |]; rewrite R1; cbn [negb]; rewrite !ME, ?R2 by (cbn; tauto); reflexivity. }
  assert (SH : exists x, combine_scan_data (data a) (data b) = Some x).
  { unfold combine_scan_data. rewrite S. assert (R2 : nats_eqb (shape (data a)) (shape (data a)) = true) by (now apply nats_eqb_eq). rewrite R2.
    unfold post_init in Pa. destruct (dkind a); [congruence| |].
    - destruct (nx_of (metadata a)); [|discriminate]. destruct (zshape_is _ _) eqn:Zs.
      + apply zshape_is_refl in Zs. destruct (shape (data a)) as [|? [|? [|? ?]]]; try discriminate. eauto.
      + destruct (shape (data a)) as [|? [|? [|? ?]]]; try discriminate. eauto.
    - destruct (nxy_of (metadata a)) as [[? ?]|]; [|discriminate]. destruct (zshape_is _ _) eqn:Zs.
      + apply zshape_is_refl in Zs. destruct (shape (data a)) as [|? [|? [|? [|? ?]]]]; try discriminate. eauto.
      + destruct (shape (data a)) as [|? [|? [|? ?]]]; try discriminate. eauto. }
  destruct SH as [x Ex]. unfold dat_add. rewrite SF. unfold combine_scan_dicts. rewrite Em, Ep. unfold combine_scan_lists.
  rewrite <- V. assert (R1 : lists_eqb (variables b) (variables b) = true) by (now apply lists_eqb_eq). rewrite R1, Ex.
  destruct (combine_data_nth _ _ _ Wa Wb Ex) as (_ & S2 & _ & _). rewrite V. destruct a as [ka ma pa va xa]. eexists. cbn [dkind metadata parameters variables data] in *.
  assert (Kk : kind_after ka = ka) by (destruct ka; [congruence|reflexivity|reflexivity]). rewrite Kk.
  apply (made_again ka ma m pa p va xa x Kk Pa); auto. now apply combine_type with (b := metadata b).
Qed.
Theorem C31_compatible_files_combine :
  forall ds d, made d -> Forall made ds -> Forall (compatible d) ds -> exists r, combine_mccode_dats (d :: ds) = Some r.
Proof.
  induction ds as [|x ds IH]; intros d Md F C; [eexists; reflexivity|]. inversion F as [|? ? Mx Fs]; inversion C as [|? ? Cx Cs]; subst.
  destruct (compatible_adds d x Md Mx Cx) as [s E]. cbn [combine_mccode_dats add_from]. rewrite E.
  assert (Wx : well_shaped (data x)) by apply Mx. assert (Wd : well_shaped (data d)) by apply Md.
  destruct (dat_add_inv _ _ _ Md Wx E) as (K0 & K1 & V1 & K2 & V2 & Ms & Em & Ep & Ex).
  destruct (combine_data_nth _ _ _ Wd Wx Ex) as (S1 & S2 & _ & _).
  apply (IH s Ms Fs). apply Forall_forall. intros y Iy. rewrite Forall_forall in Cs. destruct (Cs y Iy) as (_ & Ky & Vy & Sy & Ly & Cm & Cp).
  destruct Cx as (_ & _ & _ & _ & Lx & Cmx & Cpx).
  unfold compatible. rewrite K2, V2, S2. split; [exact K0|]. split; [exact Ky|]. split; [exact Vy|]. split; [exact Sy|]. split; [|split].
  - apply Forall_forall. intros l Il. rewrite Forall_forall in Ly. destruct (Ly l Il) as [Y1 Y2].
    assert (Lk : get (metadata s) l = get (metadata d) l).
    { apply (label_kept (metadata d) (metadata x)); auto. destruct (dkind d); cbn in Il |- *; tauto. }
    rewrite Lk. auto.
  - exact (compat_kept _ _ _ _ (proj1 (proj2 (proj2 Mx))) Cmx Em Cm).
  - exact (compat_kept _ _ _ _ (proj2 (proj2 (proj2 Mx))) Cpx Ep Cp).
Qed.
Print Assumptions C31_compatible_files_combine.

Definition q (z : Z) : Qc := Q2Qc (inject_Z z).
Definition meta1 (n seed : string) : dict :=
  [("Ncount", VS n); ("Seed", VS seed); ("type", VS "array_1d(2)"); ("xlabel", VS "x [m]"); ("xlimits", VS "0 1"); ("variables", VS "x I I_err N")].
Definition file1 (n seed : string) (l : list Z) : dat :=
  mkDat D1 (meta1 n seed) [("a", VS "1")] ["x"; "I"; "I_err"; "N"] (mkArr [4; 2] (map q l)).
Example C31_example :
  let a := file1 "10" "1" [0; 1; 5; 6; 3; 3; 2; 2]%Z in
  let b := file1 "20" "2" [0; 1; 7; 8; 4; 4; 1; 1]%Z in
  made a /\ made b /\ compatible a b /\
  exists r, combine_mccode_dats [a; b] = Some r /\ flat (data r) = map q [0; 1; 12; 14; 7; 7; 3; 3]%Z /\ get (metadata r) "Ncount" = Some (VI 30).
Proof.
  cbv zeta. assert (N : forall n s, NoDup (keys (meta1 n s))) by (intros; repeat constructor; cbn; intuition discriminate).
  assert (M : forall n s l, List.length l = 8 -> made (file1 n s l)).
  { intros n s l L. unfold made. split; [reflexivity|]. split; [unfold well_shaped; cbn [data file1 flat]; rewrite map_length; exact L|]. split; [apply N|repeat constructor; cbn; tauto]. }
  split; [now apply M|]. split; [now apply M|]. split.
  - unfold compatible. cbn [dkind file1 variables data shape metadata parameters labels]. split; [discriminate|]. repeat (split; [reflexivity|]). split; [repeat constructor; try discriminate; reflexivity|].
    split; intros k v I; cbn in I.
    + repeat match goal with H : _ \/ _ |- _ => destruct H as [H|H] end; try contradiction; inversion I; subst; right; eexists; (split; [reflexivity|]); cbn;
        try reflexivity; try (split; discriminate); eauto.
    + destruct I as [I|[]]. inversion I; subst. right. eexists. split; reflexivity.
  - eexists. split; [reflexivity|]. split; [|reflexivity]. vm_compute. reflexivity.
Qed.

(* Zero dimensional files cannot be combined at all: with nothing. *)
Theorem C31_zero_dimensional_refuted :
  forall a b, dkind a = D0 -> made a -> well_shaped (data b) -> dat_add a b = None.
Proof.
  intros a b K M W. destruct (dat_add a b) as [r|] eqn:E; [|reflexivity]. destruct (dat_add_inv _ _ _ M W E) as (K0 & _). congruence.
Qed.
Print Assumptions C31_zero_dimensional_refuted.
Example C31_zero_dimensional_example : made (mkDat D0 [("type", VS "array_0d")] [] ["I"; "I_err"; "N"] (mkArr [3] (map q [5; 1; 25]%Z))).
Proof. repeat split; repeat constructor; cbn; tauto. Qed.

(* Error bars 3 and 4 become 7, not 5. *)
Theorem C31_error_bars_refuted :
  exists a b r, made a /\ made b /\ combine_mccode_dats [a; b] = Some r /\
    nth 4 (flat (data a)) 0%Qc = q 3 /\ nth 4 (flat (data b)) 0%Qc = q 4 /\
    (nth 4 (flat (data r)) 0 * nth 4 (flat (data r)) 0)%Qc <> (q 3 * q 3 + q 4 * q 4)%Qc.
Proof.
  destruct C31_example as (Ma & Mb & _ & r & E & F & _). eexists _, _, r. split; [exact Ma|]. split; [exact Mb|]. split; [exact E|].
  split; [reflexivity|]. split; [reflexivity|]. rewrite F. intro H. apply (f_equal (fun x : Qc => Qnum x)) in H. vm_compute in H. discriminate.
Qed.
Print Assumptions C31_error_bars_refuted.

(* A parameter whose name contains one of the words signal, statistics, values: two runs
   with different values are combined without complaint. *)
Theorem C31_contradiction_accepted_refuted :
  exists a b r, made a /\ made b /\ get (parameters a) "use_values" = Some (VS "1") /\ get (parameters b) "use_values" = Some (VS "2") /\
    combine_mccode_dats [a; b] = Some r /\ get (parameters r) "use_values" = Some (VS "1").
Proof.
  exists (mkDat D1 (meta1 "1" "1") [("use_values", VS "1")] ["x"; "I"; "I_err"; "N"] (mkArr [4; 2] (map q [0; 1; 5; 6; 3; 3; 2; 2]%Z))).
  exists (mkDat D1 (meta1 "1" "1") [("use_values", VS "2")] ["x"; "I"; "I_err"; "N"] (mkArr [4; 2] (map q [0; 1; 5; 6; 3; 3; 2; 2]%Z))).
  eexists. repeat split; try (repeat constructor; cbn; intuition discriminate); try reflexivity.
Qed.
Print Assumptions C31_contradiction_accepted_refuted.
(* The header line with the totals stays that of the first file. *)
Theorem C31_totals_in_header_refuted :
  exists a b r, made a /\ made b /\ combine_mccode_dats [a; b] = Some r /\
    get (metadata a) "values" = Some (VS "11 3 4") /\ get (metadata b) "values" = Some (VS "15 4 2") /\ get (metadata r) "values" = Some (VS "11 3 4").
Proof.
  exists (mkDat D1 (meta1 "1" "1" ++ [("values", VS "11 3 4")]) [] ["x"; "I"; "I_err"; "N"] (mkArr [4; 2] (map q [0; 1; 5; 6; 3; 3; 2; 2]%Z))).
  exists (mkDat D1 (meta1 "1" "1" ++ [("values", VS "15 4 2")]) [] ["x"; "I"; "I_err"; "N"] (mkArr [4; 2] (map q [0; 1; 7; 8; 3; 3; 1; 1]%Z))).
  eexists. repeat split; try (repeat constructor; cbn; intuition discriminate); try reflexivity.
Qed.
Print Assumptions C31_totals_in_header_refuted.
(* Whether files combine depends on their order. *)
Theorem C31_order_decides_success_refuted :
  exists a b r, made a /\ made b /\ combine_mccode_dats [a; b] = Some r /\ combine_mccode_dats [b; a] = None.
Proof.
  exists (mkDat D1 (meta1 "1" "1" ++ [("title", VS "t")]) [("a", VS "1")] ["x"; "I"; "I_err"; "N"] (mkArr [4; 2] (map q [0; 1; 5; 6; 3; 3; 2; 2]%Z))).
  exists (file1 "1" "1" [0; 1; 5; 6; 3; 3; 2; 2]%Z).
  eexists. repeat split; try (repeat constructor; cbn; intuition discriminate); try reflexivity.
Qed.
Print Assumptions C31_order_decides_success_refuted.
(* A one dimensional file with as many bins as variables is not transposed when read: the
   rows of the file are taken for the variables. *)
Theorem C31_square_file_refuted :
  exists m p rows d, read_mccode_dat m p rows = Some d /\ well_shaped rows /\ variables d = ["x"; "I"; "I_err"; "N"] /\
    (* four lines x I I_err N *)
    flat rows = map q [0; 5; 3; 2;  1; 6; 3; 2;  2; 7; 3; 2;  3; 8; 3; 2]%Z /\
    (* the variable I *)
    firstn 4 (skipn 4 (flat (data d))) = map q [1; 6; 3; 2]%Z.
Proof.
  exists [("type", VS "array_1d(4)"); ("variables", VS "x I I_err N")], [], (mkArr [4; 4] (map q [0; 5; 3; 2;  1; 6; 3; 2;  2; 7; 3; 2;  3; 8; 3; 2]%Z)).
  eexists. repeat split.
Qed.
Print Assumptions C31_square_file_refuted.
(* Otherwise the variable j of bin i is number j of line i. *)
Lemma nth_blocks {A} (f : nat -> list A) d r i : (forall j, List.length (f j) = r) -> i < r -> forall L k, k < List.length L ->
  nth (k * r + i) (flat_map f L) d = nth i (f (nth k L 0)) d.
Proof.
  intros Hf Hi. induction L as [|x L IH]; intros k Hk; [cbn in Hk; lia|]. cbn [flat_map]. destruct k as [|k].
  - cbn [mult plus nth]. now rewrite app_nth1 by (rewrite Hf; exact Hi).
  - cbn [nth]. rewrite app_nth2 by (rewrite Hf; lia). rewrite Hf. replace (S k * r + i - r) with (k * r + i) by lia. apply IH. cbn in Hk. lia.
Qed.
Lemma transpose_nth r c l i j : i < r -> j < c -> nth (j * r + i) (transpose r c l) 0%Qc = nth (i * c + j) l 0%Qc.
Proof.
  intros Hi Hj. unfold transpose. rewrite (nth_blocks _ _ r i).
  - rewrite seq_nth by exact Hj. unfold column. cbn [plus].
    rewrite (nth_indep _ 0%Qc (nth (0 * c + j) l 0%Qc)) by (rewrite map_length, seq_length; exact Hi).
    rewrite (map_nth (fun i => nth (i * c + j) l 0%Qc)). now rewrite seq_nth.
  - intro k. unfold column. now rewrite map_length, seq_length.
  - exact Hi.
  - now rewrite seq_length.
Qed.
Theorem C31_columns_read_partial :
  forall m p rows d nx, read_mccode_dat m p rows = Some d -> dkind d = D1 -> nx_of m = Some (Z.of_nat nx) ->
    shape rows = [nx; List.length (variables d)] -> nx <> List.length (variables d) ->
    shape (data d) = [List.length (variables d); nx] /\
    forall i j, i < nx -> j < List.length (variables d) ->
      nth (j * nx + i) (flat (data d)) 0%Qc = nth (i * List.length (variables d) + j) (flat rows) 0%Qc.
Proof.
  intros m p rows d nx H K Nx S Ne. unfold read_mccode_dat in H. destruct (get m "type") as [[t|]|]; try discriminate.
  set (v := split_char " " _) in *.
  destruct (startswith "array_0d" t).
  { unfold post_init in H. cbn [dkind variables data] in H. destruct (nats_eqb _ _); [inversion H; subst; discriminate|]. destruct (size rows =? _); inversion H; subst; discriminate. }
  destruct (startswith "array_1d" t).
  - unfold post_init in H. cbn [dkind variables data metadata] in H. rewrite Nx in H. destruct (zshape_is _ _) eqn:Zs.
    + inversion H; subst d. cbn [variables] in *. apply zshape_is_refl in Zs. rewrite S in Zs. cbn in Zs. inversion Zs. lia.
    + destruct (shape rows) as [|a [|b [|? ?]]] eqn:Sr; try discriminate. destruct (_ && _) eqn:E; [|discriminate]. apply andb_prop in E as [E1 E2].
      apply Z.eqb_eq in E1. apply Nat.eqb_eq in E2. assert (a = nx) by lia. inversion H; subst d. cbn [variables data shape flat] in *. subst a.
      inversion S; subst b. split; [reflexivity|]. intros i j Hi Hj. now apply transpose_nth.
  - destruct (startswith "array_2d" t); [|discriminate]. unfold post_init in H. cbn [dkind variables data metadata] in H.
    destruct (nxy_of m) as [[a b]|]; [|discriminate]. destruct (zshape_is _ _); [inversion H; subst; discriminate|].
    destruct (shape rows) as [|a1 [|b1 [|? ?]]]; try discriminate. destruct (_ && _); inversion H; subst; discriminate.
Qed.
Print Assumptions C31_columns_read_partial.
Example C31_columns_read_example :
  let m := [("type", VS "array_1d(2)"); ("variables", VS "x I I_err N")] in
  exists d, read_mccode_dat m [] (mkArr [2; 4] (map q [0; 5; 3; 2; 1; 6; 3; 2]%Z)) = Some d /\ dkind d = D1 /\ nx_of m = Some (Z.of_nat 2) /\
    flat (data d) = map q [0; 1; 5; 6; 3; 3; 2; 2]%Z.
Proof. cbv zeta. eexists. split; [reflexivity|]. repeat split. Qed.
