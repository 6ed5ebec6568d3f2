(* Model of run/range.py:157-190 (parameters_to_scan) and of the scan loop of
   run/runner.py:161-188 (mccode_run_scan). *)
From Coq Require Import String List Bool ZArith QArith Lia FinFun.
From Verif Require Import PyStr Range.
Import ListNotations.
Local Open Scope Z_scope.

(* parameter values: numbers or texts (run/range.py:127-135) *)
Inductive val := VNum (q : Q) | VStr (s : string).

(* run/range.py:157  the kinds of entry of the dictionary: MRange, Singular(value, maximum),
   list, or a plain scalar (line 172 turns a non-iterable x into [x]). Text given directly
   as an entry (which Python would iterate character by character) is not modelled. *)
Inductive item :=
| IRange (r : mrange)
| ISing (v : val) (maximum : option Z)
| IList (l : list val)
| IScalar (v : val).

(* list(MRange) with enough fuel; see [mrange_values_ok] *)
Definition mrange_values (r : mrange) : list Q :=
  match mrange_list (S (S (npts (mr_start r) (mr_stop r) (mr_step r)))) r with
  | Some l => l | None => [] end.

(* len(x): run/range.py:52, 122-123; None is the exception Python raises
   (TypeError for Singular without maximum, ValueError for a negative length) *)
Definition item_len (i : item) : option Z :=
  match i with
  | IRange r => mrange_len r
  | ISing _ None => None
  | ISing _ (Some m) => if m <? 0 then None else Some m
  | IList l => Some (Z.of_nat (length l))
  | IScalar _ => Some 1
  end.

(* list(x): run/range.py:31, 109-120. The endless iterator of a Singular without maximum
   is never reached because len(x) raises first. *)
Definition item_values (i : item) : list val :=
  match i with
  | IRange r => map VNum (mrange_values r)
  | ISing v m => repeat v (Z.to_nat (match m with Some m => m | None => 0 end))
  | IList l => l
  | IScalar v => [v]
  end.

(** a list comprehension in which every item may raise *)
Fixpoint mapM {A B} (f : A -> option B) (l : list A) : option (list B) :=
  match l with
  | [] => Some []
  | x :: r => match f x, mapM f r with Some y, Some ys => Some (y :: ys) | _, _ => None end
  end.

(* itertools.product over ls *)
Fixpoint product {A} (ls : list (list A)) : list (list A) :=
  match ls with
  | [] => [[]]
  | l :: r => flat_map (fun x => map (cons x) (product r)) l
  end.

(* zip over ls: one round takes the head of every list, stops when one is empty *)
Fixpoint heads {A} (ls : list (list A)) : option (list A * list (list A)) :=
  match ls with
  | [] => Some ([], [])
  | [] :: _ => None
  | (x :: l) :: r => match heads r with Some (h, t) => Some (x :: h, l :: t) | None => None end
  end.
(** zip, run/range.py:157-190 *)
Fixpoint zip_rounds {A} (fuel : nat) (ls : list (list A)) : list (list A) :=
  match fuel with
  | O => []
  | S f => match heads ls with Some (h, t) => h :: zip_rounds f t | None => [] end
  end.
(* the first list bounds the number of rounds *)
Definition zip {A} (ls : list (list A)) : list (list A) :=
  match ls with [] => [] | l :: _ => zip_rounds (length l) ls end.

(** the product of numbers *)
Definition prodZ (l : list Z) : Z := fold_right Z.mul 1 l.
(** max *)
Definition maxZ (l : list Z) : Z := match l with [] => 0 | x :: r => fold_left Z.max r x end.

(* run/range.py:190  v if len(v) > 1 else Singular(v[0] if MRange else v.value, n_max) *)
Definition linear_values (n_max : Z) (i : item) : option (list val) :=
  match item_len i with
  | None => None
  | Some n =>
      if 1 <? n then Some (item_values i)
      else match i with
           | IRange r => match mrange_get r 0 with
                         | Some v => Some (repeat (VNum v) (Z.to_nat n_max)) | None => None end
           | ISing v _ => Some (repeat v (Z.to_nat n_max))
           | IList _ | IScalar _ => None          (* list has no attribute 'value' *)
           end
  end.

(* run/range.py:157-190; the result is (n_pts, names, list(iterator)); None is an exception *)
Definition to_scan (params : list (string * item)) (grid : bool)
  : option (Z * list string * list (list val)) :=
  let items := map (fun p => match grid, snd p with
                             | true, ISing v _ => ISing v (Some 1)
                             | _, i => i end) params in
  let names := map (fun p => lower (fst p)) params in
  match items with
  | [] => Some (0, names, [])
  | _ =>
    match mapM item_len items with
    | None => None
    | Some lens =>
        if grid then Some (prodZ lens, names, product (map item_values items))
        else
          let n_max := maxZ lens in
          if existsb (fun n => (1 <? n) && negb (n =? n_max)) lens then None
          else match mapM (linear_values n_max) items with
               | None => None
               | Some ls => Some (n_max, names, zip ls)
               end
    end
  end.

(* ---------- facts ---------- *)
Definition valid_range (r : mrange) : Prop := ~ (mr_step r == 0)%Q.
(** specification: what is asked of a range *)
Definition valid_item (i : item) : Prop :=
  match i with IRange r => valid_range r | _ => True end.
(** specification: the range has at least two points *)
Definition two_points (r : mrange) : Prop :=
  not_past (mr_stop r) (mr_step r) (mr_start r + mr_step r).

Lemma two_points_dec r : {two_points r} + {~ two_points r}.
Proof.
  destruct (keep_going (mr_stop r) (mr_step r) (mr_start r)) eqn:E.
  - left. apply keep_going_spec, E.
  - right. intros H. apply keep_going_spec in H. congruence.
Qed.

Lemma mrange_values_ok r : valid_range r ->
  mrange_list (S (S (npts (mr_start r) (mr_stop r) (mr_step r)))) r = Some (mrange_values r).
Proof.
  intros Hv. unfold mrange_values.
  destruct (two_points_dec r) as [H|H].
  - rewrite (mrange_list_two_points r Hv H); [reflexivity | lia].
  - rewrite (mrange_list_fewer r); [reflexivity | lia | exact H].
Qed.

Lemma mrange_values_two r : valid_range r -> two_points r ->
  lists_grid (mr_start r) (mr_stop r) (mr_step r) (mrange_values r) /\
  mrange_len r = Some (Z.of_nat (length (mrange_values r))).
Proof.
  intros Hv H2. pose proof (mrange_values_ok r Hv) as HL. split.
  - eapply mrange_list_grid; eassumption.
  - eapply mrange_list_length; eassumption.
Qed.

Lemma mrange_values_few r : valid_range r -> ~ two_points r -> mrange_values r = [].
Proof.
  intros Hv H2. unfold mrange_values. rewrite mrange_list_fewer; [reflexivity | lia | exact H2].
Qed.

(* when fewer than two points fit, the announced length is at most one *)
Lemma mrange_len_few r n : valid_range r -> ~ two_points r -> mrange_len r = Some n -> n <= 1.
Proof.
  intros Hv H2 Hl. destruct (Z.le_gt_cases n 1) as [|Hn]; [assumption|].
  exfalso. apply H2. unfold mrange_len in Hl.
  destruct (mrange_len_raw r <? 0)%Z; [discriminate|]. injection Hl as <-.
  unfold mrange_len_raw in Hn.
  set (q := ((mr_stop r - mr_start r) / mr_step r)%Q) in *.
  assert (H0 : (0 <= q)%Q).
  { apply Qnot_lt_le. intros HH. assert (Hq : (q <= 0)%Q) by (apply Qlt_le_weak; exact HH).
    apply Qtrunc_le0 in Hq. lia. }
  assert (HH : (inject_Z (Z.of_nat 1) <= q)%Q) by (apply (inject_le_floor q 1 H0); lia).
  apply (not_past_ratio (mr_start r) (mr_stop r) (mr_step r) 1 Hv) in HH.
  unfold two_points. apply not_past_compat with (grid_pt (mr_start r) (mr_step r) 1); [|exact HH].
  rewrite grid_pt_S, grid_pt_0. reflexivity.
Qed.

Lemma mapM_length {A B} (f : A -> option B) l r : mapM f l = Some r -> length r = length l.
Proof.
  revert r; induction l as [|x l IH]; simpl; intros r H; [injection H as <-; reflexivity|].
  destruct (f x); [|discriminate]. destruct (mapM f l); [|discriminate]. injection H as <-.
  simpl. f_equal. apply IH; reflexivity.
Qed.

Lemma mapM_Forall2 {A B} (f : A -> option B) l r :
  mapM f l = Some r -> Forall2 (fun x y => f x = Some y) l r.
Proof.
  revert r; induction l as [|x l IH]; simpl; intros r H; [injection H as <-; constructor|].
  destruct (f x) eqn:E; [|discriminate]. destruct (mapM f l) eqn:E2; [|discriminate]. injection H as <-.
  constructor; [exact E | apply IH; reflexivity].
Qed.

(* product *)
Lemma product_In {A} (ls : list (list A)) t :
  In t (product ls) <-> Forall2 (fun l x => In x l) ls t.
Proof.
  revert t; induction ls as [|l ls IH]; intros t; simpl.
  - split.
    + intros [<-|[]]. constructor.
    + intros H; inversion H; left; reflexivity.
  - rewrite in_flat_map. split.
    + intros (x & Hx & Ht). apply in_map_iff in Ht as (t' & <- & Ht').
      constructor; [exact Hx | apply IH, Ht'].
    + intros H; inversion H as [|? x ? t' Hx Ht']; subst. exists x. split; [exact Hx|].
      apply in_map, IH, Ht'.
Qed.


Lemma NoDup_app_disj {A} (a b : list A) :
  NoDup a -> NoDup b -> (forall x, In x a -> ~ In x b) -> NoDup (a ++ b).
Proof.
  intros Ha Hb H. induction Ha as [|x a Hx Ha IH]; simpl; [exact Hb|].
  constructor.
  - rewrite in_app_iff. intros [H1|H1]; [contradiction | apply (H x); [left; reflexivity | exact H1]].
  - apply IH. intros y Hy. apply H. right. exact Hy.
Qed.

Lemma NoDup_flat_map_cons {A} (l : list A) (p : list (list A)) :
  NoDup l -> NoDup p -> NoDup (flat_map (fun x => map (cons x) p) l).
Proof.
  intros Hl Hp. induction Hl as [|x l Hx Hl IH]; simpl; [constructor|].
  apply NoDup_app_disj; [ | exact IH | ].
  - apply FinFun.Injective_map_NoDup; [|exact Hp]. intros a b E. injection E as E. exact E.
  - intros y Hy HH. apply in_map_iff in Hy as (t & <- & _).
    apply in_flat_map in HH as (z & Hz & HH). apply in_map_iff in HH as (t' & E & _).
    injection E as -> _. contradiction.
Qed.

Lemma product_NoDup {A} (ls : list (list A)) : Forall (@NoDup A) ls -> NoDup (product ls).
Proof.
  induction 1 as [|l ls H1 H2 IH]; simpl.
  - constructor; [intros [] | constructor].
  - apply NoDup_flat_map_cons; assumption.
Qed.

Lemma product_length {A} (ls : list (list A)) :
  length (product ls) = fold_right Nat.mul 1%nat (map (@length A) ls).
Proof.
  induction ls as [|l ls IH]; simpl; [reflexivity|].
  rewrite <- IH. generalize (product ls) as p. intros p.
  induction l as [|x l IHl]; simpl; [reflexivity|].
  rewrite app_length, map_length, IHl. reflexivity.
Qed.

(* zip *)
Lemma heads_spec {A} (ls : list (list A)) h t : heads ls = Some (h, t) ->
  Forall2 (fun l hx => l = fst hx :: snd hx) ls (combine h t) /\ length h = length ls /\ length t = length ls.
Proof.
  revert h t; induction ls as [|l ls IH]; intros h t H; simpl in H.
  - injection H as <- <-. repeat split; constructor.
  - destruct l as [|x l]; [discriminate|]. destruct (heads ls) as [[h' t']|] eqn:E; [|discriminate].
    injection H as <- <-. destruct (IH h' t' eq_refl) as (H1 & H2 & H3). simpl.
    repeat split; [constructor; [reflexivity|exact H1] | lia | lia].
Qed.

Lemma heads_len {A} (n : nat) (ls : list (list A)) :
  Forall (fun l => length l = S n) ls ->
  exists h t, heads ls = Some (h, t) /\ Forall (fun l => length l = n) t /\ length t = length ls /\
              Forall2 (fun l x => nth_error l 0 = Some x) ls h /\
              Forall2 (fun l l' => forall k, nth_error l (S k) = nth_error l' k) ls t.
Proof.
  induction 1 as [|l ls H1 H2 IH]; simpl.
  - exists [], []. repeat split; constructor.
  - destruct l as [|x l]; [discriminate|]. destruct IH as (h & t & -> & Ht & Hl & Hh & Hn).
    exists (x :: h), (l :: t). repeat split; try (constructor; [|assumption]).
    + injection H1 as H1. exact H1.
    + simpl; lia.
    + reflexivity.
    + reflexivity.
Qed.

Lemma Forall2_trans_nth {A B C} (P : A -> B -> Prop) (Q : B -> C -> Prop) (R : A -> C -> Prop) l1 l2 l3 :
  (forall a b c, P a b -> Q b c -> R a c) -> Forall2 P l1 l2 -> Forall2 Q l2 l3 -> Forall2 R l1 l3.
Proof.
  intros H H12. revert l3. induction H12; intros l3 H23; inversion H23; subst; constructor; eauto.
Qed.

Lemma zip_rounds_spec {A} (n : nat) : forall ls : list (list A),
  Forall (fun l => length l = n) ls ->
  length (zip_rounds n ls) = n /\
  forall k t, nth_error (zip_rounds n ls) k = Some t ->
              Forall2 (fun l x => nth_error l k = Some x) ls t.
Proof.
  induction n as [|n IH]; intros ls H; simpl.
  - split; [reflexivity|]. intros k t Hk. destruct k; discriminate.
  - destruct (heads_len n ls H) as (h & t & -> & Ht & Hl & Hh & Hn).
    destruct (IH t Ht) as [IH1 IH2]. split; [simpl; lia|].
    intros k u Hk. destruct k as [|k]; simpl in Hk.
    + injection Hk as <-. exact Hh.
    + specialize (IH2 k u Hk). eapply Forall2_trans_nth; [|exact Hn|exact IH2].
      intros a b c E1 E2. rewrite E1. exact E2.
Qed.

Lemma zip_spec {A} (n : nat) (ls : list (list A)) : ls <> [] ->
  Forall (fun l => length l = n) ls ->
  length (zip ls) = n /\
  forall k t, nth_error (zip ls) k = Some t -> Forall2 (fun l x => nth_error l k = Some x) ls t.
Proof.
  intros Hne H. destruct ls as [|l ls]; [congruence|]. unfold zip.
  assert (E : length l = n) by (inversion H; assumption). rewrite E.
  apply zip_rounds_spec, H.
Qed.

(* maximum *)
Lemma maxZ_ge l x : In x l -> x <= maxZ l.
Proof.
  destruct l as [|y l]; [intros []|]. simpl.
  assert (G : forall l a, (a <= fold_left Z.max l a) /\ forall x, In x l -> x <= fold_left Z.max l a).
  { clear. induction l as [|b l IH]; simpl; intros a; [split; [lia|intros x []]|].
    destruct (IH (Z.max a b)) as [H1 H2]. split; [lia|].
    intros x [<-|Hx]; [lia | apply H2, Hx]. }
  destruct (G l y) as [G1 G2]. intros [<-|Hx]; [exact G1 | apply G2, Hx].
Qed.
Lemma maxZ_In l : l <> [] -> In (maxZ l) l.
Proof.
  destruct l as [|y l]; [congruence|]. intros _. unfold maxZ.
  revert y. induction l as [|z l IH]; simpl; intros y; [left; reflexivity|].
  destruct (IH (Z.max y z)) as [E|H]; [|right; right; exact H].
  rewrite <- E. destruct (Z.max_spec y z) as [[_ ->]|[_ ->]]; [right; left; reflexivity | left; reflexivity].
Qed.

Lemma item_len_nonneg i n : item_len i = Some n -> 0 <= n.
Proof.
  destruct i as [r|v [m|]|l|v]; simpl; intros H.
  - unfold mrange_len in H. destruct (mrange_len_raw r <? 0) eqn:E; [discriminate|]. injection H as <-.
    apply Z.ltb_ge in E. exact E.
  - destruct (m <? 0) eqn:E; [discriminate|]. injection H as <-. apply Z.ltb_ge in E. exact E.
  - discriminate.
  - injection H as <-. lia.
  - injection H as <-. lia.
Qed.

(* what the k-th tuple of a linear scan must hold for an entry *)
Definition linear_value (i : item) (k : nat) (v : val) : Prop :=
  match i with
  | IRange r => if two_points_dec r then v = VNum (grid_pt (mr_start r) (mr_step r) k)
                else exists q, v = VNum q /\ (q == mr_start r)%Q
  | ISing w _ => v = w
  | IList l => nth_error l k = Some v
  | IScalar w => v = w
  end.

Lemma nth_error_repeat {A} (x : A) n k y : nth_error (repeat x n) k = Some y -> y = x.
Proof. intros H. apply nth_error_In in H. apply repeat_spec in H. exact H. Qed.

Lemma linear_values_spec n_max i l n : 0 <= n_max -> valid_item i ->
  item_len i = Some n -> ((1 <? n) && negb (n =? n_max) = false)%bool ->
  linear_values n_max i = Some l ->
  length l = Z.to_nat n_max /\ (forall k v, nth_error l k = Some v -> linear_value i k v).
Proof.
  intros Hm Hv Hn Hc HL. unfold linear_values in HL. rewrite Hn in HL.
  destruct (1 <? n) eqn:E1.
  - apply Z.ltb_lt in E1. simpl in Hc. apply negb_false_iff, Z.eqb_eq in Hc. subst n_max.
    injection HL as <-.
    destruct i as [r|v [m|]|l|v]; simpl in *; try discriminate.
    + destruct (two_points_dec r) as [H2|H2].
      * destruct (mrange_values_two r Hv H2) as [(p & Hg & _) HLn].
        rewrite HLn in Hn. injection Hn as <-.
        rewrite map_length. split; [lia|]. intros k v Hk.
        rewrite Hg in Hk. rewrite map_map in Hk.
        destruct (Nat.lt_ge_cases k p) as [Hkp|Hkp].
        -- erewrite map_nth_error in Hk.
           2:{ rewrite nth_error_nth' with (d := 0%nat) by (rewrite seq_length; exact Hkp).
               rewrite seq_nth by exact Hkp. reflexivity. }
           injection Hk as <-. reflexivity.
        -- assert (HH : nth_error (map (fun x => VNum (grid_pt (mr_start r) (mr_step r) x)) (seq 0 p)) k = None)
             by (apply nth_error_None; rewrite map_length, seq_length; exact Hkp).
           rewrite HH in Hk. discriminate.
      * pose proof (mrange_len_few r n Hv H2 Hn). lia.
    + destruct (m <? 0) eqn:E; [discriminate|]. injection Hn as ->.
      split; [apply repeat_length|]. intros k x Hk. apply nth_error_repeat in Hk. exact Hk.
    + injection Hn as <-. split; [lia|]. intros k x Hk. exact Hk.
    + injection Hn as <-. lia.
  - apply Z.ltb_ge in E1. destruct i as [r|v m|l'|v]; try discriminate.
    + destruct (mrange_get r 0) as [q|] eqn:Eg; [|discriminate]. injection HL as <-.
      split; [apply repeat_length|]. intros k x Hk. apply nth_error_repeat in Hk. subst x. simpl.
      assert (Eq : (q == mr_start r)%Q).
      { unfold mrange_get in Eg. destruct (mrange_len r); [|discriminate].
        destruct ((0 <? 0) || (z <=? 0))%bool; [discriminate|]. injection Eg as <-. simpl.
        ring. }
      destruct (two_points_dec r) as [H2|H2]; [|exists q; split; [reflexivity|exact Eq]].
      exfalso. simpl in Hv, Hn. destruct (mrange_values_two r Hv H2) as [(p & Hg & Hp) HLn].
      rewrite HLn in Hn. injection Hn as <-. rewrite Hg, map_length, seq_length in E1.
      assert (1 < p)%nat.
      { apply Hp. apply not_past_compat with (mr_start r + mr_step r)%Q; [|exact H2].
        rewrite grid_pt_S, grid_pt_0. reflexivity. }
      lia.
    + injection HL as <-. split; [apply repeat_length|].
      intros k x Hk. apply nth_error_repeat in Hk. exact Hk.
Qed.

Lemma existsb_false_In {A} (f : A -> bool) l x : existsb f l = false -> In x l -> f x = false.
Proof.
  intros H Hx. destruct (f x) eqn:E; [|reflexivity].
  assert (existsb f l = true) by (apply existsb_exists; exists x; auto). congruence.
Qed.

(* linear scans: announced count, tuple contents *)
Lemma linear_scan_spec params n names pts :
  Forall (fun p => valid_item (snd p)) params ->
  to_scan params false = Some (n, names, pts) ->
  n = Z.of_nat (length pts) /\
  names = map (fun p => lower (fst p)) params /\
  (forall k t, nth_error pts k = Some t -> Forall2 (fun p v => linear_value (snd p) k v) params t).
Proof.
  intros Hv H. unfold to_scan in H.
  assert (EM : map (fun p : string * item => snd p) params = map snd params) by reflexivity.
  rewrite EM in H. clear EM.
  destruct (map snd params) as [|i0 is0] eqn:Ei.
  - injection H as <- <- <-. destruct params; [|discriminate]. repeat split; intros k t Hk; destruct k; discriminate.
  - rewrite <- Ei in H. assert (Hne : params <> []) by (intros ->; discriminate). clear i0 is0 Ei.
    destruct (mapM item_len (map snd params)) as [lens|] eqn:E1; [|discriminate].
    destruct (existsb _ lens) eqn:E2; [discriminate|].
    destruct (mapM (linear_values (maxZ lens)) (map snd params)) as [ls|] eqn:E3; [|discriminate].
    injection H as <- <- <-.
    pose proof (mapM_length _ _ _ E1) as L1. pose proof (mapM_length _ _ _ E3) as L3.
    rewrite map_length in L1, L3.
    apply mapM_Forall2 in E1. apply mapM_Forall2 in E3.
    assert (Hpos : 0 <= maxZ lens).
    { assert (lens <> []) by (intros ->; destruct params; [congruence | discriminate]).
      pose proof (maxZ_In lens H) as Hin.
      clear - Hin E1. revert Hin. generalize (maxZ lens) as mx. intros mx Hin. induction E1 as [|i m is ms Hm E1 IH]; [destruct Hin|].
      destruct Hin as [<-|Hin]; [|apply IH, Hin]. eapply item_len_nonneg, Hm. }
    set (nm := maxZ lens) in *.
    assert (HF : Forall2 (fun p l => length l = Z.to_nat nm /\
                   forall k v, nth_error l k = Some v -> linear_value (snd p) k v) params ls).
    { clearbody nm. clear Hne L1 L3. revert lens ls E1 E2 E3. induction Hv as [|p params Hp Hv IH]; simpl; intros lens ls E1 E2 E3.
      - inversion E3; subst. constructor.
      - inversion E1 as [|? m ? ms H1 H2]; subst. inversion E3 as [|? l ? ls' H3 H4]; subst.
        simpl in E2. apply orb_false_iff in E2 as [E2 E2'].
        constructor; [|eapply IH; eassumption].
        eapply linear_values_spec; eassumption. }
    assert (Hlsne : ls <> []) by (intros ->; destruct params; [congruence | discriminate]).
    assert (HFl : Forall (fun l => length l = Z.to_nat nm) ls).
    { clear - HF. induction HF as [|p l ps ls [H _] HF IH]; constructor; assumption. }
    destruct (zip_spec (Z.to_nat nm) ls Hlsne HFl) as [Z1 Z2].
    split; [rewrite Z1; lia|]. split; [reflexivity|].
    intros k t Hk. specialize (Z2 k t Hk).
    eapply Forall2_trans_nth; [|exact HF|exact Z2]. intros p l v [_ H1] H2. apply H1, H2.
Qed.

(* grid scans *)
Definition grid_item (i : item) : item := match i with ISing v _ => ISing v (Some 1) | _ => i end.
(* values an entry contributes to a grid, stated without the iterator *)
Definition grid_value (i : item) (v : val) : Prop :=
  match i with
  | IRange r => exists k, v = VNum (grid_pt (mr_start r) (mr_step r) k) /\
                          not_past (mr_stop r) (mr_step r) (grid_pt (mr_start r) (mr_step r) k)
  | ISing w _ => v = w
  | IList l => In v l
  | IScalar w => v = w
  end.
(* the ranges on which iteration and len agree with the grid *)
Definition sound_range_item (i : item) : Prop :=
  match i with
  | IRange r => valid_range r /\ two_points r
  | _ => True
  end.

Lemma item_values_grid i v : sound_range_item i -> (In v (item_values (grid_item i)) <-> grid_value i v).
Proof.
  destruct i as [r|w m|l|w]; simpl; intros H.
  - destruct H as [Hv H2]. destruct (mrange_values_two r Hv H2) as [(n & Hg & Hn) _].
    rewrite Hg, map_map, in_map_iff. split.
    + intros (k & <- & Hk). apply in_seq in Hk. exists k. split; [reflexivity | apply Hn; lia].
    + intros (k & -> & Hk). exists k. split; [reflexivity|]. apply in_seq. apply Hn in Hk. lia.
  - split; [intros [<-|[]]; reflexivity | intros ->; left; reflexivity].
  - reflexivity.
  - split; [intros [<-|[]]; reflexivity | intros ->; left; reflexivity].
Qed.

Lemma item_len_grid i n : sound_range_item i -> item_len (grid_item i) = Some n ->
  n = Z.of_nat (length (item_values (grid_item i))).
Proof.
  destruct i as [r|w m|l|w]; simpl; intros H Hn.
  - destruct H as [Hv H2]. destruct (mrange_values_two r Hv H2) as [_ HL].
    rewrite HL in Hn. injection Hn as <-. rewrite map_length. reflexivity.
  - injection Hn as <-. reflexivity.
  - injection Hn as <-. reflexivity.
  - injection Hn as <-. reflexivity.
Qed.

Lemma grid_scan_spec params n names pts :
  Forall (fun p => sound_range_item (snd p)) params -> params <> [] ->
  to_scan params true = Some (n, names, pts) ->
  n = Z.of_nat (length pts) /\
  names = map (fun p => lower (fst p)) params /\
  (forall t, In t pts <-> Forall2 (fun p v => grid_value (snd p) v) params t) /\
  (Forall (fun p => match snd p with IList l => NoDup l | _ => True end) params -> NoDup pts).
Proof.
  intros Hv Hne H. unfold to_scan in H.
  assert (EM : map (fun p : string * item => match snd p with ISing v _ => ISing v (Some 1) | _ => snd p end) params
               = map (fun p => grid_item (snd p)) params) by reflexivity.
  assert (EM2 : map (fun p : string * item => match snd p with
        | ISing v _ => ISing v (Some 1)
        | IRange r => IRange r | IList l => IList l | IScalar v => IScalar v end) params
               = map (fun p => grid_item (snd p)) params).
  { apply map_ext. intros [s [r|v m|l|v]]; reflexivity. }
  match type of H with context [map ?f params] =>
    assert (EF : map f params = map (fun p => grid_item (snd p)) params) by
      (apply map_ext; intros [s [r|v m|l|v]]; reflexivity) end.
  rewrite EF in H. clear EF EM EM2.
  destruct (map (fun p => grid_item (snd p)) params) as [|i0 is0] eqn:Ei; [destruct params; [congruence|discriminate]|].
  rewrite <- Ei in H. clear i0 is0 Ei.
  destruct (mapM item_len _) as [lens|] eqn:E1; [|discriminate].
  injection H as <- <- <-. apply mapM_Forall2 in E1.
  split; [|split; [reflexivity|split]].
  - rewrite product_length. clear Hne. revert lens E1.
    induction Hv as [|p params Hp Hv IH]; simpl; intros lens E1.
    + inversion E1; subst. reflexivity.
    + inversion E1 as [|? m ? ms H1 H2]; subst. simpl. rewrite (IH ms H2).
      rewrite (item_len_grid _ _ Hp H1). lia.
  - intros t. rewrite product_In. rewrite map_map. clear E1 Hne. revert t.
    induction Hv as [|p params Hp Hv IH]; simpl; intros t.
    + split; intros H; inversion H; constructor.
    + split; intros H; inversion H as [|? v ? t' H1 H2]; subst; constructor;
        try (apply item_values_grid; assumption); apply IH; assumption.
  - intros HD. apply product_NoDup. rewrite map_map. clear E1 Hne.
    induction Hv as [|p params Hp Hv IH]; simpl; [constructor|].
    inversion HD as [|? ? D1 D2]; subst. constructor; [|apply IH, D2].
    destruct (snd p) as [r|w m|l|w]; simpl in *.
    + destruct Hp as [Hvr H2]. destruct (mrange_values_two r Hvr H2) as [(k & Hg & _) _].
      rewrite Hg, map_map. apply FinFun.Injective_map_NoDup; [|apply seq_NoDup].
      intros a b E0.
      assert (E : grid_pt (mr_start r) (mr_step r) a = grid_pt (mr_start r) (mr_step r) b) by congruence.
      destruct (Nat.eq_dec a b) as [|Hab]; [assumption|]. exfalso.
      assert (EQ : (grid_pt (mr_start r) (mr_step r) a == grid_pt (mr_start r) (mr_step r) b)%Q) by (rewrite E; reflexivity).
      unfold grid_pt in EQ.
      assert (EQ2 : (inject_Z (Z.of_nat a) * mr_step r == inject_Z (Z.of_nat b) * mr_step r)%Q).
      { apply (Qplus_inj_r _ _ (mr_start r)). exact EQ. }
      apply Qmult_inj_r in EQ2; [|exact Hvr]. unfold Qeq in EQ2; simpl in EQ2. lia.
    + constructor; [intros []|constructor].
    + exact D1.
    + constructor; [intros []|constructor].
Qed.

(* ---------- run/runner.py:161-188  mccode_run_scan ---------- *)

(* printing of values and ranges (run/range.py:46-47, 95-96); number formatting is abstract *)
Section RunScan.
Variable str_num : Q -> string.
Local Open Scope string_scope.
(** str of a value, run/range.py:95-96 *)
Definition str_val (v : val) : string := match v with VNum q => str_num q | VStr s => s end.
(** str of a range or of a single value, run/range.py:46-47, 95-96 *)
Definition str_item (i : item) : string :=
  match i with
  | IRange r => str_num (mr_start r) ++ ":" ++ str_num (mr_step r) ++ ":" ++ str_num (mr_stop r)
  | ISing v _ => str_val v
  | IList l => "[" ++ join ", " (map str_val l) ++ "]"
  | IScalar v => str_val v
  end.

(* run/runner.py:52-55: the text after the options, ' '.join(f'{k}={v}') *)
Definition parameter_text (ps : list (string * string)) : string :=
  join " " (map (fun kv => fst kv ++ "=" ++ snd kv) ps).

(* one run of the binary: sub-directory and parameter text.
   options = ' '.join(mccode_runtime_dict_to_args_list(args)) is the same for every run. *)
Record run := { run_dir : string; run_pars : string }.

(* run/runner.py:173-184; for n_pts > 1 the k-th run gets directory str(k) and the text of the
   *whole* parameter dictionary (line 180), whatever the values of the point are *)
Fixpoint runs_from (number : nat) (scan : list (list val)) (params : list (string * item)) : list run :=
  match scan with
  | [] => []
  | _ :: r =>
      {| run_dir := str_nat number;
         run_pars := parameter_text (map (fun p => (fst p, str_item (snd p))) params) |}
      :: runs_from (S number) r params
  end.
(** mccode_run_scan, run/runner.py:161-188 *)
Definition run_scan (params : list (string * item)) (grid : bool) : option (list run) :=
  match to_scan params grid with
  | None => None
  | Some (n_pts, names, scan) =>
      if (1 <? n_pts)%Z then Some (runs_from 0 scan params)
      else Some [{| run_dir := ""; run_pars := parameter_text (map (fun p => (fst p, str_item (snd p))) params) |}]
  end.

Lemma runs_from_length scan params : forall n, length (runs_from n scan params) = length scan.
Proof. induction scan as [|t scan IH]; intros n; simpl; [reflexivity | rewrite IH; reflexivity]. Qed.

Lemma runs_from_nth scan params : forall n k r, nth_error (runs_from n scan params) k = Some r ->
  run_dir r = str_nat (n + k) /\ (k < length scan)%nat.
Proof.
  induction scan as [|t scan IH]; intros n k r H; simpl in H; [destruct k; discriminate|].
  destruct k as [|k]; simpl in H.
  - injection H as <-. rewrite Nat.add_0_r. split; [reflexivity | simpl; lia].
  - apply IH in H. destruct H as [-> H]. split; [f_equal; lia | simpl; lia].
Qed.

Lemma runs_dirs_distinct scan params : NoDup (map run_dir (runs_from 0 scan params)).
Proof.
  assert (G : forall n, map run_dir (runs_from n scan params) = map str_nat (seq n (length scan))).
  { induction scan as [|t scan IH]; intros n; simpl; [reflexivity | rewrite IH; reflexivity]. }
  rewrite G. apply FinFun.Injective_map_NoDup; [|apply seq_NoDup].
  intros a b E. apply str_nat_inj, E.
Qed.
End RunScan.
