(** C57: literals of instrument files keep their value. *)
From Coq Require Import List Bool NArith ZArith QArith Lia.
From Verif Require Import CText Properties_CText Literal.
Import ListNotations.
Local Open Scope list_scope.
Local Open Scope N_scope.

(** * Integers: the rules of C (C99 6.4.4.1, with the binary digits and separators of C23 that the grammar takes) *)
Definition digit_of (b c : N) : option N := match unhex c with Some d => if d <? b then Some d else None | None => None end.
Definition suffix (l : list N) : bool :=
  match l with
  | [] => true
  | [a] => existsb (N.eqb a) [117; 85; 108; 76]
  | [a; b] => existsb (fun p => (fst p =? a) && (snd p =? b))
      [(117, 108); (117, 76); (85, 108); (85, 76); (108, 117); (108, 85); (76, 117); (76, 85); (108, 108); (76, 76)]
  | [a; b; c] => existsb (fun p => (fst (fst p) =? a) && (snd (fst p) =? b) && (snd p =? c))
      [(117, 108, 108); (117, 76, 76); (85, 108, 108); (85, 76, 76); (108, 108, 117); (108, 108, 85); (76, 76, 117); (76, 76, 85)]
  | _ => false
  end.
(** digits, single quotes between them, then a suffix *)
Fixpoint c_digits (b acc : N) (l : list N) : option N :=
  match l with
  | c :: r => match digit_of b c with
              | Some d => c_digits b (acc * b + d) r
              | None => if c =? 39 then match r with c' :: r' => match digit_of b c' with Some d => c_digits b (acc * b + d) r' | None => None end | [] => None end
                        else if suffix l then Some acc else None
              end
  | [] => Some acc
  end.
Definition c_first (b : N) (l : list N) : option N := match l with c :: r => match digit_of b c with Some d => c_digits b d r | None => None end | [] => None end.
Definition c_int (l : list N) : option N :=
  match l with
  | c :: r =>
    if c =? 48 then
      match r with
      | x :: r' => if (x =? 120) || (x =? 88) then c_first 16 r' else if (x =? 98) || (x =? 66) then c_first 2 r' else c_digits 8 0 r
      | [] => Some 0
      end
    else c_first 10 l
  | [] => None
  end.

Definition digits_only (l : list N) : Prop := Forall (fun c => 48 <= c <= 57) l.
Lemma is_digit_spec c : is_digit c = true <-> 48 <= c <= 57.
Proof. unfold is_digit. rewrite andb_true_iff, !N.leb_le. tauto. Qed.
Lemma dec_value_all l : forall a, digits_only l -> exists v, dec_value a l = Some v.
Proof.
  induction l as [|c r IH]; intros a H; [eexists; reflexivity|]. inversion H as [|? ? Hc Hr]; subst. cbn [dec_value]. rewrite (proj2 (is_digit_spec c) Hc). auto.
Qed.
Lemma dec_value_only l : forall a v, dec_value a l = Some v -> digits_only l.
Proof.
  induction l as [|c r IH]; intros a v H; [constructor|]. cbn [dec_value] in H. destruct (is_digit c) eqn:D; [|discriminate]. constructor; [now apply is_digit_spec|exact (IH _ _ H)].
Qed.
Lemma digit_of_digit b c : 48 <= c <= 57 -> digit_of b c = if c - 48 <? b then Some (c - 48) else None.
Proof. intro H. unfold digit_of, unhex. rewrite (proj2 (N.leb_le 48 c)), (proj2 (N.leb_le c 57)) by lia. reflexivity. Qed.
Lemma c_digits_dec l : forall a v, dec_value a l = Some v -> c_digits 10 a l = Some v.
Proof.
  induction l as [|c r IH]; intros a v H; [exact H|]. cbn [dec_value] in H. destruct (is_digit c) eqn:D; [|discriminate]. apply is_digit_spec in D.
  cbn [c_digits]. rewrite digit_of_digit by exact D. rewrite (proj2 (N.ltb_lt _ _)) by lia. now apply IH.
Qed.
(** the value of digits in a base *)
Definition val (b a : N) (l : list N) : N := fold_left (fun x c => x * b + (c - 48)) l a.
Lemma dec_value_val l : forall a, digits_only l -> dec_value a l = Some (val 10 a l).
Proof. induction l as [|c r IH]; intros a H; [reflexivity|]. inversion H as [|? ? Hc Hr]; subst. cbn [dec_value]. rewrite (proj2 (is_digit_spec c) Hc). now apply IH. Qed.
Lemma suffix_digit c r : 48 <= c <= 57 -> suffix (c :: r) = false.
Proof.
  intro H. assert (A : forall k, 57 < k -> k =? c = false) by (intros; apply N.eqb_neq; lia).
  destruct r as [|? [|? [|]]]; cbn [suffix existsb fst snd]; rewrite ?(N.eqb_sym c), ?A by lia; reflexivity.
Qed.
Lemma c_digits_val l : forall a v, digits_only l -> c_digits 8 a l = Some v -> v = val 8 a l.
Proof.
  induction l as [|c r IH]; intros a v D H; [injection H as <-; reflexivity|]. inversion D as [|? ? Dc Dr]; subst. cbn [c_digits] in H. rewrite digit_of_digit in H by exact Dc.
  destruct (c - 48 <? 8); [now apply IH in H|]. destruct (N.eqb_spec c 39); [lia|]. rewrite suffix_digit in H by exact Dc. discriminate.
Qed.
Lemma val_lower l : forall a, a <= val 8 a l.
Proof. induction l as [|c r IH]; intro a; [cbn; lia|]. change (val 8 a (c :: r)) with (val 8 (a * 8 + (c - 48)) r). specialize (IH (a * 8 + (c - 48))). lia. Qed.
Lemma val_less l : forall a a', a < a' -> val 8 a l < val 10 a' l.
Proof. induction l as [|c r IH]; intros a a' H; [exact H|]. apply IH. lia. Qed.
Lemma val_same l : Forall (fun c => 48 <= c <= 55) l -> (val 8 0 l = val 10 0 l <-> val 8 0 l < 8).
Proof.
  induction 1 as [|c r Hc Hr IH]; [cbn; lia|]. change (val 8 0 (c :: r)) with (val 8 (c - 48) r). change (val 10 0 (c :: r)) with (val 10 (c - 48) r).
  destruct (N.eq_dec c 48) as [->|]; [exact IH|]. destruct r as [|c' r']; [cbn; lia|].
  change (val 8 (c - 48) (c' :: r')) with (val 8 ((c - 48) * 8 + (c' - 48)) r'). change (val 10 (c - 48) (c' :: r')) with (val 10 ((c - 48) * 10 + (c' - 48)) r').
  pose proof (val_lower r' ((c - 48) * 8 + (c' - 48))). pose proof (val_less r' ((c - 48) * 8 + (c' - 48)) ((c - 48) * 10 + (c' - 48)) ltac:(lia)). lia.
Qed.
Lemma c_digits_octal l : forall a v, digits_only l -> c_digits 8 a l = Some v -> Forall (fun c => 48 <= c <= 55) l.
Proof.
  induction l as [|c r IH]; intros a v D H; [constructor|]. inversion D as [|? ? Dc Dr]; subst. cbn [c_digits] in H. rewrite digit_of_digit in H by exact Dc.
  destruct (N.ltb_spec (c - 48) 8); [constructor; [lia|exact (IH _ _ Dr H)]|]. destruct (N.eqb_spec c 39); [lia|]. rewrite suffix_digit in H by exact Dc. discriminate.
Qed.
(** printed numbers *)
Lemma dec_fuel_digits k : forall n t, n < 2 ^ N.of_nat k -> k <> O ->
  exists c r, dec_fuel k n t = (c :: r) ++ t /\ digits_only (c :: r) /\ val 10 0 (c :: r) = n /\ (c = 48 -> r = []).
Proof.
  induction k as [|k IH]; intros n t H K; [contradiction|]. cbn [dec_fuel]. pose proof (N.mod_lt n 10 ltac:(lia)) as M. destruct (N.ltb_spec n 10) as [L|L].
  - rewrite N.mod_small by exact L. exists (48 + n), []. split; [reflexivity|]. split; [constructor; [lia|constructor]|]. split; [unfold val; cbn [fold_left]; lia|reflexivity].
  - rewrite Nat2N.inj_succ, N.pow_succ_r' in H. assert (D : n / 10 < 2 ^ N.of_nat k) by (apply N.div_lt_upper_bound; lia).
    assert (K' : k <> O) by (intros ->; cbn in H; lia). destruct (IH (n / 10) ((48 + n mod 10) :: t) D K') as (c & r & E & O & V & Z).
    exists c, (r ++ [48 + n mod 10]). split; [rewrite E; cbn [app]; now rewrite <- app_assoc|]. split; [|split].
    + change (c :: r ++ [48 + n mod 10]) with ((c :: r) ++ [48 + n mod 10]). apply Forall_app. split; [exact O|]. constructor; [generalize (n mod 10) M; clear; intros; lia|constructor].
    + change (c :: r ++ [48 + n mod 10]) with ((c :: r) ++ [48 + n mod 10]). unfold val in *. rewrite fold_left_app, V. cbn [fold_left]. pose proof (N.div_mod n 10 ltac:(lia)) as Q. revert Q M. generalize (n mod 10) (n / 10). clear. intros. lia.
    + intros ->. exfalso. rewrite (Z eq_refl) in V. cbn in V. assert (1 <= n / 10) by (apply N.div_le_lower_bound; lia). lia.
Qed.
Lemma c_int_dec n : c_int (dec n) = Some n.
Proof.
  unfold dec. destruct (dec_fuel_digits (S (N.to_nat (N.log2 n))) n []) as (c & r & E & O & V & Z); [|lia|].
  - rewrite Nat2N.inj_succ, N2Nat.id. destruct (N.eq_dec n 0) as [->|]; [reflexivity|]. apply N.log2_spec. lia.
  - rewrite E, app_nil_r. pose proof (Forall_inv O) as Oc. pose proof (Forall_inv_tail O) as Or. cbn beta in Oc. cbn [c_int]. destruct (N.eqb_spec c 48) as [->|Nc]; [rewrite (Z eq_refl) in *; cbn in V; now subst n|].
    unfold c_first. rewrite digit_of_digit by exact Oc. rewrite (proj2 (N.ltb_lt _ _)) by lia. rewrite <- V. apply c_digits_dec. exact (dec_value_val r (c - 48) Or).
Qed.

(** Every integer literal is written with its value, exactly unless it is an octal literal beyond 7 without separator and suffix.
    Where the conversion fails the text itself is written. *)
Theorem C57_integer_kept_iff_partial : forall F (show : F -> list N) ts v, c_int ts = Some v ->
  (c_int (written show (visit_int ts)) = Some v <-> (forall r, ts = 48 :: r -> digits_only r -> v < 8)).
Proof.
  intros F show ts v C. unfold visit_int. destruct (py_int ts) as [n|] eqn:P; cbn [written].
  - rewrite c_int_dec. destruct ts as [|c r]; [discriminate|]. unfold py_int in P. pose proof (dec_value_only _ _ _ P) as D. rewrite dec_value_val in P by exact D. injection P as <-.
    inversion D as [|? ? Dc Dr]; subst. cbn [c_int] in C. destruct (N.eqb_spec c 48) as [->|Nc].
    + change (val 10 0 (48 :: r)) with (val 10 0 r). assert (V : v = val 8 0 r /\ Forall (fun c => 48 <= c <= 55) r).
      { destruct r as [|x r]; [injection C as <-; split; [reflexivity|constructor]|]. inversion Dr as [|? ? Dx Dr']; subst.
        assert (A : forall k, 57 < k -> x =? k = false) by (intros; apply N.eqb_neq; lia). rewrite !A in C by lia. cbn [orb] in C.
        split; [now apply c_digits_val in C|exact (c_digits_octal _ _ _ Dr C)]. }
      destruct V as (-> & O). pose proof (val_same r O) as S. split.
      * intros E r' [= <-] _. apply S. injection E as E. symmetry. exact E.
      * intro H. f_equal. symmetry. apply S. exact (H r eq_refl Dr).
    + unfold c_first in C. rewrite digit_of_digit in C by exact Dc. rewrite (proj2 (N.ltb_lt _ _)) in C by lia.
      rewrite (c_digits_dec r (c - 48) (val 10 (c - 48) r)) in C by (now apply dec_value_val). injection C as <-. split; [|reflexivity]. intros _ r' [= ->]. contradiction.
  - split; [|intros _; exact C]. intros _ r -> D. exfalso. unfold py_int in P. rewrite dec_value_val in P by (constructor; [lia|exact D]). discriminate.
Qed.
Print Assumptions C57_integer_kept_iff_partial.
(* 1234567, 0x1F, 10ul, 1'000, 007 *)
Example C57_integer_example : c_int [49; 50; 51; 52; 53; 54; 55] = Some 1234567 /\ c_int [48; 120; 49; 70] = Some 31 /\ c_int [49; 48; 117; 108] = Some 10
  /\ c_int [49; 39; 48; 48; 48] = Some 1000 /\ c_int [48; 48; 55] = Some 7 /\ py_int [48; 120; 49; 70] = None.
Proof. repeat split. Qed.
(** An octal literal is read by Python as decimal: 010 becomes 10 *)
Theorem C57_octal_refuted : forall F (show : F -> list N) r v, digits_only r -> c_int (48 :: r) = Some v -> 8 <= v ->
  exists v', c_int (written show (visit_int (48 :: r))) = Some v' /\ v < v'.
Proof.
  intros F show r v D C L. pose proof (C57_integer_kept_iff_partial F show (48 :: r) v C) as K.
  unfold visit_int, py_int in *. rewrite dec_value_val in * by (constructor; [lia|exact D]). cbn [written] in *. rewrite c_int_dec in *. eexists. split; [reflexivity|].
  change (val 10 0 (48 :: r)) with (val 10 0 r) in *. assert (N : val 10 0 r <> v).
  { intros <-. destruct K as [K _]. specialize (K eq_refl r eq_refl D). lia. }
  assert (G : v <= val 10 0 r); [|lia]. cbn [c_int N.eqb] in C. change (48 =? 48) with true in C. cbn iota in C. destruct r as [|x r]; [injection C as <-; cbn; lia|].
  inversion D as [|? ? Dx Dr]; subst. assert (A : forall k, 57 < k -> x =? k = false) by (intros; apply N.eqb_neq; lia). rewrite !A in C by lia. cbn [orb] in C. apply c_digits_val in C as ->; [|exact D].
  clear. generalize (x :: r). assert (G : forall l a a', a <= a' -> val 8 a l <= val 10 a' l); [|intro l; apply G; lia]. induction l as [|c l IH]; intros a a' H; [exact H|]. apply IH. lia.
Qed.
Print Assumptions C57_octal_refuted.
Example C57_octal_example : c_int [48; 49; 48] = Some 8 /\ (forall F (show : F -> list N), written show (visit_int [48; 49; 48]) = [49; 48]).
Proof. split; reflexivity. Qed.

(** * Floating point literals: C99 6.4.4.2, with separators *)
Inductive dseq : list N -> list N -> Prop :=
| ds_one d : 48 <= d <= 57 -> dseq [d] [d]
| ds_more d ds t : 48 <= d <= 57 -> dseq ds t -> dseq (d :: ds) (d :: t)
| ds_sep d ds t : 48 <= d <= 57 -> dseq ds t -> dseq (d :: ds) (d :: 39 :: t).
Definition odseq (ds t : list N) : Prop := ds = [] /\ t = [] \/ dseq ds t.
Inductive c_exponent : list N -> Z -> Prop :=
| ce_none : c_exponent [] 0%Z
| ce_plain e ds t : e = 101 \/ e = 69 -> dseq ds t -> c_exponent (e :: t) (Z.of_N (val 10 0 ds))
| ce_plus e ds t : e = 101 \/ e = 69 -> dseq ds t -> c_exponent (e :: 43 :: t) (Z.of_N (val 10 0 ds))
| ce_minus e ds t : e = 101 \/ e = 69 -> dseq ds t -> c_exponent (e :: 45 :: t) (- Z.of_N (val 10 0 ds)).
Definition float_suffix (s : list N) : Prop := In s [[]; [102]; [108]; [70]; [76]].
(** a text, the number it denotes before rounding, and its suffix *)
Inductive c_floating : list N -> Q -> list N -> Prop :=
| cf_dot ip it fp ft et e suf : odseq ip it -> odseq fp ft -> ip ++ fp <> [] -> c_exponent et e -> float_suffix suf ->
    c_floating (it ++ 46 :: ft ++ et ++ suf) (scaled (val 10 0 (ip ++ fp)) (e - Z.of_nat (length fp))) suf
| cf_exp ip it et e suf : dseq ip it -> et <> [] -> c_exponent et e -> float_suffix suf ->
    c_floating (it ++ et ++ suf) (scaled (val 10 0 ip) e) suf.

Definition no_digit (l : list N) : Prop := match l with c :: _ => ~ 48 <= c <= 57 | [] => True end.
Lemma take_stop a n l : no_digit l -> take_dec a n l = (a, n, l).
Proof. destruct l as [|c r]; [reflexivity|]. intro H. cbn [take_dec no_digit] in *. destruct (is_digit c) eqn:D; [apply is_digit_spec in D; contradiction|reflexivity]. Qed.
Lemma take_dseq ds t : dseq ds t -> forall a n rest, no_digit rest ->
  take_dec a n (t ++ rest) = (val 10 a ds, (n + length ds)%nat, rest) \/ exists a' n' r, take_dec a n (t ++ rest) = (a', S n', 39 :: r).
Proof.
  induction 1 as [d H|d ds t H _ IH|d ds t H _ IH]; intros a n rest Hr; cbn [app take_dec]; rewrite (proj2 (is_digit_spec d) H).
  - left. rewrite take_stop by exact Hr. cbn [length]. replace (n + 1)%nat with (S n) by lia. reflexivity.
  - destruct (IH (a * 10 + (d - 48)) (S n) rest Hr) as [E|E]; [left|right; exact E]. rewrite E. cbn [length]. replace (S n + length ds)%nat with (n + S (length ds))%nat by lia. reflexivity.
  - right. change (is_digit 39) with false. cbn iota. eauto.
Qed.
Lemma suffix_no_digit s : float_suffix s -> no_digit s.
Proof. intros [<-|[<-|[<-|[<-|[<-|[]]]]]]; cbn; lia. Qed.
Lemma exponent_no_digit et e s : c_exponent et e -> float_suffix s -> no_digit (et ++ s).
Proof. intros H Hs. destruct H; [now apply suffix_no_digit| | |]; destruct H as [-> | ->]; cbn; lia. Qed.
Lemma py_exponent_ok et e s : c_exponent et e -> float_suffix s -> py_exponent (et ++ s) = None \/ py_exponent (et ++ s) = Some e /\ s = [].
Proof.
  intros H Hs. pose proof (suffix_no_digit s Hs) as Ns.
  assert (Tail : forall ds t, dseq ds t -> forall neg : bool,
    (let '(v, n, q) := take_dec 0 0 (t ++ s) in match n, q with S _, [] => Some (if neg then - Z.of_N v else Z.of_N v)%Z | _, _ => None end) = None
    \/ (let '(v, n, q) := take_dec 0 0 (t ++ s) in match n, q with S _, [] => Some (if neg then - Z.of_N v else Z.of_N v)%Z | _, _ => None end) = Some (if neg then - Z.of_N (val 10 0 ds) else Z.of_N (val 10 0 ds))%Z /\ s = []).
  { intros ds t D neg. destruct (take_dseq ds t D 0 O s Ns) as [E|(a' & n' & r & E)]; rewrite E; [|left; reflexivity].
    destruct s; [|left; destruct (0 + length ds)%nat; reflexivity]. right. split; [|reflexivity]. destruct D; reflexivity. }
  destruct H as [|e ds t He D|e ds t He D|e ds t He D].
  - destruct Hs as [<-|[<-|[<-|[<-|[<-|[]]]]]]; auto.
  - destruct (Tail ds t D false) as [T|T]; revert T; cbn [app py_exponent]; (assert (X : (e =? 101) || (e =? 69) = true) by (destruct He as [-> | ->]; reflexivity)); rewrite X;
      (assert (exists d q, t ++ s = d :: q /\ 48 <= d <= 57) as (d & q & -> & Hd) by (destruct D; cbn [app]; eauto)); rewrite (proj2 (N.eqb_neq d 43)), (proj2 (N.eqb_neq d 45)) by lia; auto.
  - destruct (Tail ds t D false) as [T|T]; revert T; cbn [app py_exponent]; (assert (X : (e =? 101) || (e =? 69) = true) by (destruct He as [-> | ->]; reflexivity)); rewrite X; auto.
  - destruct (Tail ds t D true) as [T|T]; revert T; cbn [app py_exponent]; (assert (X : (e =? 101) || (e =? 69) = true) by (destruct He as [-> | ->]; reflexivity)); rewrite X; auto.
Qed.
Lemma val_app b a l m : val b a (l ++ m) = val b (val b a l) m.
Proof. apply fold_left_app. Qed.
Lemma py_float_ok ts q s : c_floating ts q s -> py_float ts = None \/ py_float ts = Some q /\ s = [].
Proof.
  assert (Sep : forall r, py_exponent (39 :: r) = None) by reflexivity.
  destruct 1 as [ip it fp ft et e s Di Df Ne He Hs|ip it et e s Di Ne He Hs]; unfold py_float.
  - pose proof (exponent_no_digit et e s He Hs) as Nd. pose proof (py_exponent_ok et e s He Hs) as P.
    assert (T1 : take_dec 0 0 (it ++ 46 :: ft ++ et ++ s) = (val 10 0 ip, length ip, 46 :: ft ++ et ++ s) \/ exists a' n' r, take_dec 0 0 (it ++ 46 :: ft ++ et ++ s) = (a', S n', 39 :: r)).
    { destruct Di as [(-> & ->)|Di]; [left; reflexivity|]. apply (take_dseq ip it Di 0 O). cbn. lia. }
    destruct T1 as [E|(a' & n' & r & E)]; rewrite E; [|left; reflexivity]. change (46 =? 46) with true. cbn iota.
    assert (T2 : take_dec (val 10 0 ip) 0 (ft ++ et ++ s) = (val 10 0 (ip ++ fp), length fp, et ++ s) \/ exists a' n' r, take_dec (val 10 0 ip) 0 (ft ++ et ++ s) = (a', S n', 39 :: r)).
    { rewrite val_app. destruct Df as [(-> & ->)|Df]; [left; apply take_stop; exact Nd|]. exact (take_dseq fp ft Df (val 10 0 ip) O _ Nd). }
    destruct T2 as [E2|(a' & n' & r & E2)]; rewrite E2; [|left; rewrite Nat.add_succ_r; reflexivity].
    assert (exists m, (length ip + length fp)%nat = S m) as (m & ->) by (rewrite <- app_length; destruct (ip ++ fp); [contradiction|cbn; eauto]).
    destruct P as [-> | (-> & ->)]; auto.
  - pose proof (exponent_no_digit et e s He Hs) as Nd. pose proof (py_exponent_ok et e s He Hs) as P.
    destruct (take_dseq ip it Di 0 O (et ++ s) Nd) as [E|(a' & n' & r & E)]; rewrite E; [|left; reflexivity].
    assert (H46 : forall X Y : N * nat * list N, match et ++ s with c :: q => if c =? 46 then X else Y | [] => Y end = Y) by (intros; destruct He as [|? ? ? [-> | ->]|? ? ? [-> | ->]|? ? ? [-> | ->]]; [contradiction|reflexivity..]).
    assert (L : exists m, length ip = S m) by (destruct Di; cbn; eauto). destruct L as (m & L).
    assert (Y : exists c q, et ++ s = c :: q /\ c <> 46) by (destruct He as [|? ? ? [-> | ->]|? ? ? [-> | ->]|? ? ? [-> | ->]]; [contradiction|eexists; eexists; split; [reflexivity|discriminate]..]).
    destruct Y as (c & q & Eq & Nc). rewrite Eq in *. rewrite (proj2 (N.eqb_neq c 46) Nc). cbn [Nat.add]. rewrite L, Nat.add_0_r. destruct P as [-> | (-> & ->)]; auto. right. split; [|reflexivity]. do 2 f_equal. lia.
Qed.

(** Every floating point literal is written with its value: what is written denotes, for C, a number that rounds to the same double, and
    has the same suffix.  [finite] doubles are written so that they are read back (Python's str of a float). *)
Theorem C57_float_kept_partial : forall F (near : Q -> F) (show : F -> list N) (finite : F -> Prop),
  (forall f, finite f -> exists q, c_floating (show f) q [] /\ near q = f) ->
  forall ts q suf, c_floating ts q suf -> finite (near q) ->
  exists q', c_floating (written show (visit_float near ts)) q' suf /\ near q' = near q.
Proof.
  intros F near show finite Hs ts q suf C Fin. unfold visit_float. destruct (py_float_ok ts q suf C) as [E|(E & ->)]; rewrite E; cbn [written]; [eauto|]. exact (Hs (near q) Fin).
Qed.
Print Assumptions C57_float_kept_partial.
(* 12.5e-3 and .5f ; doubles as rationals, of which only 1/80 is ever written *)
Example C57_float_example : c_floating [49; 50; 46; 53; 101; 45; 51] (125 # 10000) [] /\ c_floating [46; 53; 102] (5 # 10) [102]
  /\ (forall f : Q, f = (125 # 10000)%Q -> exists q, c_floating [49; 50; 46; 53; 101; 45; 51] q [] /\ q = f).
Proof.
  assert (A : c_floating [49; 50; 46; 53; 101; 45; 51] (125 # 10000) []).
  { refine (cf_dot [49; 50] [49; 50] [53] [53] [101; 45; 51] (- Z.of_N (val 10 0 [51])) [] _ _ _ _ _).
    - right. apply ds_more; [lia|]. apply ds_one. lia.
    - right. apply ds_one. lia.
    - discriminate.
    - apply (ce_minus 101 [51] [51]); [now left|]. apply ds_one. lia.
    - now left. }
  split; [exact A|]. split; [|intros f ->; eauto].
  refine (cf_dot [] [] [53] [53] [] 0%Z [102] _ _ _ _ _); [now left|right; apply ds_one; lia|discriminate|constructor|right; now left].
Qed.
(** A literal beyond the largest double is written as the Python word inf, which is not a number in C. *)
Theorem C57_overflow_refuted : forall F (near : Q -> F) (show : F -> list N) ts q, c_floating ts q [] -> py_float ts = Some q -> show (near q) = [105; 110; 102] ->
  forall q' suf, ~ c_floating (written show (visit_float near ts)) q' suf.
Proof.
  intros F near show ts q _ P S q' suf H. unfold visit_float in H. rewrite P in H. cbn [written] in H. rewrite S in H. clear - H. remember [105; 110; 102] as l eqn:E.
  destruct H as [ip it fp ft et e suf Di Df Ne He Hs|ip it et e suf Di Ne He Hs].
  - destruct Di as [(-> & ->)|Di]; [discriminate|]. destruct Di; cbn in E; injection E as E _; lia.
  - destruct Di; cbn in E; injection E as E _; lia.
Qed.
Print Assumptions C57_overflow_refuted.
Example C57_overflow_example : exists q, c_floating [49; 101; 57; 57; 57] q [] /\ py_float [49; 101; 57; 57; 57] = Some q.
Proof.
  eexists. split; [|reflexivity]. refine (cf_exp [49] [49] [101; 57; 57; 57] (Z.of_N (val 10 0 [57; 57; 57])) [] _ _ _ _); [apply ds_one; lia|discriminate| |now left].
  apply (ce_plain 101 [57; 57; 57] [57; 57; 57]); [now left|]. apply ds_more; [lia|]. apply ds_more; [lia|]. apply ds_one. lia.
Qed.

(** * Arithmetic with literals that Python does not convert *)
Lemma repeated_two k s : 2 <= k -> exists t, repeated k s = s ++ s ++ t.
Proof.
  intro H. unfold repeated. replace k with (N.succ (N.succ (k - 2))) by lia. rewrite !N.iter_succ. eauto.
Qed.
Lemma suffix_chars l : suffix l = true -> Forall (fun c => c <> 120 /\ c <> 88) l.
Proof.
  assert (K : forall k, In k [117; 85; 108; 76] -> k <> 120 /\ k <> 88) by (intros k H; cbn in H; lia).
  destruct l as [|a [|b [|c [|]]]]; cbn [suffix]; intro H; try discriminate; [constructor| | |];
    apply existsb_exists in H; [destruct H as (p & I & E)|destruct H as ((p1 & p2) & I & E)|destruct H as (((p1 & p2) & p3) & I & E)];
    cbn [fst snd] in E; rewrite ?andb_true_iff, ?N.eqb_eq in E; [subst p; constructor; [now apply K|constructor]| |]; destruct E as [E E']; [|destruct E as [E E'']]; subst; cbn in I;
    repeat (destruct I as [I|I]; [injection I as <- <-; repeat constructor; lia || (injection I as <- <- <-; repeat constructor; lia)|]); try contradiction.
Qed.
Lemma c_digits_no_x x l : x = 120 \/ x = 88 -> forall a v, c_digits 16 a l = Some v -> ~ In x l.
Proof.
  intro X. assert (D : digit_of 16 x = None) by (destruct X as [-> | ->]; reflexivity). assert (Q : x <> 39) by (destruct X; lia).
  remember (length l) as n eqn:Hn. assert (Hl : (length l <= n)%nat) by lia. clear Hn. revert l Hl. induction n as [|n IH]; intros l Hl a v H.
  - destruct l; [auto|cbn in Hl; lia].
  - destruct l as [|c r]; [auto|]. cbn [length] in Hl. cbn [c_digits] in H. destruct (digit_of 16 c) eqn:Dc.
    + intros [->|I]; [congruence|]. revert I. apply (IH r ltac:(lia) _ _ H).
    + destruct (N.eqb_spec c 39) as [->|N39].
      * destruct r as [|c' r']; [discriminate|]. destruct (digit_of 16 c') eqn:Dc'; [|discriminate]. cbn [length] in Hl. intros [E|[->|I]]; [congruence|congruence|]. revert I. apply (IH r' ltac:(lia) _ _ H).
      * destruct (suffix (c :: r)) eqn:S; [|discriminate]. apply suffix_chars in S. rewrite Forall_forall in S. intro I. specialize (S x I). lia.
Qed.
(** A hexadecimal literal is held as text, and multiplication and addition treat it as Python text: the product of a number and a hexadecimal
    literal, and the sum of two, are no numbers; the sum with a number and the negative raise TypeError.
    2 * 0x10 becomes 0x100x10, -0x10 cannot be read. *)
Theorem C57_hexadecimal_arithmetic_refuted : forall F (show : F -> list N) x r x' r' v v', x = 120 \/ x = 88 -> x' = 120 \/ x' = 88 ->
  c_int (48 :: x :: r) = Some v -> c_int (48 :: x' :: r') = Some v' ->
  @visit_int F (48 :: x :: r) = HText (48 :: x :: r)
  /\ (forall k, 2 <= k -> exists h, @mul F k (48 :: x :: r) = Done h /\ c_int (written show h) = None)
  /\ (exists h, @add_texts F (48 :: x :: r) (48 :: x' :: r') = Done h /\ c_int (written show h) = None)
  /\ (forall k, 1 <= k -> @add F k (48 :: x :: r) = TypeErr) /\ @neg_text F (48 :: x :: r) = TypeErr.
Proof.
  intros F show x r x' r' v v' X X' C C'.
  assert (No : forall y t u, y = 120 \/ y = 88 -> c_int (48 :: x :: t ++ 48 :: y :: u) = None).
  { intros y t u Y. cbn [c_int]. change (48 =? 48) with true. cbn iota. assert ((x =? 120) || (x =? 88) = true) as -> by (destruct X as [-> | ->]; reflexivity).
    unfold c_first. destruct (t ++ 48 :: y :: u) as [|c m] eqn:E; [reflexivity|]. destruct (digit_of 16 c) as [d|] eqn:D; [|reflexivity]. destruct (c_digits 16 d m) eqn:M; [|reflexivity].
    exfalso. apply (c_digits_no_x y m Y _ _ M). assert (I : In y (c :: m)) by (rewrite <- E; apply in_or_app; right; right; now left). destruct I as [->|I]; [|exact I].
    exfalso. destruct Y as [-> | ->]; discriminate. }
  split; [|split; [|split; [|split]]].
  - unfold visit_int, py_int. cbn [dec_value]. change (is_digit 48) with true. cbn iota. assert (is_digit x = false) as -> by (destruct X as [-> | ->]; reflexivity). reflexivity.
  - intros k K. unfold mul. rewrite (proj2 (N.eqb_neq k 0)), (proj2 (N.eqb_neq k 1)) by lia. eexists. split; [reflexivity|]. cbn [written]. destruct (repeated_two k (48 :: x :: r) K) as (t & ->). cbn [app]. apply No. exact X.
  - eexists. split; [reflexivity|]. cbn [written app]. apply No. exact X'.
  - intros k K. unfold add. now rewrite (proj2 (N.eqb_neq k 0)) by lia.
  - reflexivity.
Qed.
Print Assumptions C57_hexadecimal_arithmetic_refuted.
Example C57_hexadecimal_example : c_int [48; 120; 49; 48] = Some 16 /\ exists h, @mul unit 2 [48; 120; 49; 48] = Done (HText h) /\ h = [48; 120; 49; 48; 48; 120; 49; 48].
Proof. split; [reflexivity|]. eexists. split; reflexivity. Qed.

(** * Texts *)
Definition quoted (a : list N) : list N := 34 :: a ++ [34].
(** literals, by what stands between their quotes: none ends in a quote, and where a literal with a backslash is followed by text, that
    text does not start with a hexadecimal digit *)
Fixpoint joins (l : list (list N)) : Prop :=
  match l with
  | [] => True
  | a :: r => (forall p, a <> p ++ [34]) /\ (~ In 92 a \/ match concat r with d :: _ => ~ hex_digit d | [] => True end) /\ joins r
  end.
Definition stops (r : list N) : Prop := match r with d :: _ => hexdigit d = false | [] => True end.
Lemma digits_le k l : forall acc n v m s, digits k acc n l = (v, m, s) -> (length s <= length l)%nat.
Proof.
  revert k. induction l as [|c l IH]; intros k acc n v m s H; cbn [digits] in H; [injection H as <- <- <-; cbn; lia|].
  destruct k as [[|k]|], (unhex c); try (injection H as <- <- <-; cbn; lia); apply IH in H; cbn; lia.
Qed.
Lemma octal_le k l : forall acc v s, octal k acc l = (v, s) -> (length s <= length l)%nat.
Proof.
  revert k. induction l as [|c l IH]; intros k acc v s H; destruct k; cbn [octal] in H; try (injection H as <- <-; cbn; lia). destruct ((48 <=? c) && (c <=? 55)); [apply IH in H; cbn; lia|injection H as <- <-; cbn; lia].
Qed.
Lemma chars_fuel f : forall g l, (length l < f)%nat -> (length l < g)%nat -> chars f l = chars g l.
Proof.
  induction f as [|f IH]; intros g l Hf Hg; [lia|]. destruct g as [|g]; [lia|]. destruct l as [|c r]; [reflexivity|]. cbn [length] in *. cbn [chars].
  destruct (c =? 34); [reflexivity|]. destruct (c =? 10); [reflexivity|]. destruct (c =? 92); [|rewrite (IH g r) by lia; reflexivity]. destruct r as [|e r']; [reflexivity|]. cbn [length] in *.
  destruct (e =? 120).
  - destruct (digits None 0 0 r') as [[v n] q] eqn:E. apply digits_le in E. rewrite (IH g q) by lia. reflexivity.
  - destruct ((e =? 117) || (e =? 85)).
    + destruct (digits (Some (if e =? 117 then 4%nat else 8%nat)) 0 0 r') as [[v n] q] eqn:E. apply digits_le in E. rewrite (IH g q) by lia. reflexivity.
    + destruct ((48 <=? e) && (e <=? 55)); [|rewrite (IH g r') by lia; reflexivity]. destruct (octal 3 0 (e :: r')) as [v q] eqn:E. apply octal_le in E. cbn [length] in E.
      rewrite (IH g q) by lia. reflexivity.
Qed.
Lemma unhex34 : unhex 34 = None. Proof. reflexivity. Qed.
Lemma digits_join k l : forall acc n r, stops r -> exists v m s, digits k acc n (l ++ [34]) = (v, m, s ++ [34]) /\ digits k acc n (l ++ r) = (v, m, s ++ r)
  /\ (length s <= length l)%nat /\ (In 92 s -> In 92 l).
Proof.
  revert k. induction l as [|c l IH]; intros k acc n r Hr.
  - cbn [app]. exists acc, n, []. cbn [app digits]. rewrite unhex34. split; [destruct k as [[|]|]; reflexivity|]. split; [|split; [lia|auto]].
    destruct r as [|d r]; [reflexivity|]. unfold stops, hexdigit in Hr. cbn [digits]. destruct (unhex d); [discriminate|]. destruct k as [[|]|]; reflexivity.
  - cbn [app digits]. destruct k as [[|k]|]; [exists acc, n, (c :: l); cbn [app]; auto 6| |]; (destruct (unhex c) as [d|]; [|exists acc, n, (c :: l); cbn [app]; auto 6]).
    + destruct (IH (Some k) (acc * 16 + d) (S n) r Hr) as (v & m & s & E1 & E2 & L & I). exists v, m, s. repeat split; auto; [cbn; lia|right; auto].
    + destruct (IH None (acc * 16 + d) (S n) r Hr) as (v & m & s & E1 & E2 & L & I). exists v, m, s. repeat split; auto; [cbn; lia|right; auto].
Qed.
Lemma octal_join k l : forall acc r, stops r -> exists v s, octal k acc (l ++ [34]) = (v, s ++ [34]) /\ octal k acc (l ++ r) = (v, s ++ r)
  /\ (length s <= length l)%nat /\ (In 92 s -> In 92 l).
Proof.
  revert k. induction l as [|c l IH]; intros k acc r Hr.
  - exists acc, []. cbn [app]. split; [destruct k; reflexivity|]. split; [|split; [lia|auto]]. destruct k as [|k], r as [|d r]; try reflexivity. cbn [octal].
    destruct ((48 <=? d) && (d <=? 55)) eqn:O; [|reflexivity]. exfalso. apply andb_prop in O as [O1 O2]. apply N.leb_le in O1, O2. cbn [stops] in Hr. assert (H : hexdigit d = true) by (apply hexdigit_spec; unfold hex_digit; lia). congruence.
  - destruct k as [|k]; [exists acc, (c :: l); cbn [app octal]; auto 6|]. cbn [app octal]. destruct ((48 <=? c) && (c <=? 55)); [|exists acc, (c :: l); cbn [app]; auto 6].
    destruct (IH k (acc * 8 + (c - 48)) r Hr) as (v & s & E1 & E2 & L & I). exists v, s. repeat split; auto; [cbn; lia|right; auto].
Qed.
Lemma omap_app (x y : list N) o : option_map (app x) (option_map (app y) o) = option_map (app (x ++ y)) o.
Proof. destruct o; [cbn; now rewrite app_assoc|reflexivity]. Qed.
Lemma chars_join n : forall a x r f g, (length a <= n)%nat -> chars f (a ++ [34]) = Some x -> (~ In 92 a \/ stops r) -> (length (a ++ r) < g)%nat ->
  chars g (a ++ r) = option_map (app x) (chars (S (length r)) r).
Proof.
  induction n as [|n IH]; intros a x r f g Hn H J Hg; destruct f as [|f]; try discriminate.
  - destruct a; [|cbn in Hn; lia]. cbn in H. injection H as <-. cbn [app] in *. rewrite (chars_fuel g (S (length r)) r) by lia. destruct (chars _ r); reflexivity.
  - destruct a as [|c a]; [apply (IH [] x r (S f) g); auto; cbn; lia|]. cbn [length] in Hn. cbn [app] in *. cbn [length] in Hg. destruct g as [|g]; [lia|]. remember (chars (S (length r)) r) as R eqn:ER. cbn [chars] in H |- *.
    destruct (c =? 34); [destruct a; discriminate|]. destruct (c =? 10); [discriminate|]. destruct (N.eqb_spec c 92) as [->|N92].
    + destruct J as [J|J]; [exfalso; apply J; now left|]. destruct a as [|e a]; [destruct f; discriminate|]. cbn [app length] in *. destruct (e =? 120).
      * destruct (digits_join None a 0 O r J) as (v & m & s & E1 & E2 & L & I). rewrite E1 in H. rewrite E2. destruct ((m =? 0)%nat || (255 <? v)); [discriminate|].
        destruct (chars f (s ++ [34])) as [y|] eqn:Y; [|discriminate]. injection H as <-. rewrite (IH s y r f g); [|lia|exact Y|now right|rewrite app_length in *; lia]. rewrite <- ER.
        destruct R; reflexivity.
      * destruct ((e =? 117) || (e =? 85)).
        -- destruct (digits_join (Some (if e =? 117 then 4%nat else 8%nat)) a 0 O r J) as (v & m & s & E1 & E2 & L & I). cbv zeta in H |- *. rewrite E1 in H. rewrite E2. destruct ((m =? (if (e =? 117)%N then 4 else 8))%nat && ucn v); [|discriminate].
           destruct (chars f (s ++ [34])) as [y|] eqn:Y; [|discriminate]. injection H as <-. rewrite (IH s y r f g); [|lia|exact Y|now right|rewrite app_length in *; lia]. rewrite <- ER. apply omap_app.
        -- destruct ((48 <=? e) && (e <=? 55)).
           ++ destruct (octal_join 3 (e :: a) 0 r J) as (v & s & E1 & E2 & L & I). cbn [app] in E1, E2. rewrite E1 in H. rewrite E2. destruct (255 <? v); [discriminate|].
              destruct (chars f (s ++ [34])) as [y|] eqn:Y; [|discriminate]. injection H as <-. cbn [length] in L. rewrite (IH s y r f g); [|lia|exact Y|now right|rewrite app_length in *; lia]. rewrite <- ER. destruct R; reflexivity.
           ++ destruct (CText.simple e); [|discriminate]. destruct (chars f (a ++ [34])) as [y|] eqn:Y; [|discriminate]. injection H as <-. rewrite (IH a y r f g); [|lia|exact Y|now right|lia]. rewrite <- ER. destruct R; reflexivity.
    + destruct (chars f (a ++ [34])) as [y|] eqn:Y; [|discriminate]. injection H as <-. rewrite (IH a y r f g); [|lia|exact Y| |lia]; [rewrite <- ER; apply omap_app|]. destruct J as [J|J]; [left|now right]. intro I. apply J. now right.
Qed.

Lemma no_trigraph_part a b c : no_trigraph (a ++ b ++ c) -> no_trigraph b.
Proof. intros H p x s ->. apply (H (a ++ p) x (s ++ c)). now rewrite <- !app_assoc. Qed.
Lemma no_trigraph_quoted a : no_trigraph a -> trigraphs (quoted a) = quoted a.
Proof.
  intro H. apply trigraphs_free. apply no_trigraph_free. intros p x s E I. unfold quoted in E. destruct p as [|c p]; [discriminate|]. injection E as _ E.
  destruct (rev s) as [|z s'] eqn:R.
  - apply (f_equal (@rev N)) in R. rewrite rev_involutive in R. subst s. cbn [rev] in E. replace (p ++ [63; 63; x]) with ((p ++ [63; 63]) ++ [x]) in E by (rewrite <- app_assoc; reflexivity). apply app_inj_tail in E as [_ <-]. cbn in I. lia.
  - apply (f_equal (@rev N)) in R. rewrite rev_involutive in R. subst s. cbn [rev] in E. replace (p ++ 63 :: 63 :: x :: rev s' ++ [z]) with ((p ++ 63 :: 63 :: x :: rev s') ++ [z]) in E by (rewrite <- app_assoc; reflexivity). apply app_inj_tail in E as [-> _].
    exact (H p x (rev s') eq_refl I).
Qed.
Lemma strip_quoted a x f : chars f (a ++ [34]) = Some x -> (forall p, a <> p ++ [34]) -> strip (quoted a) = a.
Proof.
  intros H N. unfold strip, quoted. cbn [lstrip]. change (34 =? 34) with true. cbn iota. destruct a as [|c a]; [reflexivity|].
  assert (Nc : c =? 34 = false). { destruct f as [|f]; [discriminate|]. cbn [app chars] in H. destruct (c =? 34); [destruct a; discriminate|reflexivity]. }
  cbn [app lstrip]. rewrite Nc. change (c :: a ++ [34]) with ((c :: a) ++ [34]). rewrite rev_app_distr. cbn [rev app lstrip]. change (34 =? 34) with true. cbn iota.
  destruct (rev a ++ [c]) as [|z s] eqn:R; [destruct (rev a); discriminate|]. assert (E : c :: a = rev s ++ [z]) by (rewrite <- (rev_involutive (c :: a)); cbn [rev]; rewrite R; reflexivity).
  cbn [lstrip]. destruct (N.eqb_spec z 34) as [->|]; [exfalso; exact (N _ E)|]. rewrite E. reflexivity.
Qed.
(** Adjacent string literals are written as one literal with their combined characters.
    Missing: literals that end in an escaped quote, an escape before a hexadecimal digit of the next literal, prefixes, trigraphs. *)
Theorem C57_strings_kept_partial : forall contents parts, Forall2 (fun a b => c_reads (quoted a) = Some b) contents parts -> joins contents -> no_trigraph (concat contents) ->
  c_reads (visit_strings (map quoted contents)) = Some (concat parts).
Proof.
  intros contents parts H J T.
  assert (K : flat_map strip (map quoted contents) = concat contents /\ forall f, (length (concat contents ++ [34%N]) < f)%nat -> chars f (concat contents ++ [34]) = Some (concat parts)).
  { revert J T. induction H as [|a b contents parts Hab H IH]; intros J T.
    - split; [reflexivity|]. intros [|f] Hf; [lia|reflexivity].
    - destruct J as (Jq & Jh & J). cbn [concat] in T. destruct IH as (IHs & IHc); [exact J|apply (no_trigraph_part a _ []); rewrite app_nil_r; exact T|].
      unfold c_reads in Hab. rewrite no_trigraph_quoted in Hab by (apply (no_trigraph_part [] a (concat contents)); exact T). unfold quoted in Hab at 1. change (34 =? 34) with true in Hab. cbn iota in Hab.
      cbn [map flat_map concat]. split; [rewrite IHs; now rewrite (strip_quoted a b _ Hab Jq)|]. intros f Hf. rewrite <- app_assoc in *.
      rewrite (chars_join (length a) a b (concat contents ++ [34]) _ f (le_n _) Hab); [rewrite (IHc (S (length (concat contents ++ [34])))) by lia; reflexivity| |exact Hf].
      destruct Jh as [Jh|Jh]; [now left|right]. unfold stops. destruct (concat contents) as [|d r]; [reflexivity|]. cbn [app]. destruct (hexdigit d) eqn:E; [apply hexdigit_spec in E; contradiction|reflexivity]. }
  destruct K as (Ks & Kc). unfold visit_strings. rewrite Ks. unfold c_reads. change (34 :: concat contents ++ [34]) with (quoted (concat contents)). rewrite (no_trigraph_quoted _ T). unfold quoted. change (34 =? 34) with true. cbn iota. apply Kc. lia.
Qed.
Print Assumptions C57_strings_kept_partial.
(* "a\n" "\x41 z" *)
Example C57_strings_example : let l := [[97; 92; 110]; [92; 120; 52; 49; 32; 122]] in
  Forall2 (fun a b => c_reads (quoted a) = Some b) l [[97; 10]; [65; 32; 122]] /\ joins l /\ no_trigraph (concat l) /\ c_reads (visit_strings (map quoted l)) = Some [97; 10; 65; 32; 122].
Proof.
  cbv zeta. split; [repeat constructor|]. split; [|split; [apply no_trigraph_free; reflexivity|reflexivity]]. cbn [joins concat app]. repeat split.
  - intros p E. change [97; 92; 110] with ([97; 92] ++ [110]) in E. apply app_inj_tail in E as [_ E]. discriminate.
  - right. unfold hex_digit. lia.
  - intros p E. change [92; 120; 52; 49; 32; 122] with ([92; 120; 52; 49; 32] ++ [122]) in E. apply app_inj_tail in E as [_ E]. discriminate.
  - right. exact I.
Qed.
(** A literal that ends in an escaped quote is written without its end. *)
Theorem C57_final_quote_refuted : forall a, Forall (fun c => 32 <= c < 127 /\ c <> 34 /\ c <> 92 /\ c <> 63) a ->
  c_reads (quoted (a ++ [92; 34])) = Some (a ++ [34]) /\ c_reads (visit_strings [quoted (a ++ [92; 34])]) = None.
Proof.
  intros a H.
  assert (Run : forall t f, (length a + length t < f)%nat -> chars f (a ++ t) = option_map (app a) (chars (S (length t)) t)).
  { induction H as [|c a (R & N1 & N2 & N3) H IH]; intros t f Hf.
    - cbn [app length] in *. rewrite (chars_fuel f (S (length t)) t) by lia. destruct (chars _ t); reflexivity.
    - destruct f as [|f]; [lia|]. cbn [app length] in *. specialize (IH t f ltac:(lia)). remember (chars (S (length t)) t) as X eqn:EX. cbn [chars]. rewrite (proj2 (N.eqb_neq c 34) N1), (proj2 (N.eqb_neq c 92) N2), (proj2 (N.eqb_neq c 10)) by lia. rewrite IH.
      unfold utf8. rewrite (proj2 (N.ltb_lt c 128)) by lia. destruct X; reflexivity. }
  assert (Free : forall t, Forall (fun c => c <> 63) t -> trigraphs (34 :: a ++ t) = 34 :: a ++ t).
  { intros t Ht. apply trigraphs_free. rewrite <- (app_nil_r (34 :: a ++ t)). rewrite free_skip; [reflexivity|]. constructor; [discriminate|]. apply Forall_app. split; [|exact Ht]. eapply Forall_impl; [|exact H]. intros ? Hc. apply Hc. }
  split.
  - unfold c_reads, quoted. rewrite <- app_assoc. cbn [app]. rewrite Free by (repeat constructor; discriminate). change (34 =? 34) with true. cbn iota. rewrite Run by (rewrite app_length; cbn; lia). reflexivity.
  - assert (S : strip (quoted (a ++ [92; 34])) = a ++ [92]).
    { unfold strip, quoted. cbn [lstrip]. change (34 =? 34) with true. cbn iota. assert (L : lstrip ((a ++ [92; 34]) ++ [34]) = (a ++ [92; 34]) ++ [34]).
      { destruct H as [|c a (R & N1 & N2 & N3) H]; [reflexivity|]. cbn [app lstrip]. now rewrite (proj2 (N.eqb_neq c 34) N1). }
      rewrite L, !rev_app_distr. cbn [rev app lstrip]. change (34 =? 34) with true. change (92 =? 34) with false. cbn iota. cbn [rev]. rewrite rev_involutive. reflexivity. }
    unfold visit_strings. cbn [flat_map]. rewrite S, app_nil_r, <- app_assoc. cbn [app]. unfold c_reads. rewrite Free by (repeat constructor; discriminate). change (34 =? 34) with true. cbn iota.
    rewrite Run by (rewrite app_length; cbn; lia). reflexivity.
Qed.
Print Assumptions C57_final_quote_refuted.
Example C57_final_quote_example : Forall (fun c => 32 <= c < 127 /\ c <> 34 /\ c <> 92 /\ c <> 63) [115; 97; 121].
Proof. repeat (constructor; [lia|]). constructor. Qed.
(** An escape at the end of a literal takes in digits of the next: "\x1" "2" is one character. *)
Theorem C57_escape_before_digit_refuted : c_reads (quoted [92; 120; 49]) = Some [1] /\ c_reads (quoted [50]) = Some [50] /\ c_reads (visit_strings [quoted [92; 120; 49]; quoted [50]]) = Some [18].
Proof. repeat split. Qed.
Print Assumptions C57_escape_before_digit_refuted.
Lemma strip_right b : (forall p, b <> p ++ [34]) -> rev (lstrip (rev (b ++ [34]))) = b.
Proof.
  intro NQ. rewrite rev_app_distr. cbn [rev app lstrip]. change (34 =? 34) with true. cbn iota. destruct (rev b) as [|z s] eqn:R.
  - apply (f_equal (@rev N)) in R. rewrite rev_involutive in R. now subst b.
  - apply (f_equal (@rev N)) in R. rewrite rev_involutive in R. cbn [rev] in R. cbn [lstrip]. destruct (N.eqb_spec z 34) as [->|]; [exfalso; exact (NQ _ R)|]. now rewrite R.
Qed.
(** A literal with an encoding prefix, L"text", is written with the prefix inside the quotes. *)
Theorem C57_prefix_refuted : forall p a, p <> [] -> Forall (fun c => 32 <= c < 127 /\ c <> 34 /\ c <> 92 /\ c <> 63) p -> Forall (fun c => 32 <= c < 127 /\ c <> 34 /\ c <> 92 /\ c <> 63) a ->
  a <> [] -> c_reads (visit_strings [p ++ quoted a]) = None.
Proof.
  intros p a Np Hp Ha Na. assert (S : strip (p ++ quoted a) = p ++ 34 :: a).
  { unfold strip. destruct Hp as [|c p (R & N1 & N2 & N3) Hp]; [contradiction|]. assert (L : lstrip ((c :: p) ++ quoted a) = (c :: p) ++ quoted a) by (cbn [app lstrip]; now rewrite (proj2 (N.eqb_neq c 34) N1)).
    rewrite L. unfold quoted. replace ((c :: p) ++ 34 :: a ++ [34]) with (((c :: p) ++ 34 :: a) ++ [34]) by (rewrite <- app_assoc; reflexivity). apply strip_right.
    intros q E. destruct (rev a) as [|z s] eqn:Ra; apply (f_equal (@rev N)) in Ra; rewrite rev_involutive in Ra; cbn [rev] in Ra; [contradiction|]. subst a.
    replace ((c :: p) ++ 34 :: rev s ++ [z]) with (((c :: p) ++ 34 :: rev s) ++ [z]) in E by (rewrite <- app_assoc; reflexivity). apply app_inj_tail in E as [_ ->].
    rewrite Forall_forall in Ha. destruct (Ha 34) as (_ & A & _); [apply in_or_app; right; now left|]. now apply A. }
  unfold visit_strings. cbn [flat_map]. rewrite S, app_nil_r. rewrite <- app_assoc. cbn [app]. unfold c_reads.
  assert (Free : trigraphs (34 :: p ++ 34 :: a ++ [34]) = 34 :: p ++ 34 :: a ++ [34]).
  { apply trigraphs_free. rewrite <- (app_nil_r (34 :: _)). rewrite free_skip; [reflexivity|]. constructor; [discriminate|]. apply Forall_app. split; [eapply Forall_impl; [|exact Hp]; intros ? Hc; apply Hc|]. constructor; [discriminate|].
    apply Forall_app. split; [eapply Forall_impl; [|exact Ha]; intros ? Hc; apply Hc|]. repeat constructor; discriminate. }
  rewrite Free. change (34 =? 34) with true. cbn iota.
  assert (Run : forall f, (length p + length (34%N :: a ++ [34%N]) < f)%nat -> chars f (p ++ 34 :: a ++ [34]) = None).
  { clear Np S Free. induction Hp as [|c p (R & N1 & N2 & N3) Hp IH]; intros f Hf; (destruct f as [|f]; [lia|]).
    - cbn [app chars]. change (34 =? 34) with true. cbn iota. destruct a; [contradiction|reflexivity].
    - cbn [app length] in *. cbn [chars]. rewrite (proj2 (N.eqb_neq c 34) N1), (proj2 (N.eqb_neq c 92) N2), (proj2 (N.eqb_neq c 10)) by lia. rewrite IH by (cbn [length]; lia). reflexivity. }
  apply Run. rewrite app_length. lia.
Qed.
Print Assumptions C57_prefix_refuted.
Example C57_prefix_example : c_reads (visit_strings [76 :: quoted [97; 98]]) = None /\ visit_strings [76 :: quoted [97; 98]] = [34; 76; 34; 97; 98; 34].
Proof. split; reflexivity. Qed.
