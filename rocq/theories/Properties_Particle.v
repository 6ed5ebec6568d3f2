(** Property C61: reaching the members of a particle by name. *)
From Coq Require Import List String Ascii Bool NArith ZArith Arith Lia.
From Verif Require Import PyStr UserVars Particle.
Import ListNotations.
Local Open Scope string_scope.
Local Open Scope list_scope.
Local Open Scope nat_scope.

(** * Specification *)
(** the members that describe the state of the particle *)
Definition state (mcstas : bool) : list string :=
  if mcstas then ["x"; "y"; "z"; "vx"; "vy"; "vz"; "sx"; "sy"; "sz"; "t"; "p"] else ["x"; "y"; "z"; "kx"; "ky"; "kz"; "phi"; "Ex"; "Ey"; "Ez"; "t"; "p"].
Definition temporaries : list string := ["_mctmp_a"; "_mctmp_b"; "_mctmp_c"].
(** the members have different names and do not share bytes *)
Definition apart (off : string -> nat) (l : list (string * nat)) : Prop :=
  forall a n b k, In (a, n) l -> In (b, k) l -> a <> b -> off a + n <= off b \/ off b + k <= off a.
Definition layout sizeof psize off mcstas us : Prop := NoDup (map fst (members sizeof psize mcstas us)) /\ apart off (members sizeof psize mcstas us).
(** a variable declared as T x with T a type without stars, no array *)
Definition scalar (d : decl) (t : string) : Prop := exists n q, d = Plain n q /\ q_elements q = None /\ q_dtype q = Some t /\ (q_pointer q = None \/ q_pointer q = Some "").
Definition double_type (t : string) : Prop := t = "double" \/ t = "MCNUM".
(** [x] of [n] bytes holds a double: a member of the state, a temporary or a variable of that type *)
Definition number_member (mcstas : bool) (us : list decl) (x : string) : Prop :=
  In x (state mcstas) \/ In x temporaries \/ (exists d t, In d us /\ x = d_name d /\ scalar d t /\ double_type t).
(** addresses of the member [x] of [n] bytes *)
Definition inside (off : string -> nat) (x : string) (n i : nat) : Prop := off x <= i < off x + n.
(** two memories that agree on everything but the member [x] of [n] bytes *)
Definition same_but off (x : string) (n : nat) (m m' : mem) : Prop := forall i, ~ inside off x n i -> m' i = m i.

(** * Lemmas *)
Lemma pick {A B} (key : A -> string) (f : A -> B -> B) name : forall l b x, NoDup (map key l) -> In x l -> key x = name ->
  fold_left (fun acc y => if key y =?s name then f y acc else acc) l b = f x b.
Proof.
  assert (N : forall l b, ~ In name (map key l) -> fold_left (fun acc y => if key y =?s name then f y acc else acc) l b = b).
  { induction l as [|y l IH]; intros b H; [reflexivity|]. cbn [fold_left]. cbn [map In] in H. destruct (String.eqb_spec (key y) name); [exfalso; auto|]. apply IH. auto. }
  induction l as [|y l IH]; intros b x ND I K; [destruct I|]. cbn [map] in ND. apply NoDup_cons_iff in ND as [ND1 ND]. cbn [fold_left]. destruct I as [->|I].
  - rewrite <- K, String.eqb_refl. rewrite K. apply N. now rewrite <- K.
  - destruct (String.eqb_spec (key y) name) as [E|]; [|now apply IH]. exfalso. apply ND1. rewrite E, <- K. now apply in_map.
Qed.
Lemma pick_none {A B} (key : A -> string) (f : A -> B -> B) name : forall l b, ~ In name (map key l) -> fold_left (fun acc y => if key y =?s name then f y acc else acc) l b = b.
Proof. induction l as [|y l IH]; intros b H; [reflexivity|]. cbn [fold_left]. cbn [map In] in H. destruct (String.eqb_spec (key y) name); [exfalso; auto|]. apply IH. auto. Qed.

Lemma bytes_length m a n : List.length (bytes m a n) = n.
Proof. unfold bytes. now rewrite map_length, seq_length. Qed.
Lemma bytes_ext m m' a n : (forall i, a <= i < a + n -> m i = m' i) -> bytes m a n = bytes m' a n.
Proof. intro H. apply map_ext_in. intros i I. apply in_seq in I. auto. Qed.
Lemma put_out m a l i : ~ (a <= i < a + List.length l) -> put m a l i = m i.
Proof. intro H. unfold put. destruct (Nat.leb_spec a i), (Nat.ltb_spec i (a + List.length l)); cbn [andb]; auto; exfalso; lia. Qed.
Lemma put_in m a l i : i < List.length l -> put m a l (a + i) = nth i l 0%N.
Proof. intro H. unfold put. destruct (Nat.leb_spec a (a + i)), (Nat.ltb_spec (a + i) (a + List.length l)); cbn [andb]; try lia. f_equal. lia. Qed.
Lemma bytes_put m a l : bytes (put m a l) a (List.length l) = l.
Proof.
  apply nth_ext with (d := 0%N) (d' := 0%N); [now rewrite bytes_length|]. intros i H. rewrite bytes_length in H. unfold bytes.
  rewrite (nth_indep _ 0%N (put m a l 0)) by (now rewrite map_length, seq_length). rewrite map_nth, seq_nth by exact H. now apply put_in.
Qed.
Lemma bytes_put_apart m a l b n : a + List.length l <= b \/ b + n <= a -> bytes (put m a l) b n = bytes m b n.
Proof. intro H. apply bytes_ext. intros i I. apply put_out. lia. Qed.
Lemma bytes_app m a n k : bytes m a (n + k) = bytes m a n ++ bytes m (a + n) k.
Proof. unfold bytes. now rewrite seq_app, map_app. Qed.

Lemma nodup_app {A} (a b : list A) : NoDup (a ++ b) <-> NoDup a /\ NoDup b /\ (forall x, In x a -> In x b -> False).
Proof.
  induction a as [|x a IH]; cbn [app]; [split; [intro H; split; [constructor|split; [exact H|intros ? []]]|tauto]|]. rewrite !NoDup_cons_iff, IH, in_app_iff. split.
  - intros (N & A1 & B & C). split; [tauto|]. split; [exact B|]. intros y [->|Y] Z; [tauto|]. eauto.
  - intros ((N & A1) & B & C). split; [intros [H|H]; [tauto|]; apply (C x); [now left|exact H]|]. split; [exact A1|]. split; [exact B|]. intros y Y Z. apply (C y); [now right|exact Z].
Qed.
Lemma accessible_state mcstas x : In x (accessible mcstas) <-> In x (state mcstas) \/ In x temporaries.
Proof. destruct mcstas; cbn; tauto. Qed.
Lemma restorable_state mcstas x : In x (restorable mcstas) <-> In x (state mcstas).
Proof. destruct mcstas; cbn; tauto. Qed.
Lemma accessible_nodup mcstas : NoDup (accessible mcstas).
Proof. destruct mcstas; cbn; repeat (constructor; [cbn; intuition discriminate|]); constructor. Qed.
Lemma restorable_nodup mcstas : NoDup (restorable mcstas).
Proof. destruct mcstas; cbn; repeat (constructor; [cbn; intuition discriminate|]); constructor. Qed.
Lemma accessible_builtin sizeof psize mcstas x : In x (accessible mcstas) -> In (x, sizeof "double") (builtin sizeof psize mcstas).
Proof. destruct mcstas; cbn; intuition (subst; auto 40). Qed.
Lemma names_of_members sizeof psize mcstas us : map fst (members sizeof psize mcstas us) = map fst (builtin sizeof psize mcstas) ++ map d_name us.
Proof. unfold members. rewrite map_app, map_map. reflexivity. Qed.
Lemma layout_keys sizeof psize off mcstas us (L : layout sizeof psize off mcstas us) : NoDup (accessible mcstas ++ map d_name us).
Proof.
  destruct L as [N _]. rewrite names_of_members in N. apply nodup_app in N as (A1 & B & C). apply nodup_app. split; [apply accessible_nodup|]. split; [exact B|].
  intros x X Y. apply (C x); [|exact Y]. apply (accessible_builtin sizeof psize) in X. now apply (in_map fst) in X.
Qed.
Lemma nodup_map_filter {A} (f : A -> string) p l : NoDup (map f l) -> NoDup (map f (filter p l)).
Proof.
  induction l as [|x l IH]; [auto|]. cbn [map filter]. rewrite NoDup_cons_iff. intros [N D]. destruct (p x); [|auto]. cbn [map]. constructor; [|auto].
  intro I. apply N. apply in_map_iff in I as (y & E & I). apply filter_In in I as [I _]. rewrite <- E. now apply in_map.
Qed.
Lemma scalar_user d t : scalar d t -> is_array d = false /\ is_pointer d = false /\ dtype d = t /\ (forall sizeof psize, user_size sizeof psize d = sizeof t).
Proof.
  intros (n & q & -> & E & T & P). assert (Q : is_pointer (Plain n q) = false) by (unfold is_pointer; cbn [quals_of]; destruct P as [->| ->]; reflexivity).
  assert (Y : dtype (Plain n q) = t) by (unfold dtype; cbn [quals_of]; now rewrite T). split; [cbn [is_array]; now rewrite E|]. split; [exact Q|]. split; [exact Y|]. intros. cbn [user_size]. now rewrite Q, Y.
Qed.
Lemma in_members_user sizeof psize mcstas us d : In d us -> In (d_name d, user_size sizeof psize d) (members sizeof psize mcstas us).
Proof. intro I. apply in_or_app. right. now apply (in_map (fun d => (d_name d, user_size sizeof psize d))). Qed.
Lemma in_members_accessible sizeof psize mcstas us x : In x (accessible mcstas) -> In (x, sizeof "double") (members sizeof psize mcstas us).
Proof. intro I. apply in_or_app. left. now apply accessible_builtin. Qed.

(** * Theorems *)
(** C61: particle_getvar gives, for every member of the state, every temporary and every user variable of type double, the number the member holds, and 0 for success; for a name that is neither a member of these nor a user variable it gives 0 and 1.
    Partial: user variables of other types see the refutation. *)
Theorem C61_read_by_name_partial : forall sizeof psize off D (zero : D) dec mcstas us m x, layout sizeof psize off mcstas us -> sizeof "MCNUM" = sizeof "double" ->
  (number_member mcstas us x -> exists n, In (x, n) (members sizeof psize mcstas us) /\ getvar sizeof off D zero dec mcstas us m x = (dec (bytes m (off x) n), 0)) /\
  (~ In x (state mcstas ++ temporaries ++ map d_name us) -> getvar sizeof off D zero dec mcstas us m x = (zero, 1)).
Proof.
  intros sizeof psize off D zero dec mcstas us m x L M. pose proof (layout_keys _ _ _ _ _ L) as K. split.
  - intro H. exists (sizeof "double").
    assert (I : In x (accessible mcstas ++ map d_name us) /\ In (x, sizeof "double") (members sizeof psize mcstas us)).
    { destruct H as [H|[H|(d & t & I & -> & S1 & T)]].
      - assert (A1 : In x (accessible mcstas)) by (apply accessible_state; auto). split; [apply in_or_app; auto|now apply in_members_accessible].
      - assert (A1 : In x (accessible mcstas)) by (apply accessible_state; auto). split; [apply in_or_app; auto|now apply in_members_accessible].
      - split; [apply in_or_app; right; now apply in_map|]. apply scalar_user in S1 as (_ & _ & _ & U). pose proof (in_members_user sizeof psize mcstas us d I) as J. rewrite U in J.
        destruct T as [-> | ->]; [exact J|now rewrite M in J]. }
    destruct I as [I J]. split; [exact J|]. unfold getvar.
    rewrite (pick (fun y => y) (fun y _ => (read_double sizeof off D dec m y, 0)) x _ _ x); auto. now rewrite map_id.
  - intro H. unfold getvar. apply (pick_none (fun y => y) (fun y _ => (read_double sizeof off D dec m y, 0))). rewrite map_id, in_app_iff, accessible_state. rewrite !in_app_iff in H. tauto.
Qed.
Print Assumptions C61_read_by_name_partial.

Lemma members_types_keys mcstas us : map fst (members_types mcstas us) = accessible mcstas ++ map d_name (filter (fun d => negb (is_array d) && negb (is_pointer d)) us).
Proof. unfold members_types. rewrite map_app, !map_map. cbn [fst]. now rewrite map_id. Qed.
Lemma members_types_nodup sizeof psize off mcstas us (L : layout sizeof psize off mcstas us) : NoDup (map fst (members_types mcstas us)).
Proof.
  rewrite members_types_keys. apply layout_keys in L. apply nodup_app in L as (A1 & B & C). apply nodup_app. split; [exact A1|]. split; [now apply nodup_map_filter|].
  intros x X Y. apply (C x X). apply in_map_iff in Y as (y & <- & Y). apply filter_In in Y as [Y _]. now apply in_map.
Qed.
(** C61: particle_setvar_void stores the bytes of the given value in the member of that name and in no other byte, for every member of the state, every temporary and every user variable of a type without stars that is no array; for a name that is none of them nor a user variable it changes nothing and returns 1. *)
Theorem C61_write_by_name_partial : forall sizeof psize off mcstas us m x value, layout sizeof psize off mcstas us ->
  (In x (state mcstas) \/ In x temporaries \/ (exists d t, In d us /\ x = d_name d /\ scalar d t) ->
   exists n m', In (x, n) (members sizeof psize mcstas us) /\ setvar_void sizeof off mcstas us m x value = (m', 0) /\ bytes m' (off x) n = bytes value 0 n /\ same_but off x n m m') /\
  (~ In x (state mcstas ++ temporaries ++ map d_name us) -> setvar_void sizeof off mcstas us m x value = (m, 1)).
Proof.
  intros sizeof psize off mcstas us m x value L. pose proof (members_types_nodup _ _ _ _ _ L) as K. split.
  - intro H. assert (I : exists t, In (x, t) (members_types mcstas us) /\ In (x, sizeof t) (members sizeof psize mcstas us)).
    { destruct H as [H|[H|(d & t & I & -> & S1)]].
      - exists "double". assert (A1 : In x (accessible mcstas)) by (apply accessible_state; auto). split; [apply in_or_app; left; now apply (in_map (fun x => (x, "double")))|now apply in_members_accessible].
      - exists "double". assert (A1 : In x (accessible mcstas)) by (apply accessible_state; auto). split; [apply in_or_app; left; now apply (in_map (fun x => (x, "double")))|now apply in_members_accessible].
      - exists t. apply scalar_user in S1 as (A1 & P & T & U). pose proof (in_members_user sizeof psize mcstas us d I) as J. rewrite U in J. split; [|exact J]. apply in_or_app. right. rewrite <- T.
        apply (in_map (fun d => (d_name d, dtype d))). apply filter_In. split; [exact I|]. now rewrite A1, P. }
    destruct I as (t & I & J). exists (sizeof t), (memcpy m (off x) value (sizeof t)). split; [exact J|]. split; [|split].
    + unfold setvar_void. rewrite (pick fst (fun xy acc => (memcpy (fst acc) (off (fst xy)) value (sizeof (snd xy)), 0)) x _ _ (x, t)); auto.
    + unfold memcpy. pose proof (bytes_put m (off x) (bytes value 0 (sizeof t))) as B. now rewrite bytes_length in B.
    + intros i O. unfold memcpy. apply put_out. rewrite bytes_length. exact O.
  - intro H. unfold setvar_void. apply (pick_none fst (fun xy acc => (memcpy (fst acc) (off (fst xy)) value (sizeof (snd xy)), 0))). rewrite members_types_keys, in_app_iff, accessible_state. rewrite !in_app_iff in H.
    intros [X|X]; [tauto|]. apply H. right. right. apply in_map_iff in X as (d & <- & X). apply filter_In in X as [X _]. now apply in_map.
Qed.
Print Assumptions C61_write_by_name_partial.

(** C61: a number stored under a name is the one read under that name afterwards, and the numbers of all other names are as before. *)
Theorem C61_write_then_read : forall sizeof psize off D (zero : D) dec mcstas us m x value m' r, layout sizeof psize off mcstas us -> sizeof "MCNUM" = sizeof "double" ->
  number_member mcstas us x -> setvar_void sizeof off mcstas us m x value = (m', r) ->
  r = 0 /\ getvar sizeof off D zero dec mcstas us m' x = (dec (bytes value 0 (sizeof "double")), 0) /\
  forall y, number_member mcstas us y -> y <> x -> getvar sizeof off D zero dec mcstas us m' y = getvar sizeof off D zero dec mcstas us m y.
Proof.
  intros sizeof psize off D zero dec mcstas us m x value m' r L M H E.
  assert (S1 : forall x, number_member mcstas us x -> In x (state mcstas) \/ In x temporaries \/ (exists d t, In d us /\ x = d_name d /\ scalar d t)).
  { intros z [Z|[Z|(d & t & I & Z & S1 & _)]]; [tauto|tauto|]. right. right. exists d, t. tauto. }
  destruct (C61_write_by_name_partial sizeof psize off mcstas us m x value L) as [W _]. destruct (W (S1 x H)) as (n & m2 & I & E2 & B & O). rewrite E in E2. injection E2 as -> ->.
  assert (U : forall z, number_member mcstas us z -> forall k, In (z, k) (members sizeof psize mcstas us) -> k = sizeof "double").
  { intros z Z k J. assert (F : forall k', In (z, k') (members sizeof psize mcstas us) -> k = k').
    { destruct L as [L _]. clear - L J. intros k' J'. induction (members sizeof psize mcstas us) as [|[a c] l IH]; [destruct J|]. cbn [map fst] in L. apply NoDup_cons_iff in L as [L1 L].
      destruct J as [J|J], J' as [J'|J']; [congruence| | |auto]; exfalso; apply L1; [injection J as -> ->; now apply (in_map fst) in J'|injection J' as -> ->; now apply (in_map fst) in J]. }
    destruct Z as [Z|[Z|(d & t & Id & -> & Sd & T)]].
    - apply F. apply in_members_accessible, accessible_state. auto.
    - apply F. apply in_members_accessible, accessible_state. auto.
    - pose proof (in_members_user sizeof psize mcstas us d Id) as V. apply scalar_user in Sd as (_ & _ & _ & Sz). rewrite Sz in V. apply F in V. destruct T as [-> | ->]; congruence. }
  split; [reflexivity|]. split.
  - destruct (C61_read_by_name_partial sizeof psize off D zero dec mcstas us m2 x L M) as [R _]. destruct (R H) as (k & J & ->). rewrite (U x H n I) in B. rewrite (U x H k J), B. reflexivity.
  - intros y Y N. destruct (C61_read_by_name_partial sizeof psize off D zero dec mcstas us m2 y L M) as [R _]. destruct (R Y) as (k & J & ->).
    destruct (C61_read_by_name_partial sizeof psize off D zero dec mcstas us m y L M) as [R' _]. destruct (R' Y) as (k' & J' & ->).
    pose proof (U y Y k J) as Ek. pose proof (U y Y k' J') as Ek'. pose proof (U x H n I) as En. destruct L as [_ L]. specialize (L _ _ _ _ J I N).
    rewrite <- Ek in Ek'. subst k'. f_equal. f_equal. apply bytes_ext. intros i Hi. apply O. unfold inside. lia.
Qed.
Print Assumptions C61_write_then_read.

(** C61: the addresses: particle_getvar_void and _get_particle_var give, for every user variable of any type, the place of its member, the first also for the state and the temporaries; other names give the null pointer. *)
Theorem C61_addresses : forall sizeof psize off mcstas us x, layout sizeof psize off mcstas us ->
  (In x (state mcstas ++ temporaries ++ map d_name us) -> getvar_void off mcstas us x = (Some (off x), 0)) /\
  (~ In x (state mcstas ++ temporaries ++ map d_name us) -> getvar_void off mcstas us x = (None, 1)) /\
  (In x (map d_name us) -> get_particle_var off us x = Some (off x)) /\ (~ In x (map d_name us) -> get_particle_var off us x = None).
Proof.
  intros sizeof psize off mcstas us x L. pose proof (layout_keys _ _ _ _ _ L) as K.
  assert (E : In x (state mcstas ++ temporaries ++ map d_name us) <-> In x (accessible mcstas ++ map d_name us)) by (rewrite !in_app_iff, accessible_state; tauto).
  split; [|split; [|split]].
  - intro H. apply E in H. unfold getvar_void. rewrite (pick (fun y => y) (fun y _ => (Some (off y), 0)) x _ _ x); auto. now rewrite map_id.
  - intro H. rewrite E in H. unfold getvar_void. apply (pick_none (fun y => y) (fun y _ => (Some (off y), 0))). now rewrite map_id.
  - clear. induction us as [|d us IH]; [intros []|]. cbn [map In get_particle_var]. intro H. destruct (String.eqb_spec (d_name d) x) as [->|]; [reflexivity|]. apply IH. tauto.
  - clear. induction us as [|d us IH]; [reflexivity|]. cbn [map In get_particle_var]. intro H. destruct (String.eqb_spec (d_name d) x) as [E|]; [exfalso; apply H; now left|]. apply IH. tauto.
Qed.
Print Assumptions C61_addresses.

Lemma builtin_size sizeof psize off mcstas us : layout sizeof psize off mcstas us -> forall x n k, In (x, n) (members sizeof psize mcstas us) -> In (x, k) (members sizeof psize mcstas us) -> n = k.
Proof.
  intros [L _] x n k J J'. induction (members sizeof psize mcstas us) as [|[a c] l IH]; [destruct J|]. cbn [map fst] in L. apply NoDup_cons_iff in L as [L1 L].
  destruct J as [J|J], J' as [J'|J']; [congruence| | |auto]; exfalso; apply L1; [injection J as -> ->; now apply (in_map fst) in J'|injection J' as -> ->; now apply (in_map fst) in J].
Qed.
Lemma fold_put_keep (off : string -> nat) src (k : nat) : forall l p y n, (forall x, In x l -> off x + k <= off y \/ off y + n <= off x) ->
  bytes (fold_left (fun p x => put p (off x) (bytes src (off x) k)) l p) (off y) n = bytes p (off y) n.
Proof. induction l as [|x l IH]; intros p y n H; [reflexivity|]. cbn [fold_left]. rewrite IH by (intros z Z; apply H; now right). apply bytes_put_apart. rewrite bytes_length. apply H. now left. Qed.
Lemma fold_put_copy (off : string -> nat) src (k : nat) : forall l p y, NoDup l -> In y l -> (forall x, In x l -> x <> y -> off x + k <= off y \/ off y + k <= off x) ->
  bytes (fold_left (fun p x => put p (off x) (bytes src (off x) k)) l p) (off y) k = bytes src (off y) k.
Proof.
  induction l as [|x l IH]; intros p y N I H; [destruct I|]. cbn [fold_left]. apply NoDup_cons_iff in N as [Nx N]. destruct I as [->|I].
  - rewrite fold_put_keep; [|intros z Z; apply H; [now right|intros ->; contradiction]]. pose proof (bytes_put p (off y) (bytes src (off y) k)) as B. now rewrite bytes_length in B.
  - apply IH; [exact N|exact I|]. intros z Z. apply H. now right.
Qed.
(** C61: particle_restore takes every member of the state from the other particle, clears the marks of absorption and of restoring, and keeps every other member: temporaries, random state, number, logic and all user variables. *)
Theorem C61_restore : forall sizeof psize off enc_long mcstas us p p0 x n, layout sizeof psize off mcstas us -> List.length (enc_long 0%Z) = sizeof "long" -> In (x, n) (members sizeof psize mcstas us) ->
  bytes (restore sizeof off enc_long mcstas p p0) (off x) n =
  if existsb (String.eqb x) (state mcstas) then bytes p0 (off x) n else if existsb (String.eqb x) ["_absorbed"; "_restore"] then enc_long 0%Z else bytes p (off x) n.
Proof.
  intros sizeof psize off enc mcstas us p p0 x n L E I.
  assert (A1 : In ("_absorbed", sizeof "long") (members sizeof psize mcstas us)) by (apply in_or_app; left; destruct mcstas; cbn; auto 40).
  assert (R1 : In ("_restore", sizeof "long") (members sizeof psize mcstas us)) by (apply in_or_app; left; destruct mcstas; cbn; auto 40).
  pose proof (builtin_size _ _ _ _ _ L) as U. destruct L as [L P]. unfold restore.
  destruct (String.eqb_spec x "_restore") as [->|Nr].
  { replace (existsb (String.eqb "_restore") (state mcstas)) with false by (destruct mcstas; reflexivity). cbn [existsb]. rewrite (U _ _ _ I R1), <- E. cbn. apply bytes_put. }
  rewrite bytes_put_apart by (rewrite E; specialize (P _ _ _ _ R1 I ltac:(auto)); lia).
  destruct (String.eqb_spec x "_absorbed") as [->|Na].
  { replace (existsb (String.eqb "_absorbed") (state mcstas)) with false by (destruct mcstas; reflexivity). cbn [existsb]. rewrite (U _ _ _ I A1), <- E. cbn. apply bytes_put. }
  rewrite bytes_put_apart by (rewrite E; specialize (P _ _ _ _ A1 I ltac:(auto)); lia).
  assert (D : forall z, In z (restorable mcstas) -> In (z, sizeof "double") (members sizeof psize mcstas us)) by (intros z Z; apply in_members_accessible, accessible_state; left; now apply restorable_state).
  destruct (existsb (String.eqb x) (state mcstas)) eqn:X.
  - apply existsb_exists in X as (y & Y & Q). apply String.eqb_eq in Q as <-. apply restorable_state in Y. rewrite (U _ _ _ I (D _ Y)). apply fold_put_copy; [apply restorable_nodup|exact Y|].
    intros z Z N. exact (P _ _ _ _ (D _ Z) (D _ Y) N).
  - cbn [existsb]. apply String.eqb_neq in Na, Nr. rewrite Na, Nr. cbn [orb]. apply fold_put_keep. intros z Z. apply (P _ _ _ _ (D _ Z) I). intros ->.
    apply restorable_state in Z. assert (existsb (String.eqb x) (state mcstas) = true) by (apply existsb_exists; exists x; split; [exact Z|apply String.eqb_refl]). congruence.
Qed.
Print Assumptions C61_restore.

(** C61: particle_getuservar_byid reads the user variables in the order of their declaration, from 0 on. *)
Theorem C61_read_by_number : forall sizeof psize off D (zero : D) dec mcstas us m i, layout sizeof psize off mcstas us -> sizeof "MCNUM" = sizeof "double" ->
  (forall d t, nth_error us i = Some d -> scalar d t -> double_type t -> getuservar_byid sizeof off D zero dec us m i = (dec (bytes m (off (d_name d)) (sizeof t)), 0)) /\
  (forall d, nth_error us i = Some d -> getuservar_byid sizeof off D zero dec us m i = getvar sizeof off D zero dec mcstas us m (d_name d)) /\
  (List.length us <= i -> getuservar_byid sizeof off D zero dec us m i = (zero, 1)).
Proof.
  intros sizeof psize off D zero dec mcstas us m i L M. unfold getuservar_byid. split; [|split].
  - intros d t -> _ T. unfold read_double. destruct T as [-> | ->]; now rewrite ?M.
  - intros d E. rewrite E. apply nth_error_In in E. unfold getvar. symmetry. rewrite (pick (fun y => y) (fun y _ => (read_double sizeof off D dec m y, 0)) (d_name d) _ _ (d_name d)); [reflexivity| | |reflexivity].
    + rewrite map_id. now apply layout_keys in L.
    + apply in_or_app. right. now apply in_map.
  - intro H. apply nth_error_None in H. now rewrite H.
Qed.
Print Assumptions C61_read_by_number.

(** what C stores for a declaration with that initial value, or 0 without one *)
Definition initial (d : decl) : string := match q_init (quals_of d) with Some t => t | None => "0" end.
(** C61: particle_uservar_init stores in every variable of type double, MCNUM or int, and in every variable with an initial value, that value or 0, and changes no other member.
    Partial: arrays, pointers and other types without initial value see the refutation. *)
Theorem C61_initial_values_partial : forall sizeof psize off conv mcstas us m x n, layout sizeof psize off mcstas us -> (forall d t, List.length (conv d t) = user_size sizeof psize d) ->
  In (x, n) (members sizeof psize mcstas us) ->
  (forall d t, In d us -> x = d_name d -> scalar d t -> In t ["double"; "MCNUM"; "int"] \/ q_init (quals_of d) <> None -> bytes (uservar_init off conv us m) (off x) n = conv d (initial d)) /\
  (~ In x (map d_name us) -> bytes (uservar_init off conv us m) (off x) n = bytes m (off x) n).
Proof.
  intros sizeof psize off conv mcstas us m x n L C I.
  assert (G : forall l m, (forall d, In d l -> In d us) -> ~ In x (map d_name l) -> bytes (uservar_init off conv l m) (off x) n = bytes m (off x) n).
  { unfold uservar_init. induction l as [|d l IH]; intros m1 S1 N; [reflexivity|]. cbn [fold_left map In] in *. rewrite IH by (auto; tauto). destruct (skipped d); [reflexivity|]. apply bytes_put_apart. rewrite C.
    destruct L as [_ P]. apply (P _ _ _ _ (in_members_user sizeof psize mcstas us d (S1 d (or_introl eq_refl))) I). auto. }
  split; [|intro N; apply G; auto].
  intros d t J -> Sc T. pose proof (in_members_user sizeof psize mcstas us d J) as Id. pose proof (builtin_size _ _ _ _ _ L _ _ _ I Id) as En.
  assert (K : skipped d = false).
  { unfold skipped. apply scalar_user in Sc as (A1 & P & Y & _). rewrite A1, P, Y, !orb_false_r. destruct (q_init (quals_of d)) as [v|] eqn:Q; [apply andb_false_r|]. rewrite andb_true_r. apply negb_false_iff.
    apply existsb_exists. exists t. split; [tauto|apply String.eqb_refl]. }
  assert (N : NoDup (map d_name us)) by (apply layout_keys in L; apply nodup_app in L; tauto).
  assert (H : forall l m, (forall e, In e l -> In e us) -> NoDup (map d_name l) -> In d l -> bytes (uservar_init off conv l m) (off (d_name d)) n = conv d (initial d)).
  { induction l as [|e l IH]; intros m1 S1 Nl Jl; [destruct Jl|]. cbn [map] in Nl. apply NoDup_cons_iff in Nl as [Ne Nl]. change (uservar_init off conv (e :: l) m1) with (uservar_init off conv l (if skipped e then m1 else put m1 (off (d_name e)) (conv e (init_text e)))). destruct Jl as [->|Jl].
    - rewrite K, G by (auto; intros; apply S1; now right). rewrite En, <- (C d (init_text d)), bytes_put. reflexivity.
    - apply IH; auto. intros; apply S1; now right. }
  apply H; auto.
Qed.
Print Assumptions C61_initial_values_partial.

(** C61: mcgenstate calls mcsetstate with one argument for every parameter of its signature: 1 for the third component of velocity or wave vector and for the weight, the settings for gravitation, magnet and back propagation, 0 for everything else. *)
Definition start (mcstas : bool) (x : string) : string :=
  if x =?s "p" then "1" else if x =?s (if mcstas then "vz" else "kz") then "1" else if x =?s "mcgravitation" then "mcgravitation" else if x =?s "mcMagnet" then "NULL" else if x =?s "allow_backprop" then "mcallowbackprop" else "0".
Theorem C61_start : forall mcstas, setstate_call mcstas = map (start mcstas) (setstate_members mcstas) /\ NoDup (setstate_members mcstas) /\ (forall x, In x (state mcstas) -> In x (setstate_members mcstas)).
Proof. intros []; (split; [reflexivity|split; [cbn; repeat (constructor; [cbn; intuition discriminate|]); constructor|cbn; intuition]]). Qed.
Print Assumptions C61_start.

(** * An example *)
Definition size0 (t : string) : nat := match get t [("double", 8); ("MCNUM", 8); ("int", 4); ("float", 4); ("long", 8); ("long long", 8); ("unsigned long", 8); ("struct particle_logic_struct", 16); ("void", 1)] with Some n => n | None => 0 end.
Definition q0 (t : string) (i : option string) : quals := mkQ None [] None (Some t) i.
Definition vars0 : list decl :=
  [Plain "w" (q0 "double" (Some "1.5")); Plain "flag" (q0 "int" None); Plain "h" (q0 "float" None); Plain "a" (mkQ None [] (Some (Ints [3%Z])) (Some "double") (Some "{1,2,3}"));
   Plain "q" (mkQ (Some "*") [] None (Some "double") None); Fun (Plain "f" (mkQ None [] None None None)) (Some "*") (Some "double") (q0 "int" None); Plain "last" (q0 "MCNUM" None)].
Fixpoint index (x : string) (l : list string) : nat := match l with [] => 0 | y :: l => if y =?s x then 0 else S (index x l) end.
(** every member begins at a multiple of 64, but [a], [q] and [f], which follow each other and [h] without a gap *)
Definition off0 (x : string) : nat :=
  let o := 64 * index x (map fst (members size0 8 true vars0)) in
  if x =?s "a" then 64 * index "h" (map fst (members size0 8 true vars0)) + 8 else if x =?s "q" then 64 * index "h" (map fst (members size0 8 true vars0)) + 16 else o.
Definition apart_b (off : string -> nat) (l : list (string * nat)) : bool :=
  forallb (fun a => forallb (fun b => (fst a =?s fst b) || (off (fst a) + snd a <=? off (fst b)) || (off (fst b) + snd b <=? off (fst a))) l) l.
Lemma apart_ok off l : apart_b off l = true -> apart off l.
Proof.
  intros H a n b k I J N. unfold apart_b in H. rewrite forallb_forall in H. specialize (H _ I). rewrite forallb_forall in H. specialize (H _ J). cbn [fst snd] in H. rewrite !orb_true_iff in H.
  destruct H as [[H|H]|H]; [apply String.eqb_eq in H; contradiction|left|right]; now apply Nat.leb_le.
Qed.
Example layout0 : layout size0 8 off0 true vars0.
Proof. split; [cbn; repeat (constructor; [cbn; intuition discriminate|]); constructor|]. apply apart_ok. vm_compute. reflexivity. Qed.
Example scalar0 : scalar (Plain "w" (q0 "double" (Some "1.5"))) "double" /\ number_member true vars0 "w" /\ number_member true vars0 "last" /\ number_member true vars0 "vz".
Proof.
  assert (H : forall n t i, scalar (Plain n (q0 t i)) t) by (intros; eexists; eexists; split; [reflexivity|split; [reflexivity|split; [reflexivity|now left]]]).
  split; [apply H|]. split; [|split].
  - right. right. exists (Plain "w" (q0 "double" (Some "1.5"))), "double". split; [now left|]. split; [reflexivity|]. split; [apply H|now left].
  - right. right. exists (Plain "last" (q0 "MCNUM" None)), "MCNUM". split; [cbn; auto 10|]. split; [reflexivity|]. split; [apply H|now right].
  - left. cbn. auto 10.
Qed.
(** the memory in which every byte is its own address *)
Definition mem0 : mem := N.of_nat.
Definition dec0 (l : list byte) : N := hd 0%N l.
Example read0 : getvar size0 off0 N 0%N dec0 true vars0 mem0 "vz" = (N.of_nat (off0 "vz"), 0) /\ getvar size0 off0 N 0%N dec0 true vars0 mem0 "_uid" = (0%N, 1).
Proof. split; vm_compute; reflexivity. Qed.
Example write0 : let value : mem := fun _ => 7%N in
  let m' := fst (setvar_void size0 off0 true vars0 mem0 "w" value) in getvar size0 off0 N 0%N dec0 true vars0 m' "w" = (7%N, 0) /\ getvar size0 off0 N 0%N dec0 true vars0 m' "vz" = (N.of_nat (off0 "vz"), 0).
Proof. split; vm_compute; reflexivity. Qed.
Example restore0 : let r := restore size0 off0 (fun _ => repeat 0%N 8) true mem0 (fun _ => 9%N) in
  r (off0 "sx") = 9%N /\ r (off0 "_absorbed") = 0%N /\ r (off0 "w") = N.of_nat (off0 "w") /\ r (off0 "_mctmp_a") = N.of_nat (off0 "_mctmp_a").
Proof. vm_compute. auto. Qed.
Definition conv0 (d : decl) (t : string) : list byte := repeat (if t =?s "0" then 0%N else 3%N) (user_size size0 8 d).
Example init0 : (forall d t, List.length (conv0 d t) = user_size size0 8 d) /\ let r := uservar_init off0 conv0 vars0 mem0 in r (off0 "w") = 3%N /\ r (off0 "flag") = 0%N /\ r (off0 "vx") = N.of_nat (off0 "vx").
Proof. split; [intros; apply repeat_length|]. vm_compute. auto. Qed.

(** * Findings *)
(** particle_getvar and particle_getuservar_byid read every user variable as if it was a double, whatever its type: for an int or float, whose member is shorter, the result depends on bytes that belong to other members. *)
Theorem C61_other_type_refuted : forall sizeof psize off D (zero : D) dec mcstas us d t m, layout sizeof psize off mcstas us -> In d us -> scalar d t -> sizeof t < sizeof "double" ->
  (forall a b, List.length a = sizeof "double" -> List.length b = sizeof "double" -> dec a = dec b -> a = b) ->
  exists m', bytes m' (off (d_name d)) (user_size sizeof psize d) = bytes m (off (d_name d)) (user_size sizeof psize d) /\
    getvar sizeof off D zero dec mcstas us m' (d_name d) <> getvar sizeof off D zero dec mcstas us m (d_name d).
Proof.
  intros sizeof psize off D zero dec mcstas us d t m L I Sc Lt Inj. pose proof Sc as Sc'. apply scalar_user in Sc' as (_ & _ & _ & U). rewrite U. set (x := d_name d).
  exists (put m (off x + sizeof t) [N.succ (m (off x + sizeof t))]). split; [apply bytes_put_apart; lia|].
  assert (G : forall m, getvar sizeof off D zero dec mcstas us m x = (read_double sizeof off D dec m x, 0)).
  { intro m1. unfold getvar. apply (pick (fun y => y) (fun y _ => (read_double sizeof off D dec m1 y, 0)) x _ _ x); [rewrite map_id; now apply layout_keys in L|apply in_or_app; right; now apply in_map|reflexivity]. }
  rewrite !G. unfold read_double. intro E. injection E as E. apply Inj in E; [|apply bytes_length|apply bytes_length].
  apply (f_equal (fun l => nth (sizeof t) l 0%N)) in E. unfold bytes in E.
  assert (Nth : forall m1, nth (sizeof t) (map m1 (seq (off x) (sizeof "double"))) 0%N = m1 (off x + sizeof t)).
  { intro m1. rewrite (nth_indep _ 0%N (m1 0)) by (now rewrite map_length, seq_length). now rewrite map_nth, seq_nth. }
  rewrite !Nth in E. pose proof (put_in m (off x + sizeof t) [N.succ (m (off x + sizeof t))] 0 ltac:(cbn; lia)) as P. rewrite Nat.add_0_r in P. rewrite P in E. cbn [nth] in E. lia.
Qed.
Print Assumptions C61_other_type_refuted.
Example other_type : scalar (Plain "flag" (q0 "int" None)) "int" /\ size0 "int" < size0 "double" /\ bytes (put mem0 (off0 "flag" + 4) [99%N]) (off0 "flag") 4 = bytes mem0 (off0 "flag") 4 /\
  getvar size0 off0 _ [] (fun l => l) true vars0 (put mem0 (off0 "flag" + 4) [99%N]) "flag" <> getvar size0 off0 _ [] (fun l => l) true vars0 mem0 "flag".
Proof. split; [eexists; eexists; split; [reflexivity|split; [reflexivity|split; [reflexivity|now left]]]|]. split; [vm_compute; lia|]. split; [reflexivity|]. vm_compute. intro H. discriminate. Qed.

Lemma array_call sizeof psize off mcstas us d m value k (L : layout sizeof psize off mcstas us) : In d us -> is_array d || is_pointer d = true ->
  setvar_void_array sizeof off us m (d_name d) value k = (memcpy m (off (d_name d)) value (k * sizeof (dtype d)), 0).
Proof.
  intros I A1. unfold setvar_void_array. apply layout_keys in L. apply nodup_app in L as (_ & L & _).
  apply (pick d_name (fun d acc => (memcpy (fst acc) (off (d_name d)) value (k * sizeof (dtype d)), 0)) (d_name d) _ (m, 1) d); [now apply nodup_map_filter|now apply filter_In|reflexivity].
Qed.
(** An array among the user variables is declared without its size (see C49), so that particle_setvar_void_array, given two elements or more, writes beyond the member: a member that follows without a gap gets the second element. *)
Theorem C61_array_overwrites_refuted : forall sizeof psize off mcstas us n q t e m value k y s, layout sizeof psize off mcstas us -> In (Plain n q) us -> q_elements q = Some e -> q_dtype q = Some t -> q_pointer q = None -> 2 <= k ->
  In (y, s) (members sizeof psize mcstas us) -> off y = off n + sizeof t -> s <= sizeof t ->
  exists m', setvar_void_array sizeof off us m n value k = (m', 0) /\ bytes m' (off y) s = bytes value (sizeof t) s.
Proof.
  intros sizeof psize off mcstas us n q t e m value k y s L I E T P K J O Hs. exists (memcpy m (off n) value (k * sizeof t)).
  assert (Y : dtype (Plain n q) = t) by (unfold dtype; cbn [quals_of]; now rewrite T). split.
  - rewrite <- Y. apply (array_call sizeof psize off mcstas us (Plain n q) m value k L I). cbn [is_array]. now rewrite E.
  - rewrite O. unfold memcpy, bytes. apply nth_ext with (d := 0%N) (d' := 0%N); [now rewrite !map_length, !seq_length|]. rewrite map_length, seq_length. intros i Hi.
    set (l := map value (seq 0 (k * sizeof t))). assert (Ll : List.length l = k * sizeof t) by (unfold l; now rewrite map_length, seq_length).
    rewrite (nth_indep _ 0%N (put m (off n) l 0)) by (now rewrite map_length, seq_length). rewrite map_nth, seq_nth by exact Hi.
    rewrite (nth_indep (map value _) 0%N (value 0)) by (now rewrite map_length, seq_length). rewrite map_nth, seq_nth by exact Hi. rewrite <- Nat.add_assoc. rewrite put_in by (rewrite Ll; nia).
    unfold l. rewrite (nth_indep _ 0%N (value 0)) by (rewrite map_length, seq_length; nia). rewrite map_nth, seq_nth by nia. reflexivity.
Qed.
Print Assumptions C61_array_overwrites_refuted.
Example array_overwrites : off0 "q" = off0 "a" + size0 "double" /\ let m' := fst (setvar_void_array size0 off0 vars0 mem0 "a" (fun i => N.of_nat (i / 8)) 3) in bytes m' (off0 "q") 8 = repeat 1%N 8.
Proof. vm_compute. auto. Qed.

(** For a pointer among the user variables particle_setvar_void_array writes the elements into the pointer itself, not to where it points: afterwards the pointer consists of bytes of the data. *)
Theorem C61_pointer_overwritten_refuted : forall sizeof psize off mcstas us n q t s m value k, layout sizeof psize off mcstas us -> In (Plain n q) us -> q_dtype q = Some t -> q_pointer q = Some s -> not_blank s = true -> psize <= k * sizeof t ->
  In (n, psize) (members sizeof psize mcstas us) /\ exists m', setvar_void_array sizeof off us m n value k = (m', 0) /\ bytes m' (off n) psize = bytes value 0 psize.
Proof.
  intros sizeof psize off mcstas us n q t s m value k L I T P B K. assert (Y : dtype (Plain n q) = t) by (unfold dtype; cbn [quals_of]; now rewrite T).
  assert (Q : is_pointer (Plain n q) = true) by (unfold is_pointer; cbn [quals_of]; now rewrite P). split.
  - pose proof (in_members_user sizeof psize mcstas us _ I) as J. cbn [user_size] in J. rewrite Q in J. exact J.
  - exists (memcpy m (off n) value (k * sizeof t)). split; [rewrite <- Y; apply (array_call sizeof psize off mcstas us (Plain n q) m value k L I); now rewrite Q, orb_true_r|].
    pose proof (bytes_put m (off n) (bytes value 0 (k * sizeof t))) as E. rewrite bytes_length in E. unfold memcpy. replace (k * sizeof t) with (psize + (k * sizeof t - psize)) in * by lia.
    rewrite (bytes_app value 0) in *. rewrite (bytes_app _ (off n)) in E. apply (f_equal (firstn psize)) in E.
    rewrite !firstn_app, !bytes_length, Nat.sub_diag, !firstn_O, !app_nil_r in E. rewrite !firstn_all2 in E by (rewrite bytes_length; lia). exact E.
Qed.
Print Assumptions C61_pointer_overwritten_refuted.
Example pointer_overwritten : let m' := fst (setvar_void_array size0 off0 vars0 mem0 "q" (fun i => N.of_nat (i / 8)) 2) in bytes m' (off0 "q") 8 = repeat 0%N 8.
Proof. vm_compute. reflexivity. Qed.

(** For a pointer to a function particle_setvar_void copies as many bytes as the type of the result has: with int four bytes of eight, the rest of the pointer stays. *)
Theorem C61_function_pointer_refuted : forall sizeof psize off mcstas us e mo ar q t m value, layout sizeof psize off mcstas us -> In (Fun e mo ar q) us -> is_array (Fun e mo ar q) = false -> q_dtype q = Some t -> q_pointer q = None -> sizeof t < psize ->
  In (d_name e, psize) (members sizeof psize mcstas us) /\
  exists m', setvar_void sizeof off mcstas us m (d_name e) value = (m', 0) /\ bytes m' (off (d_name e) + sizeof t) (psize - sizeof t) = bytes m (off (d_name e) + sizeof t) (psize - sizeof t).
Proof.
  intros sizeof psize off mcstas us e mo ar q t m value L I A1 T P Lt. assert (Y : dtype (Fun e mo ar q) = t) by (unfold dtype; cbn [quals_of]; now rewrite T).
  assert (Q : is_pointer (Fun e mo ar q) = false) by (unfold is_pointer; cbn [quals_of]; now rewrite P). split; [exact (in_members_user sizeof psize mcstas us _ I)|].
  exists (memcpy m (off (d_name e)) value (sizeof t)). split; [|apply bytes_put_apart; rewrite bytes_length; lia]. unfold setvar_void.
  rewrite (pick fst (fun xy acc => (memcpy (fst acc) (off (fst xy)) value (sizeof (snd xy)), 0)) (d_name e) _ _ (d_name e, t)); [reflexivity|now apply members_types_nodup in L| |reflexivity].
  apply in_or_app. right. rewrite <- Y. apply (in_map (fun d => (d_name d, dtype d)) _ (Fun e mo ar q)). apply filter_In. split; [exact I|]. now rewrite A1, Q.
Qed.
Print Assumptions C61_function_pointer_refuted.
Example function_pointer : let m' := fst (setvar_void size0 off0 true vars0 mem0 "f" (fun _ => 200%N)) in
  bytes m' (off0 "f") 4 = repeat 200%N 4 /\ bytes m' (off0 "f" + 4) 4 = bytes mem0 (off0 "f" + 4) 4.
Proof. vm_compute. auto. Qed.

(** User variables that are arrays, even with initial values, pointers, and variables of a type other than double, MCNUM and int without initial value keep, in every new particle, whatever the memory held before; only a warning is printed. *)
Theorem C61_not_initialised_refuted : forall sizeof psize off conv mcstas us d m, layout sizeof psize off mcstas us -> (forall d t, List.length (conv d t) = user_size sizeof psize d) -> In d us ->
  is_array d = true \/ is_pointer d = true \/ (exists t, q_dtype (quals_of d) = Some t /\ ~ In t ["double"; "MCNUM"; "int"] /\ q_init (quals_of d) = None) ->
  bytes (uservar_init off conv us m) (off (d_name d)) (user_size sizeof psize d) = bytes m (off (d_name d)) (user_size sizeof psize d).
Proof.
  intros sizeof psize off conv mcstas us d m L C I H.
  assert (K : skipped d = true).
  { unfold skipped. destruct H as [H|[H|(t & T & N & Q)]]; [rewrite H; apply orb_true_r|rewrite H, orb_true_r; reflexivity|]. rewrite Q, andb_true_r. rewrite !orb_true_iff. left. left. apply negb_true_iff. unfold dtype. rewrite T.
    apply not_true_iff_false. intro E. apply existsb_exists in E as (y & Y & E). apply String.eqb_eq in E as <-. contradiction. }
  assert (N : NoDup (map d_name us)) by (pose proof (layout_keys _ _ _ _ _ L) as N; apply nodup_app in N; tauto).
  assert (G : forall l m, (forall e, In e l -> In e us) -> bytes (uservar_init off conv l m) (off (d_name d)) (user_size sizeof psize d) = bytes m (off (d_name d)) (user_size sizeof psize d)).
  { induction l as [|e l IH]; intros m1 S1; [reflexivity|]. change (uservar_init off conv (e :: l) m1) with (uservar_init off conv l (if skipped e then m1 else put m1 (off (d_name e)) (conv e (init_text e)))).
    rewrite IH by (intros; apply S1; now right). destruct (skipped e) eqn:E; [reflexivity|]. apply bytes_put_apart. rewrite C. destruct L as [_ P]. apply (P _ _ _ _ (in_members_user sizeof psize mcstas us e (S1 e (or_introl eq_refl))) (in_members_user sizeof psize mcstas us d I)).
    intro Q. assert (d = e); [|congruence]. specialize (S1 e (or_introl eq_refl)). clear - N I S1 Q. induction us as [|u l IH]; [destruct I|]. cbn [map] in N. apply NoDup_cons_iff in N as [N1 N].
    destruct I as [->|I], S1 as [->|S1]; auto; exfalso; apply N1; [rewrite <- Q|rewrite Q]; now apply in_map. }
  apply G. auto.
Qed.
Print Assumptions C61_not_initialised_refuted.
Example not_initialised : let r := uservar_init off0 conv0 vars0 mem0 in bytes r (off0 "a") 8 = bytes mem0 (off0 "a") 8 /\ bytes r (off0 "h") 4 = bytes mem0 (off0 "h") 4.
Proof. vm_compute. auto. Qed.

(** * Counters of JUMPs *)
(** the iterating jumps: from an instance to a target *)
Definition iterating (l : list (string * list (string * bool))) : list (string * string) := flat_map (fun i => map (fun j => (fst i, fst j)) (filter snd (snd i))) l.
Lemma jump_members_names l : jump_members l = map (fun ft => ("Jump_" ++ fst ft ++ "_" ++ snd ft)%string) (iterating l).
Proof.
  unfold jump_members, iterating. induction l as [|i l IH]; [reflexivity|]. cbn [flat_map]. rewrite map_app, IH. f_equal. rewrite map_map. cbn [fst snd].
  induction (snd i) as [|[t []] js IHj]; [reflexivity| |]; cbn [flat_map filter map fst snd app]; now rewrite IHj.
Qed.
(** C61: every iterating JUMP has one counter; if no jump occurs twice and no instance with a jump has an underscore in its name, the counters have different names.
    Partial: underscores and repeated jumps see the refutations. *)
Theorem C61_jump_counters_partial : forall l, NoDup (iterating l) -> (forall i, In i l -> has_char "_" (fst i) = false) -> NoDup (jump_members l) /\ List.length (jump_members l) = List.length (iterating l).
Proof.
  intros l N U. rewrite jump_members_names, map_length. split; [|reflexivity].
  assert (V : forall ft, In ft (iterating l) -> has_char "_" (fst ft) = false).
  { intros ft I. apply in_flat_map in I as (i & I & J). apply in_map_iff in J as (j & <- & J). cbn [fst]. auto. }
  clear U. induction (iterating l) as [|[a b] r IH]; [constructor|]. apply NoDup_cons_iff in N as [Na N]. cbn [map]. constructor; [|apply IH; [exact N|intros; apply V; now right]].
  intro I. apply in_map_iff in I as ([a' b'] & E & I). apply Na. cbn [fst snd] in E. cbn [append] in E. injection E as E.
  pose proof (V _ (or_introl eq_refl)) as Va. pose proof (V _ (or_intror I)) as Va'. cbn [fst] in Va, Va'.
  assert (Q : a' = a /\ b' = b).
  { clear - E Va Va'. revert a E Va Va'. induction a' as [|c a' IH]; intros [|d a] E Va Va'; cbn [append] in E; cbn [has_char] in Va, Va'.
    - injection E as ->. auto.
    - injection E as <- _. discriminate.
    - injection E as -> _. discriminate.
    - injection E as -> E. apply orb_false_iff in Va as [_ Va], Va' as [_ Va']. destruct (IH a E Va Va') as [-> ->]. auto. }
  destruct Q as [-> ->]. exact I.
Qed.
Print Assumptions C61_jump_counters_partial.
Example jump_counters : jump_members [("guide", [("source", true); ("det", false)]); ("mono", [("source", true)])] = ["Jump_guide_source"; "Jump_mono_source"].
Proof. reflexivity. Qed.
(** Names that contain underscores may give two different jumps the same counter: from a to b_c, and from a_b to c.  The structure then declares a member twice, which is no C. *)
Theorem C61_jump_names_refuted : forall a b c, exists l, NoDup (map fst l) /\ NoDup (iterating l) /\ iterating l = [(a, (b ++ "_" ++ c)%string); ((a ++ "_" ++ b)%string, c)] /\ ~ NoDup (jump_members l).
Proof.
  intros a b c. exists [(a, [((b ++ "_" ++ c)%string, true)]); ((a ++ "_" ++ b)%string, [(c, true)])].
  assert (N : a <> (a ++ "_" ++ b)%string) by (intro E; apply (f_equal String.length) in E; rewrite string_app_length in E; cbn [append String.length] in E; lia).
  split; [cbn [map fst]; constructor; [intros [E|[]]; congruence|repeat constructor; auto]|]. split; [cbn [iterating flat_map map filter snd fst app]; constructor; [intros [E|[]]; apply N; symmetry; exact (f_equal fst E)|repeat constructor; auto]|].
  split; [reflexivity|]. rewrite jump_members_names. cbn [iterating flat_map map filter snd fst app]. intro H. apply NoDup_cons_iff in H as [H _]. apply H. left. rewrite !string_app_assoc. reflexivity.
Qed.
Print Assumptions C61_jump_names_refuted.
(** Two JUMPs of one instance to the same target, with different conditions, that both iterate declare the same counter twice. *)
Theorem C61_jump_twice_refuted : forall l i t, In i l -> (exists a b c, snd i = a ++ (t, true) :: b ++ (t, true) :: c) -> ~ NoDup (jump_members l).
Proof.
  intros l i t I (a & b & c & E) N. apply in_split in I as (l1 & l2 & ->). rewrite jump_members_names in N. unfold iterating in N. rewrite flat_map_app in N. cbn [flat_map] in N. rewrite !map_app in N.
  apply nodup_app in N as (_ & N & _). apply nodup_app in N as (N & _). rewrite E, !filter_app, !map_app in N. apply nodup_app in N as (_ & N & _). cbn [filter snd map fst] in N. apply NoDup_cons_iff in N as [N _]. apply N.
  rewrite filter_app, !map_app. apply in_or_app. right. left. reflexivity.
Qed.
Print Assumptions C61_jump_twice_refuted.
Example jump_twice : jump_members [("guide", [("source", true); ("source", true)])] = ["Jump_guide_source"; "Jump_guide_source"].
Proof. reflexivity. Qed.
