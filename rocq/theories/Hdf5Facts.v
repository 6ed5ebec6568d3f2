(** Facts about saving and loading. *)
From Coq Require Import Decimal DecimalString DecimalNat.
From Coq Require Import List String Ascii Bool Arith ZArith Lia Permutation.
From Verif Require Import PyStr Expr Hdf5.
Import ListNotations.
Local Open Scope string_scope.
Local Open Scope list_scope.
Local Open Scope nat_scope.

(** * Lookup *)
Lemma get_app {A} n (a b : list (string * A)) : get n (a ++ b) = match get n a with Some v => Some v | None => get n b end.
Proof. unfold get. induction a as [|[k v] a IH]; cbn; [reflexivity|]. destruct (k =?s n); cbn; auto. Qed.
Lemma get_cons {A} n k (v : A) l : get n ((k, v) :: l) = if k =?s n then Some v else get n l.
Proof. unfold get. cbn. now destruct (k =?s n). Qed.
Lemma get_none {A} n (l : list (string * A)) : get n l = None <-> ~ In n (map fst l).
Proof.
  induction l as [|[k v] l IH]; [cbn; tauto|]. rewrite get_cons. cbn. destruct (k =?s n) eqn:E.
  - apply String.eqb_eq in E. split; [discriminate|]. intro H. destruct H. auto.
  - apply String.eqb_neq in E. rewrite IH. tauto.
Qed.
Lemma get_in {A} n (v : A) l : get n l = Some v -> In (n, v) l.
Proof. induction l as [|[k w] l IH]; [discriminate|]. rewrite get_cons. destruct (k =?s n) eqn:E; [|cbn; auto]. apply String.eqb_eq in E. subst. intros [= ->]. now left. Qed.
Lemma in_get {A} n (v : A) l : NoDup (map fst l) -> In (n, v) l -> get n l = Some v.
Proof.
  induction l as [|[k w] l IH]; cbn; [tauto|]. intros N [E|H]; rewrite get_cons.
  - injection E as -> ->. now rewrite String.eqb_refl.
  - inversion N as [|? ? Ni N']; subst. destruct (k =?s n) eqn:E; [|auto]. apply String.eqb_eq in E. subst k. destruct Ni. apply in_map_iff. exists (n, v). auto.
Qed.
Lemma get_map {A B} (f : A -> B) n l : get n (map (fun p : string * A => let (m, v) := p in (m, f v)) l) = option_map f (get n l).
Proof. induction l as [|[k v] l IH]; [reflexivity|]. cbn [map]. rewrite !get_cons. now destruct (k =?s n). Qed.

(** * Entry names *)
Lemma zeros_read k s d : NilEmpty.uint_of_string s = Some d -> exists e, NilEmpty.uint_of_string (zeros k ++ s) = Some e /\ Nat.of_uint e = Nat.of_uint d.
Proof.
  intro H. induction k as [|k (e & E & V)]; cbn [zeros].
  - exists d. auto.
  - exists (D0 e). split; [|exact V]. cbn [append]. cbn [NilEmpty.uint_of_string]. rewrite E. reflexivity.
Qed.
Lemma str_nat_read n : exists d, NilEmpty.uint_of_string (str_nat n) = Some d /\ Nat.of_uint d = n.
Proof.
  exists (Nat.to_uint n). split; [|apply Unsigned.of_to]. unfold str_nat, NilZero.string_of_uint.
  assert (H : Nat.to_uint n <> Nil). { intro E. pose proof (Unsigned.of_to n) as O. rewrite E in O. cbn in O. subst n. discriminate E. }
  destruct (Nat.to_uint n); try contradiction; apply NilEmpty.usu.
Qed.
Lemma padded_inj pad n m : padded pad (str_nat n) = padded pad (str_nat m) -> n = m.
Proof.
  intro H. destruct (str_nat_read n) as (d & D & Dn), (str_nat_read m) as (e & E & En). unfold padded in H.
  destruct (zeros_read (pad - String.length (str_nat n)) _ _ D) as (d' & D' & V1), (zeros_read (pad - String.length (str_nat m)) _ _ E) as (e' & E' & V2).
  rewrite H, E' in D'. injection D' as ->. congruence.
Qed.
Lemma entry_name_inj pad i j : entry_name i pad = entry_name j pad -> i = j.
Proof. unfold entry_name. intro H. apply string_app_inj_l in H. now apply padded_inj in H. Qed.

(** proof helper: entries with the names that they get *)
Fixpoint numbered {A} (pad i : nat) (l : list A) : list (string * A) := match l with [] => [] | x :: t => (entry_name i pad, x) :: numbered pad (S i) t end.
Lemma numbered_before {A} pad (l : list A) : forall i j, j < i -> get (entry_name j pad) (numbered pad i l) = None.
Proof.
  induction l as [|x l IH]; intros i j L; [reflexivity|]. cbn [numbered]. rewrite get_cons. destruct (entry_name i pad =?s entry_name j pad) eqn:E.
  - apply String.eqb_eq in E. apply entry_name_inj in E. lia.
  - apply IH. lia.
Qed.
Lemma numbered_get {A} pad (l : list A) : forall i k, get (entry_name (i + k) pad) (numbered pad i l) = nth_error l k.
Proof.
  induction l as [|x l IH]; intros i k; [now destruct k|]. cbn [numbered]. rewrite get_cons. destruct k as [|k].
  - rewrite Nat.add_0_r, String.eqb_refl. reflexivity.
  - destruct (entry_name i pad =?s entry_name (i + S k) pad) eqn:E; [apply String.eqb_eq, entry_name_inj in E; lia|]. cbn [nth_error]. rewrite <- (IH (S i)). f_equal. f_equal. lia.
Qed.
Lemma numbered_app {A} pad (a b : list A) i : numbered pad i (a ++ b) = numbered pad i a ++ numbered pad (i + List.length a) b.
Proof. revert i. induction a as [|x a IH]; intro i; cbn; [now rewrite Nat.add_0_r|]. rewrite IH. do 3 f_equal. lia. Qed.
Lemma get_past {A} pad (l : list A) j : List.length l <= j -> get (entry_name j pad) (numbered pad 0 l) = None.
Proof. intro L. pose proof (numbered_get pad l 0 j) as H. change (0 + j) with j in H. rewrite H. apply nth_error_None. exact L. Qed.

(** * Collecting *)
Lemma collect_ok {A B} (f : A -> res (list B)) (h : A -> B) l : (forall x, In x l -> f x = Ok [h x]) -> collect f l = Ok (map h l).
Proof.
  induction l as [|x l IH]; intro H; [reflexivity|]. cbn [collect]. rewrite (H x (or_introl eq_refl)). cbn [rbind]. rewrite IH by (intros; apply H; now right). reflexivity.
Qed.

Lemma nodup_right {A} (a b : list A) : NoDup (a ++ b) -> NoDup b.
Proof. induction a; cbn; auto. intro H. inversion H; auto. Qed.
Lemma nodup_left {A} (a b : list A) : NoDup (a ++ b) -> NoDup a.
Proof. induction a as [|x a IH]; cbn; intro H; [constructor|]. inversion H as [|? ? N H']; subst. constructor; [intro X; apply N; apply in_or_app; auto|auto]. Qed.

(** * Dictionaries come back in the order of their keys *)
Lemma insert_perm {A} (p : string * A) l : Permutation (insert p l) (p :: l).
Proof. induction l as [|q l IH]; cbn; [auto|]. destruct String.compare; auto. rewrite IH. apply perm_swap. Qed.
Lemma by_key_perm {A} (l : list (string * A)) : Permutation (by_key l) l.
Proof. induction l as [|p l IH]; cbn; [auto|]. rewrite insert_perm. now constructor. Qed.
Lemma insert_map {A B} (f : A -> B) (p : string * A) l :
  map (fun q : string * A => (fst q, f (snd q))) (insert p l) = insert (fst p, f (snd p)) (map (fun q : string * A => (fst q, f (snd q))) l).
Proof. induction l as [|q l IH]; cbn; [reflexivity|]. destruct String.compare; cbn; auto. now rewrite IH. Qed.
Lemma by_key_map {A B} (f : A -> B) (l : list (string * A)) : by_key (map (fun q : string * A => (fst q, f (snd q))) l) = map (fun q : string * A => (fst q, f (snd q))) (by_key l).
Proof. induction l as [|p l IH]; cbn; [reflexivity|]. unfold by_key in IH. now rewrite IH, insert_map. Qed.

Section Facts.
Variable F : Type.
Variables f0 f1 : F.
Variable ver : string.
Hypothesis ver_plain : has_char "/" ver = false.
Variable build : string -> list (string * obj F) -> res bool.
Notation save := (save F f0 f1 ver). Notation load := (load F f0 f1 ver build). Notation spec_of := (spec_of F f0 f1).
Notation header := (header F ver). Notation fields_out := (fields_out F ver). Notation fields_in := (fields_in F). Notation sequence := (sequence F ver).
Notation check_header := (check_header F ver).

Lemma class_in_header cls a : class_in F (header cls :: a) = Some (ver, cls).
Proof. unfold class_in, header. rewrite get_cons, String.eqb_refl. apply split_once_some. auto. Qed.
Lemma check_header_ok cls a : check_header (header cls :: a) cls = true.
Proof. unfold Hdf5.check_header. rewrite class_in_header, !String.eqb_refl. reflexivity. Qed.

(** * Sequences *)
Lemma entries_ok pad (l : list (h5 F)) : forall done, entries F pad (List.length done) (map Ok l) (numbered pad 0 done) = Ok (numbered pad 0 (done ++ l)).
Proof.
  induction l as [|x l IH]; intro done; cbn [map entries]; [now rewrite List.app_nil_r|].
  rewrite get_past by auto. change [(entry_name (List.length done) pad, x)] with (numbered pad (0 + List.length done) [x]). rewrite <- numbered_app.
  replace (S (List.length done)) with (List.length (done ++ [x])) by (rewrite app_length; cbn; lia). rewrite IH. now rewrite <- app_assoc.
Qed.
Lemma sequence_ok cls (l : list (h5 F)) : sequence cls (map Ok l) = Ok (G [header cls; ("length", SInt (Z.of_nat (List.length l)))] (numbered (pad_of (List.length l)) 0 l)).
Proof.
  unfold Hdf5.sequence. rewrite map_length. change 0 with (List.length (@nil (h5 F))) at 1. change (@nil (string * h5 F)) with (numbered (pad_of (List.length l)) 0 (@nil (h5 F))).
  rewrite entries_ok. reflexivity.
Qed.
Lemma count_ok cls n : count_in F [header cls; ("length", SInt (Z.of_nat n))] = Some n.
Proof. unfold count_in, header. rewrite !get_cons. cbn. now rewrite Nat2Z.id. Qed.
Lemma items_ok {A} pad (xs : list A) : forall i lm, (forall k x, nth_error xs k = Some x -> get (entry_name (i + k) pad) lm = Some (Ok x)) -> items pad i (List.length xs) lm = Ok xs.
Proof.
  induction xs as [|x xs IH]; intros i lm H; [reflexivity|]. cbn [List.length items]. pose proof (H 0 x eq_refl) as H0. rewrite Nat.add_0_r in H0. rewrite H0.
  rewrite IH; [reflexivity|]. intros k y Y. rewrite <- (H (S k) y Y). f_equal. f_equal. lia.
Qed.
Lemma sequence_load cls (xs : list (obj F)) gs : Forall2 (fun x g => load g = Ok x) xs gs ->
  sequence_in F [header cls; ("length", SInt (Z.of_nat (List.length gs)))] (map (fun p => match p with (n, m) => (n, load m) end) (numbered (pad_of (List.length gs)) 0 gs)) = Ok xs.
Proof.
  intro H. unfold sequence_in. rewrite count_ok. assert (L : List.length xs = List.length gs) by (induction H; cbn; auto). rewrite <- L at 2. apply items_ok.
  intros k x X. rewrite get_map. pose proof (numbered_get (pad_of (List.length gs)) gs 0 k) as N. rewrite N. clear N L.
  revert k X. induction H as [|y g xs' gs' Y H IH]; intros [|k] X; try discriminate; cbn in *; [|now apply IH]. injection X as ->. cbn. now rewrite Y.
Qed.

(** * Fields *)
Inductive slot := LAttr | LOpt (d : obj F) | LReq | LLost (d : obj F).
(** proof helper: where the fields of an object go *)
Definition slots (sp : spec F) : list (string * slot) :=
  map (fun p => (fst p, LAttr)) (s_attrs sp) ++ map (fun p => (fst p, LOpt (snd p))) (s_opt sp) ++ map (fun n => (n, LReq)) (s_req sp) ++ map (fun p => (fst p, LLost (snd p))) (s_lost sp).
(** proof helper: the names of the fields *)
Definition slot_names (sp : spec F) : list string := map fst (s_attrs sp) ++ map fst (s_opt sp) ++ s_req sp ++ map fst (s_lost sp).
(** what a field must hold to come back *)
Definition good (sp : spec F) (fs : list (string * obj F)) : Prop :=
  map fst fs = slot_names sp /\ NoDup (slot_names sp) /\ NoDup (map snd (s_attrs sp)) /\ ~ In KEY (map snd (s_attrs sp)) /\
  (forall p, In p (s_attrs sp) -> get (fst p) fs = Some ONone \/ exists s, get (fst p) fs = Some (OScal s) /\ storable s = true) /\
  (forall p, In p (s_opt sp) -> (get (fst p) fs = Some ONone /\ snd p = ONone) \/ exists v g, get (fst p) fs = Some v /\ v <> ONone /\ save v = Ok g /\ load g = Ok v) /\
  (forall n, In n (s_req sp) -> exists v g, get n fs = Some v /\ v <> ONone /\ save v = Ok g /\ load g = Ok v) /\
  (forall p, In p (s_lost sp) -> get (fst p) fs = Some (snd p)).

Lemma attrs_out fs l : NoDup (map snd l) ->
  (forall p, In p l -> get (fst p) fs = Some ONone \/ exists s, get (fst p) fs = Some (OScal s) /\ storable s = true) ->
  exists a, collect (put_attr F fs) l = Ok a /\ incl (map fst a) (map snd l) /\
    forall p, In p l -> get (snd p) a = match get (fst p) fs with Some (OScal s) => Some s | _ => None end.
Proof.
  induction l as [|p l IH]; intros N H.
  - exists []. split; [reflexivity|]. split; [intros x []|intros p []].
  - cbn in N. inversion N as [|? ? Ni N']; subst. destruct IH as (a & A & I & K); auto. { intros q Q. apply H. now right. }
    cbn [collect]. destruct (H p (or_introl eq_refl)) as [E|(s & E & S)]; unfold put_attr at 1; rewrite E.
    + cbn [rbind]. rewrite A. cbn [rbind app]. exists a. split; [reflexivity|]. split; [intros x X; right; auto|]. intros q [<-|Q]; [|auto]. rewrite E. apply get_none. intro X. apply Ni. auto.
    + rewrite S. cbn [rbind]. rewrite A. cbn [rbind app]. eexists. split; [reflexivity|]. split; [intros x [<-|X]; [left; auto|right; auto]|]. intros q Q. rewrite get_cons. destruct Q as [<-|Q].
      * rewrite String.eqb_refl, E. reflexivity.
      * destruct (snd p =?s snd q) eqn:E'; [|auto]. apply String.eqb_eq in E'. destruct Ni. rewrite E'. now apply in_map.
Qed.
Lemma members_out fs l : NoDup l ->
  (forall n, In n l -> get n fs = Some ONone \/ exists v g, get n fs = Some v /\ v <> ONone /\ save v = Ok g) ->
  exists m, collect (put_member F fs (saved_fields F f0 f1 ver fs)) l = Ok m /\ incl (map fst m) l /\
    forall n, In n l -> (get n fs = Some ONone -> get n m = None) /\ (forall v g, get n fs = Some v -> v <> ONone -> save v = Ok g -> get n m = Some g).
Proof.
  induction l as [|p l IH]; intros N H.
  - exists []. split; [reflexivity|]. split; [intros x []|intros p []].
  - inversion N as [|? ? Ni N']; subst. destruct IH as (a & A & I & K); auto. { intros q Q. apply H. now right. }
    cbn [collect]. destruct (H p (or_introl eq_refl)) as [E|(v & g & E & V & S)]; unfold put_member at 1; rewrite E.
    + cbn [rbind]. rewrite A. cbn [rbind app]. exists a. split; [reflexivity|]. split; [intros x X; right; auto|]. intros q [<-|Q]; [|auto]. split; [intros _; apply get_none; intro X; apply Ni; auto|].
      intros v g E2 V _. congruence.
    + assert (Gs : get p (saved_fields F f0 f1 ver fs) = Some (Ok g)) by (unfold saved_fields; rewrite get_map, E; cbn [option_map]; now rewrite S). rewrite !Gs.
      assert (R : forall X Y : res (list (string * h5 F)), match v with ONone => X | OScal _ => Y | OList _ => Y | OTup _ => Y | ORec _ _ => Y end = Y) by (destruct v; auto; contradiction).
      rewrite (R (Ok []) (Ok [(p, g)])). cbn [rbind]. rewrite A. cbn [rbind app]. eexists. split; [reflexivity|].
      split; [intros x [<-|X]; [left; auto|right; auto]|]. intros q Q. rewrite get_cons. destruct Q as [<-|Q].
      * rewrite String.eqb_refl. split; [congruence|]. intros v' g' E' _ S'. congruence.
      * destruct (p =?s q) eqn:E'; [|auto]. apply String.eqb_eq in E'. subst q. contradiction.
Qed.
Lemma fields_canon (fs : list (string * obj F)) ns : map fst fs = ns -> NoDup ns -> fs = map (fun n => (n, match get n fs with Some v => v | None => ONone end)) ns.
Proof.
  intros <- N. rewrite map_map. rewrite <- (map_id fs) at 1. apply map_ext_in. intros [n v] I. cbn. now rewrite (in_get n v fs N I).
Qed.
Lemma fields_round sp cls fs : good sp fs ->
  exists a m, fields_out sp cls fs (saved_fields F f0 f1 ver fs) = Ok (G (header cls :: a) m) /\
    incl (map fst a) (map snd (s_attrs sp)) /\ incl (map fst m) (map fst (s_opt sp) ++ s_req sp) /\
    (forall n k, In (n, k) (s_attrs sp) -> get k a = match get n fs with Some (OScal s) => Some s | _ => None end) /\
    forall a' m', (forall k, In k (map snd (s_attrs sp)) -> get k a' = None) -> (forall n, In n (map fst (s_opt sp) ++ s_req sp) -> get n m' = None) ->
      fields_in sp (header cls :: a ++ a') (map (fun p => match p with (n, m) => (n, load m) end) (m ++ m')) = Ok fs.
Proof.
  intros (Nm & ND & NA & NK & Ha & Ho & Hr & Hl). destruct (attrs_out fs (s_attrs sp) NA Ha) as (a & A & IA & KA).
  assert (ND2 : NoDup (map fst (s_opt sp) ++ s_req sp)).
  { unfold slot_names in ND. apply nodup_right in ND. rewrite app_assoc in ND. now apply nodup_left in ND. }
  destruct (members_out fs (map fst (s_opt sp) ++ s_req sp) ND2) as (m & M & IM & KM).
  { intros n I. apply in_app_or in I as [I|I].
    - apply in_map_iff in I as (p & <- & I). destruct (Ho p I) as [[E _]|(v & g & E & V & Sv & _)]; [auto|]. right. exists v, g. auto.
    - destruct (Hr n I) as (v & g & E & V & Sv & _). right. exists v, g. auto. }
  exists a, m. unfold Hdf5.fields_out. rewrite A. cbn [rbind]. rewrite M. cbn [rbind]. split; [reflexivity|]. split; [auto|]. split; [auto|]. split; [intros n k I; apply (KA (n, k) I)|].
  intros a' m' Fa Fm. unfold Hdf5.fields_in.
  set (val := fun n => match get n fs with Some v => v | None => ONone end).
  assert (LM : forall n, In n (map fst (s_opt sp) ++ s_req sp) -> get n (map (fun p : string * h5 F => let (k, g) := p in (k, load g)) (m ++ m')) = option_map load (get n m)).
  { intros n I. rewrite get_map, get_app. destruct (get n m); [reflexivity|]. rewrite Fm by auto. reflexivity. }
  rewrite (collect_ok (optional F _) (fun p => (fst p, val (fst p)))).
  2:{ intros p I. assert (I' : In (fst p) (map fst (s_opt sp) ++ s_req sp)) by (apply in_or_app; left; now apply in_map). unfold optional. rewrite LM by auto. unfold val.
      destruct (Ho p I) as [[E D]|(v & g & E & V & Sv & L)]; rewrite E.
      - rewrite (proj1 (KM _ I') E). cbn. destruct p as [n d]; cbn in *. now subst.
      - rewrite (proj2 (KM _ I') v g E V Sv). cbn. now rewrite L. }
  cbn [rbind]. rewrite (collect_ok (required F _) (fun n => (n, val n))).
  2:{ intros n I. assert (I' : In n (map fst (s_opt sp) ++ s_req sp)) by (apply in_or_app; auto). unfold required. rewrite LM by auto. unfold val.
      destruct (Hr n I) as (v & g & E & V & Sv & L). rewrite E. rewrite (proj2 (KM _ I') v g E V Sv). cbn. rewrite L. destruct v; auto. contradiction. }
  cbn [rbind]. f_equal. rewrite (fields_canon fs _ Nm ND). unfold slot_names. rewrite !map_app. fold val. f_equal; [|f_equal; [|f_equal]].
  - rewrite map_map. apply map_ext_in. intros [n k] I. unfold from_attr. cbn [fst snd]. f_equal.
    unfold header. rewrite get_cons. assert (Ik : In k (map snd (s_attrs sp))) by (apply in_map_iff; exists (n, k); auto).
    destruct (KEY =?s k) eqn:E; [apply String.eqb_eq in E; subst k; contradiction|]. rewrite get_app. pose proof (KA (n, k) I) as KA'. cbn [fst snd] in KA'. rewrite KA'. unfold val.
    destruct (Ha (n, k) I) as [E1|(s & E1 & _)]; cbn [fst] in E1; rewrite E1; [|reflexivity]. now rewrite (Fa k Ik).
  - now rewrite map_map.
  - rewrite map_map. rewrite <- (map_id (s_lost sp)) at 1. apply map_ext_in. intros [n d] I. cbn [fst]. f_equal. unfold val. pose proof (Hl (n, d) I) as Hl'. cbn [fst snd] in Hl'. now rewrite Hl'.
Qed.
End Facts.
