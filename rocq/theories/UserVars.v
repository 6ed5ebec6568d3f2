(** USERVARS: declarations of user variables, their merging and the members they add to the particle structure. *)
From Coq Require Import List String Ascii Bool NArith ZArith Arith Lia.
From Verif Require Import PyStr.
Import ListNotations.
Local Open Scope string_scope.
Local Open Scope list_scope.
Local Open Scope nat_scope.

(** translators/c_listener.py:338-342: the sizes of an array are numbers, or all kept as text when one of them is no number *)
Inductive elems := Ints (l : list Z) | Texts (l : list string).
(** translators/c_listener.py:99-106, the fields of CDeclarator other than declare *)
Record quals := mkQ { q_pointer : option string; q_ext : list string; q_elements : option elems; q_dtype : option string; q_init : option string }.
(** translators/c_listener.py:58-62, 99-106: CDeclarator.declare is a name or a CFuncPointer, which holds a CDeclarator *)
Inductive decl := Plain (n : string) (q : quals) | Fun (d : decl) (modifiers args : option string) (q : quals).

(** c_listener.py:64-66, 123-125 *)
Fixpoint d_name (d : decl) : string := match d with Plain n _ => n | Fun d _ _ _ => d_name d end.
(** c_listener.py:68-73, 127-140 copy(suffix) *)
Fixpoint copy (suffix : string) (d : decl) : decl :=
  match d with Plain n q => Plain (n ++ "_" ++ suffix)%string q | Fun d m a q => Fun (copy suffix d) m a q end.

(** c_listener.py:50-53 not_both_None_or_not_equal, negated: None agrees with everything *)
Definition agree {A} (eqb : A -> A -> bool) (a b : option A) : bool := match a, b with Some x, Some y => eqb x y | _, _ => true end.
(** the operator == of Python on lists *)
Fixpoint list_eqb {A} (eqb : A -> A -> bool) (a b : list A) : bool :=
  match a, b with [], [] => true | x :: a, y :: b => eqb x y && list_eqb eqb a b | _, _ => false end.
(** the operator == of Python on the elements of a declaration *)
Definition elems_eqb (a b : elems) : bool :=
  match a, b with Ints x, Ints y => list_eqb Z.eqb x y | Texts x, Texts y => list_eqb String.eqb x y
  | Ints [], Texts [] => true | Texts [], Ints [] => true | _, _ => false end.
(** c_listener.py:75-82 *)
Definition quals_eqb (p q : quals) : bool :=
  list_eqb String.eqb (q_ext p) (q_ext q) && agree String.eqb (q_pointer p) (q_pointer q) && agree elems_eqb (q_elements p) (q_elements q)
  && agree String.eqb (q_dtype p) (q_dtype q) && agree String.eqb (q_init p) (q_init q).
(** c_listener.py:75-82, 142-154 __eq__ *)
Fixpoint decl_eqb (a b : decl) : bool :=
  match a, b with
  | Plain n p, Plain m q => quals_eqb p q && (n =?s m)
  | Fun d m1 a1 p, Fun e m2 a2 q => quals_eqb p q && (agree String.eqb a1 a2 && agree String.eqb m1 m2 && decl_eqb d e)
  | _, _ => false
  end.

(** bool(x) of a text or None *)
Definition nonempty (o : option string) : bool := match o with Some "" => false | Some _ => true | None => false end.
(** a text, or nothing for None *)
Definition opt (o : option string) : string := match o with Some s => s | None => "" end.
(** c_listener.py:156-163 CDeclarator.string *)
Definition d_string (q : quals) (s : string) : string :=
  let e := join " " (q_ext q) in
  let s := if (e =?s "") then s else (s ++ " " ++ e)%string in
  let s := if nonempty (q_pointer q) then (opt (q_pointer q) ++ " " ++ s)%string else s in
  if nonempty (q_dtype q) then (opt (q_dtype q) ++ " " ++ s)%string else s.
(** c_listener.py:84-86 CFuncPointer.string *)
Definition f_string (m a : option string) (s : string) : string :=
  let f := if nonempty m then ("(" ++ opt m ++ " " ++ s ++ ")")%string else ("(" ++ s ++ ")")%string in
  if nonempty a then (f ++ "(" ++ opt a ++ ")")%string else (f ++ "()")%string.
(** c_listener.py:88-89, 165-166 __str__ *)
Fixpoint d_str (d : decl) : string := match d with Plain n q => d_string q n | Fun d m a q => d_string q (f_string m a (d_str d)) end.

Section Hash.
(** hash of a text: any function (Python's is salted per process), so two texts may collide *)
Variable h : string -> N.
(** a key is found in a dict or set when hash and __eq__ agree; c_listener.py:91-92, 168-169 *)
Definition same (a b : decl) : bool := N.eqb (h (d_str a)) (h (d_str b)) && decl_eqb a b.
(** list(dict.fromkeys(...)) and set(...) keep the first of equal keys *)
Definition add (acc : list decl) (d : decl) : list decl := if existsb (same d) acc then acc else acc ++ [d].
(** list(dict.fromkeys(...)), c.py:158-225 *)
Definition fromkeys (l : list decl) : list decl := fold_left add l [].
(** translators/c.py:183-186 and 197-200: the blocks one after the other *)
Definition merge (blocks : list (list decl)) : list decl := fold_left (fun acc b => fromkeys (acc ++ b)) blocks [].
(** c.py:189-190, 203-204: as many names as declarations *)
Definition distinct (l : list decl) : bool := List.length (nodup string_dec (map d_name l)) =? List.length l.

(** d[k] = v *)
Fixpoint dict_set {V} (k : string) (v : V) (l : list (string * V)) : list (string * V) :=
  match l with [] => [(k, v)] | (k', v') :: t => if (k' =?s k) then (k', v) :: t else (k', v') :: dict_set k v t end.
(** c.py:193-204; a component type is its name and its USERVARS blocks *)
Fixpoint comp_declares (types : list (string * list (list decl))) (acc : list (string * list decl)) : option (list (string * list decl)) :=
  match types with
  | [] => Some acc
  | (n, blocks) :: t => if distinct (merge blocks) then comp_declares t (dict_set n (merge blocks) acc) else None
  end.
(** enumerate *)
Fixpoint number {A} (i : nat) (l : list A) : list (nat * A) := match l with [] => [] | x :: t => (i, x) :: number (S i) t end.
(** c.py:209-214: the variables of the instances of one type; [instances] are the names of the types of the components in order *)
Definition of_instances (instances : list string) (n : string) (ds : list decl) : list decl :=
  flat_map (fun it => if (snd it =?s n) then map (copy (str_nat (fst it + 1))) ds else []) (number 0 instances).
(** c.py:158-228 _determine_uservars: [types] is the result of component_types() *)
Definition determine (blocks : list (list decl)) (types : list (string * list (list decl))) (instances : list string) : option (list decl * list (string * list decl)) :=
  let declares := merge blocks in
  if distinct declares then
    match comp_declares types [] with
    | None => None
    | Some cd =>
        let id := map (fun p => (fst p, of_instances instances (fst p) (snd p))) cd in
        let nd := fold_left add declares (fromkeys (flat_map snd id)) in
        if distinct nd then Some (declares, id) else None
    end
  else None.
(** c.py:280-285 _instrument_and_component_uservars *)
Definition all_uservars (r : list decl * list (string * list decl)) : list decl :=
  fold_left (fun acc p => fromkeys (acc ++ snd p)) (snd r) (fst r).
End Hash.

(** translators/c_header.py:40-41: the lines added to the particle structure *)
Definition member_lines (l : list decl) : list string := map (fun d => ("  " ++ d_str d ++ ";")%string) l.

(** * Facts *)
Lemma list_eqb_sym {A} (eqb : A -> A -> bool) (S : forall x y, eqb x y = eqb y x) : forall a b, list_eqb eqb a b = list_eqb eqb b a.
Proof. induction a as [|x a IH]; destruct b as [|y b]; cbn; auto. now rewrite S, IH. Qed.
Lemma agree_sym {A} (eqb : A -> A -> bool) (S : forall x y, eqb x y = eqb y x) a b : agree eqb a b = agree eqb b a.
Proof. destruct a, b; cbn; auto. Qed.
Lemma elems_sym a b : elems_eqb a b = elems_eqb b a.
Proof. destruct a as [[|]|[|]], b as [[|]|[|]]; cbn [elems_eqb]; auto using list_eqb_sym, Z.eqb_sym, String.eqb_sym. Qed.
Lemma quals_sym p q : quals_eqb p q = quals_eqb q p.
Proof.
  unfold quals_eqb. rewrite (list_eqb_sym _ String.eqb_sym (q_ext p)), (agree_sym _ String.eqb_sym (q_pointer p)), (agree_sym _ elems_sym (q_elements p)),
    (agree_sym _ String.eqb_sym (q_dtype p)), (agree_sym _ String.eqb_sym (q_init p)). reflexivity.
Qed.
Lemma decl_eqb_sym : forall a b, decl_eqb a b = decl_eqb b a.
Proof.
  induction a as [n p|d IH m a p]; destruct b as [n' q|d' m' a' q]; cbn [decl_eqb]; auto.
  - now rewrite quals_sym, (String.eqb_sym n).
  - now rewrite quals_sym, (agree_sym _ String.eqb_sym a), (agree_sym _ String.eqb_sym m), IH.
Qed.
Lemma list_eqb_refl {A} (eqb : A -> A -> bool) (R : forall x, eqb x x = true) l : list_eqb eqb l l = true.
Proof. induction l; cbn; auto. now rewrite R, IHl. Qed.
Lemma agree_refl {A} (eqb : A -> A -> bool) (R : forall x, eqb x x = true) o : agree eqb o o = true.
Proof. destruct o; cbn; auto. Qed.
Lemma elems_refl e : elems_eqb e e = true.
Proof. destruct e as [[|x l]|[|x l]]; cbn [elems_eqb]; auto; apply list_eqb_refl; [apply Z.eqb_refl | apply String.eqb_refl]. Qed.
Lemma quals_refl q : quals_eqb q q = true.
Proof. unfold quals_eqb. rewrite (list_eqb_refl _ String.eqb_refl), !(agree_refl _ String.eqb_refl), (agree_refl _ elems_refl). reflexivity. Qed.
Lemma decl_eqb_refl : forall d, decl_eqb d d = true.
Proof. induction d; cbn [decl_eqb]; rewrite quals_refl; [now rewrite String.eqb_refl | now rewrite !(agree_refl _ String.eqb_refl), IHd]. Qed.
Lemma decl_eqb_name : forall a b, decl_eqb a b = true -> d_name a = d_name b.
Proof.
  induction a as [n p|d IH m a p]; destruct b as [n' q|d' m' a' q]; cbn [decl_eqb d_name]; try discriminate; rewrite ?andb_true_iff.
  - intros [_ E]. now apply String.eqb_eq.
  - intros (_ & _ & E). now apply IH.
Qed.
Lemma copy_name s : forall d, d_name (copy s d) = (d_name d ++ "_" ++ s)%string.
Proof. induction d; cbn; auto. Qed.

Section Facts.
Variable h : string -> N.
Local Notation same := (same h).
Local Notation add := (add h).
Local Notation fromkeys := (fromkeys h).
Local Notation merge := (merge h).
Lemma same_sym a b : same a b = same b a.
Proof. unfold UserVars.same. now rewrite N.eqb_sym, decl_eqb_sym. Qed.
Lemma same_refl a : same a a = true.
Proof. unfold UserVars.same. now rewrite N.eqb_refl, decl_eqb_refl. Qed.
Lemma same_name a b : same a b = true -> d_name a = d_name b.
Proof. unfold UserVars.same. rewrite andb_true_iff. intros [_ H]. now apply decl_eqb_name. Qed.

Lemma add_incl acc l x : In x acc -> In x (fold_left add l acc).
Proof. revert acc. induction l as [|d l IH]; cbn; intros acc I; auto. apply IH. unfold UserVars.add. destruct existsb; auto. apply in_or_app. auto. Qed.
Lemma add_sound : forall l acc x, In x (fold_left add l acc) -> In x acc \/ In x l.
Proof.
  induction l as [|d l IH]; cbn; intros acc x I; auto. apply IH in I as [I|I]; auto. unfold UserVars.add in I. destruct existsb; auto.
  apply in_app_or in I as [I|[<-|[]]]; auto.
Qed.
Lemma add_complete : forall l acc x, In x l -> exists y, In y (fold_left add l acc) /\ same x y = true.
Proof.
  induction l as [|d l IH]; cbn; intros acc x [ ]; [subst d|now apply IH].
  unfold UserVars.add at 2. destruct (existsb (same x) acc) eqn:E.
  - apply existsb_exists in E as (y & I & S). exists y. split; auto. now apply add_incl.
  - exists x. split; [|apply same_refl]. apply add_incl. apply in_or_app. cbn. auto.
Qed.
(** no element finds an earlier one *)
Fixpoint sparse (before l : list decl) : Prop := match l with [] => True | d :: t => existsb (same d) before = false /\ sparse (before ++ [d]) t end.
Lemma add_sparse : forall l acc, sparse acc l -> fold_left add l acc = acc ++ l.
Proof.
  induction l as [|d l IH]; cbn; intros acc; [now rewrite app_nil_r|]. intros [E S]. unfold UserVars.add at 2. rewrite E. rewrite IH by auto. now rewrite <- app_assoc.
Qed.
Lemma sparse_app : forall a b before, sparse before (a ++ b) <-> sparse before a /\ sparse (before ++ a) b.
Proof.
  induction a as [|d a IH]; cbn; intros b before; [rewrite app_nil_r; tauto|]. rewrite IH. rewrite <- app_assoc. cbn. tauto.
Qed.
Lemma fold_add_sparse : forall l acc, sparse [] acc -> sparse [] (fold_left add l acc).
Proof.
  induction l as [|d l IH]; cbn; intros acc S; auto. apply IH. unfold UserVars.add. destruct (existsb (same d) acc) eqn:E; auto.
  apply sparse_app. split; auto. cbn. auto.
Qed.
Lemma fromkeys_sparse l : sparse [] (fromkeys l).
Proof. apply fold_add_sparse. exact I. Qed.
Lemma fromkeys_absorb a b : fromkeys (fromkeys a ++ b) = fromkeys (a ++ b).
Proof.
  unfold UserVars.fromkeys at 1 3. rewrite !fold_left_app. f_equal. fold (fromkeys a).
  exact (add_sparse (fromkeys a) [] (fromkeys_sparse a)).
Qed.
Lemma blocks_absorb : forall bs a, fold_left (fun acc b => fromkeys (acc ++ b)) bs (fromkeys a) = fromkeys (a ++ List.concat bs).
Proof.
  induction bs as [|b bs IH]; cbn; intros a; [now rewrite app_nil_r|]. rewrite fromkeys_absorb, IH. now rewrite app_assoc.
Qed.
Lemma merge_eq bs : merge bs = fromkeys (List.concat bs).
Proof. unfold UserVars.merge. exact (blocks_absorb bs []). Qed.
Lemma merge_sound bs d : In d (merge bs) -> exists b, In b bs /\ In d b.
Proof. rewrite merge_eq. intro I. apply add_sound in I as [[]|I]. now apply in_concat in I. Qed.
Lemma merge_complete bs b d : In b bs -> In d b -> exists e, In e (merge bs) /\ same d e = true.
Proof. rewrite merge_eq. intros B D. apply add_complete. apply in_concat. eauto. Qed.

Lemma distinct_nodup l : distinct l = true <-> NoDup (map d_name l).
Proof.
  unfold distinct. rewrite Nat.eqb_eq. split.
  - intro E. rewrite <- (map_length d_name l) in E. revert E. generalize (map d_name l). clear. intros l E.
    induction l as [|x l IH]; [constructor|]. cbn in E. destruct (in_dec string_dec x l) as [I|I].
    + exfalso. assert (List.length (nodup string_dec l) <= List.length l).
      { clear. induction l as [|x l IH]; cbn; auto. destruct in_dec; cbn; lia. } lia.
    + constructor; auto; apply IH; cbn in E; lia.
  - intro N. rewrite nodup_fixed_point by exact N. now rewrite map_length.
Qed.

Lemma number_nth {A} : forall (l : list A) i k x, In (k, x) (number i l) <-> i <= k /\ nth_error l (k - i) = Some x.
Proof.
  induction l as [|a l IH]; cbn; intros i k x.
  - split; [tauto|]. intros [_ E]. destruct (k - i); discriminate.
  - rewrite IH. split.
    + intros [E|[L E]]; [injection E as -> ->; rewrite Nat.sub_diag; auto | split; [lia|]]. replace (k - i) with (S (k - S i)) by lia. exact E.
    + intros [L E]. destruct (k - i) eqn:K; [cbn in E; left; f_equal; [lia|congruence] | right; split; [lia|]]. cbn in E. now replace (k - S i) with n by lia.
Qed.
Lemma number_nodup {A} : forall (l : list A) i, NoDup (map fst (number i l)).
Proof.
  induction l as [|a l IH]; cbn; intros i; constructor; auto. intro I. apply in_map_iff in I as ([k x] & E & I). cbn in E. subst k. apply number_nth in I. lia.
Qed.

(** ** names of instance variables determine instance and variable *)
Lemma str_nat_no_under i : has_char "_" (str_nat i) = false.
Proof.
  unfold str_nat. generalize (Nat.to_uint i). intro u. assert (H : forall d, has_char "_" (DecimalString.NilEmpty.string_of_uint d) = false) by (induction d; cbn; auto).
  destruct u; cbn; auto.
Qed.
Lemma suffix_inj : forall n m s t, has_char "_" s = false -> has_char "_" t = false -> (n ++ "_" ++ s = m ++ "_" ++ t)%string -> n = m /\ s = t.
Proof.
  induction n as [|c n IH]; intros [|c' m] s t Hs Ht E; cbn in E.
  - injection E as ->. auto.
  - injection E as <- ->. rewrite has_char_app in Hs. cbn in Hs. rewrite orb_true_r in Hs. discriminate.
  - injection E as -> <-. rewrite has_char_app in Ht. cbn in Ht. rewrite orb_true_r in Ht. discriminate.
  - injection E as -> E. destruct (IH m s t Hs Ht E) as [-> ->]. auto.
Qed.
Lemma instance_name_inj n m i j : (n ++ "_" ++ str_nat i = m ++ "_" ++ str_nat j)%string -> n = m /\ i = j.
Proof. intro E. apply suffix_inj in E as [-> E]; auto using str_nat_no_under. split; auto. now apply str_nat_inj. Qed.

Lemma of_instances_in instances n ds x : In x (of_instances instances n ds) <-> exists k d, nth_error instances k = Some n /\ In d ds /\ x = copy (str_nat (k + 1)) d.
Proof.
  unfold of_instances. rewrite in_flat_map. split.
  - intros ([k t] & I & X). cbn in X. destruct (t =?s n) eqn:T; [|contradiction]. apply String.eqb_eq in T. subst t.
    apply number_nth in I as [_ I]. rewrite Nat.sub_0_r in I. apply in_map_iff in X as (d & <- & D). eauto.
  - intros (k & d & K & D & ->). exists (k, n). split; [apply number_nth; rewrite Nat.sub_0_r; auto with arith|]. cbn. rewrite String.eqb_refl. now apply in_map.
Qed.
Lemma nodup_app {A} (a b : list A) : NoDup a -> NoDup b -> (forall x, In x a -> In x b -> False) -> NoDup (a ++ b).
Proof.
  induction a as [|x a IH]; cbn; auto. intros Ha Hb D. inversion_clear Ha. constructor.
  - intro I. apply in_app_or in I as [I|I]; auto. exact (D x (or_introl eq_refl) I).
  - apply IH; auto. intros y Y Z. exact (D y (or_intror Y) Z).
Qed.
Lemma of_instances_nodup instances n ds : NoDup (map d_name ds) -> NoDup (map d_name (of_instances instances n ds)).
Proof.
  intro N. unfold of_instances. generalize (number_nodup instances 0). generalize (number 0 instances). clear instances. induction l as [|[k t] l IH]; cbn; intro M; [constructor|].
  inversion_clear M. rewrite map_app. apply nodup_app; auto.
  - destruct (t =?s n); [|constructor]. rewrite map_map. clear - N. induction ds as [|d ds IH]; cbn; [constructor|]. inversion_clear N. constructor; auto.
    intro I. apply in_map_iff in I as (e & E & I). rewrite !copy_name in E. apply instance_name_inj in E as [E _]. apply H. rewrite <- E. now apply in_map.
  - intros x X Y. destruct (t =?s n); [|contradiction]. rewrite map_map in X. apply in_map_iff in X as (d & <- & D). apply in_map_iff in Y as (y & E & Y).
    apply in_flat_map in Y as ([k' t'] & L & Y). cbn in Y. destruct (t' =?s n); [|contradiction]. apply in_map_iff in Y as (e & <- & De).
    rewrite !copy_name in E. apply instance_name_inj in E as [_ E]. assert (k = k') by lia. subst k'. apply H. apply in_map_iff. exists (k, t'). auto.
Qed.

Lemma dict_set_keys {V} k (v : V) l : map fst (dict_set k v l) = map fst l \/ (~ In k (map fst l) /\ map fst (dict_set k v l) = map fst l ++ [k]).
Proof.
  induction l as [|[k' v'] l IH]; cbn; [right; auto|]. destruct (k' =?s k) eqn:E; cbn; [auto|]. apply String.eqb_neq in E.
  destruct IH as [->|[I ->]]; [auto|right; split; auto]. intros [ ]; auto.
Qed.
Lemma dict_set_nodup {V} k (v : V) l : NoDup (map fst l) -> NoDup (map fst (dict_set k v l)).
Proof.
  intro N. destruct (dict_set_keys k v l) as [->|[I ->]]; auto. apply nodup_app; auto; [repeat constructor; auto|]. intros x X [<-|[]]. auto.
Qed.
Lemma dict_set_in {V} k (v : V) l p : In p (dict_set k v l) -> p = (k, v) \/ In p l.
Proof.
  induction l as [|[k' v'] l IH]; cbn.
  - intros [<-|[]]. auto.
  - destruct (k' =?s k) eqn:E; cbn.
    + apply String.eqb_eq in E. subst. intros [<-|I]; auto.
    + intros [<-|I]; auto. destruct (IH I); auto.
Qed.
Lemma dict_set_new {V} k (v : V) l : In (k, v) (dict_set k v l).
Proof. induction l as [|[k' v'] l IH]; cbn; auto. destruct (k' =?s k) eqn:E; cbn; auto. apply String.eqb_eq in E. subst. auto. Qed.
Lemma dict_set_other {V} k (v : V) l p : In p l -> fst p <> k -> In p (dict_set k v l).
Proof. induction l as [|[k' v'] l IH]; cbn; [tauto|]. intros [<-|I] N; destruct (k' =?s k) eqn:E; cbn; auto. apply String.eqb_eq in E. subst. now destruct N. Qed.

Lemma comp_declares_facts : forall types acc cd, comp_declares h types acc = Some cd -> NoDup (map fst acc) ->
  (forall p, In p acc -> NoDup (map d_name (snd p))) ->
  NoDup (map fst cd) /\ (forall p, In p cd -> NoDup (map d_name (snd p))) /\
  (forall n ds, In (n, ds) cd -> In (n, ds) acc \/ exists bs, In (n, bs) types /\ ds = merge bs) /\
  (NoDup (map fst types) -> forall n bs, In (n, bs) types -> In (n, merge bs) cd) /\
  (forall p, In p acc -> ~ In (fst p) (map fst types) -> In p cd).
Proof.
  induction types as [|[n bs] types IH]; cbn; intros acc cd E N D.
  - injection E as <-. repeat split; auto. contradiction.
  - destruct (distinct (merge bs)) eqn:B; [|discriminate]. apply distinct_nodup in B. destruct (IH _ _ E) as (K & Q & S & C & O); clear IH.
    + now apply dict_set_nodup.
    + intros p I. apply dict_set_in in I as [->|I]; auto.
    + split; [exact K|]. split; [exact Q|]. split; [|split].
      * intros m ds I. apply S in I as [I|(b & I & ->)]; [|eauto]. apply dict_set_in in I as [J|I]; auto. injection J as -> ->. eauto.
      * intros M m b [J|I].
        -- injection J as <- <-. inversion_clear M. apply O; [apply dict_set_new|]. exact H.
        -- inversion_clear M. auto.
      * intros p I J. apply O; [|intro X; apply J; right; exact X]. apply dict_set_other; auto.
Qed.

(** ** What a successful run says *)
Lemma determine_facts blocks types instances r : determine h blocks types instances = Some r ->
  exists cd, comp_declares h types [] = Some cd /\ fst r = merge blocks /\ snd r = map (fun p => (fst p, of_instances instances (fst p) (snd p))) cd /\
  NoDup (map d_name (merge blocks)) /\ NoDup (map d_name (fold_left add (merge blocks) (fromkeys (flat_map snd (snd r))))).
Proof.
  unfold determine. cbv zeta. destruct (distinct (merge blocks)) eqn:A; [|discriminate]. destruct (comp_declares h types []) as [cd|] eqn:C; [|discriminate].
  match goal with |- context [if distinct ?l then _ else _] => destruct (distinct l) eqn:B end; [|discriminate]. intro E. injection E as <-. exists cd. cbn [fst snd]. apply distinct_nodup in A, B. auto.
Qed.
Lemma instance_members_nodup blocks types instances r : determine h blocks types instances = Some r -> NoDup (map d_name (flat_map snd (snd r))).
Proof.
  intro E. apply determine_facts in E as (cd & C & _ & -> & _ & _).
  destruct (comp_declares_facts _ _ _ C ltac:(constructor) ltac:(intros ? [])) as (K & Q & _).
  clear C. induction cd as [|[n ds] cd IH]; [constructor|]. cbn. rewrite map_app. inversion_clear K. apply nodup_app.
  - apply of_instances_nodup. exact (Q _ (or_introl eq_refl)).
  - apply IH; auto. intros p I. apply Q. cbn. auto.
  - intros x X Y. apply in_map_iff in X as (d & <- & X). apply in_map_iff in Y as (e & E & Y). apply in_flat_map in Y as ([m es] & Z & Y).
    apply in_map_iff in Z as ([m' ds'] & J & Z). cbn in J. injection J as -> <-. cbn in Y.
    apply of_instances_in in X as (k & d0 & Kn & D0 & ->). apply of_instances_in in Y as (k' & e0 & Km & E0 & ->).
    rewrite !copy_name in E. apply instance_name_inj in E as [_ E]. assert (k' = k) by lia. subst k'. rewrite Kn in Km. injection Km as ->.
    apply H. apply in_map_iff. exists (m, ds'). auto.
Qed.
Lemma distinct_names_sparse : forall l before, NoDup (map d_name (before ++ l)) -> sparse before l.
Proof.
  induction l as [|d l IH]; cbn; intros before N; auto. split.
  - destruct (existsb (same d) before) eqn:E; auto. apply existsb_exists in E as (y & I & S). apply same_name in S.
    rewrite map_app in N. cbn in N. apply NoDup_remove_2 in N. destruct N. rewrite S. apply in_or_app. left. now apply in_map.
  - apply IH. now rewrite <- app_assoc.
Qed.
Lemma all_eq blocks types instances r : determine h blocks types instances = Some r ->
  all_uservars h r = fold_left add (flat_map snd (snd r)) (merge blocks).
Proof.
  intro E. apply determine_facts in E as (cd & C & F & _ & _). unfold all_uservars. rewrite F.
  assert (G : forall l a, fold_left (fun acc p => fromkeys (acc ++ snd p)) l (fromkeys a) = fromkeys (a ++ flat_map (@snd string (list decl)) l)).
  { induction l as [|p l IH]; cbn; intros a; [now rewrite app_nil_r|]. rewrite fromkeys_absorb, IH. now rewrite app_assoc. }
  rewrite merge_eq, G. unfold UserVars.fromkeys. now rewrite fold_left_app.
Qed.
Lemma name_in_split l x y : NoDup (map d_name l) -> In x l -> In y l -> d_name x = d_name y -> x = y.
Proof.
  induction l as [|z l IH]; cbn; [tauto|]. intros N [<-|X] [<-|Y] E; auto; inversion_clear N.
  - destruct H. rewrite E. now apply in_map.
  - destruct H. rewrite <- E. now apply in_map.
  - now apply IH.
Qed.
Lemma nodup_names_filter : forall l acc, NoDup (map d_name l) -> NoDup (map d_name acc) ->
  (forall x y, In x l -> In y acc -> d_name x = d_name y -> same x y = true) -> NoDup (map d_name (fold_left add l acc)).
Proof.
  induction l as [|d l IH]; cbn; intros acc N A D; auto. inversion_clear N. apply IH; auto.
  - unfold UserVars.add. destruct existsb eqn:E; auto. rewrite map_app. apply nodup_app; auto; [repeat constructor; auto|]. intros n I [<-|[]].
    apply in_map_iff in I as (y & Ey & I). assert (S := D d y (or_introl eq_refl) I (eq_sym Ey)). rewrite <- not_true_iff_false in E. apply E. apply existsb_exists. eauto.
  - intros x y X Y E. unfold UserVars.add in Y. destruct existsb; auto. apply in_app_or in Y as [Y|[<-|[]]]; auto. destruct H. rewrite <- E. now apply in_map.
Qed.
Lemma all_distinct blocks types instances r : determine h blocks types instances = Some r -> NoDup (map d_name (all_uservars h r)).
Proof.
  intro E. rewrite (all_eq _ _ _ _ E). pose proof (instance_members_nodup _ _ _ _ E) as M. apply determine_facts in E as (cd & _ & F & _ & A & B).
  apply nodup_names_filter; auto. intros x y X Y Ne.
  (* both would be in the set that was checked *)
  destruct (same x y) eqn:S; auto. exfalso.
  set (m := flat_map snd (snd r)) in *. assert (Fm : fromkeys m = m) by (apply (add_sparse m []); apply distinct_names_sparse; exact M).
  rewrite Fm in B. assert (Xs : In x (fold_left add (merge blocks) m)) by now apply add_incl.
  assert (Ys : exists z, In z (fold_left add (merge blocks) m) /\ same y z = true) by now apply add_complete.
  destruct Ys as (z & Z & Sz). assert (z = x) by (apply (name_in_split _ z x B); auto; rewrite Ne; symmetry; now apply same_name). subst z. rewrite same_sym in Sz. congruence.
Qed.
End Facts.
