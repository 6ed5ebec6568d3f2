(** C89: equality of registries, and the registry of the C library *)
From Coq Require Import List String Ascii Bool Arith ZArith Lia Permutation Sorted.
From Verif Require Import PyStr TextLines Registry SameRegistry.
From Verif Require ConfigFile.
Import ListNotations.
Local Open Scope string_scope.
Local Open Scope list_scope.
Local Open Scope nat_scope.

(** * Specification *)
(** two registries are the same place: the same object, the same directory under the same name, or the same address, the same
    directory for downloads and the same name *)
Inductive same_place (a b : object) : Prop :=
| same_object : In (o_cls a) [CRegistry; CMemory] -> o_id a = o_id b -> same_place a b
| same_directory n p : o_cls a = CLocal -> o_cls b = CLocal -> o_name a = Some n -> o_name b = Some n ->
    o_root a = PathRoot p -> o_root b = PathRoot p -> same_place a b
| same_address p : o_pooch a = Some p -> o_pooch b = Some p -> o_name a = o_name b -> same_place a b.

Lemma name_eqb_spec a b : name_eqb a b = true <-> a = b.
Proof. destruct a, b; cbn; split; intro H; try discriminate; auto; [apply String.eqb_eq in H; now subst|injection H as ->; apply String.eqb_refl]. Qed.

Lemma equal_cases place_of cache package a b : made place_of cache package a -> made place_of cache package b -> (o_id a = o_id b -> a = b) ->
  (equals a b = Some true /\ same_place a b) \/ (equals a b = Some false /\ ~ same_place a b).
Proof.
  intros A B O.
  destruct A; destruct B; unfold equals, method, remote_eq, local_eq, object_eq, new_base, new_remote, new_module, new_github, new_local, new_memory_registry in *;
    cbn [o_id o_cls o_name o_root o_pooch below name_eqb root_eqb negb] in *.
  all: repeat match goal with
  | |- context [match ?x with Some _ => _ | None => _ end] => destruct x eqn:?; cbn [negb]
  | |- context [?x =? ?y] => destruct (Nat.eqb_spec x y); cbn [negb]
  | |- context [?x =?s ?y] => destruct (String.eqb_spec x y); cbn [negb]
  | P : string -> string -> option string -> string * string |- context [?f ?x ?y ?z] => constr_eq f P; destruct (f x y z) eqn:?; cbn [negb]
  | |- context [if ?b then _ else _] => destruct b eqn:?; cbn [negb]
  end.
  all: try (right; split; [reflexivity|]; intro H; inversion H; cbn in *; intuition congruence).
  all: try (match type of O with ?e -> _ => assert (Eid : e) by auto end; specialize (O Eid); discriminate O).
  all: try (exfalso; congruence).
  all: left; split; [reflexivity|].
  all: try (apply same_object; cbn; tauto).
  all: try (eapply same_directory; [reflexivity|reflexivity|cbn; reflexivity|cbn; congruence|cbn; reflexivity|cbn; congruence]).
  all: eapply same_address; [cbn; reflexivity|cbn; congruence|cbn; congruence].
Qed.

(** registries are equal exactly if they are the same place, and comparing them never raises an exception *)
Theorem C89_equal_iff_same_place place_of cache package a b : made place_of cache package a -> made place_of cache package b -> (o_id a = o_id b -> a = b) ->
  (equals a b = Some true <-> same_place a b) /\ (equals a b = Some false <-> ~ same_place a b).
Proof.
  intros A B O. destruct (equal_cases _ _ _ _ _ A B O) as [[E S]|[E S]]; rewrite E; split; split; intro H; try discriminate; auto; contradiction.
Qed.
Print Assumptions C89_equal_iff_same_place.

(** the order of comparison does not matter, equal registries are equal to the same ones, and each registry that was loaded is equal
    to itself *)
Theorem C89_equality_is_consistent place_of cache package a b c : made place_of cache package a -> made place_of cache package b -> made place_of cache package c ->
  (o_id a = o_id b -> a = b) -> (o_id b = o_id c -> b = c) -> (o_id a = o_id c -> a = c) ->
  equals a b = equals b a /\ (equals a b = Some true -> equals b c = equals a c) /\ (o_cls a <> CRemote -> equals a a = Some true).
Proof.
  intros A B C O1 O2 O3.
  assert (Sym : forall x y, (o_id x = o_id y -> x = y) -> same_place x y -> same_place y x).
  { intros x y O [I E|n p ? ? ? ? ? ?|p ? ? ?]; [|eapply same_directory; eauto|eapply same_address; eauto]. rewrite <- (O E). now apply same_object. }
  assert (Tr : forall x y z, (o_id x = o_id y -> x = y) -> (o_id y = o_id z -> y = z) -> made place_of cache package x -> made place_of cache package y -> same_place x y -> same_place y z -> same_place x z).
  { intros x y z O O' X Y [I E|n p ? ? ? ? ? ?|p ? ? ?] S; [rewrite (O E); exact S| |].
    - destruct S as [I' E'|n' p' ? ? ? ? ? ?|p' Q ? ?].
      + exfalso. rewrite H0 in I'. cbn in I'. intuition discriminate.
      + eapply same_directory; eauto; congruence.
      + exfalso. destruct Y; try discriminate.
    - destruct S as [I' E'|n' p' ? ? ? ? ? ?|p' ? ? ?].
      + rewrite <- (O' E'). eapply same_address; eauto.
      + exfalso. destruct Y; discriminate.
      + eapply same_address; eauto; congruence. }
  split; [|split].
  - destruct (equal_cases _ _ _ _ _ A B O1) as [[E S]|[E S]]; destruct (equal_cases _ _ _ _ _ B A) as [[E' S']|[E' S']];
      try (intro E0; symmetry; apply O1; auto); rewrite E, E'; auto; exfalso; [apply S'|apply S]; apply Sym; auto.
    intro E0. symmetry. apply O1. auto.
  - intro E. destruct (equal_cases _ _ _ _ _ A B O1) as [[_ S]|[E' _]]; [|congruence].
    assert (Sb : same_place b a) by (apply Sym; auto).
    destruct (equal_cases _ _ _ _ _ B C O2) as [[E1 S1]|[E1 S1]]; destruct (equal_cases _ _ _ _ _ A C O3) as [[E2 S2]|[E2 S2]]; rewrite E1, E2; auto; exfalso.
    + apply S2. exact (Tr a b c O1 O2 A B S S1).
    + apply S1. refine (Tr b a c _ O3 B A Sb S2). intro E0. symmetry. apply O1. auto.
  - intro N. destruct (equal_cases _ _ _ _ _ A A) as [[E _]|[_ S]]; auto. exfalso. apply S.
    destruct A; cbn in N; try congruence; [apply same_object; cbn; auto|eapply same_address; reflexivity|eapply same_address; reflexivity|eapply same_directory; reflexivity|apply same_object; cbn; auto].
Qed.
Print Assumptions C89_equality_is_consistent.
(** pooch for the examples: a version is a directory below *)
Definition plain_place (d u : string) (v : option string) : string * string := (match v with Some v => d +++ "/" +++ v | None => d end, u).
(** the library of a version *)
Definition lib (i : nat) (v : string) (fs : list (string * string)) : object := new_github plain_place "/c" i "libc" "https://g" v 0 fs.
Example C89_equal_example : made plain_place "/c" "1" (lib 1 "v3.5.20" []) /\ made plain_place "/c" "1" (lib 2 "v3.5.20" []) /\
  equals (lib 1 "v3.5.20" []) (lib 2 "v3.5.20" []) = Some true /\ equals (lib 1 "v3.5.20" []) (lib 2 "v3.5.1" []) = Some false /\
  equals (new_local "1" 3 "a" "/d" 10 []) (new_local "1" 4 "a" "/d" 3 []) = Some true.
Proof. repeat split; try reflexivity; constructor. Qed.

(** a registry that could not be loaded from a file is not even equal to itself *)
Theorem C89_placeholder_refuted i n v p : equals (new_remote i n v p) (new_remote i n v p) = Some false.
Proof. unfold equals, method, remote_eq, new_remote. cbn. assert (E : name_eqb n n = true) by now apply name_eqb_spec. now rewrite E. Qed.
Print Assumptions C89_placeholder_refuted.

(** equal registries need not serve the same files: the list of files is not compared *)
Theorem C89_list_not_compared_refuted place_of cache i j name url v p q f t : has_char "/" f = false -> f <> "" -> f <> "." ->
  let a := new_github place_of cache i name url v p [(f, t)] in let b := new_github place_of cache j name url v q [] in
  equals a b = Some true /\ r_contents (core a) f None = Some t /\ r_contents (core b) f None = None.
Proof.
  intros S E D a b. split; [|split].
  - unfold equals, method, remote_eq, a, b, new_github. cbn. rewrite String.eqb_refl. cbn. destruct (place_of _ _ _) as [d u]. now rewrite !String.eqb_refl.
  - assert (Nf : name_plus_suffix f None = Some f).
    { unfold name_plus_suffix, parts. rewrite split_char_none by exact S. cbn [filter]. apply String.eqb_neq in E, D. rewrite E, D. cbn [negb andb].
      assert (A : absolute f = false). { unfold absolute. destruct f as [|c f]; [reflexivity|]. cbn in S |- *. destruct (Ascii.eqb_spec c "/") as [->|N]; [cbn in S; discriminate|]. destruct c as [[] [] [] [] [] [] [] []]; try reflexivity. now destruct N. }
      rewrite A. unfold posix. reflexivity. }
    unfold r_contents, core, a, new_github. cbn [r_kind o_kind map fst]. unfold remote_fullname. rewrite Nf. cbn [find]. rewrite String.eqb_refl. unfold get. cbn. now rewrite String.eqb_refl.
  - unfold r_contents, core, b, new_github. cbn [r_kind o_kind map fst]. unfold remote_fullname. destruct (name_plus_suffix f None); reflexivity.
Qed.
Print Assumptions C89_list_not_compared_refuted.

Lemma append_inj_l a b c : a +++ b = a +++ c -> b = c.
Proof. induction a as [|x a IH]; cbn; [auto|]. intro H. injection H as H. auto. Qed.
Lemma append_slash_inj a b : a +++ "/" = b +++ "/" -> a = b.
Proof.
  revert b. induction a as [|x a IH]; intros [|y b]; cbn; auto; intro H.
  - injection H as _ H. destruct b; discriminate.
  - injection H as _ H. destruct a; discriminate.
  - injection H as -> H. f_equal. auto.
Qed.
(** libraries of different versions are different registries *)
Theorem C89_versions_differ place_of cache i j name url v w p q fs gs : (forall d u x, snd (place_of d u x) = u) -> v <> w ->
  equals (new_github place_of cache i name url v p fs) (new_github place_of cache j name url w q gs) = Some false.
Proof.
  intros P N. unfold equals, method, remote_eq, new_github. cbn. rewrite String.eqb_refl. cbn.
  match goal with |- context [match place_of ?a ?b ?c with _ => _ end] => destruct (place_of a b c) as [d u] eqn:E1 end.
  match goal with |- context [match place_of ?a ?b ?c with _ => _ end] => destruct (place_of a b c) as [d' u'] eqn:E2 end.
  apply (f_equal snd) in E1, E2. rewrite P in E1, E2. cbn in E1, E2. subst.
  destruct (d =?s d'); [|reflexivity]. cbn. match goal with |- context [?x =?s ?y] => destruct (String.eqb_spec x y) as [E|_]; [|reflexivity] end.
  exfalso. apply append_inj_l in E. try (cbn in E; injection E as E). apply append_slash_inj in E. congruence.
Qed.
Print Assumptions C89_versions_differ.

(** * The registry of the C library *)
Lemma put_in_perm r l : Permutation (put_in r l) (r :: l).
Proof. induction l as [|x t IH]; cbn; [auto|]. destruct (_ <=? _)%Z; [auto|]. rewrite IH. apply perm_swap. Qed.
Lemma ordered_objects_perm l : Permutation (ordered_objects l) l.
Proof. induction l as [|r t IH]; cbn; [auto|]. rewrite put_in_perm. now rewrite IH. Qed.
Definition before (a b : object) : Prop := (o_prio b <= o_prio a)%Z.
Lemma put_in_sorted r l : StronglySorted before l -> StronglySorted before (put_in r l).
Proof.
  induction 1 as [|x t Ht IH Hx]; cbn; [repeat constructor|]. destruct (Z.leb_spec (o_prio x) (o_prio r)).
  - constructor; [now constructor|]. constructor; [exact H|]. revert Hx. apply Forall_impl. unfold before. intros; lia.
  - constructor; [exact IH|]. apply (Permutation_Forall (Permutation_sym (put_in_perm r t))). constructor; [unfold before; lia|exact Hx].
Qed.
Lemma ordered_objects_sorted l : StronglySorted before (ordered_objects l).
Proof. induction l; cbn; [constructor|]. now apply put_in_sorted. Qed.
Lemma ordered_of_sorted l : StronglySorted before l -> ordered_objects l = l.
Proof.
  induction 1 as [|x t Ht IH Hx]; cbn; [reflexivity|]. rewrite IH. destruct t as [|y t]; [reflexivity|]. cbn. inversion Hx; subst.
  destruct (Z.leb_spec (o_prio y) (o_prio x)); [reflexivity|unfold before in *; lia].
Qed.
Lemma put_in_filter p r l : filter (fun x => (o_prio x =? p)%Z) (put_in r l) = filter (fun x => (o_prio x =? p)%Z) (r :: l).
Proof.
  induction l as [|x t IH]; [reflexivity|]. cbn [put_in]. destruct (Z.leb_spec (o_prio x) (o_prio r)); [reflexivity|].
  cbn [filter] in *. rewrite IH. destruct (Z.eqb_spec (o_prio x) p), (Z.eqb_spec (o_prio r) p); try reflexivity. lia.
Qed.
Lemma ordered_objects_filter p l : filter (fun x => (o_prio x =? p)%Z) (ordered_objects l) = filter (fun x => (o_prio x =? p)%Z) l.
Proof. induction l as [|r t IH]; [reflexivity|]. cbn [ordered_objects]. rewrite put_in_filter. cbn [filter]. now rewrite IH. Qed.
Lemma core_ordered l : map core (ordered_objects l) = ordered (map core l).
Proof.
  assert (P : forall r t, map core (put_in r t) = insert (core r) (map core t)). { intros r t. induction t as [|x t IH]; [reflexivity|]. cbn. destruct (_ <=? _)%Z; [reflexivity|]. cbn. now rewrite IH. }
  induction l as [|r t IH]; [reflexivity|]. cbn. now rewrite P, IH.
Qed.

(** one heap: objects with the same identity are the same *)
Definition one_heap (l : list object) : Prop := forall a b, In a l -> In b l -> o_id a = o_id b -> a = b.
Lemma any_equal_spec place_of cache package needed l : Forall (made place_of cache package) (needed :: l) -> one_heap (needed :: l) ->
  (any_equal needed l = Some true /\ exists r, In r l /\ same_place r needed) \/ (any_equal needed l = Some false /\ forall r, In r l -> ~ same_place r needed).
Proof.
  intros M H. inversion M as [|? ? Mn Ml]; subst. induction l as [|r t IH]; cbn; [right; split; [reflexivity|intros ? []]|].
  inversion Ml as [|? ? Mr Mt]; subst.
  destruct (equal_cases _ _ _ _ _ Mr Mn) as [[E S]|[E S]]; [intro; apply H; cbn; auto|rewrite E; left; split; [reflexivity|exists r; auto]|]. rewrite E.
  destruct IH as [[F (x & X & Sx)]|[F N]]; [constructor; auto| |auto| |].
  - intros x y X Y. apply H; cbn in *; tauto.
  - left. split; [exact F|exists x; auto].
  - right. split; [exact F|]. intros x [<-|X]; auto.
Qed.

(** the translator looks into the registries of the instrument, in the order of their priorities and otherwise in the order they had,
    and into the C library: it is added exactly if it is not there yet, behind all others of its priority *)
Theorem C89_library_is_there place_of cache package libc regs : Forall (made place_of cache package) (libc :: regs) -> one_heap (libc :: regs) -> o_cls libc = CGitHub ->
  exists l, with_library libc regs = Some l /\ (exists r, In r l /\ same_place r libc) /\ StronglySorted before l /\
    (((exists r, In r regs /\ same_place r libc) /\ Permutation l regs /\ forall p, filter (fun x => (o_prio x =? p)%Z) l = filter (fun x => (o_prio x =? p)%Z) regs) \/
     ((forall r, In r regs -> ~ same_place r libc) /\ Permutation l (libc :: regs) /\
        forall p, filter (fun x => (o_prio x =? p)%Z) l = filter (fun x => (o_prio x =? p)%Z) regs ++ filter (fun x => (o_prio x =? p)%Z) [libc])).
Proof.
  intros M H C. unfold with_library. destruct (any_equal_spec _ _ _ _ _ M H) as [[E (r & R & S)]|[E N]]; rewrite E; eexists; (split; [reflexivity|]).
  - split; [exists r; split; [apply (Permutation_in _ (Permutation_sym (ordered_objects_perm _))); exact R|exact S]|]. split; [apply ordered_objects_sorted|].
    left. split; [eauto|]. split; [apply ordered_objects_perm|intro; apply ordered_objects_filter].
  - split.
    { exists libc. split; [apply (Permutation_in _ (Permutation_sym (ordered_objects_perm _))); apply in_or_app; cbn; auto|].
      inversion M as [|? ? Ml _]; subst. destruct Ml; try discriminate. eapply same_address; reflexivity. }
    split; [apply ordered_objects_sorted|]. right. split; [exact N|]. split; [rewrite ordered_objects_perm; symmetry; apply Permutation_cons_append|].
    intro p. rewrite ordered_objects_filter, filter_app. reflexivity.
Qed.
Print Assumptions C89_library_is_there.

Lemma with_library_twice libc regs l : with_library libc regs = Some l -> equals libc libc = Some true -> (forall r, In r regs -> equals r libc <> None) -> with_library libc l = Some l.
Proof.
  intros W R T.
  assert (A : forall k x, In x k -> equals x libc = Some true -> (forall r, In r k -> equals r libc <> None) -> any_equal libc k = Some true).
  { intros k x X Ex Nk. induction k as [|y k IH]; [destruct X|]. cbn. destruct (equals y libc) as [[|]|] eqn:Ey; [reflexivity| |exfalso; apply (Nk y); cbn; auto].
    destruct X as [->|X]; [congruence|]. apply IH; [exact X|]. intros r I. apply Nk. now right. }
  assert (B : forall k, any_equal libc k = Some true -> exists x, In x k /\ equals x libc = Some true).
  { intro k. induction k as [|y k IH]; cbn; [discriminate|]. destruct (equals y libc) as [[|]|] eqn:Ey; intro E; try discriminate; [exists y; auto|]. destruct (IH E) as (x & X & Ex). exists x; auto. }
  unfold with_library in W. destruct (any_equal libc regs) as [b|] eqn:E; [|discriminate]. injection W as <-. set (k := if b then regs else regs ++ [libc]).
  assert (K : exists x, In x k /\ equals x libc = Some true). { subst k. destruct b; [now apply B|]. exists libc. split; [apply in_or_app; cbn; auto|exact R]. }
  assert (Nk : forall r, In r (ordered_objects k) -> equals r libc <> None).
  { intros r I. apply (Permutation_in _ (ordered_objects_perm k)) in I. subst k. destruct b; [auto|]. apply in_app_or in I as [I|[<-|[]]]; [auto|]. rewrite R. discriminate. }
  destruct K as (x & X & Ex). unfold with_library. rewrite (A (ordered_objects k) x); auto; [|apply (Permutation_in _ (Permutation_sym (ordered_objects_perm k))); exact X].
  f_equal. apply ordered_of_sorted, ordered_objects_sorted.
Qed.
(** translating an instrument again changes its registries no more *)
Theorem C89_twice_is_once other place_of cache package libc regs l n : Forall (made place_of cache package) (libc :: regs) -> one_heap (libc :: regs) -> o_cls libc = CGitHub ->
  prepare other libc regs = Some (l, n) -> prepare other libc l = Some (l, n).
Proof.
  intros M H C P. unfold prepare in *. destruct (with_library libc regs) as [k|] eqn:W; [|discriminate]. destruct (warnings other k) as [m|] eqn:Wn; [|discriminate]. injection P as -> ->.
  inversion M as [|? ? Ml Mr]; subst. rewrite (with_library_twice libc regs l W); [now rewrite Wn| |].
  - destruct (C89_equality_is_consistent place_of cache package libc libc libc) as (_ & _ & E); auto. apply E. congruence.
  - intros r R. rewrite Forall_forall in Mr. destruct (equal_cases _ _ _ r libc (Mr _ R) Ml) as [[E _]|[E _]]; try (rewrite E; discriminate). intro. apply H; cbn; auto.
Qed.
Print Assumptions C89_twice_is_once.
Example C89_library_example : let m := new_github plain_place "/c" 1 "mcstas" "https://g" "v3.5.20" 0 [] in let d := new_local "1" 2 "work" "/w" 10 [] in
  option_map (fun p => (map o_id (fst p), snd p)) (prepare (fun _ => None) (lib 9 "v3.5.20" []) [m; d]) = Some ([2; 1; 9], 0) /\
  option_map (fun p => (map o_id (fst p), snd p)) (prepare (fun _ => None) (lib 9 "v3.5.20" []) [m; lib 5 "v3.5.20" []; d]) = Some ([2; 1; 5], 0).
Proof. split; vm_compute; reflexivity. Qed.

Lemma uniques_two regs f l a b : ConfigFile.uniques regs f = Some l -> (exists x y z, regs = x ++ a :: y ++ b :: z) -> ConfigFile.unique a f = Some true -> ConfigFile.unique b f = Some true -> 2 <= List.length l.
Proof.
  assert (App : forall x y l, ConfigFile.uniques (x ++ y) f = Some l -> exists l1 l2, ConfigFile.uniques x f = Some l1 /\ ConfigFile.uniques y f = Some l2 /\ l = l1 ++ l2).
  { intro x. induction x as [|r x IH]; intros y k U; cbn in U |- *; [exists [], k; auto|]. destruct (ConfigFile.unique r f); [|discriminate]. destruct (ConfigFile.uniques (x ++ y) f) as [k'|] eqn:E; [|discriminate].
    injection U as <-. destruct (IH _ _ E) as (l1 & l2 & E1 & E2 & ->). rewrite E1. eexists. exists l2. split; [reflexivity|]. split; [exact E2|]. destruct b0; reflexivity. }
  intros U (x & y & z & ->) A B. apply App in U as (l1 & l2 & _ & U & ->). cbn in U. rewrite A in U. destruct (ConfigFile.uniques (y ++ b :: z) f) as [k|] eqn:E; [|discriminate]. injection U as <-.
  apply App in E as (l3 & l4 & _ & E & ->). cbn in E. rewrite B in E. destruct (ConfigFile.uniques z f) as [k|]; [|discriminate]. injection E as <-. rewrite !app_length. cbn. rewrite !app_length. cbn. lia.
Qed.
(** an instrument that has a library of another version keeps it and gets the other one too; a header that both have, such as
    mccode-r.h.in, then cannot be configured, so that the instrument is not translated *)
Theorem C89_two_versions_refuted place_of cache package regs i j url v w p q fs gs l f parse version_of text_of today conf flavor :
  (forall d u x, snd (place_of d u x) = u) -> v <> w ->
  let libc := new_github place_of cache i "libc" url v p fs in let own := new_github place_of cache j "libc" url w q gs in
  Forall (made place_of cache package) (libc :: regs) -> one_heap (libc :: regs) -> In own regs -> (forall r, In r regs -> ~ same_place r libc) ->
  List.length (filter (contains f) (map fst fs)) = 1 -> List.length (filter (contains f) (map fst gs)) = 1 ->
  with_library libc regs = Some l -> In libc l /\ In own l /\ own <> libc /\
  forall r, ConfigFile.configure_file parse version_of text_of today (map core l) conf f flavor <> Expr.Ok r.
Proof.
  intros P N libc own M H I D Uf Ug W.
  assert (Pm : Permutation l (libc :: regs)).
  { destruct (C89_library_is_there place_of cache package libc regs M H eq_refl) as (l' & W' & _ & _ & [((r & R & S) & _)|(_ & Pm & _)]); [exfalso; exact (D r R S)|congruence]. }
  assert (Il : In libc l) by (apply (Permutation_in _ (Permutation_sym Pm)); cbn; auto). assert (Io : In own l) by (apply (Permutation_in _ (Permutation_sym Pm)); cbn; auto).
  assert (Ne : own <> libc). { intro E. apply (f_equal o_version) in E. cbn in E. congruence. }
  split; [exact Il|]. split; [exact Io|]. split; [exact Ne|]. intros r C.
  assert (Ul : ConfigFile.unique (core libc) f = Some true) by exact (f_equal (fun n => Some (n =? 1)) Uf).
  assert (Uo : ConfigFile.unique (core own) f = Some true) by exact (f_equal (fun n => Some (n =? 1)) Ug).
  unfold ConfigFile.configure_file in C. destruct (negb _); [discriminate|]. destruct (ConfigFile.read_file _ _) as [[pp cc]| |]; try discriminate. cbn in C.
  destruct (ConfigFile.uniques (map core l) f) as [[|a [|b k]]|] eqn:U; try discriminate. clear C.
  assert (L : 2 <= List.length [a]); [|cbn in L; lia].
  apply in_split in Il as (x & z & ->). apply in_app_or in Io as [Io|[Io|Io]]; [|congruence|].
  - apply in_split in Io as (x1 & x2 & ->). eapply (uniques_two _ f [a] (core own) (core libc) U); auto. exists (map core x1), (map core x2), (map core z). rewrite !map_app. cbn [map]. rewrite ?map_app. cbn [map]. now rewrite <- ?app_assoc.
  - apply in_split in Io as (z1 & z2 & ->). eapply (uniques_two _ f [a] (core libc) (core own) U); auto. exists (map core x), (map core z1), (map core z2). rewrite !map_app. cbn [map]. rewrite ?map_app. cbn [map]. reflexivity.
Qed.
Print Assumptions C89_two_versions_refuted.
Example C89_two_versions_example : let h := [("include/mccode-r.h.in", "x")] in
  option_map (fun l => map o_version l) (with_library (lib 9 "v3.5.20" h) [lib 1 "v3.5.1" h]) = Some [Some "v3.5.1"; Some "v3.5.20"] /\
  List.length (filter (contains "mccode-r.h.in") (map fst h)) = 1.
Proof. split; vm_compute; reflexivity. Qed.

(** * Old libraries *)
(** the order of versions with three numbers *)
Definition earlier (a b : N * N * N) : Prop :=
  let '(a1, a2, a3) := a in let '(b1, b2, b3) := b in (a1 < b1 \/ a1 = b1 /\ (a2 < b2 \/ a2 = b2 /\ a3 < b3))%N.
Lemma no_dot s : digits s = true -> has_char "." s = false.
Proof.
  unfold digits. intro H. apply andb_true_iff in H as [_ H]. induction s as [|c s IH]; [reflexivity|]. cbn in H |- *. apply andb_true_iff in H as [D H]. rewrite (IH H), orb_false_r.
  destruct (Ascii.eqb_spec c ".") as [->|N]; [discriminate D|]. first [now apply Ascii.eqb_neq|reflexivity|destruct (Ascii.eqb_spec "." c); congruence].
Qed.
Lemma digits_first s : digits s = true -> no_v s = s.
Proof. unfold digits. destruct s as [|c s]; [discriminate|]. cbn. intro H. apply andb_true_iff in H as [D _]. destruct (Ascii.eqb_spec c "v") as [->|_]; [discriminate|]. destruct (Ascii.eqb_spec c "V") as [->|_]; [discriminate|]. reflexivity. Qed.
Lemma older_release other d1 d2 d3 pre : digits d1 = true -> digits d2 = true -> digits d3 = true -> In pre [""; "v"] ->
  older other (Some (pre +++ (d1 +++ "." +++ d2 +++ "." +++ d3))) = Some (less [number d1; number d2; number d3] [3; 5; 20]%N).
Proof.
  intros A B C I. unfold older, release.
  assert (V : no_v (pre +++ (d1 +++ "." +++ d2 +++ "." +++ d3)) = d1 +++ "." +++ d2 +++ "." +++ d3).
  { destruct I as [<-|[<-|[]]]; [|reflexivity]. cbn. pose proof (digits_first d1 A) as F. destruct d1 as [|c d]; [discriminate|]. cbn in F |- *. destruct (_ || _); [|reflexivity]. exfalso. apply (f_equal String.length) in F. cbn in F. lia. }
  rewrite V. assert (Sp : split_char "." (d1 +++ "." +++ d2 +++ "." +++ d3) = [d1; d2; d3]).
  { pose proof (split_char_app "." d1 (d2 +++ "." +++ d3) (no_dot _ A)) as E1. pose proof (split_char_app "." d2 d3 (no_dot _ B)) as E2. cbn in E1, E2 |- *. rewrite E1, E2, (split_char_none _ _ (no_dot _ C)). reflexivity. }
  rewrite Sp. cbn. now rewrite A, B, C.
Qed.
(** what a digit is worth *)
Definition worth (c : ascii) : N :=
  match c with "1" => 1 | "2" => 2 | "3" => 3 | "4" => 4 | "5" => 5 | "6" => 6 | "7" => 7 | "8" => 8 | "9" => 9 | _ => 0 end%char%N.
(** what digits are worth: each one by the power of ten of its place *)
Fixpoint value (s : string) : N := match s with EmptyString => 0 | String c t => worth c * 10 ^ N.of_nat (String.length t) + value t end%N.
(** only digits, and at least one *)
Definition decimal (s : string) : Prop := s <> "" /\ forall c, In c (list_ascii_of_string s) -> In c (list_ascii_of_string "0123456789").
Lemma decimal_digits s : decimal s -> digits s = true.
Proof.
  intros [N F]. unfold digits. apply andb_true_iff. split; [destruct (String.eqb_spec s ""); [contradiction|reflexivity]|]. apply forallb_forall. intros c I.
  specialize (F c I). cbn in F. repeat (destruct F as [<-|F]; [reflexivity|]). destruct F.
Qed.
Lemma decimal_number s : decimal s -> number s = value s.
Proof.
  intros [_ F]. unfold number.
  assert (G : forall a, fold_left (fun n c => (10 * n + N.of_nat (nat_of_ascii c - 48))%N) (list_ascii_of_string s) a = (a * 10 ^ N.of_nat (String.length s) + value s)%N); [|now rewrite G].
  induction s as [|c s IH]; intro a; [cbn; lia|]. cbn [list_ascii_of_string fold_left value String.length]. rewrite IH; [|intros x X; apply F; now right].
  assert (W : N.of_nat (nat_of_ascii c - 48) = worth c).
  { specialize (F c (or_introl eq_refl)). cbn in F. repeat (destruct F as [<-|F]; [reflexivity|]). destruct F. }
  replace (N.of_nat (S (String.length s))) with (N.succ (N.of_nat (String.length s))) by lia. rewrite W, N.pow_succ_r by lia. nia.
Qed.
(** a warning is given for each library that is older than 3.5.20 and for nothing else, whatever the versions of registries with other
    names are *)
Theorem C89_old_libraries_noticed other l (old : object -> bool) :
  (forall r, In r l -> o_name r <> Some "libc" -> old r = false) ->
  (forall r, In r l -> o_name r = Some "libc" -> exists pre d1 d2 d3, In pre [""; "v"] /\ decimal d1 /\ decimal d2 /\ decimal d3 /\ o_version r = Some (pre +++ (d1 +++ "." +++ d2 +++ "." +++ d3)) /\ (old r = true <-> earlier (value d1, value d2, value d3) (3, 5, 20)%N)) ->
  warnings other l = Some (List.length (filter old l)).
Proof.
  induction l as [|r l IH]; intros O L; [reflexivity|]. cbn [warnings filter].
  assert (W : warnings other l = Some (List.length (filter old l))) by (apply IH; intros x X; [apply O|apply L]; now right). rewrite W.
  destruct (name_eqb (o_name r) (Some "libc")) eqn:E.
  - apply name_eqb_spec in E. destruct (L r (or_introl eq_refl) E) as (pre & d1 & d2 & d3 & I & A & B & C & V & Q). rewrite <- (decimal_number _ A), <- (decimal_number _ B), <- (decimal_number _ C) in Q. apply decimal_digits in A, B, C. rewrite V, (older_release other d1 d2 d3 pre A B C I).
    assert (K : less [number d1; number d2; number d3] [3; 5; 20]%N = old r).
    { unfold less. unfold earlier in Q. revert Q. generalize (number d1) (number d2) (number d3). intros x y z Q.
      destruct (N.ltb_spec x 3); [symmetry; apply Q; lia|]. assert (F : forall P : Prop, (old r = true <-> P) -> ~ P -> false = old r) by (intros P [G _] NP; destruct (old r); [destruct (NP (G eq_refl))|reflexivity]).
      destruct (N.eqb_spec x 3); [|apply (F _ Q); lia]. destruct (N.ltb_spec y 5); [symmetry; apply Q; lia|]. destruct (N.eqb_spec y 5); [|apply (F _ Q); lia].
      destruct (N.ltb_spec z 20); [symmetry; apply Q; lia|]. destruct (N.eqb_spec z 20); apply (F _ Q); lia. }
    rewrite K. destruct (old r); reflexivity.
  - rewrite (O r (or_introl eq_refl)); [reflexivity|]. intro F. rewrite F in E. discriminate.
Qed.
Print Assumptions C89_old_libraries_noticed.
Example C89_old_library_example : warnings (fun _ => None) [lib 1 "v3.5.9" []; lib 2 "v3.5.20" []; lib 3 "v3.4" []; lib 4 "v4.0.0" []] = Some 2 /\
  decimal "20" /\ value "20" = 20%N /\ earlier (value "3", value "5", value "9") (3, 5, 20)%N /\ ~ earlier (value "4", value "0", value "0") (3, 5, 20)%N.
Proof.
  split; [vm_compute; reflexivity|]. split; [|split; [reflexivity|split; cbn; lia]]. split; [discriminate|]. cbn. tauto.
Qed.
(** an instrument whose library is that of a branch, not of a version, is not translated at all: the test for a warning raises *)
Theorem C89_branch_refuted other libc regs r b : In r regs -> o_name r = Some "libc" -> o_version r = Some b -> begins_like_version b = false -> release b = None ->
  prepare other libc regs = None.
Proof.
  intros I Nm Vr B R. unfold prepare, with_library. destruct (any_equal libc regs) as [t|]; [|reflexivity].
  assert (W : forall l, In r l -> warnings other l = None).
  { intro l. induction l as [|x l IH]; intros L; [destruct L|]. cbn [warnings]. destruct L as [->|L].
    - rewrite Nm. cbn. rewrite Vr. unfold older. now rewrite R, B.
    - rewrite (IH L). destruct (name_eqb _ _); [destruct (older _ _)|]; reflexivity. }
  rewrite W; [reflexivity|]. apply (Permutation_in _ (Permutation_sym (ordered_objects_perm _))). destruct t; [exact I|apply in_or_app; auto].
Qed.
Print Assumptions C89_branch_refuted.
Example C89_branch_example : begins_like_version "main" = false /\ release "main" = None /\ prepare (fun _ => Some false) (lib 9 "v3.5.20" []) [lib 1 "main" []] = None.
Proof. repeat split; vm_compute; reflexivity. Qed.

(** * The registry a loader needs *)
(** reading an instrument with the loaders leaves the registries given as they are and adds the flavor's own at the end, exactly if
    none of them is that one *)
Theorem C89_ensured place_of cache package needed have : Forall (made place_of cache package) (needed :: have) -> one_heap (needed :: have) -> o_cls needed = CGitHub ->
  exists l, ensure needed (Some have) = Some l /\ (exists r, In r l /\ same_place r needed) /\
    ((l = have /\ exists r, In r have /\ same_place r needed) \/ (l = have ++ [needed] /\ forall r, In r have -> ~ same_place r needed)).
Proof.
  intros M H C. inversion M as [|? ? Mn Mh]; subst.
  assert (Sn : same_place needed needed) by (destruct Mn; try discriminate; eapply same_address; reflexivity).
  assert (K : (is_in needed have = Some true /\ exists r, In r have /\ same_place r needed) \/ (is_in needed have = Some false /\ forall r, In r have -> ~ same_place r needed)).
  { clear C. induction have as [|r t IH]; [right; split; [reflexivity|intros ? []]|]. cbn [is_in]. inversion Mh as [|? ? Mr Mt]; subst.
    destruct (Nat.eqb_spec (o_id r) (o_id needed)) as [E|E].
    - left. split; [reflexivity|]. exists r. split; [now left|]. rewrite (H r needed); cbn; auto.
    - destruct (equal_cases _ _ _ _ _ Mr Mn) as [[F S]|[F S]]; [intro; contradiction|rewrite F; left; split; [reflexivity|exists r; split; [now left|exact S]]|]. rewrite F.
      destruct IH as [[G (x & X & Sx)]|[G N]]; auto; [intros x y X Y; apply H; cbn in *; tauto|left; split; [exact G|exists x; split; [now right|exact Sx]]|].
      right. split; [exact G|]. intros x [<-|X]; auto. }
  destruct have as [|h t]; [exists [needed]; split; [reflexivity|]; split; [exists needed; cbn; auto|]; right; split; [reflexivity|intros ? []]|].
  unfold ensure. destruct K as [[E (r & R & S)]|[E N]]; rewrite E; eexists; (split; [reflexivity|]).
  - split; [exists r; auto|]. left. split; [reflexivity|]. exists r; auto.
  - split; [exists needed; split; [apply in_or_app; cbn; auto|exact Sn]|]. right. auto.
Qed.
Print Assumptions C89_ensured.
Example C89_ensured_example : let d := new_local "1" 2 "work" "/w" 10 [] in option_map (map o_id) (ensure (lib 9 "v3.5.20" []) (Some [d])) = Some [2; 9] /\
  option_map (map o_id) (ensure (lib 9 "v3.5.20" []) (Some [lib 4 "v3.5.20" []; d])) = Some [4; 2].
Proof. split; vm_compute; reflexivity. Qed.
