(** C34, C35: which registry and which file answers a request *)
From Coq Require Import List String Ascii Bool Arith ZArith Lia Permutation Sorted.
From Verif Require Import PyStr TextLines Registry.
Import ListNotations.
Local Open Scope string_scope.
Local Open Scope list_scope.
Local Open Scope nat_scope.

(** * C34 *)
Theorem C34_registries_sorted : forall regs,
  Permutation (new_reader regs) regs
  /\ StronglySorted (fun a b => (r_prio b <= r_prio a)%Z) (new_reader regs)
  /\ forall p, filter (fun r => (r_prio r =? p)%Z) (new_reader regs) = filter (fun r => (r_prio r =? p)%Z) regs.
Proof. intro regs. split; [apply ordered_perm|]. split; [apply ordered_sorted|]. intro p. apply ordered_filter. Qed.
Print Assumptions C34_registries_sorted.

(** [best regs know r]: r knows the file, everything ahead of it in the given list that knows the file has lower priority,
    everything behind it that knows the file has no higher priority *)
Definition best (regs : list registry) (know : registry -> bool) (r : registry) : Prop :=
  exists a b, regs = a ++ r :: b /\ know r = true
    /\ (forall x, In x a -> know x = true -> (r_prio x < r_prio r)%Z)
    /\ (forall x, In x b -> know x = true -> (r_prio x <= r_prio r)%Z).

Lemma first_known_find l name ext strict know : (forall x, In x l -> r_known x name ext strict = Some (know x)) ->
  first_known l name ext strict = Some (find know l).
Proof. induction l as [|x l IH]; cbn; [auto|]. intro H. rewrite (H x) by auto. destruct (know x); [reflexivity|]. apply IH. auto. Qed.

Lemma find_insert_known know r l : know r = true -> StronglySorted above l ->
  find know (insert r l) = match find know l with
                           | Some x => if (r_prio x <=? r_prio r)%Z then Some r else Some x
                           | None => Some r end.
Proof.
  intros K. induction 1 as [|x t Ht IH Hx]; cbn [insert find]; [now rewrite K|].
  destruct (Z.leb_spec (r_prio x) (r_prio r)) as [L|L]; cbn [find].
  - rewrite K. destruct (know x).
    + destruct (Z.leb_spec (r_prio x) (r_prio r)); [reflexivity|lia].
    + destruct (find know t) eqn:F; [|reflexivity]. apply find_some in F as [F _].
      rewrite Forall_forall in Hx. specialize (Hx _ F). unfold above in Hx.
      destruct (Z.leb_spec (r_prio r0) (r_prio r)); [reflexivity|lia].
  - destruct (know x).
    + destruct (Z.leb_spec (r_prio x) (r_prio r)); [lia|reflexivity].
    + exact IH.
Qed.
Lemma find_insert_unknown know r l : know r = false -> find know (insert r l) = find know l.
Proof. intros K. induction l as [|x t IH]; cbn; [now rewrite K|]. destruct (_ <=? _)%Z; cbn; rewrite ?K; [reflexivity|]. now rewrite IH. Qed.
Lemma find_ordered_best know regs : match find know (ordered regs) with
    | Some r => best regs know r
    | None => forall x, In x regs -> know x = false end.
Proof.
  induction regs as [|x t IH]; cbn [ordered]; [intros ? []|].
  destruct (know x) eqn:K.
  - rewrite (find_insert_known know x _ K (ordered_sorted t)).
    destruct (find know (ordered t)) as [y|] eqn:F.
    + destruct IH as (a & b & -> & Ky & Ha & Hb). destruct (Z.leb_spec (r_prio y) (r_prio x)) as [L|L].
      * exists [], (a ++ y :: b). repeat split; [exact K|intros ? []|]. intros z Hz Kz.
        apply in_app_or in Hz as [Hz|[->|Hz]]; [specialize (Ha z Hz Kz); lia|lia|specialize (Hb z Hz Kz); lia].
      * exists (x :: a), b. repeat split; [exact Ky| |exact Hb]. intros z [->|Hz] Kz; [lia|]. now apply Ha.
    + exists [], t. repeat split; [exact K|intros ? []|]. intros z Hz Kz. rewrite (IH z Hz) in Kz. discriminate.
  - rewrite (find_insert_unknown know x _ K). destruct (find know (ordered t)) as [y|] eqn:F.
    + destruct IH as (a & b & -> & Ky & Ha & Hb). exists (x :: a), b. repeat split; [exact Ky| |exact Hb].
      intros z [->|Hz] Kz; [congruence|]. now apply Ha.
    + intros z [<-|Hz]; [exact K|]. now apply IH.
Qed.
Lemma best_unique regs know r r' : best regs know r -> best regs know r' -> r = r'.
Proof.
  intros (a & b & E & K & A & B) (a' & b' & E' & K' & A' & B'). subst regs.
  assert (C : forall a a' : list registry, a ++ r :: b = a' ++ r' :: b' ->
     (exists m, a' = a ++ r :: m) \/ (a = a' /\ r = r') \/ (exists m, a = a' ++ r' :: m)).
  { clear. induction a as [|x a IH]; intros [|y a'] H; cbn in H; injection H as H1 H2.
    - right; left; auto.
    - left. exists a'. now subst.
    - right; right. exists a. now subst.
    - subst y. destruct (IH _ H2) as [(m & ->)|[[-> ->]|(m & ->)]]; [left; now exists m|right; left; auto|right; right; now exists m]. }
  destruct (C _ _ E') as [(m & ->)|[[_ ->]|(m & ->)]]; [|reflexivity|].
  - rewrite <- app_assoc in E'. apply app_inv_head in E'. cbn in E'. injection E' as ->.
    assert (r_prio r < r_prio r')%Z by (apply A'; [apply in_or_app; right; now left|exact K]).
    assert (r_prio r' <= r_prio r)%Z by (apply B; [apply in_or_app; right; now left|exact K']). lia.
  - rewrite <- app_assoc in E'. apply app_inv_head in E'. cbn in E'. injection E' as E'. subst b'.
    assert (r_prio r' < r_prio r)%Z by (apply A; [apply in_or_app; right; now left|exact K']).
    assert (r_prio r <= r_prio r')%Z by (apply B'; [apply in_or_app; right; now left|exact K]). lia.
Qed.

(** The answer comes from the best registry, and there is an answer as soon as some registry knows the name.
    [know] is what the registries say about the name, none of them raising. *)
Theorem C34_best_registry_answers : forall regs name ext strict know,
  (forall r, In r regs -> r_known r name ext strict = Some (know r)) ->
  (forall r, best regs know r ->
     reader_contents (new_reader regs) None name ext strict = r_contents r name ext
     /\ reader_fullname (new_reader regs) None name ext strict = r_fullname r name ext
     /\ reader_locate (new_reader regs) None name ext strict = r_path r name ext)
  /\ ((exists r, In r regs /\ know r = true) -> exists r, best regs know r)
  /\ ((forall r, In r regs -> know r = false) -> reader_contents (new_reader regs) None name ext strict = None).
Proof.
  intros regs name ext strict know H.
  assert (H' : forall x, In x (ordered regs) -> r_known x name ext strict = Some (know x)).
  { intros x Hx. apply H. now apply (Permutation_in _ (ordered_perm regs)). }
  pose proof (first_known_find _ _ _ _ _ H') as F. pose proof (find_ordered_best know regs) as B.
  unfold reader_contents, reader_fullname, reader_locate, reader_get, new_reader. cbn [selected]. rewrite F.
  destruct (find know (ordered regs)) as [y|].
  - repeat split; try (rewrite (best_unique _ _ _ _ B H0); reflexivity).
    + intros _. now exists y.
    + intro N. destruct B as (a & b & -> & K & _). rewrite (N y) in K; [discriminate|]. apply in_or_app. right. now left.
  - split; [|split].
    + intros r (a & b & -> & K & _). rewrite (B r) in K; [discriminate|]. apply in_or_app; right; now left.
    + intros (r & I & K). rewrite (B r I) in K. discriminate.
    + reflexivity.
Qed.
Print Assumptions C34_best_registry_answers.

(** Whatever the kind of the registries, a name without slash and dot never makes [known] raise, so that the hypothesis above
    is met by the component names of an instrument. *)
Definition plain_name (n : string) : Prop := n <> "" /\ has_char "/" n = false /\ has_char "." n = false.
Lemma cut_dot_none n : has_char "." n = false -> cut_dot n = None.
Proof.
  induction n as [|a n IH]; [reflexivity|]. cbn. intro H. apply orb_false_iff in H as [H1 H2]. rewrite (IH H2).
  rewrite Ascii.eqb_sym in H1. now rewrite ?H1, (Ascii.eqb_sym a), ?H1.
Qed.
Lemma parts_plain n : plain_name n -> parts n = [n].
Proof.
  intros (N & S & D). unfold parts. rewrite (split_char_none _ _ S). cbn.
  destruct (String.eqb_spec n ""); [contradiction|]. destruct (String.eqb_spec n "."); [subst; discriminate|]. reflexivity.
Qed.
Lemma absolute_plain n : plain_name n -> absolute n = false.
Proof.
  intros (N & S & _). unfold absolute. destruct n as [|a n]; [reflexivity|]. cbn [has_char startswith] in *. apply orb_false_iff in S as [S _].
  now rewrite Ascii.eqb_sym, S.
Qed.
Lemma plus_comp n : plain_name n -> name_plus_suffix n (Some ".comp") = Some (n +++ ".comp").
Proof.
  intro P. pose proof P as (N & S & D). unfold name_plus_suffix, base, suffix_of. rewrite (parts_plain n P). cbn [List.last].
  rewrite (cut_dot_none n D). cbn [String.eqb]. unfold with_suffix. rewrite (parts_plain n P), (absolute_plain n P). cbn.
  unfold stem_of. now rewrite (cut_dot_none n D).
Qed.
Lemma parts_file d : plain_name d -> parts (d +++ ".comp") = [d +++ ".comp"].
Proof.
  intros (N & S & D). unfold parts. rewrite split_char_none by (rewrite has_char_app, S; reflexivity). cbn.
  destruct d; [contradiction|]. cbn. destruct (String.eqb_spec (d +++ ".comp") ""); [destruct d; discriminate|].
  destruct d; cbn; rewrite ?andb_false_r; try reflexivity. all: try (destruct (Ascii.eqb a "."); reflexivity).
Qed.
Lemma globbable_file n : plain_name n -> globbable (n +++ ".comp") = true.
Proof.
  intro P. unfold globbable. rewrite (parts_file n P). rewrite andb_true_r. apply negb_true_iff. unfold absolute.
  destruct P as (N & S & _). destruct n as [|a n]; [contradiction|]. cbn [has_char startswith String.append] in *. apply orb_false_iff in S as [S _].
  now rewrite Ascii.eqb_sym, S.
Qed.

Theorem C34_component_names_never_raise : forall r n strict, plain_name n -> exists b, r_known r n (Some ".comp") strict = Some b.
Proof.
  intros [nm pr k] n strict P. unfold r_known. cbn [r_kind]. destruct k as [fs|es|d].
  - unfold remote_known. rewrite (plus_comp n P). eauto.
  - unfold local_known. rewrite (plus_comp n P). unfold glob_all. rewrite (globbable_file n P). eauto.
  - eauto.
Qed.
Print Assumptions C34_component_names_never_raise.

(** Registries of lower priority, wherever they are put in the list, and registries of no higher priority put behind, change nothing *)
Lemma ordered_front regs r a b : ordered regs = a ++ r :: b ->
  forall x, In x a -> above x r.
Proof.
  intros E x Hx. pose proof (ordered_sorted regs) as S. rewrite E in S. clear E.
  induction a as [|y a IH]; [destruct Hx|]. inversion S as [|? ? S1 S2]; subst. destruct Hx as [->|Hx].
  - rewrite Forall_forall in S2. apply S2. apply in_or_app; right; now left.
  - now apply IH.
Qed.
(** the front of a sorted list up to r only depends on the registries with at least r's priority *)
Definition cutp (p : Z) (l : list registry) := filter (fun x => (p <=? r_prio x)%Z) l.
Lemma cutp_insert p r l : StronglySorted above l -> cutp p (insert r l) = if (p <=? r_prio r)%Z then insert r (cutp p l) else cutp p l.
Proof.
  induction 1 as [|x t Ht IH Hx]; cbn; [destruct (_ <=? _)%Z; reflexivity|].
  destruct (Z.leb_spec (r_prio x) (r_prio r)); cbn.
  - destruct (Z.leb_spec p (r_prio r)); destruct (Z.leb_spec p (r_prio x)); cbn; try reflexivity; try lia.
    + destruct (Z.leb_spec (r_prio x) (r_prio r)); [reflexivity|lia].
    + assert (E : cutp p t = []).
      { unfold cutp. clear - Hx H1. induction Hx as [|y t Hy Ht IH]; cbn; [reflexivity|]. unfold above in Hy.
        destruct (Z.leb_spec p (r_prio y)); [lia|exact IH]. }
      unfold cutp in E. now rewrite E.
  - unfold cutp in IH. rewrite IH. destruct (Z.leb_spec p (r_prio x)); destruct (Z.leb_spec p (r_prio r)); cbn; try reflexivity.
    all: destruct (Z.leb_spec (r_prio x) (r_prio r)); try lia; reflexivity.
Qed.
Lemma cutp_ordered p l : cutp p (ordered l) = ordered (cutp p l).
Proof.
  induction l as [|r t IH]; [reflexivity|]. cbn [ordered]. rewrite (cutp_insert p r _ (ordered_sorted t)), IH.
  cbn [cutp filter]. destruct (p <=? r_prio r)%Z; reflexivity.
Qed.
Lemma sorted_cutp p l : StronglySorted above l -> exists low, l = cutp p l ++ low.
Proof.
  induction 1 as [|x t Ht (low & IH) Hx]; [now exists []|]. cbn. destruct (Z.leb_spec p (r_prio x)).
  - exists low. cbn. now rewrite IH at 1.
  - exists (x :: t). assert (E : filter (fun x => (p <=? r_prio x)%Z) t = []).
    { clear - Hx H. induction Hx as [|y t Hy Ht IH]; cbn; [reflexivity|]. unfold above in Hy. destruct (Z.leb_spec p (r_prio y)); [lia|exact IH]. }
    now rewrite E.
Qed.

Theorem C34_lower_priority_changes_nothing : forall regs regs' keep name ext strict r,
  first_known (new_reader regs) name ext strict = Some (Some r) ->
  filter keep regs' = regs ->
  (forall x, In x regs' -> keep x = false -> (r_prio x < r_prio r)%Z) ->
  first_known (new_reader regs') name ext strict = Some (Some r).
Proof.
  intros regs regs' keep name ext strict r H E L. unfold new_reader in *.
  assert (C : cutp (r_prio r) regs' = cutp (r_prio r) regs).
  { subst regs. clear H. induction regs' as [|x t IH]; [reflexivity|]. cbn [filter cutp].
    destruct (keep x) eqn:K; cbn [cutp filter].
    - unfold cutp in IH. rewrite IH; [reflexivity|]. intros; apply L; [now right|assumption].
    - specialize (L x (or_introl eq_refl) K) as Lx. destruct (Z.leb_spec (r_prio r) (r_prio x)); [lia|].
      apply IH. intros; apply L; [now right|assumption]. }
  apply first_known_split in H as (a & b & H & K & N).
  assert (F : exists b1 low, ordered regs = (a ++ r :: b1) ++ low /\ cutp (r_prio r) (ordered regs) = a ++ r :: b1).
  { destruct (sorted_cutp (r_prio r) _ (ordered_sorted regs)) as (low & S).
    assert (T : cutp (r_prio r) (ordered regs) = a ++ r :: cutp (r_prio r) b).
    { pose proof (ordered_front _ _ _ _ H) as A. rewrite H. clear - A. induction a as [|x a IH]; cbn.
      - rewrite Z.leb_refl. reflexivity.
      - specialize (A x (or_introl eq_refl)) as Ax. unfold above in Ax. destruct (Z.leb_spec (r_prio r) (r_prio x)); [|lia].
        unfold cutp in IH. rewrite IH; [reflexivity|]. intros; apply A; now right. }
    exists (cutp (r_prio r) b), low. split; [rewrite <- T; exact S|exact T]. }
  destruct F as (b1 & low & _ & F2).
  destruct (sorted_cutp (r_prio r) _ (ordered_sorted regs')) as (low' & S').
  rewrite cutp_ordered, C, <- cutp_ordered, F2 in S'.
  apply first_known_split. exists a, (b1 ++ low'). rewrite S', <- app_assoc. auto.
Qed.
Print Assumptions C34_lower_priority_changes_nothing.

Lemma first_known_prefix x y name ext strict r : first_known x name ext strict = Some (Some r) ->
  first_known (x ++ y) name ext strict = Some (Some r).
Proof. intro H. apply first_known_split in H as (a & b & -> & H). apply first_known_split. exists a, (b ++ y). now rewrite <- app_assoc. Qed.
Lemma first_known_short x y name ext strict r : first_known (x ++ y) name ext strict = Some (Some r) -> ~ In r y ->
  first_known x name ext strict = Some (Some r).
Proof.
  intros H N. induction x as [|z x IH]; cbn in *.
  - apply first_known_split in H as (a & b & -> & _). destruct N. apply in_or_app; right; now left.
  - destruct (r_known z name ext strict) as [[|]|]; auto.
Qed.
Lemma sorted_three p l : StronglySorted above l ->
  l = cutp (p + 1) l ++ filter (fun x => (r_prio x =? p)%Z) l ++ filter (fun x => (r_prio x <? p)%Z) l.
Proof.
  induction 1 as [|x t Ht IH Hx]; [reflexivity|]. cbn [cutp filter].
  destruct (Z.leb_spec (p + 1) (r_prio x)), (Z.eqb_spec (r_prio x) p), (Z.ltb_spec (r_prio x) p); try lia; cbn [app].
  - unfold cutp in IH. now rewrite <- IH.
  - assert (E : cutp (p + 1) t = []).
    { clear IH Ht. unfold cutp. induction Hx as [|y t Hy Ht IH]; cbn; [reflexivity|]. unfold above in Hy. destruct (Z.leb_spec (p + 1) (r_prio y)); [lia|exact IH]. }
    unfold cutp in *. rewrite E in *. cbn [app] in *. now rewrite <- IH.
  - assert (E : cutp (p + 1) t = []).
    { clear IH Ht. unfold cutp. induction Hx as [|y t Hy Ht IH]; cbn; [reflexivity|]. unfold above in Hy. destruct (Z.leb_spec (p + 1) (r_prio y)); [lia|exact IH]. }
    assert (E' : filter (fun x => (r_prio x =? p)%Z) t = []).
    { clear IH Ht E. induction Hx as [|y t Hy Ht IH]; cbn; [reflexivity|]. unfold above in Hy. destruct (Z.eqb_spec (r_prio y) p); [lia|exact IH]. }
    unfold cutp in *. rewrite E, E' in *. cbn [app] in *. now rewrite <- IH.
Qed.
Lemma ordered_three p l : ordered l = ordered (cutp (p + 1) l) ++ filter (fun x => (r_prio x =? p)%Z) l ++ filter (fun x => (r_prio x <? p)%Z) (ordered l).
Proof. rewrite (sorted_three p (ordered l) (ordered_sorted l)) at 1. now rewrite cutp_ordered, ordered_filter. Qed.

Theorem C34_later_of_equal_priority_changes_nothing : forall regs extra name ext strict r,
  first_known (new_reader regs) name ext strict = Some (Some r) ->
  (forall x, In x extra -> (r_prio x <= r_prio r)%Z) ->
  first_known (new_reader (regs ++ extra)) name ext strict = Some (Some r).
Proof.
  intros regs extra name ext strict r H L. unfold new_reader in *. rewrite (ordered_three (r_prio r)), app_assoc in H.
  apply first_known_short in H; [|intro I; apply filter_In in I as [_ I]; rewrite Z.ltb_irrefl in I; discriminate].
  rewrite (ordered_three (r_prio r) (regs ++ extra)).
  replace (cutp (r_prio r + 1) (regs ++ extra)) with (cutp (r_prio r + 1) regs).
  - rewrite filter_app, <- app_assoc, app_assoc. now apply first_known_prefix.
  - unfold cutp. rewrite filter_app. replace (filter (fun x => (r_prio r + 1 <=? r_prio x)%Z) extra) with (@nil registry); [now rewrite app_nil_r|].
    induction extra as [|x t IH]; [reflexivity|]. cbn. specialize (L x (or_introl eq_refl)) as Lx.
    destruct (Z.leb_spec (r_prio r + 1) (r_prio x)); [lia|]. apply IH. intros; apply L; now right.
Qed.
Print Assumptions C34_later_of_equal_priority_changes_nothing.

(** A registry named by a SEARCH statement is put in front whatever its priority (reader.py 51-52, 58-64), and a registry
    appended later is asked last whatever its priority (55-56): the order by priority only holds for the registries given at
    construction. *)
Theorem C34_search_ignores_priority_refuted : forall regs r name ext strict,
  r_known r name ext strict = Some true ->
  first_known (prepend_registry (new_reader regs) r) name ext strict = Some (Some r).
Proof. intros. cbn. now rewrite H. Qed.
Print Assumptions C34_search_ignores_priority_refuted.
Definition mem_reg (n : string) (p : Z) (text : string) := mkReg n p (Memory [("Foo.comp", text)]).
Theorem C34_priority_after_construction_refuted :
  exists r low high name, (r_prio low < r_prio r < r_prio high)%Z
   /\ reader_contents (new_reader [low; r]) None name (Some ".comp") true <> reader_contents (prepend_registry (new_reader [r]) low) None name (Some ".comp") true
   /\ reader_contents (new_reader [r; high]) None name (Some ".comp") true <> reader_contents (append_registry (new_reader [r]) high) None name (Some ".comp") true.
Proof.
  exists (mem_reg "m" 5 "mine"), (mem_reg "l" 1 "low"), (mem_reg "h" 9 "high"), "Foo". repeat split; vm_compute; congruence.
Qed.
Print Assumptions C34_priority_after_construction_refuted.

(** [which] is a text and the registries whose names are parts of it are asked: a restriction to one registry by its name also
    admits others, and one of these may answer in its place. *)
Theorem C34_which_is_a_substring_test_refuted :
  exists a b name, r_name a <> r_name b /\ r_prio b = r_prio a /\ r_known b name (Some ".comp") true = Some true
   /\ reader_contents (new_reader [a; b]) (Some (r_name b)) name (Some ".comp") true = r_contents a name (Some ".comp")
   /\ r_contents a name (Some ".comp") <> r_contents b name (Some ".comp").
Proof. exists (mem_reg "mcstas" 1 "one"), (mem_reg "mcstas-extra" 1 "two"), "Foo". vm_compute. repeat split; congruence. Qed.
Print Assumptions C34_which_is_a_substring_test_refuted.
(** Without such a clash of names the restriction works *)
Theorem C34_which_partial : forall regs w, (forall r, In r regs -> contains (r_name r) w = true -> r_name r = w) ->
  selected regs (Some w) = filter (fun r => r_name r =?s w) regs.
Proof.
  intros regs w H. cbn. induction regs as [|r t IH]; [reflexivity|]. cbn. rewrite IH by (intros; apply H; [now right|assumption]).
  destruct (contains (r_name r) w) eqn:C.
  - rewrite (H r (or_introl eq_refl) C), String.eqb_refl. reflexivity.
  - destruct (String.eqb_spec (r_name r) w) as [E|]; [|reflexivity]. rewrite E in C.
    assert (contains w w = true); [|congruence]. apply contains_spec. exists "", "". cbn. now rewrite string_app_nil_r.
Qed.
Print Assumptions C34_which_partial.

Example C34_nonvacuous :
  let r1 := mkReg "a" 0 (Remote [("optics/Foo.comp", "a")]) in let r2 := mkReg "b" 10 (Local [(["Foo.comp"], Some "b")]) in
  let r3 := mkReg "c" 0 (Remote [("x/Foo.comp", "c"); ("x/Bar.comp", "d")]) in
  new_reader [r1; r2; r3] = [r2; r1; r3]
  /\ reader_contents (new_reader [r1; r2; r3]) None "Foo" (Some ".comp") true = Some "b"
  /\ reader_contents (new_reader [r1; r3]) None "Foo" (Some ".comp") true = Some "a"
  /\ reader_contents (new_reader [r1; r2; r3]) None "Bar" (Some ".comp") true = Some "d"
  /\ first_known (new_reader [r1; r2; r3]) "Foo" (Some ".comp") true = Some (Some r2)
  /\ filter (fun r => (5 <? r_prio r)%Z) [r1; r2; r3] = [r2].
Proof. vm_compute. repeat split. Qed.

(** * C35: remote registries *)
(** the request's file: the path asked for, or a listed file with that base name *)
Definition carries (cmp f : string) : Prop := f = cmp \/ base f = cmp.

Lemma join_last sep ps x : ps <> [] -> exists l, join sep (ps ++ [x]) = l +++ sep +++ x.
Proof. intro H. exists (join sep ps). now apply join_snoc. Qed.
(** a file name as listed: what Path(f).as_posix() gives *)
Definition listed (f : string) : Prop := parts f <> [] /\ posix (absolute f) (parts f) = f.
Lemma listed_base f : listed f -> exists l, f = l +++ base f.
Proof.
  intros [N E]. unfold base. destruct (exists_last N) as (ps & x & P). rewrite P in *. rewrite last_last.
  destruct ps as [|y ps].
  - cbn in E. exists (if absolute f then "/" else ""). now rewrite <- E at 1.
  - destruct (join_last "/" (y :: ps) x ltac:(discriminate)) as (l & J).
    exists (((if absolute f then "/" else "") +++ l) +++ "/"). rewrite <- E at 1. unfold posix.
    cbn [app] in *. rewrite J. now rewrite !string_app_assoc.
Qed.
Lemma endswith_carries cmp f : listed f -> carries cmp f -> endswith cmp f = true.
Proof.
  intros L [->|B]; apply endswith_spec; [now exists ""|]. destruct (listed_base f L) as (l & E). exists l. now rewrite <- B.
Qed.
Lemma find_ext_some {A} (p : A -> bool) l x : In x l -> p x = true -> exists y, find p l = Some y.
Proof. intros I P. induction l as [|z l IH]; [destruct I|]. cbn. destruct (p z) eqn:E; [eauto|]. destruct I as [->|I]; [congruence|auto]. Qed.

(** If the listing has the file, the registry knows it and serves it: the very path that was asked for if it is listed, otherwise
    the first listed file with that base name. *)
Theorem C35_listed_file_is_served : forall files name ext strict exact cmp,
  Forall listed files -> name_plus_suffix name ext = Some cmp -> (exists f, In f files /\ carries cmp f) ->
  remote_known files name ext strict = Some true
  /\ exists f, remote_fullname files name ext exact = Some f /\ In f files
       /\ (f = cmp \/ (~ In cmp files /\ exists a b, files = a ++ f :: b /\ base f = cmp /\ forall x, In x a -> base x <> cmp)).
Proof.
  intros files name ext strict exact cmp L C (f & I & K). rewrite Forall_forall in L. unfold remote_known, remote_fullname. rewrite C. split.
  - assert (E : existsb (endswith cmp) files = true) by (apply existsb_exists; exists f; split; [exact I|apply endswith_carries; auto]).
    now rewrite E.
  - destruct (find (fun f => f =?s cmp) files) as [g|] eqn:F1.
    + apply find_some in F1 as [I1 E1]. apply String.eqb_eq in E1. subst g. eauto 6.
    + assert (N : ~ In cmp files) by (intro H; apply (find_none _ _ F1) in H; now rewrite String.eqb_refl in H).
      destruct K as [->|K]; [contradiction|].
      destruct (find_ext_some (fun f => base f =?s cmp) files f I ltac:(cbn; rewrite K; apply String.eqb_refl)) as (g & F2). rewrite F2.
      exists g. split; [reflexivity|]. split; [now apply find_some in F2|]. right. split; [exact N|].
      clear - F2. induction files as [|x t IH]; [discriminate|]. cbn in F2. destruct (String.eqb_spec (base x) cmp) as [E|E].
      * injection F2 as ->. exists [], t. repeat split; [exact E|intros ? []].
      * destruct (IH F2) as (a & b & -> & B & Q). exists (x :: a), b. repeat split; [exact B|]. intros y [<-|Hy]; [exact E|now apply Q].
Qed.
Print Assumptions C35_listed_file_is_served.

(** Whatever is served was listed, and it has the requested path, the requested base name or at least contains the name *)
Theorem C35_served_file_is_listed : forall files name ext f, remote_fullname files name ext true = Some f ->
  In f files /\ exists cmp, name_plus_suffix name ext = Some cmp /\ (carries cmp f \/ (contains name f = true /\ forall g, In g files -> contains name g = true -> g = f)).
Proof.
  intros files name ext f. unfold remote_fullname. destruct (name_plus_suffix name ext) as [cmp|] eqn:C; [|discriminate].
  destruct (find (fun f => f =?s cmp) files) as [g|] eqn:F1.
  { intros [= <-]. apply find_some in F1 as [I E]. split; [exact I|]. exists cmp. split; [reflexivity|]. left; left. now apply String.eqb_eq. }
  destruct (find (fun f => base f =?s cmp) files) as [g|] eqn:F2.
  { intros [= <-]. apply find_some in F2 as [I E]. split; [exact I|]. exists cmp. split; [reflexivity|]. left; right. now apply String.eqb_eq. }
  destruct (filter (contains name) files) as [|g [|? ?]] eqn:F; try discriminate. intros [= <-].
  assert (In g (filter (contains name) files)) by (rewrite F; now left). apply filter_In in H as [I E].
  split; [exact I|]. exists cmp. split; [reflexivity|]. right. split; [exact E|].
  intros h Ih Eh. assert (H : In h (filter (contains name) files)) by (apply filter_In; auto). rewrite F in H. destruct H as [<-|[]]. reflexivity.
Qed.
Print Assumptions C35_served_file_is_listed.

(** ... but [known] compares the ends of the texts.  A registry that lists <prefix><name>.comp claims to know <name>, and serves
    the other component, for every prefix and name: *)
Theorem C35_other_component_served_refuted : forall dir prefix name,
  plain_name dir -> plain_name prefix -> plain_name name ->
  let f := dir +++ "/" +++ prefix +++ name +++ ".comp" in
  remote_known [f] name (Some ".comp") true = Some true
  /\ remote_fullname [f] name (Some ".comp") true = Some f /\ base f <> name +++ ".comp".
Proof.
  intros dir prefix name (Nd & Sd & Dd) (Np & Sp & Dp) P f. pose proof P as (Nn & Sn & Dn).
  assert (B : base f = prefix +++ name +++ ".comp").
  { unfold base, parts, f. change (dir +++ "/" +++ prefix +++ name +++ ".comp") with (dir +++ String "/" (prefix +++ name +++ ".comp")).
    rewrite (split_char_app "/" dir _ Sd). rewrite split_char_none by (rewrite !has_char_app, Sp, Sn; reflexivity).
    cbn [filter]. destruct prefix as [|a p]; [contradiction|]. destruct (String.eqb_spec dir ""); [contradiction|].
    destruct (String.eqb_spec dir "."); [subst; discriminate|]. cbn [String.append].
    destruct (String.eqb_spec (String a (p +++ name +++ ".comp")) ""); [discriminate|].
    destruct (String.eqb_spec (String a (p +++ name +++ ".comp")) ".") as [E|E]; [|reflexivity].
    injection E as -> E. destruct p; [|discriminate]. cbn in E. destruct name; [contradiction|discriminate]. }
  assert (U : base f <> name +++ ".comp").
  { rewrite B, <- string_app_assoc. intro E. apply string_app_inj_r in E. apply (f_equal String.length) in E. rewrite string_app_length in E.
    destruct prefix; [contradiction|]. cbn in E. lia. }
  assert (V : f <> name +++ ".comp").
  { intro E. apply (f_equal (has_char "/")) in E. unfold f in E. rewrite !has_char_app, Sn, Sd, Sp in E. discriminate. }
  unfold remote_known, remote_fullname. rewrite (plus_comp name P). split; [|split; [|exact U]].
  - cbn [existsb]. assert (E : endswith (name +++ ".comp") f = true) by (apply endswith_spec; exists (dir +++ "/" +++ prefix); unfold f; now rewrite !string_app_assoc).
    now rewrite E.
  - cbn [find]. destruct (String.eqb_spec f (name +++ ".comp")); [contradiction|]. destruct (String.eqb_spec (base f) (name +++ ".comp")); [contradiction|].
    cbn [filter]. assert (E : contains name f = true) by (apply contains_spec; exists (dir +++ "/" +++ prefix), ".comp"; unfold f; now rewrite !string_app_assoc).
    now rewrite E.
Qed.
Print Assumptions C35_other_component_served_refuted.
(** With two such files the registry claims to know the name and then raises; a registry of lower priority that has the file is
    not asked. *)
Theorem C35_known_but_fails_refuted :
  exists r1 r2 name, r_known r1 name (Some ".comp") true = Some true
    /\ reader_contents (new_reader [r1; r2]) None name (Some ".comp") true = None
    /\ reader_contents (new_reader [r2]) None name (Some ".comp") true = Some "the monitor".
Proof.
  exists (mkReg "high" 1 (Remote [("monitors/L_monitor.comp", "L"); ("monitors/E_monitor.comp", "E")])),
         (mkReg "low" 0 (Remote [("monitors/monitor.comp", "the monitor")])), "monitor".
  vm_compute. repeat split.
Qed.
Print Assumptions C35_known_but_fails_refuted.
(** Two directories with a file of the same base name: the first listed is used and nothing is reported *)
Theorem C35_same_base_name_refuted : exists files name f g, In f files /\ In g files /\ f <> g /\ base f = base g
   /\ remote_fullname files name (Some ".comp") true = Some f.
Proof. exists ["a/Foo.comp"; "b/Foo.comp"], "Foo", "a/Foo.comp", "b/Foo.comp". vm_compute. repeat split; try tauto. discriminate. Qed.
Print Assumptions C35_same_base_name_refuted.

Example C35_remote_nonvacuous :
  Forall listed ["monitors/PSD_monitor.comp"; "monitors/monitor.comp"; "share/ref-lib.h"]
  /\ remote_fullname ["monitors/PSD_monitor.comp"; "monitors/monitor.comp"; "share/ref-lib.h"] "monitor" (Some ".comp") true = Some "monitors/monitor.comp"
  /\ remote_fullname ["monitors/PSD_monitor.comp"; "monitors/monitor.comp"; "share/ref-lib.h"] "ref-lib" (Some ".h") true = Some "share/ref-lib.h"
  /\ remote_known ["monitors/PSD_monitor.comp"] "Arm" (Some ".comp") true = Some false.
Proof.
  split; [|vm_compute; repeat split].
  repeat constructor; try discriminate.
Qed.

(** * C35: local registries *)
Lemma filter_one {A} (p : A -> bool) l x : In x l -> p x = true -> NoDup l -> (forall y, In y l -> p y = true -> y = x) -> filter p l = [x].
Proof.
  intros I P N U. induction l as [|y l IH]; [destruct I|]. inversion N as [|? ? Ny Nl]; subst. cbn.
  destruct (p y) eqn:E.
  - assert (y = x) by (apply U; [now left|exact E]). subst y. f_equal.
    destruct (filter p l) as [|z t] eqn:F; [reflexivity|]. assert (In z (filter p l)) by (rewrite F; now left).
    apply filter_In in H as [H1 H2]. rewrite (U z (or_intror H1) H2) in H1. contradiction.
  - destruct I as [->|I]; [congruence|]. apply IH; auto. intros; apply U; [now right|assumption].
Qed.
Lemma filter_none {A} (p : A -> bool) l : (forall y, In y l -> p y = false) -> filter p l = [].
Proof. intro H. induction l as [|y l IH]; [reflexivity|]. cbn. rewrite H by now left. apply IH. intros; apply H; now right. Qed.

(** [e] is the path of a file called [nm], in the registry's directory or below *)
Definition called (nm : string) (e : list string) : Prop := exists d, e = d ++ [nm].
Lemma tail_match_called nm e : tail_match [nm] e = true <-> called nm e.
Proof.
  unfold tail_match, called. destruct (list_eq_dec _ _ _) as [E|E].
  - split; [|reflexivity]. intros _. exists (firstn (List.length e - 1) e). cbn [List.length] in E. rewrite <- E. symmetry. apply firstn_skipn.
  - split; [discriminate|]. intros (d & ->). exfalso. apply E. rewrite app_length. cbn [List.length].
    replace (List.length d + 1 - 1) with (List.length d) by lia. rewrite skipn_app, skipn_all, Nat.sub_diag. reflexivity.
Qed.
(** The only entry called <name>.comp is served, provided that nothing directly in the registry's directory is called <name>;
    a <name>.comp directly in the directory is always served. *)
Theorem C35_local_file_is_served_partial : forall entries name e, NoDup entries -> plain_name name ->
  In e entries -> called (name +++ ".comp") e ->
  local_known entries name (Some ".comp") = Some true
  /\ (e = [name +++ ".comp"] \/ ((forall e', In e' entries -> called (name +++ ".comp") e' -> e' = e) /\ ~ In [name] entries)
      -> local_fullname entries name (Some ".comp") false = Some e).
Proof.
  intros entries name e N P I K. unfold local_known, local_fullname. rewrite (plus_comp name P).
  unfold glob_all, glob_root. rewrite (globbable_file name P), (parts_file name P).
  assert (G : globbable name = true) by (unfold globbable; rewrite (parts_plain name P), (absolute_plain name P); reflexivity).
  rewrite G, (parts_plain name P). split.
  - f_equal. apply Nat.ltb_lt. assert (In e (filter (tail_match [name +++ ".comp"]) entries)) by (apply filter_In; split; [exact I|now apply tail_match_called]).
    destruct (filter _ entries); [destruct H|cbn; lia].
  - intros [->|[U M]].
    + rewrite (filter_one _ entries [name +++ ".comp"] I); [reflexivity| |exact N|].
      * destruct (list_eq_dec _ _ _); [reflexivity|contradiction].
      * intros y _ H. destruct (list_eq_dec _ _ _); [assumption|discriminate].
    + assert (R : filter (fun e0 => if list_eq_dec string_dec e0 [name] then true else false) entries = []).
      { apply filter_none. intros y Hy. destruct (list_eq_dec _ _ _); [subst; contradiction|reflexivity]. }
      rewrite R. rewrite (filter_one (tail_match [name +++ ".comp"]) entries e I); [| now apply tail_match_called|exact N|intros y Hy T; apply U; [exact Hy|now apply tail_match_called]].
      destruct (filter (fun e0 => if list_eq_dec string_dec e0 [name +++ ".comp"] then true else false) entries) as [|z [|z' t]] eqn:F; try reflexivity.
      assert (In z entries /\ z = [name +++ ".comp"]) as [Iz Ez].
      { assert (In z (filter (fun e0 => if list_eq_dec string_dec e0 [name +++ ".comp"] then true else false) entries)) by (rewrite F; now left).
        apply filter_In in H as [H1 H2]. split; [exact H1|]. destruct (list_eq_dec _ _ _); [assumption|discriminate]. }
      f_equal. apply U; [exact Iz|]. exists []. exact Ez.
Qed.
Print Assumptions C35_local_file_is_served_partial.
(** A component kept in a directory of its own name, <name>/<name>.comp, is known but cannot be read: the directory is served *)
Theorem C35_local_directory_served_refuted : forall name text, plain_name name ->
  let r := mkReg "local" 10 (Local [([name], None); ([name; name +++ ".comp"], Some text)]) in
  r_known r name (Some ".comp") true = Some true /\ r_fullname r name (Some ".comp") = Some (Some name) /\ r_contents r name (Some ".comp") = None.
Proof.
  intros name text P r. pose proof P as (Nn & _ & _).
  assert (D : name <> name +++ ".comp").
  { intro E. apply (f_equal String.length) in E. rewrite string_app_length in E. cbn in E. lia. }
  assert (I : In [name; name +++ ".comp"] [[name]; [name; name +++ ".comp"]]) by (cbn; tauto).
  assert (U : NoDup [[name]; [name; name +++ ".comp"]]).
  { constructor; [intros [E|[]]; discriminate|]. constructor; [intros []|constructor]. }
  assert (K : called (name +++ ".comp") [name; name +++ ".comp"]) by (exists [name]; reflexivity).
  destruct (C35_local_file_is_served_partial _ _ _ U P I K) as [H _].
  assert (F : local_fullname [[name]; [name; name +++ ".comp"]] name (Some ".comp") false = Some [name]).
  { unfold local_fullname. rewrite (plus_comp name P). unfold glob_all, glob_root. rewrite (globbable_file name P), (parts_file name P).
    assert (G : globbable name = true) by (unfold globbable; rewrite (parts_plain name P), (absolute_plain name P); reflexivity).
    rewrite G, (parts_plain name P). cbn [filter].
    destruct (list_eq_dec string_dec [name] [name +++ ".comp"]) as [E|_]; [injection E as E; contradiction|].
    destruct (list_eq_dec string_dec [name; name +++ ".comp"] [name +++ ".comp"]) as [E|_]; [discriminate|].
    destruct (list_eq_dec string_dec [name] [name]) as [_|E]; [|contradiction].
    destruct (list_eq_dec string_dec [name; name +++ ".comp"] [name]) as [E|_]; [discriminate|]. reflexivity. }
  unfold r_known, r_fullname, r_contents, r. cbn [r_kind map fst]. rewrite F. split; [exact H|]. split; [reflexivity|].
  cbn [find fst]. destruct (list_eq_dec _ _ _) as [_|E]; [reflexivity|contradiction].
Qed.
Print Assumptions C35_local_directory_served_refuted.
(** Two files of the name in different directories: known, and then an error *)
Theorem C35_local_known_but_fails_refuted : exists entries name, local_known entries name (Some ".comp") = Some true
   /\ local_fullname entries name (Some ".comp") false = None.
Proof. exists [["a"]; ["b"]; ["a"; "Foo.comp"]; ["b"; "Foo.comp"]], "Foo". vm_compute. split; reflexivity. Qed.
Print Assumptions C35_local_known_but_fails_refuted.
Example C35_local_nonvacuous : let es := [["optics"]; ["optics"; "Foo.comp"]; ["Bar.comp"]; ["optics"; "Bar.comp"]] in
  local_fullname es "Foo" (Some ".comp") false = Some ["optics"; "Foo.comp"] /\ local_fullname es "Bar" (Some ".comp") false = Some ["Bar.comp"]
  /\ called "Foo.comp" ["optics"; "Foo.comp"] /\ ~ In ["Foo"] es /\ plain_name "Foo".
Proof. cbn zeta. repeat split; try (vm_compute; reflexivity); try discriminate. - now exists ["optics"]. - cbn. intuition discriminate. Qed.

(** * C35: registries in memory *)
Inductive mem_op := Add (k v : string) | AddComp (k v : string).
Definition mem_step (d : store) (o : mem_op) : store := match o with Add k v => put d k v | AddComp k v => add_comp d k v end.
(** the key an operation writes, said without the model: [Add] the name itself, [AddComp] the name, with .comp put behind unless
    it already ends so in any mixture of cases *)
Definition writes (o : mem_op) : string := match o with Add k _ => k | AddComp k _ => if endswith ".comp" (lower k) then k else k +++ ".comp" end.
Definition text_of (o : mem_op) : string := match o with Add _ v | AddComp _ v => v end.
Lemma get_put d k v k' : get (put d k v) k' = if k =?s k' then Some v else get d k'.
Proof.
  induction d as [|[a b] d IH]; unfold get in *; cbn [put find fst].
  - destruct (k =?s k'); reflexivity.
  - destruct (String.eqb_spec a k) as [->|N]; cbn [find fst].
    + destruct (k =?s k'); reflexivity.
    + destruct (String.eqb_spec a k') as [->|]; [|exact IH]. destruct (String.eqb_spec k k'); [congruence|reflexivity].
Qed.
(** After any history, a request is answered by the last text stored under the requested file name, and a name is known exactly
    if something was stored under it *)
Theorem C35_memory_serves_the_last : forall ops name ext, let full := match ext with None => name | Some e => name +++ e end in
  let d := fold_left mem_step ops [] in
  (forall before o after, ops = before ++ o :: after -> writes o = full -> (forall x, In x after -> writes x <> full) ->
      memory_known d name ext = true /\ memory_contents d name ext = Some (text_of o))
  /\ ((forall o, In o ops -> writes o <> full) -> memory_known d name ext = false /\ memory_contents d name ext = None).
Proof.
  intros ops name ext full d.
  assert (A : forall l d0, (forall x, In x l -> writes x <> full) -> get (fold_left mem_step l d0) full = get d0 full).
  { induction l as [|x l IH]; intros d0 H; [reflexivity|]. cbn [fold_left]. rewrite IH by (intros; apply H; now right).
    assert (W : writes x <> full) by (apply H; now left). destruct x as [k v|k v]; cbn [mem_step writes] in *; [|unfold add_comp, comp_key].
    all: rewrite get_put; apply String.eqb_neq in W; now rewrite W. }
  split.
  - intros before o after E W N. assert (G : get d full = Some (text_of o)).
    { unfold d. rewrite E, fold_left_app. cbn [fold_left]. rewrite (A after _ N).
      destruct o as [k v|k v]; cbn [mem_step writes text_of] in *; [|unfold add_comp, comp_key]; rewrite get_put, W, String.eqb_refl; reflexivity. }
    unfold memory_known, memory_contents, memory_fullname. fold full. rewrite G. split; [reflexivity|exact G].
  - intro N. assert (G : get d full = None) by (unfold d; rewrite (A ops [] N); reflexivity).
    unfold memory_known, memory_contents, memory_fullname. fold full. rewrite G. split; reflexivity.
Qed.
Print Assumptions C35_memory_serves_the_last.
(** A component added under a name whose ending is not in lower case cannot be found by its name *)
Theorem C35_memory_case_refuted : exists k v, let d := add_comp [] k v in
  memory_known d k (Some ".comp") = false /\ memory_known d "Foo" (Some ".comp") = false /\ lower k = "foo.comp".
Proof. exists "Foo.COMP", "text". vm_compute. repeat split. Qed.
Print Assumptions C35_memory_case_refuted.
(** A file kept in memory has no path: the reader gets Python's None (and names the component's source "None"; for an instrument
    file reader.py 158-159 fails on it) *)
Theorem C35_memory_has_no_path : forall regs name ext strict r d, first_known regs name ext strict = Some (Some r) -> r_kind r = Memory d ->
  reader_locate regs None name ext strict = Some None /\ exists text, reader_contents regs None name ext strict = Some text.
Proof.
  intros regs name ext strict r d F K. unfold reader_locate, reader_contents, reader_get. cbn [selected]. rewrite F. unfold r_path, r_contents. rewrite K.
  split; [reflexivity|]. apply first_known_split in F as (a & b & _ & H & _). unfold r_known in H. rewrite K in H. injection H as H.
  unfold memory_known, memory_contents, memory_fullname in *. set (full := match ext with None => name | Some e => name +++ e end) in *.
  destruct (get d full) as [t|] eqn:G; [|discriminate]. eauto.
Qed.
Print Assumptions C35_memory_has_no_path.
Example C35_memory_nonvacuous : let d := fold_left mem_step [AddComp "Foo" "one"; Add "x.instr" "i"; AddComp "Foo.comp" "two"] [] in
  memory_contents d "Foo" (Some ".comp") = Some "two" /\ memory_contents d "x.instr" None = Some "i" /\ memory_known d "x" (Some ".comp") = false.
Proof. vm_compute. repeat split. Qed.
