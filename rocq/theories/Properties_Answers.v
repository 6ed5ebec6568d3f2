(** C90: what a reader says about a file and what it then gives *)
From Coq Require Import List String Ascii Bool Arith ZArith Lia.
From Verif Require Import PyStr TextLines Registry Properties_Registry Answers.
From Verif Require ConfigFile.
Import ListNotations.
Local Open Scope string_scope.
Local Open Scope list_scope.
Local Open Scope nat_scope.

(** * Known and contain *)
Lemma each_some {A B} (f : A -> option B) l r : each f l = Some r -> List.Forall2 (fun x y => f x = Some y) l r.
Proof.
  revert r. induction l as [|x l IH]; intros r E; cbn in E; [injection E as <-; constructor|]. destruct (f x) as [y|] eqn:F; [|discriminate].
  destruct (each f l) as [t|]; [|discriminate]. injection E as <-. constructor; auto.
Qed.
Lemma each_total {A B} (f : A -> option B) l : (forall x, In x l -> f x <> None) -> exists r, each f l = Some r.
Proof.
  induction l as [|x l IH]; intro H; cbn; [eauto|]. destruct (f x) as [y|] eqn:F; [|exfalso; apply (H x); [now left|exact F]].
  destruct IH as (r & ->); [intros z Z; apply H; now right|eauto].
Qed.

(** If no registry raises, the reader says that it knows a file exactly if some registry does, names exactly those registries in
    their order, and the first of them is the one that is asked for the text; a file that is not known is not read *)
Theorem C90_known_and_contain regs which name strict : (forall r, In r (selected regs which) -> r_known r name None strict <> None) ->
  exists rs, reader_contain regs which name strict = Some (map r_name rs) /\ reader_known regs which name strict = Some (match rs with [] => false | _ => true end) /\
    (forall r, In r rs <-> In r (selected regs which) /\ r_known r name None strict = Some true) /\
    reader_stream regs which name strict = match rs with [] => None | r :: _ => r_contents r name None end.
Proof.
  intro T. unfold reader_contain, reader_known, reader_stream, reader_contents, reader_get. set (l := selected regs which) in *. clearbody l. clear regs which.
  exists (filter (fun r => match r_known r name None strict with Some b => b | None => false end) l). induction l as [|r l IH].
  - cbn. repeat split; intros; tauto.
  - destruct IH as (I1 & I2 & I3 & I4); [intros x X; apply T; now right|].
    assert (K : r_known r name None strict <> None) by (apply T; now left). cbn [each filter first_known map] in *.
    destruct (r_known r name None strict) as [b|] eqn:E; [|congruence]. cbn [option_map] in *.
    destruct (each (fun x => option_map (pair (r_name x)) (r_known x name None strict)) l) as [c|]; [|discriminate]. destruct (each (fun x => r_known x name None strict) l) as [k|]; [|discriminate].
    cbn [option_map] in *. injection I1 as I1. injection I2 as I2. destruct b; cbn [filter snd fst map existsb].
    + split; [now rewrite I1|]. split; [reflexivity|]. split; [|reflexivity]. intro x. cbn [In]. rewrite I3. split; [intros [<-|[A B]]; auto|intros [[<-|A] B]; auto].
    + split; [now rewrite I1|]. split; [cbn; now rewrite I2|]. split; [|exact I4]. intro x. rewrite I3. cbn [In]. split; [tauto|]. intros [[<-|A] B]; [congruence|auto].
Qed.
Print Assumptions C90_known_and_contain.
Example C90_known_example : let a := mkReg "a" 0 (Remote [("optics/Arm.comp", "arm")]) in let b := mkReg "b" 0 (Memory [("Arm.comp", "mine")]) in
  reader_known [a; b] None "Arm.comp" true = Some true /\ reader_contain [a; b] None "Arm.comp" true = Some ["a"; "b"] /\ reader_stream [a; b] None "Arm.comp" true = Some "arm" /\
  reader_known [a; b] None "Slit.comp" true = Some false.
Proof. vm_compute. auto. Qed.

(** A file may be known and still not be read, although another registry has it *)
Theorem C90_known_but_not_read_refuted : exists regs name, reader_known regs None name true = Some true /\ reader_contain regs None name true = Some ["high"; "low"] /\
  reader_stream regs None name true = None /\ reader_stream regs (Some "low") name true = Some "the monitor".
Proof.
  exists [mkReg "high" 1 (Remote [("monitors/L_monitor.comp", "L"); ("monitors/E_monitor.comp", "E")]); mkReg "low" 0 (Remote [("monitors/monitor.comp", "the monitor")])], "monitor.comp".
  vm_compute. auto.
Qed.
Print Assumptions C90_known_but_not_read_refuted.

(** * Unique *)
(** the name of a file, without directories *)
Definition file_name (n : string) : Prop := n <> "" /\ n <> "." /\ has_char "/" n = false.
Lemma parts_file_name n : file_name n -> parts n = [n] /\ absolute n = false.
Proof.
  intros (E & D & S). split.
  - unfold parts. rewrite split_char_none by exact S. cbn [filter]. apply String.eqb_neq in E, D. now rewrite E, D.
  - unfold absolute. destruct n as [|a n]; [reflexivity|]. cbn [has_char startswith] in *. apply orb_false_iff in S as [S _]. now rewrite Ascii.eqb_sym, S.
Qed.
Lemma plus_nothing n : file_name n -> name_plus_suffix n None = Some n.
Proof. intro F. destruct (parts_file_name n F) as [P A]. unfold name_plus_suffix. rewrite P, A. reflexivity. Qed.
Lemma contains_end n l : contains n (l +++ n) = true.
Proof. apply contains_spec. exists l, "". now rewrite string_app_nil_r. Qed.

(** If a remote registry says that a file name is unique, the one listed file that contains it is served *)
Theorem C90_unique_is_served_remote r fs n : r_kind r = Remote fs -> Forall listed (map fst fs) -> file_name n -> ConfigFile.unique r n = Some true ->
  exists f t, In (f, t) fs /\ contains n f = true /\ (forall g, In g (map fst fs) -> contains n g = true -> g = f) /\ r_contents r n None = Some t.
Proof.
  intros K L N U. unfold ConfigFile.unique in U. rewrite K in U. injection U as U. apply Nat.eqb_eq in U. change (fun x => contains n x) with (contains n) in U.
  destruct (filter (contains n) (map fst fs)) as [|f [|f' t']] eqn:F; try discriminate U. clear U.
  assert (Only : forall g, In g (map fst fs) -> contains n g = true -> g = f).
  { intros g I C. assert (H : In g (filter (contains n) (map fst fs))) by (apply filter_In; auto). rewrite F in H. destruct H as [<-|[]]. reflexivity. }
  assert (If : In f (map fst fs) /\ contains n f = true) by (apply filter_In; rewrite F; now left). destruct If as [If Cf].
  assert (E : remote_fullname (map fst fs) n None true = Some f).
  { unfold remote_fullname. rewrite (plus_nothing n N). destruct (find (fun g => g =?s n) (map fst fs)) as [g|] eqn:F1.
    - apply find_some in F1 as [I1 E1]. apply String.eqb_eq in E1. subst g. f_equal. apply Only; [exact I1|]. exact (contains_end n "").
    - destruct (find (fun g => base g =?s n) (map fst fs)) as [g|] eqn:F2.
      + apply find_some in F2 as [I2 E2]. apply String.eqb_eq in E2. f_equal. apply Only; [exact I2|]. rewrite Forall_forall in L. destruct (listed_base g (L g I2)) as (l & G). rewrite E2 in G. rewrite G. apply contains_end.
      + now rewrite F. }
  assert (G : exists t, get fs f = Some t /\ In (f, t) fs).
  { apply in_map_iff in If as ([f0 t0] & E0 & I0). cbn in E0. subst f0. unfold get. destruct (find (fun kv => fst kv =?s f) fs) as [[a b]|] eqn:Fd.
    - apply find_some in Fd as [Ia Ea]. cbn in Ea. apply String.eqb_eq in Ea. subst a. exists b. split; [reflexivity|exact Ia].
    - exfalso. apply (find_none _ _ Fd) in I0. cbn in I0. now rewrite String.eqb_refl in I0. }
  destruct G as (t & G & I). exists f, t. split; [exact I|]. split; [exact Cf|]. split; [exact Only|]. unfold r_contents. now rewrite K, E.
Qed.
Print Assumptions C90_unique_is_served_remote.

(** If a local registry says that a file name is unique, the one entry of that name is served; it may be a directory, which cannot
    be read *)
Theorem C90_unique_is_served_local r es n : r_kind r = Local es -> file_name n -> ConfigFile.unique r n = Some true ->
  exists e c, In (e, c) es /\ called n e /\ (forall e', In e' (map fst es) -> called n e' -> e' = e) /\ r_contents r n None = c.
Proof.
  intros K N U. destruct (parts_file_name n N) as [P A]. assert (Gb : globbable n = true) by (unfold globbable; now rewrite P, A).
  unfold ConfigFile.unique in U. rewrite K in U. unfold glob_all in U. rewrite Gb, P in U. cbn [option_map] in U. injection U as U. apply Nat.eqb_eq in U.
  destruct (filter (tail_match [n]) (map fst es)) as [|e [|e2 t2]] eqn:F; try discriminate U. clear U.
  assert (Only : forall x, In x (map fst es) -> called n x -> x = e).
  { intros x I C. assert (H : In x (filter (tail_match [n]) (map fst es))) by (apply filter_In; split; [exact I|now apply tail_match_called]). rewrite F in H. destruct H as [<-|[]]. reflexivity. }
  assert (Ie : In e (map fst es) /\ tail_match [n] e = true) by (apply filter_In; rewrite F; now left). destruct Ie as [Ie Te].
  assert (Sub : forall x, (if list_eq_dec string_dec x [n] then true else false) = true -> tail_match [n] x = true).
  { intros x H. destruct (list_eq_dec string_dec x [n]) as [->|]; [|discriminate]. apply tail_match_called. now exists []. }
  assert (R : filter (fun x => if list_eq_dec string_dec x [n] then true else false) (map fst es) = [] \/ filter (fun x => if list_eq_dec string_dec x [n] then true else false) (map fst es) = [e]).
  { assert (Le : forall l : list (list string), List.length (filter (fun x => if list_eq_dec string_dec x [n] then true else false) l) <= List.length (filter (tail_match [n]) l)).
    { intro l. induction l as [|x l IH]; [cbn; lia|]. cbn [filter]. destruct (list_eq_dec string_dec x [n]) as [->|].
      - rewrite (Sub [n]); [cbn; lia|]. destruct (list_eq_dec string_dec [n] [n]); [reflexivity|contradiction].
      - destruct (tail_match [n] x); cbn; lia. }
    specialize (Le (map fst es)). rewrite F in Le. cbn in Le.
    destruct (filter (fun x => if list_eq_dec string_dec x [n] then true else false) (map fst es)) as [|x [|y t]] eqn:G; [now left| |cbn in Le; lia].
    right. f_equal. assert (H : In x [x]) by now left. rewrite <- G in H. apply filter_In in H as [I H]. apply Only; [exact I|]. apply tail_match_called, Sub, H. }
  assert (E : local_fullname (map fst es) n None false = Some e).
  { unfold local_fullname. rewrite (plus_nothing n N). unfold glob_root, glob_all. rewrite Gb, P, F. destruct R as [-> | ->]; reflexivity. }
  apply in_map_iff in Ie as ([e0 c0] & E0 & I0). cbn in E0. subst e0. unfold r_contents. rewrite K, E.
  destruct (find (fun x => if list_eq_dec string_dec (fst x) e then true else false) es) as [[a c]|] eqn:Fd.
  - apply find_some in Fd as [Ia Ea]. cbn [fst] in Ea. destruct (list_eq_dec string_dec a e) as [->|]; [|discriminate]. exists e, c. split; [exact Ia|]. split; [now apply tail_match_called|]. split; [exact Only|reflexivity].
  - exfalso. apply (find_none _ _ Fd) in I0. cbn [fst] in I0. destruct (list_eq_dec string_dec e e); [discriminate|contradiction].
Qed.
Print Assumptions C90_unique_is_served_local.
Example C90_unique_example : ConfigFile.unique (mkReg "a" 0 (Remote [("optics/Arm.comp", "arm"); ("optics/Slit.comp", "slit")])) "Arm.comp" = Some true /\
  ConfigFile.unique (mkReg "b" 0 (Local [(["x"], None); (["x"; "Arm.comp"], Some "arm")])) "Arm.comp" = Some true /\ file_name "Arm.comp".
Proof. split; [reflexivity|]. split; [reflexivity|]. split; [discriminate|]. split; [discriminate|reflexivity]. Qed.

(** A registry in memory never says that a file is unique *)
Theorem C90_unique_in_memory_refuted n t : reader_unique [mkReg "m" 100 (Memory [(n, t)])] None n = Some false /\
  reader_known [mkReg "m" 100 (Memory [(n, t)])] None n true = Some true /\ reader_stream [mkReg "m" 100 (Memory [(n, t)])] None n true = Some t.
Proof.
  assert (G : get [(n, t)] n = Some t) by (unfold get; cbn; now rewrite String.eqb_refl).
  assert (Fn : memory_fullname [(n, t)] n None = Some n) by (unfold memory_fullname; now rewrite G).
  split; [reflexivity|]. split; [unfold reader_known; cbn; unfold memory_known; now rewrite Fn|].
  unfold reader_stream, reader_contents, reader_get. cbn. unfold memory_known. rewrite Fn. cbn. unfold r_contents, memory_contents. cbn. now rewrite Fn, G.
Qed.
Print Assumptions C90_unique_in_memory_refuted.

(** The reader says that a file is unique exactly if one of the registries asked says so, and every other one says that it is not *)
Theorem C90_unique_in_one : forall regs which n, reader_unique regs which n = Some true <->
  exists a r b, selected regs which = a ++ r :: b /\ ConfigFile.unique r n = Some true /\ forall q, In q (a ++ b) -> ConfigFile.unique q n = Some false.
Proof.
  intros regs which n. unfold reader_unique. generalize (selected regs which) as l. intro l.
  assert (Z : forall l, (exists x, each (fun r => ConfigFile.unique r n) l = Some x /\ filter (fun b => b) x = []) <-> forall q, In q l -> ConfigFile.unique q n = Some false).
  { intro k. induction k as [|r t IH]; cbn [each]; [split; [intros _ q []|exists []; auto]|]. split.
    - intros (x & E & F). destruct (ConfigFile.unique r n) as [u|] eqn:U; [|discriminate]. destruct (each _ t) as [y|] eqn:T; [|discriminate]. injection E as <-.
      cbn in F. destruct u; [discriminate|]. intros q [<-|I]; [exact U|]. apply IH; eauto.
    - intro H. rewrite (H r) by now left. destruct (proj2 IH) as (x & -> & F); [intros q I; apply H; now right|]. eexists. split; [reflexivity|]. exact F. }
  induction l as [|r t IH]; cbn [each].
  - split; [discriminate|]. intros (a & r & b & E & _). destruct a; discriminate.
  - split.
    + destruct (ConfigFile.unique r n) as [u|] eqn:U; [|discriminate]. destruct (each _ t) as [y|] eqn:T; [|discriminate]. cbn [option_map filter]. intro E. injection E as E. destruct u.
      * cbn in E. apply Nat.eqb_eq in E. assert (F : filter (fun b => b) y = []) by (destruct (filter (fun b => b) y); [reflexivity|discriminate]).
        exists [], r, t. split; [reflexivity|]. split; [exact U|]. apply Z. eauto.
      * destruct (proj1 IH) as (a & q & b & -> & Q & O); [cbn; now rewrite E|]. exists (r :: a), q, b. split; [reflexivity|]. split; [exact Q|]. intros p [<-|I]; auto.
    + intros (a & q & b & E & Q & O). destruct a as [|p a]; cbn in E; injection E as -> ->.
      * rewrite Q. destruct (proj2 (Z b) O) as (y & -> & F). cbn. now rewrite F.
      * rewrite (O p) by now left. assert (I : option_map (fun l => List.length (filter (fun b => b) l) =? 1) (each (fun r => ConfigFile.unique r n) (a ++ q :: b)) = Some true).
        { apply IH. exists a, q, b. split; [reflexivity|]. split; [exact Q|]. intros c C. apply O. now right. }
        destruct (each _ (a ++ q :: b)); [exact I|discriminate].
Qed.
Print Assumptions C90_unique_in_one.
Example C90_unique_in_one_example :
  let a := mkReg "a" 0 (Remote [("optics/Arm.comp", "of a")]) in let b := mkReg "b" 0 (Remote [("misc/Arm.comp", "of b")]) in let c := mkReg "c" 0 (Remote [("misc/Slit.comp", "of c")]) in
  reader_unique [a; c] None "Arm.comp" = Some true /\ reader_unique [a; b] None "Arm.comp" = Some false.
Proof. vm_compute. auto. Qed.

(** The reader may say that a file is unique where the text comes from another registry than the one that has it uniquely *)
Theorem C90_unique_elsewhere_refuted : exists a b n, reader_unique [a; b] None n = Some true /\ ConfigFile.unique a n = Some false /\ ConfigFile.unique b n = Some true /\
  reader_stream [a; b] None n true = Some "of a" /\ reader_stream [b] None n true = Some "of b".
Proof.
  exists (mkReg "a" 0 (Remote [("optics/Arm.comp", "of a"); ("contrib/LongArm.comp", "other")])), (mkReg "b" 0 (Remote [("misc/Arm.comp", "of b")])), "Arm.comp". vm_compute. auto.
Qed.
Print Assumptions C90_unique_elsewhere_refuted.

(** * Search *)
Section Found.
Variable compile : string -> option regex.
Lemma search_in names p l : search compile names p = Some l -> exists q, ensure_regex compile p = Some q /\ forall x, In x l <-> In x names /\ exists i, i <= String.length x /\ q x i = true.
Proof.
  unfold search. destruct (ensure_regex compile p) as [q|]; [|discriminate]. intro E. injection E as <-. exists q. split; [reflexivity|]. intro x. rewrite filter_In. unfold anywhere. rewrite existsb_exists.
  split; (intros (I & i & J & Q)); (split; [exact I|]); exists i; (split; [|exact Q]); [apply in_seq in J; lia|apply in_seq; lia].
Qed.
End Found.
(** A search finds exactly the names in which the expression matches somewhere, among them all in which it matches at the start *)
Theorem C90_search_finds compile names p l : search compile names p = Some l -> exists q m, ensure_regex compile p = Some q /\ matching compile names p = Some m /\
  (forall x, In x l <-> In x names /\ exists i, i <= String.length x /\ q x i = true) /\ (forall x, In x m <-> In x names /\ q x 0 = true) /\ incl m l.
Proof.
  intro S. destruct (search_in compile names p l S) as (q & E & H). exists q. unfold matching. rewrite E. eexists. split; [reflexivity|]. split; [reflexivity|]. split; [exact H|].
  assert (M : forall x, In x (filter (at_start q) names) <-> In x names /\ q x 0 = true) by (intro x; apply filter_In). split; [exact M|].
  intros x X. apply M in X as [I Q]. apply H. split; [exact I|]. exists 0. split; [lia|exact Q].
Qed.
Print Assumptions C90_search_finds.

(** Each name found in a remote registry, or in one in memory, is that of a file which the registry knows and serves *)
Theorem C90_found_is_served compile py313 root r p l x : search compile (filenames py313 root r) p = Some l -> In x l ->
  (forall fs, r_kind r = Remote fs -> Forall listed (map fst fs)) -> (forall es, r_kind r <> Local es) ->
  r_known r x None true = Some true /\ exists t, r_contents r x None = Some t /\ (forall fs, r_kind r = Remote fs -> get fs x = Some t) /\ (forall d, r_kind r = Memory d -> get d x = Some t).
Proof.
  intros S X L NL. destruct (search_in _ _ _ _ S) as (q & _ & H). apply H in X as [X _]. clear H S. unfold filenames in X. unfold r_known, r_contents.
  assert (G : forall d : store, In x (map fst d) -> exists t, get d x = Some t).
  { intros d I. unfold get. destruct (find (fun kv => fst kv =?s x) d) as [k0|] eqn:Fd; [eexists; reflexivity|]. exfalso. apply in_map_iff in I as (kv & E & I). apply (find_none _ _ Fd) in I. rewrite E, String.eqb_refl in I. discriminate. }
  destruct (r_kind r) as [fs|es|d] eqn:K; [|now destruct (NL es)|].
  - specialize (L fs eq_refl). destruct (G fs X) as (t & Gt). rewrite Forall_forall in L. pose proof (L x X) as [Np Ex].
    assert (C : name_plus_suffix x None = Some x) by (unfold name_plus_suffix; now rewrite Ex).
    assert (F : remote_fullname (map fst fs) x None true = Some x).
    { unfold remote_fullname. rewrite C. destruct (find (fun f => f =?s x) (map fst fs)) as [g|] eqn:F1; [apply find_some in F1 as [_ E]; apply String.eqb_eq in E; now subst|].
      exfalso. apply (find_none _ _ F1) in X. now rewrite String.eqb_refl in X. }
    split.
    + unfold remote_known. rewrite C. assert (E : existsb (endswith x) (map fst fs) = true); [|now rewrite E]. apply existsb_exists. exists x. split; [exact X|]. apply endswith_spec. now exists "".
    + exists t. rewrite F. split; [exact Gt|]. split; [intros fs' E; injection E as <-; exact Gt|discriminate].
  - destruct (G d X) as (t & Gt). assert (F : memory_fullname d x None = Some x) by (unfold memory_fullname; now rewrite Gt).
    split; [unfold memory_known; now rewrite F|]. exists t. unfold memory_contents. rewrite F. split; [exact Gt|]. split; [discriminate|intros d' E; injection E as <-; exact Gt].
Qed.
Print Assumptions C90_found_is_served.
Example C90_found_example : let r := mkReg "a" 0 (Remote [("optics/Arm.comp", "arm"); ("optics/Slit.comp", "slit")]) in
  let q : regex := fun x i => startswith "Arm" (substring i (String.length x) x) in
  search (fun _ => None) (filenames true "" r) (Compiled q) = Some ["optics/Arm.comp"] /\ matching (fun _ => None) (filenames true "" r) (Compiled q) = Some [] /\ Forall listed (map fst [("optics/Arm.comp", "arm"); ("optics/Slit.comp", "slit")]).
Proof. split; [vm_compute; reflexivity|]. split; [vm_compute; reflexivity|]. repeat constructor; discriminate. Qed.

(** Before Python 3.13 a search in a local registry never finds a file: every result is the root or a directory *)
Theorem C90_local_search_refuted compile root r es p l x : r_kind r = Local es -> search compile (filenames false root r) p = Some l -> In x l ->
  x = root \/ exists e, In (e, None) es /\ x = root +++ "/" +++ join "/" e.
Proof.
  intros K S X0. destruct (search_in _ _ _ _ S) as (q & _ & H). destruct (proj1 (H x) X0) as [X _]. unfold filenames in X. rewrite K in X. destruct X as [<-|X]; [now left|]. right.
  apply in_map_iff in X as ([e c] & E & I). apply filter_In in I as [I C]. destruct c; [discriminate C|]. exists e. split; [exact I|]. now rewrite <- E.
Qed.
Print Assumptions C90_local_search_refuted.
(** Since then files are found, but under a root with a leading slash, as it is from the command line, the registry raises if it is asked for any name found *)
Theorem C90_local_found_not_served_refuted compile py313 root r es p l x : r_kind r = Local es -> absolute root = true -> search compile (filenames py313 root r) p = Some l -> In x l ->
  r_known r x None true = None /\ r_contents r x None = None.
Proof.
  intros K A S X0. destruct (search_in _ _ _ _ S) as (q & _ & H). destruct (proj1 (H x) X0) as [X _]. unfold filenames in X. rewrite K in X.
  assert (Ax : absolute x = true).
  { destruct X as [<-|X]; [exact A|]. apply in_map_iff in X as (e & <- & _). unfold absolute in *. destruct root; [discriminate|]. cbn in *. exact A. }
  assert (Na : forall y, name_plus_suffix x None = Some y -> globbable y = false).
  { intros y E. unfold name_plus_suffix in E. injection E as <-. rewrite Ax. unfold globbable, posix. destruct (parts x); reflexivity. }
  destruct (name_plus_suffix x None) as [y|] eqn:E; [|discriminate E]. specialize (Na y eq_refl).
  unfold r_known, r_contents. rewrite K. unfold local_known, local_fullname. rewrite E. unfold glob_all, glob_root. rewrite Na. split; reflexivity.
Qed.
Print Assumptions C90_local_found_not_served_refuted.
Example C90_local_search_example : let r := mkReg "w" 10 (Local [(["sub"], None); (["sub"; "Arm.comp"], Some "arm")]) in let q : regex := fun x i => startswith "Arm" (substring i (String.length x) x) in
  search (fun _ => None) (filenames false "/w" r) (Compiled q) = Some [] /\ search (fun _ => None) (filenames true "/w" r) (Compiled q) = Some ["/w/sub/Arm.comp"] /\
  r_known r "Arm.comp" None true = Some true.
Proof. vm_compute. auto. Qed.
