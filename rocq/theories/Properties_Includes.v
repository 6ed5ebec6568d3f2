(** C38: the C libraries a translated instrument asks for. *)
From Coq Require Import List String Ascii Bool Arith Lia Permutation.
From Verif Require Import PyStr Includes.
Import ListNotations.
Local Open Scope string_scope.
Local Open Scope list_scope.
Local Open Scope nat_scope.

(** n is needed by one of the blocks, directly or through the headers *)
Definition needed (fs : files) (blocks : list (string * list item)) (n : string) : Prop := exists p raw, In (p, raw) blocks /\ needs fs raw n.

(** When the translator gets through the collection and the ordering, whatever sorting does, the libraries are exactly the needed ones,
    each once, and each one stands behind all those its header asks for. *)
Theorem C38_each_library_once_in_order : forall fs fuel blocks l sorted roots out,
  (forall r q, Permutation (sorted r q) q) ->
  collect fs fuel blocks = Ok l -> sort_hierarchy sorted roots l = Some out ->
  NoDup (map i_name out)
  /\ (forall n, In n (map i_name out) <-> needed fs blocks n)
  /\ (forall n t m, In n (map i_name out) -> fs (n ++ ".h")%string = Some t -> In (ILib m) t -> m <> n -> ahead m n (map i_name out)).
Proof.
  intros fs fuel blocks l sorted roots out P C S. apply collect_spec in C as (Cl & A & B).
  destruct (sort_ok sorted roots l out (fun r => P r l) S) as (D & N & _ & O). split; [exact D|]. split.
  - intro n. rewrite N. split.
    + intros (x & Ix & <-). destruct (B x Ix) as [(p & raw & Ib & Nd) _]. exists p, raw. auto.
    + intros (p & raw & Ib & Nd). induction Nd as [n I|m t n Nd IH T I].
      * destruct (A p raw n Ib I) as (x & Ix & _ & Nx). eauto.
      * destruct IH as (x & Ix & <-). destruct (Cl x Ix) as (t' & T' & Q). rewrite T in T'. injection T' as <-. destruct (Q n I) as (y & Iy & _ & Ny). eauto.
  - intros n t m Hn T Hm Ne. pose proof Hn as Hn'. apply N in Hn as (x & Ix & <-). destruct (Cl x Ix) as (t' & T' & Q). rewrite T in T'. injection T' as <-.
    destruct (Q m Hm) as (y & Iy & Py & Ny). subst m. rewrite <- Py in *. apply O; auto.
Qed.
Print Assumptions C38_each_library_once_in_order.

(** a small instrument: it asks for r and io, r's header asks for base, io's header asks for base *)
Definition fs1 : files := fun n =>
  if n =?s "r.h" then Some [ILib "base"; ICode "int r;"] else if n =?s "io.h" then Some [ILib "base"] else if n =?s "base.h" then Some [ICode "int b;"] else None.
Definition blocks1 := [("inst", [ILib "r"; ICode "int x;"; ILib "io"]); ("Mon", [ILib "base"])].
Example C38_order_example : exists l out, collect fs1 9 blocks1 = Ok l /\ sort_hierarchy py_sorted ["inst"; "Mon"] l = Some out
  /\ map i_name out = ["base"; "r"; "io"].
Proof. eexists. eexists. split; [vm_compute; reflexivity|]. split; vm_compute; reflexivity. Qed.

(** * Collection ends when the headers do not ask for each other in a circle *)
Definition is_code (i : item) : Prop := match i with ICode _ => True | _ => False end.
(** every library has a header, every included file consists of plain code *)
Definition available (fs : files) (raw : list item) : Prop := forall i, In i raw ->
  match i with ILib n => exists t, fs (n ++ ".h")%string = Some t | IFile f => exists c, fs f = Some c /\ Forall is_code c | ICode _ => True end.
Fixpoint file_count (raw : list item) : nat := match raw with [] => 0 | ICode _ :: t => file_count t | _ :: t => S (file_count t) end.
Lemma split_code a b : Forall is_code a -> split_include (a ++ b) = match split_include b with Some (x, n, y) => Some (a ++ x, n, y) | None => None end.
Proof. intro H. induction H as [|i a Hi H IH]; cbn; [destruct (split_include b) as [[[? ?] ?]|]; reflexivity|]. destruct i; try destruct Hi. rewrite IH. destruct (split_include b) as [[[? ?] ?]|]; reflexivity. Qed.
Lemma split_shape raw : match split_include raw with
  | None => Forall is_code raw
  | Some (a, n, b) => Forall is_code a /\ (raw = a ++ IFile n :: b \/ raw = a ++ ILib n :: b) end.
Proof.
  induction raw as [|i raw IH]; cbn; [constructor|]. destruct i as [n|n|c]; [split; [constructor|now right]|split; [constructor|now left]|].
  destruct (split_include raw) as [[[a n] b]|].
  - destruct IH as [Fa [->| ->]]; (split; [now constructor|]); [now left|now right].
  - now constructor.
Qed.
Lemma file_count_app a b : file_count (a ++ b) = file_count a + file_count b.
Proof. induction a as [|[?|?|?] a IH]; cbn; lia. Qed.
Lemma file_count_code a : Forall is_code a -> file_count a = 0.
Proof. intro H. induction H as [|i a Hi H IH]; [reflexivity|]. destruct i; try destruct Hi. exact IH. Qed.
Definition no_libs (raw : list item) : Prop := forall n, ~ In (ILib n) raw.
Lemma inline_ends fs : forall k raw, file_count raw <= k -> no_libs raw -> available fs raw -> exists c, forall fuel, k <= fuel -> inline fs fuel raw = Ok c.
Proof.
  induction k as [|k IH]; intros raw K L A; pose proof (split_shape raw) as Sh; destruct (split_include raw) as [[[a n] b]|] eqn:E.
  - destruct Sh as [Fa [->| ->]]; rewrite file_count_app in K; cbn in K; lia.
  - exists raw. intros [|f] _; cbn; now rewrite E.
  - destruct Sh as [Fa [-> | ->]]; [|exfalso; apply (L n); apply in_or_app; right; now left].
    destruct (A (IFile n)) as (c & Ec & Fc); [apply in_or_app; right; now left|].
    destruct (IH (a ++ c ++ b)) as (r & R).
    + rewrite !file_count_app in *. cbn in K. rewrite (file_count_code c Fc). lia.
    + intros m Hm. apply in_app_or in Hm as [Hm|Hm]; [apply (L m); apply in_or_app; now left|]. apply in_app_or in Hm as [Hm|Hm].
      * rewrite Forall_forall in Fc. destruct (Fc _ Hm).
      * apply (L m). apply in_or_app. right. now right.
    + intros i Hi. apply in_app_or in Hi as [Hi|Hi]; [apply A; apply in_or_app; now left|]. apply in_app_or in Hi as [Hi|Hi].
      * rewrite Forall_forall in Fc. specialize (Fc _ Hi). now destruct i.
      * apply A. apply in_or_app. right. now right.
    + exists r. intros [|f] Hf; [lia|]. cbn. rewrite E, Ec. apply R. lia.
  - exists raw. intros [|f] _; cbn; now rewrite E.
Qed.
Lemma all_res_ends {A B} (f : nat -> A -> res B) l : (forall x, In x l -> exists k y, forall fuel, k <= fuel -> f fuel x = Ok y) ->
  exists k r, forall fuel, k <= fuel -> all_res (f fuel) l = Ok r.
Proof.
  induction l as [|x l IH]; intro H; [exists 0, []; reflexivity|].
  destruct (H x (or_introl eq_refl)) as (k & y & K). destruct IH as (k' & r & R); [intros z Hz; apply H; now right|].
  exists (k + k'), (y :: r). intros fuel F. cbn [all_res]. rewrite (K fuel) by lia. rewrite (R fuel) by lia. reflexivity.
Qed.
Lemma erase_In i raw : In i (erase raw) <-> In i raw /\ match i with ILib _ => False | _ => True end.
Proof. unfold erase. rewrite filter_In. destruct i; intuition discriminate. Qed.
Lemma handle_ends fs (rank : string -> nat) :
  (forall n t, fs (n ++ ".h")%string = Some t -> available fs t) ->
  (forall n t m, fs (n ++ ".h")%string = Some t -> In (ILib m) t -> rank m < rank n) ->
  forall b raw, available fs raw -> (forall m, In (ILib m) raw -> rank m < b) ->
  forall parent, exists k r, forall fuel, k <= fuel -> handle fs fuel parent raw = Ok r.
Proof.
  intros Hav Hr b. induction b as [b IH] using (well_founded_induction Wf_nat.lt_wf). intros raw A R parent.
  destruct (all_res_ends (fun f n => match fs (n ++ ".h")%string with Some text => match handle fs f n text with Ok (l, _) => Ok l | Err => Err | Fuel => Fuel end | None => Err end) (libs_of raw)) as (k & found & K).
  { intros n Hn. apply libs_of_In in Hn. destruct (A _ Hn) as (t & T). pose proof (R n Hn) as Rn.
    destruct (IH (rank n) Rn t (Hav n t T) (fun m Hm => Hr n t m T Hm) n) as (k & [l c] & K). exists k, l. intros fuel F. rewrite T, (K fuel F). reflexivity. }
  destruct (inline_ends fs (file_count (erase raw)) (erase raw)) as (c & C); [lia| |
    |exists (S (k + file_count (erase raw))); eexists; intros [|f] F; [lia|]; cbn [handle]; rewrite (K f) by lia; rewrite (C f) by lia; reflexivity].
  - intros n Hn. apply erase_In in Hn as [_ []].
  - intros i Hi. apply erase_In in Hi as [Hi _]. now apply A.
Qed.
Theorem C38_acyclic_libraries_are_collected : forall fs (rank : string -> nat) blocks,
  (forall n t, fs (n ++ ".h")%string = Some t -> available fs t) ->
  (forall n t m, fs (n ++ ".h")%string = Some t -> In (ILib m) t -> rank m < rank n) ->
  (forall p raw, In (p, raw) blocks -> available fs raw) ->
  exists k l, forall fuel, k <= fuel -> collect fs fuel blocks = Ok l.
Proof.
  intros fs rank blocks Hav Hr. induction blocks as [|[p raw] blocks IH]; intro A; [exists 0, []; reflexivity|].
  destruct IH as (k & l & K); [intros q r I; apply (A q r); now right|].
  assert (Bd : exists b, forall m, In (ILib m) raw -> rank m < b).
  { clear. induction raw as [|i raw (b & B)]; [exists 0; intros ? []|]. destruct i as [n|n|n].
    - exists (S (rank n) + b). intros m [[= <-]|Hm]; [lia|]. specialize (B m Hm). lia.
    - exists b. intros m [?|Hm]; [discriminate|auto].
    - exists b. intros m [?|Hm]; [discriminate|auto]. }
  destruct Bd as (b & B). destruct (handle_ends fs rank Hav Hr b raw (A p raw (or_introl eq_refl)) B p) as (k' & [l' c] & K').
  exists (k + k'). eexists. intros fuel F. cbn [collect]. rewrite (K' fuel) by lia. rewrite (K fuel) by lia. reflexivity.
Qed.
Print Assumptions C38_acyclic_libraries_are_collected.
(** headers that ask for each other: the collection never ends, though include guards make this legal C *)
Lemma handle_deeper fs : forall fuel p raw r, handle fs fuel p raw = Ok r -> forall n, needs fs raw n ->
  exists f t r', f < fuel /\ fs (n ++ ".h")%string = Some t /\ handle fs f n t = Ok r'.
Proof.
  assert (G : forall fuel p raw r, handle fs fuel p raw = Ok r -> forall n, In (ILib n) raw -> exists f t r', f < fuel /\ fs (n ++ ".h")%string = Some t /\ handle fs f n t = Ok r').
  { intros [|f] p raw r H n I; cbn [handle] in H; [discriminate|]. match type of H with match all_res ?F _ with _ => _ end = _ => set (g := F) in H end.
    destruct (all_res g (libs_of raw)) as [found| |] eqn:E; try discriminate. apply all_res_ok in E. apply libs_of_In in I.
    assert (X : exists y, g n = Ok y). { clear H. induction E as [|x y xs ys Hx E IH]; [destruct I|]. destruct I as [<-|I]; [eauto|auto]. }
    destruct X as (y & Y). unfold g in Y. destruct (fs (n ++ ".h")%string) as [t|]; [|discriminate]. destruct (handle fs f n t) as [r'| |] eqn:Ht; try discriminate.
    exists f, t, r'. repeat split; [lia|exact Ht]. }
  intros fuel p raw r H n Nd. revert fuel p r H. induction Nd as [n I|m t n Nd IH T I]; intros fuel p r H; [exact (G _ _ _ _ H n I)|].
  destruct (IH fuel p r H) as (f & t' & r' & F & T' & H'). rewrite T in T'. injection T' as <-. destruct (G _ _ _ _ H' n I) as (f2 & t2 & r2 & F2 & A). exists f2, t2, r2. split; [lia|exact A].
Qed.
Theorem C38_circular_headers_never_end_refuted : forall fs a t, fs (a ++ ".h")%string = Some t -> needs fs t a ->
  forall p raw, needs fs raw a -> forall fuel r, handle fs fuel p raw <> Ok r.
Proof.
  intros fs a t T C p raw Nd fuel r H. destruct (handle_deeper fs fuel p raw r H a Nd) as (f & t' & r' & _ & T' & H'). rewrite T in T'. injection T' as <-. clear H.
  revert r' H'. induction f as [f IH] using (well_founded_induction Wf_nat.lt_wf). intros r' H'.
  destruct (handle_deeper fs f a t r' H' a C) as (f2 & t2 & r2 & F2 & T2 & H2). rewrite T in T2. injection T2 as <-. exact (IH f2 F2 r2 H2).
Qed.
Print Assumptions C38_circular_headers_never_end_refuted.
Example C38_circular_example : exists fs t, fs "a.h" = Some t /\ needs fs t "a" /\ needs fs [ILib "a"] "a".
Proof.
  exists (fun n => if n =?s "a.h" then Some [ILib "b"] else if n =?s "b.h" then Some [ILib "a"] else None), [ILib "b"]. split; [reflexivity|]. split.
  - eapply needs_more with (m := "b"); [apply needs_here; now left|reflexivity|now left].
  - apply needs_here. now left.
Qed.

(** * The ordering rejects headers that do not ask for each other in a circle *)
Definition fs2 : files := fun n =>
  if n =?s "C.h" then Some [ILib "D"] else if n =?s "D.h" then Some [ILib "A"] else if n =?s "A.h" then Some [ILib "E"] else if n =?s "F.h" then Some [ILib "B"]
  else if (n =?s "B.h") || (n =?s "E.h") then Some [] else None.
Definition rank2 (n : string) : nat := if n =?s "C" then 3 else if n =?s "D" then 2 else if n =?s "A" then 1 else if n =?s "F" then 1 else 0.
Theorem C38_acyclic_libraries_rejected_refuted : exists l, collect fs2 9 [("inst", [ILib "C"; ILib "F"])] = Ok l
  /\ (forall r, is_root l r <-> r = "inst") /\ (forall roots, (forall r, In r roots -> r = "inst") -> sort_hierarchy py_sorted roots l = None)
  /\ (forall x, In x l -> i_parent x = "inst" \/ rank2 (i_name x) < rank2 (i_parent x)).
Proof.
  eexists. split; [vm_compute; reflexivity|]. split; [|split].
  - intro r. split.
    + intros [(x & Ix & <-) N]. cbn [In] in Ix. repeat destruct Ix as [<-|Ix]; try reflexivity; try destruct Ix; exfalso;
      match goal with N : forall x, In x ?l -> i_name x <> i_parent ?y |- _ => 
        first [exact (N (nth 0 l y) ltac:(cbn; tauto) eq_refl)|exact (N (nth 1 l y) ltac:(cbn; tauto) eq_refl)|exact (N (nth 2 l y) ltac:(cbn; tauto) eq_refl)
              |exact (N (nth 3 l y) ltac:(cbn; tauto) eq_refl)|exact (N (nth 4 l y) ltac:(cbn; tauto) eq_refl)|exact (N (nth 5 l y) ltac:(cbn; tauto) eq_refl)] end.
    + intros ->. split; [eexists; split; [now left|reflexivity]|]. intros x Ix. cbn [In] in Ix. repeat destruct Ix as [<-|Ix]; try discriminate; destruct Ix.
  - intros roots H. unfold sort_hierarchy. induction roots as [|r roots IH]; [reflexivity|]. rewrite (H r (or_introl eq_refl)).
    cbn [try_roots]. match goal with |- context [existsb ?f ?l] => replace (existsb f l) with true by (vm_compute; reflexivity) end. apply IH. intros q Hq. apply H. now right.
  - intros x Ix. cbn [In] in Ix. repeat destruct Ix as [<-|Ix]; try (left; reflexivity); try (right; vm_compute; lia); destruct Ix.
Qed.
Print Assumptions C38_acyclic_libraries_rejected_refuted.

(** * Files included by name *)
(** a library asked for inside a file included by name is looked up as a file: without a file of exactly that name translation stops *)
Theorem C38_library_in_included_file_refuted : forall fs f n rest p fuel, fs f = Some [ILib n; rest] -> fs n = None ->
  handle fs (S (S (S fuel))) p [IFile f] = Err.
Proof.
  intros fs f n rest p fuel F N. cbn [handle]. replace (libs_of [IFile f]) with (@nil string) by reflexivity. cbn [all_res].
  replace (erase [IFile f]) with [IFile f] by reflexivity. cbn [inline split_include]. rewrite F. cbn [app]. cbn [inline split_include]. rewrite N. reflexivity.
Qed.
Print Assumptions C38_library_in_included_file_refuted.
Example C38_library_in_included_file_example : exists fs : files, fs "tools.c" = Some [ILib "r"; ICode "x"] /\ fs "r" = None /\ exists t, fs "r.h" = Some t.
Proof. exists (fun n => if n =?s "tools.c" then Some [ILib "r"; ICode "x"] else if n =?s "r.h" then Some [] else None). split; [reflexivity|]. split; [reflexivity|]. now exists []. Qed.
(** a file that includes itself, though legal C with an include guard, is inserted again and again *)
Theorem C38_file_including_itself_never_ends_refuted : forall fs f a b, fs f = Some (a ++ IFile f :: b) -> Forall is_code a ->
  forall p fuel, handle fs fuel p [IFile f] = Fuel.
Proof.
  intros fs f a b F A p [|fuel]; [reflexivity|]. cbn [handle]. replace (libs_of [IFile f]) with (@nil string) by reflexivity. cbn [all_res].
  replace (erase [IFile f]) with ([] ++ IFile f :: []) by reflexivity.
  assert (G : forall k x y, Forall is_code x -> inline fs k (x ++ IFile f :: y) = Fuel).
  { induction k as [|k IH]; intros x y X; cbn [inline]; rewrite (split_code x _ X); cbn [split_include]; [reflexivity|]. rewrite app_nil_r, F, <- app_assoc. cbn [app].
    rewrite app_assoc. apply IH. apply Forall_app. now split. }
  rewrite G; [reflexivity|constructor].
Qed.
Print Assumptions C38_file_including_itself_never_ends_refuted.

(** * The embedded sources *)
(** When the sources ask for no library beyond the collected ones, every header is followed by every source, each once, in the same order *)
Theorem C38_sources_once_partial : forall fs fuel l ev,
  (forall x t m, In x l -> fs (i_name x ++ ".c")%string = Some t -> needs fs t m -> In m (map i_name l)) ->
  emit fs fuel l = Ok ev -> ev = map Header (map i_name l) ++ map Source (map i_name l).
Proof.
  intros fs fuel l ev K E. unfold emit in E. destruct (all_res _ _) as [es| |] eqn:A; try discriminate. injection E as <-. apply all_res_ok in A.
  f_equal; [now rewrite map_map|].
  assert (G : forall n e, In n (map i_name l) -> emit_source fs fuel (map i_name l) n = Ok e -> e = [Source n]).
  { intros n e I H. destruct fuel as [|f]; cbn [emit_source] in H; [discriminate|]. destruct (fs (n ++ ".c")%string) as [t|] eqn:T; [|discriminate].
    destruct (handle fs f (n ++ ".c")%string t) as [[q c]| |] eqn:Q; try discriminate. apply in_map_iff in I as (x & <- & Ix).
    replace (filter _ (map i_name q)) with (@nil string) in H; [cbn in H; now injection H as <-|].
    symmetry. apply handle_spec in Q as (_ & _ & B). assert (Z : forall z, In z (map i_name q) -> In z (map i_name l)).
    { intros z Iz. apply in_map_iff in Iz as (y & <- & Iy). apply (K x t _ Ix T). now apply B. }
    clear - Z. induction (map i_name q) as [|z zs IH]; [reflexivity|]. cbn. replace (existsb _ (map i_name l)) with true; [cbn; apply IH; intros; apply Z; now right|].
    symmetry. apply existsb_exists. exists z. split; [apply Z; now left|apply String.eqb_refl]. }
  clear K. revert G A. generalize (emit_source fs fuel (map i_name l)). intros g G A. revert G.
  induction A as [|n e ns es' Hn A IH]; intro G; [reflexivity|]. cbn [List.concat map]. rewrite (G n e (or_introl eq_refl) Hn). cbn. f_equal. apply IH. intros m q Im. apply G. now right.
Qed.
Print Assumptions C38_sources_once_partial.
Definition fs3 : files := fun n => if n =?s "a.h" then Some [] else if n =?s "b.h" then Some [ILib "a"] else if n =?s "a.c" then Some [ILib "a"; ICode "f"] else if n =?s "b.c" then Some [ILib "b"; ICode "g"] else None.
Example C38_sources_example : exists l out, collect fs3 9 [("inst", [ILib "b"])] = Ok l /\ sort_hierarchy py_sorted ["inst"] l = Some out
  /\ emit fs3 9 out = Ok [Header "a"; Header "b"; Source "a"; Source "b"].
Proof. eexists. eexists. split; [vm_compute; reflexivity|]. split; vm_compute; reflexivity. Qed.

(** a library only two sources ask for is written twice *)
Definition fs4 : files := fun n => if (n =?s "a.h") || (n =?s "b.h") || (n =?s "x.h") || (n =?s "x.c") then Some [] else if (n =?s "a.c") || (n =?s "b.c") then Some [ILib "x"] else None.
Theorem C38_library_of_two_sources_twice_refuted : exists l out, collect fs4 9 [("inst", [ILib "a"; ILib "b"])] = Ok l /\ sort_hierarchy py_sorted ["inst"] l = Some out
  /\ emit fs4 9 out = Ok [Header "a"; Header "b"; Header "x"; Source "x"; Source "a"; Header "x"; Source "x"; Source "b"].
Proof. eexists. eexists. split; [vm_compute; reflexivity|]. split; vm_compute; reflexivity. Qed.
Print Assumptions C38_library_of_two_sources_twice_refuted.
(** a header only a source asks for stands before the header it needs itself *)
Definition fs5 : files := fun n => if n =?s "x.h" then Some [ILib "y"] else if (n =?s "a.h") || (n =?s "y.h") || (n =?s "x.c") || (n =?s "y.c") then Some [] else if n =?s "a.c" then Some [ILib "x"] else None.
Theorem C38_header_before_the_one_it_needs_refuted : exists l out, collect fs5 9 [("inst", [ILib "a"])] = Ok l /\ sort_hierarchy py_sorted ["inst"] l = Some out
  /\ emit fs5 9 out = Ok [Header "a"; Header "x"; Source "x"; Header "y"; Source "y"; Source "a"] /\ In (ILib "y") (match fs5 "x.h" with Some t => t | None => [] end).
Proof. eexists. eexists. split; [vm_compute; reflexivity|]. split; [vm_compute; reflexivity|]. split; [vm_compute; reflexivity|now left]. Qed.
Print Assumptions C38_header_before_the_one_it_needs_refuted.
(** a library only a source asks for, and whose own source asks for its own header, is never written *)
Theorem C38_own_header_never_ends_refuted : forall fs x t, fs (x ++ ".c")%string = Some t -> needs fs t x ->
  forall known, ~ In x known -> forall fuel r, emit_source fs fuel known x <> Ok r.
Proof.
  intros fs x t T Nd known Nk. induction fuel as [|f IH]; intros r; cbn [emit_source]; [discriminate|]. rewrite T.
  destruct (handle fs f (x ++ ".c")%string t) as [[l c]| |] eqn:H; try discriminate.
  assert (Ix : In x (map i_name l)).
  { apply handle_spec in H as (Cl & A & _). remember (x ++ ".c")%string as p eqn:Ep. clear - Nd A Cl. induction Nd as [n I|m t' n Nd IH T' I].
    - destruct (A n I) as (y & Iy & _ & <-). now apply in_map.
    - apply in_map_iff in IH as (y & <- & Iy). destruct (Cl y Iy) as (t2 & T2 & Q). rewrite T' in T2. injection T2 as <-. destruct (Q n I) as (z & Iz & _ & <-). now apply in_map. }
  assert (Fx : In x (filter (fun m => negb (existsb (fun k => k =?s m) known)) (map i_name l))).
  { apply filter_In. split; [exact Ix|]. apply negb_true_iff. destruct (existsb _ known) eqn:E; [|reflexivity]. apply existsb_exists in E as (k & Ik & Ek). apply String.eqb_eq in Ek. subst k. contradiction. }
  match goal with |- context [all_res ?F ?L] => destruct (all_res F L) as [es| |] eqn:E; [|discriminate|discriminate] end.
  apply all_res_ok in E. exfalso. clear - E Fx IH. induction E as [|n e ns es Hn E IH2]; [destruct Fx|]. destruct Fx as [->|Fx]; [|auto].
  destruct (emit_source fs f known x) as [e'| |] eqn:Q; try discriminate. exact (IH e' eq_refl).
Qed.
Print Assumptions C38_own_header_never_ends_refuted.
Example C38_own_header_example : exists fs t, fs "x.c" = Some t /\ needs fs t "x".
Proof. exists (fun n => if n =?s "x.c" then Some [ILib "x"] else if n =?s "x.h" then Some [] else None), [ILib "x"]. split; [reflexivity|]. apply needs_here. now left. Qed.

(** A chain of three libraries (the instrument asks for a, whose header asks for b, whose header asks for c) is accepted and ordered, whatever the names and in whatever order they were found.
    Longer chains need not be (C38_acyclic_libraries_rejected_refuted). *)
Theorem C38_chain_of_three_is_ordered : forall inst a b c l, NoDup [inst; a; b; c] -> inst <> "" ->
  Permutation l [mkInc inst a 0; mkInc a b 0; mkInc b c 0] -> option_map (map i_name) (sort_hierarchy py_sorted [inst] l) = Some [c; b; a].
Proof.
  intros inst a b c l D E P.
  assert (N : inst <> a /\ inst <> b /\ inst <> c /\ a <> b /\ a <> c /\ b <> c).
  { repeat match goal with H : NoDup (_ :: _) |- _ => inversion_clear H end. cbn in *. intuition. }
  destruct N as (N1 & N2 & N3 & N4 & N5 & N6).
  assert (L := Permutation_length P). assert (U : NoDup l) by (apply (Permutation_NoDup (Permutation_sym P)); repeat (constructor; [cbn; intuition congruence|]); constructor).
  assert (I : forall x, In x l -> x = mkInc inst a 0 \/ x = mkInc a b 0 \/ x = mkInc b c 0) by (intros x H; apply (Permutation_in _ P) in H; cbn in H; intuition).
  destruct l as [|x [|y [|z [|w l]]]]; try discriminate L. clear L P.
  pose proof (I x (or_introl eq_refl)) as Ix. pose proof (I y (or_intror (or_introl eq_refl))) as Iy. pose proof (I z (or_intror (or_intror (or_introl eq_refl)))) as Iz. clear I D.
  assert (Exy : x <> y) by (inversion_clear U as [|? ? H _]; cbn in H; intuition congruence). assert (Exz : x <> z) by (inversion_clear U as [|? ? H _]; cbn in H; intuition congruence).
  assert (Eyz : y <> z) by (inversion_clear U as [|? ? _ H]; inversion_clear H as [|? ? G _]; cbn in G; intuition congruence). clear U.
  apply String.eqb_neq in N1 as M1, N2 as M2, N3 as M3, N4 as M4, N5 as M5, N6 as M6, E as M0. apply not_eq_sym in N1, N2, N3, N4, N5, N6. apply String.eqb_neq in N1, N2, N3, N4, N5, N6.
  destruct Ix as [->|[->| ->]], Iy as [->|[->| ->]], Iz as [->|[->| ->]]; try congruence;
    unfold sort_hierarchy, try_roots, py_sorted; cbn [rev app small_sort run_desc run_asc]; unfold inc_lt; cbn [i_parent i_name i_order];
    repeat (rewrite ?M0, ?M1, ?M2, ?M3, ?M4, ?M5, ?M6, ?N1, ?N2, ?N3, ?N4, ?N5, ?N6, ?String.eqb_refl; cbn [negb andb rev app small_sort run_desc run_asc binsert place List.length nth_error Nat.ltb Nat.leb Nat.add Nat.sub Nat.div fst snd firstn skipn Nat.divmod i_parent i_name i_order first_of_name existsb orb map contradicts position option_map]; unfold contradicts); try reflexivity.
Qed.
Print Assumptions C38_chain_of_three_is_ordered.
Example C38_chain_nonvacuous : sort_hierarchy py_sorted ["inst"] [mkInc "x" "w" 0; mkInc "inst" "z" 0; mkInc "z" "x" 0] = Some [mkInc "x" "w" 0; mkInc "z" "x" 0; mkInc "inst" "z" 0].
Proof. reflexivity. Qed.
