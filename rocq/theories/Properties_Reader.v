(** C36: each component definition is read once *)
From Coq Require Import List String Bool Arith ZArith Lia.
From Verif Require Import PyStr TextLines Registry Reader.
Import ListNotations.
Local Open Scope string_scope.
Local Open Scope list_scope.
Local Open Scope nat_scope.

Section Facts.
Variable comp : Type.
Variable contents : string -> option string.
Variable parse : string -> string -> prog comp.
Notation get := (get comp contents parse).
Notation run := (run comp).
Notation requests := (requests comp contents parse).

(** reading never concerns a known component, whatever the outcome, and an object is identified by the reading that made it *)
Definition ok (s : state comp) : Prop := forall n u c, lookup (dict s) n = Some (u, c) -> nth_error (log s) u = Some n.
Definition step_ok (s s' : state comp) : Prop :=
  extends comp (dict s) (dict s') /\ (exists g, log s' = log s ++ g /\ forall x, In x g -> lookup (dict s) x = None) /\ (ok s -> ok s').
Lemma step_refl s f : step_ok s (mkSt (dict s) f (log s)).
Proof. split; [apply extends_refl|]. split; [exists []; cbn; rewrite app_nil_r; split; [reflexivity|intros ? []]|auto]. Qed.
Lemma step_trans a b c : step_ok a b -> step_ok b c -> step_ok a c.
Proof.
  intros (E1 & (g1 & L1 & U1) & O1) (E2 & (g2 & L2 & U2) & O2). split; [exact (extends_trans _ _ _ _ E1 E2)|]. split; [|auto].
  exists (g1 ++ g2). split; [now rewrite L2, L1, app_assoc|]. intros x I. apply in_app_or in I as [I|I]; [now apply U1|].
  destruct (lookup (dict a) x) as [o|] eqn:E; [|reflexivity]. apply E1 in E. rewrite (U2 x I) in E. discriminate.
Qed.
Lemma run_step ask : (forall n s r s', ask n s = (r, s') -> step_ok s s') -> forall p s r s', run ask p s = (r, s') -> step_ok s s'.
Proof.
  intro A. induction p as [c| |n k IH|f k IH]; intros s r s' H; cbn [Reader.run] in H.
  - injection H as <- <-. destruct s. apply step_refl.
  - injection H as <- <-. destruct s. apply step_refl.
  - destruct (ask n s) as [[o| |] s1] eqn:G; apply A in G.
    + exact (step_trans _ _ _ G (IH o s1 r s' H)).
    + now injection H as <- <-.
    + now injection H as <- <-.
  - apply IH in H. exact (step_trans _ _ _ (step_refl s (flags s ++ [f])) H).
Qed.
Lemma get_step fuel : forall n s r s', get fuel n s = (r, s') -> step_ok s s'.
Proof.
  induction fuel as [|fuel IH]; intros n s r s' H; assert (T := H); cbn [Reader.get] in H; destruct (lookup (dict s) n) as [o|] eqn:L.
  1-3: injection H as <- <-; destruct s; apply step_refl.
  destruct (contents n) as [t|]; [|injection H as <- <-; destruct s; apply step_refl].
  destruct (run (get fuel) (parse n t) (mkSt (dict s) (flags s) (log s ++ [n]))) as [rc s2] eqn:R. assert (R0 := R).
  apply (run_step _ IH) in R. destruct R as (E & (g & Lg & Ug) & O). cbn [dict log] in *.
  assert (B : exists g, log s2 = log s ++ g /\ (forall x, In x g -> lookup (dict s) x = None)).
  { exists (n :: g). split; [rewrite Lg; now rewrite <- app_assoc|]. intros x [<-|I]; [exact L|now apply Ug]. }
  assert (Ok2 : ok s -> ok s2).
  { intro K. apply O. intros m u c Hm. cbn [dict log] in *. rewrite nth_error_app1; [now apply (K m u c)|].
    apply nth_error_Some. rewrite (K m u c Hm). discriminate. }
  destruct (get_top comp contents parse _ _ _ _ _ T) as (Et & _).
  destruct rc as [c| |]; injection H as <- <-; (split; [exact Et|split; [exact B|]]); try exact Ok2.
  intros K m u c' Hm. cbn [dict log] in *. rewrite lookup_store in Hm. destruct (String.eqb_spec n m) as [<-|].
  - injection Hm as <- <-. rewrite Lg, <- app_assoc, nth_error_app2, Nat.sub_diag by lia. reflexivity.
  - now apply (Ok2 K m u c').
Qed.
Lemma requests_app fuel a b s : requests fuel (a ++ b) s =
  (fst (requests fuel a s) ++ fst (requests fuel b (snd (requests fuel a s))), snd (requests fuel b (snd (requests fuel a s)))).
Proof.
  revert s. induction a as [|n a IH]; intro s; cbn [Reader.requests app fst snd].
  - destruct (requests fuel b s); reflexivity.
  - destruct (get fuel n s) as [o s1]. rewrite (IH s1). destruct (requests fuel a s1) as [os s2]. reflexivity.
Qed.
Lemma requests_length fuel ns : forall s, List.length (fst (requests fuel ns s)) = List.length ns.
Proof. induction ns as [|n t IH]; intro s; cbn; [reflexivity|]. destruct (get fuel n s) as [o s1]. specialize (IH s1). destruct (requests fuel t s1). cbn in *. now rewrite IH. Qed.
Lemma requests_step fuel ns : forall s, step_ok s (snd (requests fuel ns s)).
Proof.
  induction ns as [|n t IH]; intro s; cbn; [destruct s; apply step_refl|]. destruct (get fuel n s) as [o s1] eqn:G.
  specialize (IH s1). destruct (requests fuel t s1) as [os s2]. cbn in *. exact (step_trans _ _ _ (get_step _ _ _ _ _ G) IH).
Qed.
Lemma requests_grow fuel ns : forall s, (forall r, In r (fst (requests fuel ns s)) -> exists o, r = Got o) -> exists g, grows comp s (snd (requests fuel ns s)) g.
Proof.
  induction ns as [|n t IH]; intros s H; cbn; [exists []; apply grows_refl|]. cbn in H. destruct (get fuel n s) as [o s1] eqn:G.
  specialize (IH s1). pose proof (requests_step fuel t s1) as St. destruct (requests fuel t s1) as [os s2]. cbn in *.
  destruct (get_top comp contents parse _ _ _ _ _ G) as (E & Q). destruct (H o (or_introl eq_refl)) as (ob & ->).
  destruct (Q ob eq_refl) as (_ & g1 & G1). destruct IH as (g2 & G2); [intros r Ir; apply H; now right|].
  exists (g1 ++ g2). apply (grows_trans comp s s1 s2); auto. apply St.
Qed.

(** For any list of requests, each of which may fail: once a request for a name has been answered, every later request for this name
    gets the same object, and its file is never read again. *)
Theorem C36_same_definition_for_a_name : forall fuel before n later s0 s1 o,

  get fuel n (snd (requests fuel before s0)) = (Got o, s1) ->
  let out := requests fuel later s1 in
  (forall i, nth_error later i = Some n -> nth_error (fst out) i = Some (Got o))
  /\ exists l, log (snd out) = log s1 ++ l /\ ~ In n l.
Proof.
  intros fuel before n later s0 s1 o G out. destruct (get_top comp contents parse _ _ _ _ _ G) as (_ & Q). destruct (Q o eq_refl) as (L & _).
  clear Q G. split.
  - unfold out. clear out. revert s1 L. induction later as [|m t IH]; intros s1 L i I; [destruct i; discriminate|].
    cbn [Reader.requests]. destruct (get fuel m s1) as [r s2] eqn:G. destruct (get_step _ _ _ _ _ G) as (E & _).
    specialize (IH s2 (E _ _ L)). destruct (requests fuel t s2) as [os s3]. cbn [fst] in *. destruct i as [|i]; cbn in *.
    + injection I as ->. rewrite (get_known comp contents parse fuel n s1 o L) in G. now injection G as <- <-.
    + now apply IH.
  - destruct (requests_step fuel later s1) as (_ & (g & Lg & Ug) & _). exists g. split; [exact Lg|]. intro I. rewrite (Ug n I) in L. discriminate.
Qed.

(** If all requests are answered, no file was read twice, and exactly the files of the known components were read. *)
Theorem C36_read_at_most_once : forall fuel ns, (forall r, In r (fst (requests fuel ns empty)) -> exists o, r = Got o) ->
  NoDup (log (snd (requests fuel ns empty)))
  /\ forall n, In n (log (snd (requests fuel ns empty))) <-> exists o, lookup (dict (snd (requests fuel ns empty))) n = Some o.
Proof.
  intros fuel ns H. destruct (requests_grow fuel ns empty H) as (g & L & D & U & K & N). cbn in L. rewrite L. split; [exact D|].
  intro n. split; [apply K|]. intros (o & O). destruct (N n o O) as [F|I]; [discriminate|exact I].
Qed.

(** Different names never share an object *)
Theorem C36_different_names_different_objects : forall fuel ns i j n m u c v c',
  nth_error ns i = Some n -> nth_error ns j = Some m -> n <> m ->
  nth_error (fst (requests fuel ns empty)) i = Some (Got (u, c)) -> nth_error (fst (requests fuel ns empty)) j = Some (Got (v, c')) -> u <> v.
Proof.
  intros fuel ns i j n m u c v c' Hi Hj D Gi Gj ->.
  assert (X : forall ns s i n o, nth_error ns i = Some n -> nth_error (fst (requests fuel ns s)) i = Some (Got o) -> lookup (dict (snd (requests fuel ns s))) n = Some o).
  { clear. induction ns as [|m t IH]; intros s i n o I G; [destruct i; discriminate|]. cbn [Reader.requests] in *.
    destruct (get fuel m s) as [r s1] eqn:Gm. pose proof (requests_step fuel t s1) as (E & _). specialize (IH s1).
    destruct (requests fuel t s1) as [os s2]. cbn [fst snd] in *. destruct i as [|i]; cbn in *.
    - injection I as ->. injection G as ->. apply E. now destruct (get_top comp contents parse _ _ _ _ _ Gm) as (_ & Q); destruct (Q o eq_refl).
    - now apply (IH i n o). }
  destruct (requests_step fuel ns empty) as (_ & _ & O). assert (K : ok (snd (requests fuel ns empty))) by (apply O; intros ? ? ? F; discriminate).
  pose proof (K _ _ _ (X _ _ _ _ _ Hi Gi)) as A. pose proof (K _ _ _ (X _ _ _ _ _ Hj Gj)) as B. congruence.
Qed.

(** A file that cannot be interpreted is read again by every request *)
Theorem C36_failing_file_read_again_refuted : forall fuel n t k, contents n = Some t -> parse n t = Fail ->
  log (snd (requests (S fuel) (repeat n k) empty)) = repeat n k.
Proof.
  intros fuel n t k C P. assert (H : forall k s, lookup (dict s) n = None -> log (snd (requests (S fuel) (repeat n k) s)) = log s ++ repeat n k).
  { clear k. induction k as [|k IH]; intros s L; cbn [repeat Reader.requests]; [cbn; now rewrite app_nil_r|].
    cbn [Reader.get]. rewrite L, C, P. cbn [Reader.run]. specialize (IH (mkSt (dict s) (flags s) (log s ++ [n])) L).
    destruct (requests (S fuel) (repeat n k) _) as [os s2]. cbn in *. rewrite IH. now rewrite <- app_assoc. }
  now apply (H k empty).
Qed.

(** Definitions that copy each other in a circle (of any length) are never finished, at any recursion depth *)
Theorem C36_circular_copies_fail : forall fuel cycle n o s', In n cycle ->
  (forall x, In x cycle -> exists t y k, contents x = Some t /\ parse x t = Need y k /\ In y cycle) ->
  get fuel n empty <> (Got o, s').
Proof.
  intros fuel cycle n o s' I C. apply (waiting_fails comp contents parse fuel empty cycle n); [|exact I].
  intros x Ix. split; [reflexivity|]. destruct (C x Ix) as (t & y & k & E & P & Iy). exists (parse x t), y.
  unfold prog_of. rewrite E. repeat split; [|now right]. rewrite P. reflexivity.
Qed.
End Facts.
Print Assumptions C36_same_definition_for_a_name.
Print Assumptions C36_read_at_most_once.
Print Assumptions C36_different_names_different_objects.
Print Assumptions C36_failing_file_read_again_refuted.
Print Assumptions C36_circular_copies_fail.

(** The same file can be read twice when it is asked for under different names *)
Theorem C36_two_names_one_file_refuted : exists regs parse, forall fuel,
  let out := requests string (fun n => reader_contents (new_reader regs) None n (Some ".comp") true) parse (S fuel) ["Foo"; "Foo.comp"] empty in
  fst out = [Got (0, "text"); Got (1, "text")] /\ reader_fullname (new_reader regs) None "Foo" (Some ".comp") true = reader_fullname (new_reader regs) None "Foo.comp" (Some ".comp") true.
Proof. exists [mkReg "r" 0 (Remote [("optics/Foo.comp", "text")])], (fun _ t => Done t). intro fuel. split; reflexivity. Qed.
Print Assumptions C36_two_names_one_file_refuted.

(** b copies a; c copies b and takes a block of a; a brings a flag *)
Example C36_nonvacuous :
  let contents n := if n =?s "d" then None else Some (n +++ " text") in
  let parse n (t : string) := if n =?s "a" then Flag "-lm" (Done t) else if n =?s "b" then Need "a" (fun o => Done (snd o +++ t))
                 else Need "b" (fun o => Need "a" (fun p => Done (snd o +++ snd p))) in
  let out := requests string contents parse 5 ["c"; "d"; "a"; "c"; "b"] empty in
  fst out = [Got (0, "a textb texta text"); Raised; Got (2, "a text"); Got (0, "a textb texta text"); Got (1, "a textb text")]
  /\ log (snd out) = ["c"; "b"; "a"] /\ flags (snd out) = ["-lm"]
  /\ let all := requests string contents parse 5 ["c"; "a"; "b"] empty in Forall (fun r => exists o, r = Got o) (fst all) /\ NoDup (log (snd all)).
Proof.
  vm_compute. repeat split; repeat (constructor; eauto); cbn; intuition discriminate.
Qed.
