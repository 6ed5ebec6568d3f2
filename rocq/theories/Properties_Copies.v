(** C91: a copy of an instrument, and the parts of a split one, stand on their own. *)
From Coq Require Import List String Bool Arith ZArith Lia.
From Verif Require Import PyStr JumpTargets CopyInst Copies.
Import ListNotations.
Local Open Scope string_scope.
Local Open Scope list_scope.
Local Open Scope nat_scope.

(* what can be seen of a component: all it holds, with references as the names of what they
   refer to, and with its jumps *)
Record seen {vec orient rest} := mkSeen { v_name : string; v_at : vec; v_at_ref : option (option string); v_rot : vec; v_rot_ref : option (option string);
                                          v_orient : option orient; v_rest : rest; v_jumps : list (option obj) }.
Definition see {vec orient rest} (h : heap vec orient rest) (a : nat) : option (@seen vec orient rest) :=
  match nth_error (h_inst _ _ _ h) a with
  | None => None
  | Some x => let ref r := option_map (fun b => option_map (i_name _ _ _) (nth_error (h_inst _ _ _ h) b)) r in
              Some (mkSeen _ _ _ (i_name _ _ _ x) (i_at _ _ _ x) (ref (i_at_ref _ _ _ x)) (i_rot _ _ _ x) (ref (i_rot_ref _ _ _ x))
                           (i_orient _ _ _ x) (i_rest _ _ _ x) (map (nth_error (h_jump _ _ _ h)) (i_jump _ _ _ x)))
  end.
Definition see_all {vec orient rest} (h : heap vec orient rest) (s : instrument) : list (option (@seen vec orient rest)) := map (see h) (s_comps s).
(* every place that is mentioned exists *)
Definition exists_in {vec orient rest} (h : heap vec orient rest) (s : instrument) : Prop := Forall (fun a => a < List.length (h_inst _ _ _ h)) (s_comps s).
Definition closed {vec orient rest} (h : heap vec orient rest) : Prop :=
  Forall (fun x => (forall r, i_at_ref _ _ _ x = Some r \/ i_rot_ref _ _ _ x = Some r -> r < List.length (h_inst _ _ _ h)) /\
                   forall j, In j (i_jump _ _ _ x) -> j < List.length (h_jump _ _ _ h)) (h_inst _ _ _ h).
(* any number of assignments to instances *)
Inductive changes {vec orient rest} (ok : nat -> Prop) : list (instance vec orient rest) -> list (instance vec orient rest) -> Prop :=
| ch_none h : changes ok h h
| ch_one h a x h' : ok a -> changes ok (assign _ _ _ h a x) h' -> changes ok h h'.

Section Facts.
  Variables (vec orient rest : Type).
  Variable place : option orient -> vec -> option orient -> vec -> orient.
  Variables (position angles : orient -> vec).
  Notation inst := (instance vec orient rest).
  Notation hp := (heap vec orient rest).
  Notation name x := (i_name vec orient rest x).
  Notation hi h := (h_inst vec orient rest h).
  Notation hj h := (h_jump vec orient rest h).
  Notation cp := (copy vec orient rest place).
  Notation objs := (objects vec orient rest).
  Notation asg := (assign vec orient rest).

  Lemma assign_length (h : list inst) : forall a x, List.length (asg h a x) = List.length h.
  Proof. induction h as [|y t IH]; intros [|a] x; cbn; auto. Qed.
  Lemma assign_other (h : list inst) : forall a x b, a <> b -> nth_error (asg h a x) b = nth_error h b.
  Proof. induction h as [|y t IH]; intros [|a] x [|b] N; cbn; auto; try congruence. Qed.
  Lemma assign_same (h : list inst) : forall a x, a < List.length h -> nth_error (asg h a x) a = Some x.
  Proof. induction h as [|y t IH]; intros [|a] x L; cbn in *; auto; try lia. apply IH. lia. Qed.
  Lemma changes_length ok (h h' : list inst) : changes ok h h' -> List.length h' = List.length h.
  Proof. induction 1 as [|h a x h' O C IH]; auto. rewrite IH. apply assign_length. Qed.
  Lemma changes_other ok (h h' : list inst) b : changes ok h h' -> ~ ok b -> nth_error h' b = nth_error h b.
  Proof. induction 1 as [|h a x h' O C IH]; auto. intro N. rewrite IH by auto. apply assign_other. congruence. Qed.

  Lemma see_same (h h' : hp) a :
    nth_error (hi h') a = nth_error (hi h) a ->
    (forall x r, nth_error (hi h) a = Some x -> i_at_ref _ _ _ x = Some r \/ i_rot_ref _ _ _ x = Some r -> option_map (i_name _ _ _) (nth_error (hi h') r) = option_map (i_name _ _ _) (nth_error (hi h) r)) ->
    (forall x j, nth_error (hi h) a = Some x -> In j (i_jump _ _ _ x) -> nth_error (hj h') j = nth_error (hj h) j) ->
    see h' a = see h a.
  Proof.
    intros E R J. unfold see. rewrite E. destruct (nth_error (hi h) a) as [x|] eqn:X; auto. f_equal. f_equal.
    - destruct (i_at_ref _ _ _ x) as [r|] eqn:A; cbn; auto. f_equal. eapply R; eauto.
    - destruct (i_rot_ref _ _ _ x) as [r|] eqn:A; cbn; auto. f_equal. eapply R; eauto.
    - apply map_ext_in. intros j I. eapply J; eauto.
  Qed.
  Lemma closed_at (h : hp) a x : closed h -> nth_error (hi h) a = Some x ->
    (forall r, i_at_ref _ _ _ x = Some r \/ i_rot_ref _ _ _ x = Some r -> r < List.length (hi h)) /\ forall j, In j (i_jump _ _ _ x) -> j < List.length (hj h).
  Proof. intros C E. unfold closed in C. rewrite Forall_forall in C. apply C. eapply nth_error_In; eauto. Qed.
  Lemma see_extended (h h' : hp) a : closed h -> a < List.length (hi h) -> hj h' = hj h ->
    (forall b, b < List.length (hi h) -> nth_error (hi h') b = nth_error (hi h) b) -> see h' a = see h a.
  Proof.
    intros C L J E. apply see_same; [auto| |rewrite J; auto]. intros x r X R. rewrite E; auto. eapply closed_at; eauto.
  Qed.
  Lemma see_all_same (h h' : hp) s : (forall a, In a (s_comps s) -> see h' a = see h a) -> see_all h' s = see_all h s.
  Proof. intro E. unfold see_all. now apply map_ext_in. Qed.

  Lemma objects_nth (h : list inst) l : Forall (fun a => a < List.length h) l -> forall k,
    nth_error (objs h l) k = match nth_error l k with Some a => nth_error h a | None => None end.
  Proof.
    induction 1 as [|a l L F IH]; intro k; [now destruct k|]. cbn. destruct (nth_error h a) as [x|] eqn:X; [|apply nth_error_None in X; lia].
    destruct k as [|k]; cbn; auto.
  Qed.
  Lemma objects_length (h : list inst) l : Forall (fun a => a < List.length h) l -> List.length (objs h l) = List.length l.
  Proof.
    induction 1 as [|a l L F IH]; auto. cbn. destruct (nth_error h a) as [x|] eqn:X; [|apply nth_error_None in X; lia]. cbn. f_equal. exact IH.
  Qed.
  Lemma nth_skipn' {A} (l : list A) : forall m k, nth_error (skipn m l) k = nth_error l (m + k).
  Proof. induction l as [|x t IH]; intros [|m] k; cbn; auto; now destruct k. Qed.
  Lemma nth_firstn' {A} (l : list A) : forall m k, nth_error (firstn m l) k = if k <? m then nth_error l k else None.
  Proof.
    induction l as [|x t IH]; intros [|m] [|k]; cbn; auto.
    all: try (match goal with |- _ = (if ?b then _ else _) => destruct b end; reflexivity).
    rewrite IH. reflexivity.
  Qed.
  Lemma nth_slice {A} (l : list A) a b k : nth_error (slice l a b) k =
    if k <? bound (List.length l) b - bound (List.length l) a then nth_error l (bound (List.length l) a + k) else None.
  Proof. unfold slice. rewrite nth_firstn', nth_skipn'. reflexivity. Qed.
  Lemma slice_in {A} (l : list A) a b x : In x (slice l a b) -> In x l.
  Proof. intro I. apply In_nth_error in I as [k E]. rewrite nth_slice in E. destruct (_ <? _); [|discriminate]. eapply nth_error_In; eauto. Qed.
  Lemma slice_Forall {A} (P : A -> Prop) (l : list A) a b : Forall P l -> Forall P (slice l a b).
  Proof. rewrite !Forall_forall. intros F x I. apply F. eapply slice_in; eauto. Qed.

  Definition copied (s : instrument) (first last : Z) : list nat :=
    slice (s_comps s) first (if (last <? 0)%Z then (last + (1 + Z.of_nat (List.length (s_comps s))))%Z else last).
  Lemma copy_old (h h' : hp) s first last s' : cp h s first last = (h', s') ->
    hj h' = hj h /\ List.length (hi h) <= List.length (hi h') /\ (forall b, b < List.length (hi h) -> nth_error (hi h') b = nth_error (hi h) b) /\
    s_comps s' = seq (List.length (hi h)) (List.length (objs (hi h) (copied s first last))) /\
    hi h' = hi h ++ map (copy_instance _ _ _ place (hi h)) (objs (hi h) (copied s first last)).
  Proof.
    unfold copy. intro E. injection E as <- <-. cbn. repeat split; auto.
    - rewrite app_length. lia.
    - intros b L. now rewrite nth_error_app1.
  Qed.
  Lemma copy_new (h h' : hp) s first last s' k : exists_in h s -> cp h s first last = (h', s') ->
    match nth_error (copied s first last) k with
    | None => nth_error (s_comps s') k = None
    | Some a => exists x, nth_error (hi h) a = Some x /\ a < List.length (hi h) /\ nth_error (s_comps s') k = Some (List.length (hi h) + k) /\
                          nth_error (hi h') (List.length (hi h) + k) = Some (copy_instance _ _ _ place (hi h) x)
    end.
  Proof.
    intros X E. apply copy_old in E as (_ & _ & _ & S & H). assert (F : Forall (fun a => a < List.length (hi h)) (copied s first last)) by (apply slice_Forall; exact X).
    pose proof (objects_nth _ _ F k) as O. rewrite S, H, objects_length by exact F. destruct (nth_error (copied s first last) k) as [a|] eqn:A.
    - assert (La : a < List.length (hi h)) by (rewrite Forall_forall in F; apply F; eapply nth_error_In; eauto).
      destruct (nth_error (hi h) a) as [x|] eqn:EX; [|apply nth_error_None in EX; lia]. exists x. repeat split; auto.
      + assert (K : k < List.length (copied s first last)) by (apply nth_error_Some; congruence).
        rewrite (nth_error_nth' _ 0) by (now rewrite seq_length). rewrite seq_nth by exact K. reflexivity.
      + rewrite nth_error_app2 by lia. replace (_ + k - _) with k by lia. rewrite nth_error_map, O. reflexivity.
    - apply nth_error_None. apply nth_error_None in A. now rewrite seq_length.
  Qed.
  Lemma copy_instance_fields (h : list inst) x : let y := copy_instance _ _ _ place h x in
    i_name _ _ _ y = i_name _ _ _ x /\ i_at _ _ _ y = i_at _ _ _ x /\ i_at_ref _ _ _ y = i_at_ref _ _ _ x /\ i_rot _ _ _ y = i_rot _ _ _ x /\
    i_rot_ref _ _ _ y = i_rot_ref _ _ _ x /\ i_rest _ _ _ y = i_rest _ _ _ x /\ i_jump _ _ _ y = i_jump _ _ _ x /\
    (forall o, i_orient _ _ _ x = Some o -> i_orient _ _ _ y = Some o) /\ i_orient _ _ _ y <> None.
  Proof.
    cbv zeta. unfold copy_instance, post_init. cbn. destruct (i_orient _ _ _ x) as [o|] eqn:E; cbn; repeat split; auto; intros; congruence.
  Qed.
End Facts.

(* The orientation of a component is known: it is, unless the component was made in minimal
   mode. *)
Definition placed {vec orient rest} (h : heap vec orient rest) (s : instrument) : Prop :=
  forall a x, In a (s_comps s) -> nth_error (h_inst _ _ _ h) a = Some x -> i_orient _ _ _ x <> None.

(* A copy has the components asked for, in order, and each shows all that the original one
   does.  Counted from zero they are those from first on, before last if that is not negative,
   up to and including the last but -last-1 if it is negative. *)
Theorem C91_copy_shows :
  forall vec orient rest place (h : heap vec orient rest) s first last h' s', closed h -> exists_in h s -> placed h s ->
    (0 <= first)%Z -> (- Z.of_nat (List.length (s_comps s)) - 1 <= last)%Z -> copy _ _ _ place h s first last = (h', s') ->
    forall k, nth_error (see_all h' s') k =
      let p := (first + Z.of_nat k)%Z in
      if (if (last <? 0)%Z then (p <=? Z.of_nat (List.length (s_comps s)) + last)%Z else (p <? last)%Z)
      then nth_error (see_all h s) (Z.to_nat p) else None.
Proof.
  intros vec orient rest place h s first last h' s' C X P F L E k. cbv zeta. pose proof (copy_new _ _ _ _ _ _ _ _ _ _ k X E) as N.
  set (n := List.length (s_comps s)) in *. unfold copied in N. fold n in N. rewrite nth_slice in N. fold n in N.
  set (last' := if (last <? 0)%Z then (last + (1 + Z.of_nat n))%Z else last) in N.
  assert (L' : (0 <= last')%Z) by (unfold last'; destruct (Z.ltb_spec last 0); lia).
  assert (B : forall i, (0 <= i)%Z -> bound n i = Nat.min (Z.to_nat i) n) by (intros i I; unfold bound; destruct (Z.ltb_spec i 0); lia).
  rewrite !B in N by assumption.
  replace (if (last <? 0)%Z then (first + Z.of_nat k <=? Z.of_nat n + last)%Z else (first + Z.of_nat k <? last)%Z) with (first + Z.of_nat k <? last')%Z
    by (unfold last'; destruct (Z.ltb_spec last 0); destruct (Z.ltb_spec (first + Z.of_nat k) (last + (1 + Z.of_nat n))); destruct (Z.leb_spec (first + Z.of_nat k) (Z.of_nat n + last)); auto; lia).
  unfold see_all. rewrite !nth_error_map.
  assert (Out : forall m, n <= m -> nth_error (s_comps s) m = None) by (intros m M; apply nth_error_None; exact M).
  destruct (Nat.ltb_spec k (Nat.min (Z.to_nat last') n - Nat.min (Z.to_nat first) n)) as [K|K].
  - destruct (Z.ltb_spec (first + Z.of_nat k) last'); [|lia]. replace (Nat.min (Z.to_nat first) n + k) with (Z.to_nat (first + Z.of_nat k)) in N by lia.
    destruct (nth_error (s_comps s) (Z.to_nat (first + Z.of_nat k))) as [a|] eqn:A; [|rewrite N; reflexivity].
    destruct N as (x & HX & La & -> & HN). cbn [option_map]. f_equal.
    destruct (copy_old _ _ _ _ _ _ _ _ _ _ E) as (J & _ & O & _).
    destruct (copy_instance_fields _ _ _ place (h_inst _ _ _ h) x) as (E1 & E2 & E3 & E4 & E5 & E6 & E7 & E8 & _).
    destruct (closed_at _ _ _ _ _ _ C HX) as [CR _].
    unfold see. rewrite HX, HN, E1, E2, E3, E4, E5, E6, E7, J. f_equal. f_equal.
    + destruct (i_at_ref _ _ _ x) as [r|] eqn:R; cbn; auto. rewrite O; auto.
    + destruct (i_rot_ref _ _ _ x) as [r|] eqn:R; cbn; auto. rewrite O; auto.
    + destruct (i_orient _ _ _ x) as [o|] eqn:Oo; [now apply E8|]. exfalso. eapply P; eauto. eapply nth_error_In; eauto.
  - rewrite N. cbn. destruct (Z.ltb_spec (first + Z.of_nat k) last') as [G|G]; auto. rewrite Out; [reflexivity|lia].
Qed.
Print Assumptions C91_copy_shows.
(* with nothing said, a copy has all components *)
Theorem C91_copy_of_all :
  forall vec orient rest place (h : heap vec orient rest) s h' s', closed h -> exists_in h s -> placed h s ->
    copy _ _ _ place h s 0 (-1) = (h', s') -> see_all h' s' = see_all h s /\ s_name s' = s_name s.
Proof.
  intros vec orient rest place h s h' s' C X P E. split.
  - pose proof (C91_copy_shows _ _ _ place h s 0 (-1) h' s' C X P) as T. specialize (T ltac:(lia) ltac:(lia) E). cbv zeta in T. cbn [Z.ltb Z.compare] in T.
    assert (Ext : forall (A : Type) (l m : list A), (forall k, nth_error l k = nth_error m k) -> l = m).
    { intros A l. induction l as [|y t IH]; intros [|z u] H; auto; try (specialize (H 0); discriminate).
      pose proof (H 0) as H0. cbn in H0. injection H0 as ->. f_equal. apply IH. intro k. exact (H (S k)). }
    apply Ext. intro k. rewrite T. replace (Z.to_nat (0 + Z.of_nat k)) with k by lia.
    destruct (Z.leb_spec (0 + Z.of_nat k) (Z.of_nat (List.length (s_comps s)) + -1)) as [G|G]; auto.
    symmetry. apply nth_error_None. unfold see_all. rewrite map_length. lia.
  - unfold copy in E. now injection E as _ <-.
Qed.
Print Assumptions C91_copy_of_all.

(* Copying changes no instrument there is, and nothing that is done to the components of the
   copy later does. *)
Theorem C91_changing_the_copy :
  forall vec orient rest place (h : heap vec orient rest) s first last h' s' hi' t, closed h -> exists_in h t ->
    copy _ _ _ place h s first last = (h', s') -> changes (fun a => In a (s_comps s')) (h_inst _ _ _ h') hi' ->
    see_all (mkH _ _ _ hi' (h_jump _ _ _ h')) t = see_all h t.
Proof.
  intros vec orient rest place h s first last h' s' hi' t C X E Ch. destruct (copy_old _ _ _ _ _ _ _ _ _ _ E) as (J & _ & O & S & _).
  apply see_all_same. intros a I. unfold exists_in in X. rewrite Forall_forall in X. apply see_extended; auto.
  intros b B. cbn. rewrite <- (O b B). apply (changes_other _ _ _ _ _ _ _ Ch). rewrite S. rewrite in_seq. lia.
Qed.
Print Assumptions C91_changing_the_copy.
(* What is done to other components, the names staying, is not seen in the copy.  Missing: the
   names. *)
Theorem C91_changing_the_original_partial :
  forall vec orient rest place (h : heap vec orient rest) s first last h' s' hi',
    copy _ _ _ place h s first last = (h', s') -> changes (fun a => ~ In a (s_comps s')) (h_inst _ _ _ h') hi' ->
    (forall a, option_map (i_name _ _ _) (nth_error hi' a) = option_map (i_name _ _ _) (nth_error (h_inst _ _ _ h') a)) ->
    see_all (mkH _ _ _ hi' (h_jump _ _ _ h')) s' = see_all h' s'.
Proof.
  intros vec orient rest place h s first last h' s' hi' E Ch N. apply see_all_same. intros a I. apply see_same; cbn; auto.
  apply (changes_other _ _ _ _ _ _ _ Ch). tauto.
Qed.
Print Assumptions C91_changing_the_original_partial.

Section Parts.
  Variables (vec orient rest : Type).
  Variable place : option orient -> vec -> option orient -> vec -> orient.
  Variables (position angles : orient -> vec).
  Notation inst := (instance vec orient rest).
  Notation hp := (heap vec orient rest).
  Notation hi h := (h_inst vec orient rest h).
  Notation hj h := (h_jump vec orient rest h).
  Notation cp := (copy vec orient rest place).
  Notation asg := (assign vec orient rest).
  Definition refers (x : inst) (r : nat) : Prop := i_at_ref _ _ _ x = Some r \/ i_rot_ref _ _ _ x = Some r.

  Lemma get_component_in (h : list inst) l n a : get_component _ _ _ h l n = Some a -> In a l.
  Proof.
    unfold get_component. destruct (n =?s "PREVIOUS").
    - destruct (rev l) as [|b t] eqn:R; [discriminate|]. intros [= <-]. apply in_rev. rewrite R. now left.
    - intro F. now apply find_some in F.
  Qed.
  Lemma relink_in (h : list inst) l o ab v r w r' : relink _ _ _ h l o ab v r = Some (w, Some r') -> In r' l.
  Proof.
    unfold relink. destruct r as [r|]; [|discriminate]. destruct (name_of _ _ _ h r) as [n|]; [|discriminate]. destruct (has_named _ _ _ h l n).
    - destruct (get_component _ _ _ h l n) as [a|] eqn:G; [|discriminate]. intros [= _ <-]. eapply get_component_in; eauto.
    - destruct o; discriminate.
  Qed.
  Lemma relink_one_spec l (h : list inst) a h' : relink_one _ _ _ position angles l h a = Some h' ->
    exists x y, nth_error h a = Some x /\ h' = asg h a y /\ nth_error h' a = Some y /\ i_name _ _ _ y = i_name _ _ _ x /\ i_jump _ _ _ y = i_jump _ _ _ x /\ forall r, refers y r -> In r l.
  Proof.
    unfold relink_one. destruct (nth_error h a) as [x|] eqn:X; [|discriminate].
    destruct (relink _ _ _ h l (i_orient _ _ _ x) position (i_at _ _ _ x) (i_at_ref _ _ _ x)) as [[v ar]|] eqn:A; [|discriminate].
    destruct (relink _ _ _ h l (i_orient _ _ _ x) angles (i_rot _ _ _ x) (i_rot_ref _ _ _ x)) as [[w rr]|] eqn:B; [|discriminate].
    intros [= <-]. exists x. eexists. split; [reflexivity|]. split; [reflexivity|]. split; [apply assign_same; apply nth_error_Some; congruence|]. cbn. split; auto. split; auto.
    intros r [R|R]; cbn in R; subst; eapply relink_in; eauto.
  Qed.
  Lemma relink_all_spec l todo : forall (h h' : list inst), relink_all _ _ _ position angles l h todo = Some h' ->
    List.length h' = List.length h /\ (forall b, ~ In b todo -> nth_error h' b = nth_error h b) /\
    (forall b, option_map (fun x => (i_name _ _ _ x, i_jump _ _ _ x)) (nth_error h' b) = option_map (fun x => (i_name _ _ _ x, i_jump _ _ _ x)) (nth_error h b)) /\
    (forall b x r, In b todo -> nth_error h' b = Some x -> refers x r -> In r l).
  Proof.
    induction todo as [|a t IH]; intros h h' E; cbn in E; [injection E as <-; repeat split; auto; intros ? ? ? []|].
    destruct (relink_one _ _ _ position angles l h a) as [h1|] eqn:O; [|discriminate]. apply relink_one_spec in O as (x & y & X & H1 & Y & N & J & R). subst h1.
    apply IH in E as (L & Ot & Nm & Rf). split; [now rewrite L, assign_length|]. split; [|split].
    - intros b NI. rewrite Ot by (intro; apply NI; now right). apply assign_other. intros ->. apply NI. now left.
    - intro b. rewrite Nm. destruct (Nat.eq_dec a b) as [<-|D]; [rewrite X, Y; cbn; now rewrite N, J|now rewrite assign_other].
    - intros b z r I Z Rz. destruct (in_dec Nat.eq_dec b t) as [It|NIt]; [eapply Rf; eauto|]. destruct I as [<-|I]; [|contradiction].
      rewrite Ot in Z by exact NIt. rewrite Y in Z. injection Z as <-. auto.
  Qed.

  (* what a split has done *)
  Lemma split_shape (h h' : hp) s n f g : split _ _ _ place position angles h s n = Some (h', f, g) ->
    exists index h1 f' h2 g', positions _ _ _ (hi h) (s_comps s) n = [index] /\ cp h s 0 (Z.of_nat index + 1) = (h1, f') /\ cp h1 s (Z.of_nat index) (-1) = (h2, g') /\
      s_comps f = s_comps f' /\ s_comps g = s_comps g' /\ relink_all _ _ _ position angles (s_comps g') (hi h2) (s_comps g') = Some (hi h') /\ hj h' = hj h2.
  Proof.
    unfold split. destruct (positions _ _ _ (hi h) (s_comps s) n) as [|index [|? ?]]; try discriminate.
    destruct (cp h s 0 (Z.of_nat index + 1)) as [h1 f'] eqn:E1. destruct (cp h1 s (Z.of_nat index) (-1)) as [h2 g'] eqn:E2.
    destruct (relink_all _ _ _ position angles (s_comps g') (hi h2) (s_comps g')) as [q|] eqn:R; [|discriminate]. intros [= <- <- <-].
    exists index, h1, f', h2, g'. repeat split; auto.
  Qed.
  Lemma split_old (h h' : hp) s n f g : split _ _ _ place position angles h s n = Some (h', f, g) ->
    hj h' = hj h /\ (forall b, b < List.length (hi h) -> nth_error (hi h') b = nth_error (hi h) b).
  Proof.
    intro E. apply split_shape in E as (ix & h1 & f' & h2 & g' & _ & E1 & E2 & _ & _ & R & J). apply relink_all_spec in R as (_ & O & _).
    apply copy_old in E1 as (J1 & L1 & O1 & _). apply copy_old in E2 as (J2 & L2 & O2 & S2 & _). split; [congruence|].
    intros b B. rewrite O, O2, O1; auto; [lia|]. rewrite S2, in_seq. lia.
  Qed.

  Lemma put_length (k : list obj) : forall r j, List.length (put k r j) = List.length k.
  Proof. induction k as [|o t IH]; intros [|r] j; cbn; auto. Qed.
  Lemma put_other (k : list obj) : forall r j q, q <> r -> nth_error (put k r j) q = nth_error k q.
  Proof. induction k as [|o t IH]; intros [|r] j [|q] N; cbn; auto; congruence. Qed.
  Lemma put_same (k : list obj) : forall r j, nth_error (put k r j) r = option_map (fun o => mkObj j (o_cond o)) (nth_error k r).
  Proof. induction k as [|o t IH]; intros [|r] j; cbn; auto. Qed.
  Lemma resolve_other names l : forall k k' q, resolve names l k = Some k' -> ~ In q (map snd l) -> nth_error k' q = nth_error k q.
  Proof.
    induction l as [|[i r] t IH]; intros k k' q E N; cbn in *; [congruence|]. destruct (nth_error k r) as [o|]; [|discriminate].
    destruct (set_target names i (o_jump o)) as [j|]; [|discriminate]. rewrite (IH _ _ _ E) by tauto. apply put_other. intros ->. tauto.
  Qed.
  Lemma resolve_same names l : forall k m k', (forall q, In q (map snd l) -> nth_error m q = nth_error k q) -> resolve names l k = Some k' ->
    exists m', resolve names l m = Some m' /\ forall q, In q (map snd l) -> nth_error m' q = nth_error k' q.
  Proof.
    induction l as [|[i r] t IH]; intros k m k' A E; cbn in *; [exists m; split; auto; intros q []|].
    rewrite (A r) by auto. destruct (nth_error k r) as [o|] eqn:K; [|discriminate]. destruct (set_target names i (o_jump o)) as [j|]; [|discriminate].
    assert (A' : forall q, In q (r :: map snd t) -> nth_error (put m r j) q = nth_error (put k r j) q).
    { intros q Q. destruct (Nat.eq_dec q r) as [->|D]; [rewrite !put_same, (A r) by auto; reflexivity|rewrite !put_other by auto; apply A; destruct Q; auto]. }
    destruct (IH (put k r j) (put m r j) k') as (m' & M & S); auto; [intros q Q; apply A'; now right|]. exists m'. split; auto.
    intros q [<-|Q]; auto. destruct (in_dec Nat.eq_dec r (map snd t)) as [I|I]; auto. rewrite (resolve_other _ _ _ _ _ M I), (resolve_other _ _ _ _ _ E I). apply A'. now left.
  Qed.
  Lemma pairs_jumps (h : list inst) l : forall i, map snd (jump_pairs _ _ _ h i l) = flat_map (jumps_of _ _ _ h) l.
  Proof.
    induction l as [|a t IH]; intro i; cbn; auto. rewrite map_app, map_map. cbn. rewrite map_id. f_equal. apply IH.
  Qed.
  Lemma in_jumps (h : list inst) l j : In j (flat_map (jumps_of _ _ _ h) l) <-> exists a x, In a l /\ nth_error h a = Some x /\ In j (i_jump _ _ _ x).
  Proof.
    rewrite in_flat_map. unfold jumps_of. split.
    - intros (a & I & J). destruct (nth_error h a) as [x|] eqn:X; [|destruct J]. eauto.
    - intros (a & x & I & X & J). exists a. rewrite X. auto.
  Qed.
  Lemma translate_spec (h h' : hp) s : translate _ _ _ h s = Some h' -> hi h' = hi h /\
    forall j, ~ In j (flat_map (jumps_of _ _ _ (hi h)) (s_comps s)) -> nth_error (hj h') j = nth_error (hj h) j.
  Proof.
    unfold translate. destruct (resolve _ _ (hj h)) as [k|] eqn:R; [|discriminate]. intros [= <-]. split; auto. intros j N. eapply resolve_other; eauto. now rewrite pairs_jumps.
  Qed.
  Lemma translate_same (h m h' : hp) s : hi m = hi h -> (forall j, In j (flat_map (jumps_of _ _ _ (hi h)) (s_comps s)) -> nth_error (hj m) j = nth_error (hj h) j) ->
    translate _ _ _ h s = Some h' -> exists m', translate _ _ _ m s = Some m' /\ forall j, In j (flat_map (jumps_of _ _ _ (hi h)) (s_comps s)) -> nth_error (hj m') j = nth_error (hj h') j.
  Proof.
    unfold translate. intros HI A. rewrite HI. destruct (resolve _ _ (hj h)) as [k|] eqn:R; [|discriminate]. intros [= <-].
    destruct (fun H => resolve_same _ _ (hj h) (hj m) k H R) as (m' & -> & S); [intros q Q; apply A; now rewrite pairs_jumps in Q|].
    eexists. split; [reflexivity|]. intros j J. apply S. now rewrite pairs_jumps.
  Qed.

  Lemma in_combine_seq {A} (l : list A) : forall b i a, In (i, a) (combine (seq b (List.length l)) l) -> b <= i /\ nth_error l (i - b) = Some a.
  Proof.
    induction l as [|x t IH]; intros b i a I; cbn in I; [destruct I|]. destruct I as [I|I].
    - injection I as <- <-. rewrite Nat.sub_diag. auto.
    - apply IH in I as [L E]. split; [lia|]. replace (i - b) with (S (i - S b)) by lia. exact E.
  Qed.
  Lemma positions_at (h : list inst) l n i : In i (positions _ _ _ h l n) -> exists a x, nth_error l i = Some a /\ nth_error h a = Some x /\ i_name _ _ _ x = n.
  Proof.
    unfold positions. intro I. apply in_map_iff in I as ([k a] & E & I). cbn in E. subst k. apply filter_In in I as [I N]. apply in_combine_seq in I as [_ I]. rewrite Nat.sub_0_r in I.
    cbn in N. unfold named, name_of in N. destruct (nth_error h a) as [x|] eqn:X; [|discriminate]. cbn in N. apply String.eqb_eq in N. eauto.
  Qed.
  (* a component of a copy has the jumps of a component of the original between the bounds *)
  Lemma copy_jumps (h h' : hp) s first last s' a x : exists_in h s -> (0 <= first)%Z -> cp h s first last = (h', s') -> In a (s_comps s') -> nth_error (hi h') a = Some x ->
    exists p b y, nth_error (s_comps s) p = Some b /\ nth_error (hi h) b = Some y /\ i_jump _ _ _ x = i_jump _ _ _ y /\ (first <= Z.of_nat p)%Z /\ ((0 <= last)%Z -> (Z.of_nat p < last)%Z).
  Proof.
    intros X F E I HX. apply In_nth_error in I as [k K]. pose proof (copy_new _ _ _ _ _ _ _ _ _ _ k X E) as N.
    destruct (nth_error (copied s first last) k) as [b|] eqn:B; [|congruence]. destruct N as (y & Y & Lb & K' & N). assert (a = List.length (hi h) + k) by congruence. subst a.
    rewrite N in HX. injection HX as <-. unfold copied in B. rewrite nth_slice in B. destruct (Nat.ltb_spec k (bound (List.length (s_comps s)) (if (last <? 0)%Z then last + (1 + Z.of_nat (List.length (s_comps s))) else last)%Z - bound (List.length (s_comps s)) first)) as [Lk|]; [|discriminate].
    eexists. exists b, y. split; [exact B|]. split; auto. split; [apply copy_instance_fields|]. revert Lk. unfold bound at 2 3. destruct (Z.ltb_spec first 0); [lia|]. intro Lk.
    assert (P : bound (List.length (s_comps s)) first + k < List.length (s_comps s)) by (apply nth_error_Some; congruence). unfold bound in P |- *. destruct (Z.ltb_spec first 0); [lia|]. split; [lia|].
    intro L0. revert Lk. destruct (Z.ltb_spec last 0); [lia|]. unfold bound. destruct (Z.ltb_spec last 0); lia.
  Qed.
  Lemma exists_in_later (h h' : hp) s : List.length (hi h) <= List.length (hi h') -> exists_in h s -> exists_in h' s.
  Proof. unfold exists_in. intros L. apply Forall_impl. intros a. lia. Qed.
End Parts.

(* Splitting changes no instrument there is. *)
Theorem C91_split_leaves_the_original :
  forall vec orient rest place position angles (h : heap vec orient rest) s n h' f g t, closed h -> exists_in h t ->
    split _ _ _ place position angles h s n = Some (h', f, g) -> see_all h' t = see_all h t.
Proof.
  intros vec orient rest place position angles h s n h' f g t C X E. apply split_old in E as (J & O).
  apply see_all_same. intros a I. unfold exists_in in X. rewrite Forall_forall in X. now apply see_extended; auto.
Qed.
Print Assumptions C91_split_leaves_the_original.
(* The second part stands on its own: whatever is done to other components, names included,
   is not seen in it. *)
Theorem C91_second_part_on_its_own :
  forall vec orient rest place position angles (h : heap vec orient rest) s n h' f g hi',
    split _ _ _ place position angles h s n = Some (h', f, g) -> changes (fun a => ~ In a (s_comps g)) (h_inst _ _ _ h') hi' ->
    see_all (mkH _ _ _ hi' (h_jump _ _ _ h')) g = see_all h' g.
Proof.
  intros vec orient rest place position angles h s n h' f g hi' E Ch. apply split_shape in E as (ix & h1 & f' & h2 & g' & _ & E1 & E2 & _ & Sg & R & J).
  apply relink_all_spec in R as (_ & _ & _ & Rf). rewrite <- Sg in Rf. assert (O : forall a, In a (s_comps g) -> nth_error hi' a = nth_error (h_inst _ _ _ h') a) by (intros a I; apply (changes_other _ _ _ _ _ _ _ Ch); tauto).
  apply see_all_same. intros a I. apply see_same; cbn; auto. intros x r Hx Hr. rewrite O; auto. eapply Rf; eauto.
Qed.
Print Assumptions C91_second_part_on_its_own.

Definition has_jump {vec orient rest} (h : heap vec orient rest) (s : instrument) (j : nat) : Prop :=
  exists a x, In a (s_comps s) /\ nth_error (h_inst _ _ _ h) a = Some x /\ In j (i_jump _ _ _ x).
(* Translating an instrument is not seen in another that has none of its jumps. *)
Theorem C91_translating_another :
  forall vec orient rest (h : heap vec orient rest) s t h', (forall j, has_jump h s j -> ~ has_jump h t j) ->
    translate _ _ _ h s = Some h' -> see_all h' t = see_all h t.
Proof.
  intros vec orient rest h s t h' D E. apply translate_spec in E as [HI O]. apply see_all_same. intros a I. apply see_same; rewrite ?HI; auto.
  intros x j Hx Hj. apply O. rewrite in_jumps. intro H. apply (D j H). exists a, x. auto.
Qed.
Print Assumptions C91_translating_another.
(* The parts can be translated one after the other: neither is seen in the other, and the
   second becomes what it would have become alone.  This needs that no two components of the
   instrument have a jump in common, which COPY gives them, and that the component the parts
   share has no jump. *)
Theorem C91_parts_one_after_the_other_partial :
  forall vec orient rest place position angles (h : heap vec orient rest) s n h' f g h1 h2, exists_in h s ->
    (forall p q a b x y j, nth_error (s_comps s) p = Some a -> nth_error (s_comps s) q = Some b -> nth_error (h_inst _ _ _ h) a = Some x -> nth_error (h_inst _ _ _ h) b = Some y ->
       In j (i_jump _ _ _ x) -> In j (i_jump _ _ _ y) -> p = q) ->
    (forall a x, In a (s_comps s) -> nth_error (h_inst _ _ _ h) a = Some x -> i_name _ _ _ x = n -> i_jump _ _ _ x = []) ->
    split _ _ _ place position angles h s n = Some (h', f, g) -> translate _ _ _ h' f = Some h1 -> translate _ _ _ h' g = Some h2 ->
    exists h3, translate _ _ _ h1 g = Some h3 /\ see_all h3 g = see_all h2 g /\ see_all h3 f = see_all h1 f.
Proof.
  intros vec orient rest place position angles h s n h' f g h1 h2 X Own No E T1 T2.
  assert (D : forall j, has_jump h' f j -> ~ has_jump h' g j).
  { apply split_shape in E as (ix & k1 & f' & k2 & g' & P & E1 & E2 & Sf & Sg & R & J). apply relink_all_spec in R as (_ & _ & Nj & _).
    destruct (positions_at _ _ _ (h_inst _ _ _ h) (s_comps s) n ix) as (c & z & Pc & Pz & Pn); [rewrite P; now left|].
    destruct (copy_old _ _ _ _ _ _ _ _ _ _ E1) as (_ & L1 & O1 & _). destruct (copy_old _ _ _ _ _ _ _ _ _ _ E2) as (_ & L2 & O2 & _).
    assert (Jm : forall a x, nth_error (h_inst _ _ _ h') a = Some x -> exists y, nth_error (h_inst _ _ _ k2) a = Some y /\ i_jump _ _ _ y = i_jump _ _ _ x).
    { intros a x Hx. specialize (Nj a). rewrite Hx in Nj. cbn in Nj. destruct (nth_error (h_inst _ _ _ k2) a) as [y|]; [|discriminate]. cbn in Nj. injection Nj as _ Nj. eauto. }
    intros j (a & x & Ia & Ha & Ja) (b & y & Ib & Hb & Jb). rewrite Sf in Ia. rewrite Sg in Ib.
    apply Jm in Ha as (x2 & Ha & Ex). apply Jm in Hb as (y2 & Hb & Ey). rewrite <- Ex in Ja. rewrite <- Ey in Jb.
    assert (Ha1 : nth_error (h_inst _ _ _ k1) a = Some x2).
    { rewrite <- Ha. symmetry. apply O2. destruct (copy_old _ _ _ _ _ _ _ _ _ _ E1) as (_ & _ & _ & S1 & H1). rewrite S1, in_seq in Ia. rewrite H1, app_length, map_length. lia. }
    destruct (copy_jumps _ _ _ _ _ _ _ _ _ _ _ _ X (Z.le_refl 0) E1 Ia Ha1) as (p & c1 & u & P1 & U & Ju & _ & B1). specialize (B1 ltac:(lia)).
    destruct (copy_jumps _ _ _ _ _ _ _ _ _ _ _ _ (exists_in_later _ _ _ _ _ _ L1 X) (Nat2Z.is_nonneg ix) E2 Ib Hb) as (q & c2 & v & Q1 & V & Jv & B2 & _).
    assert (V' : nth_error (h_inst _ _ _ h) c2 = Some v). { rewrite <- V. symmetry. apply O1. unfold exists_in in X. rewrite Forall_forall in X. apply X. eapply nth_error_In; eauto. }
    rewrite Ju in Ja. rewrite Jv in Jb. assert (PQ : p = q) by (eapply Own; [exact P1|exact Q1|exact U|exact V'|exact Ja|exact Jb]). subst q. assert (p = ix) by lia. subst p.
    assert (c1 = c) by congruence. subst c1. assert (u = z) by congruence. subst u. rewrite (No c z) in Ja; auto. eapply nth_error_In; eauto. }
  destruct (translate_spec _ _ _ _ _ _ T1) as [I1 O1]. destruct (translate_spec _ _ _ _ _ _ T2) as [I2 O2].
  destruct (translate_same _ _ _ h' h1 h2 g I1) as (h3 & T3 & S3); auto.
  { intros j Hj. apply O1. rewrite in_jumps in *. intro Hf. exact (D j Hf Hj). }
  exists h3. split; auto. destruct (translate_spec _ _ _ _ _ _ T3) as [I3 O3]. split.
  - apply see_all_same. intros a Ia. apply see_same; rewrite ?I3, ?I1, ?I2; auto. intros x j Hx Hj. apply S3. rewrite in_jumps. eauto.
  - apply (C91_translating_another _ _ _ h1 g f h3); auto. intros j (a & x & Ia & Ha & Ja) (b & y & Ib & Hb & Jb). rewrite I1 in *. apply (D j); [exists b, y|exists a, x]; auto.
Qed.
Print Assumptions C91_parts_one_after_the_other_partial.

(** * Examples *)
Definition c91_jump (t : string) (rel : Z) : obj := mkObj (mkPj t rel false (-1)) int10.
Definition c91_inst (n : string) (v : Z) (r : option nat) (js : list nat) : instance Z Z string := mkI _ _ _ n v r 0%Z None (Some v) "Arm" js false.
Definition c91_place (a : option Z) (v : Z) (b : option Z) (w : Z) : Z := (v + w)%Z.
(* a; b relative to a; c relative to b, which jumps to b; d, with JUMP PREVIOUS *)
Definition c91_heap : heap Z Z string :=
  mkH _ _ _ [c91_inst "a" 1 None []; c91_inst "b" 2 (Some 0) []; c91_inst "c" 3 (Some 1) [0]; c91_inst "d" 4 (Some 0) [1]] [c91_jump "b" 0; c91_jump "PREVIOUS" (-1)].
Definition c91_instr : instrument := mkS "i" [0; 1; 2; 3].
Lemma c91_closed : closed c91_heap /\ exists_in c91_heap c91_instr /\ placed c91_heap c91_instr.
Proof.
  split; [|split].
  - apply Forall_forall. intros x I. cbn in I. destruct I as [<-|[<-|[<-|[<-|[]]]]]; (split; [intros r [E|E]; cbn in E; try discriminate; injection E as <-; cbn; lia|intros j J; cbn in J |- *; intuition lia]).
  - repeat constructor; cbn; lia.
  - intros a x I E. cbn in I. destruct I as [<-|[<-|[<-|[<-|[]]]]]; cbn in E; injection E as <-; discriminate.
Qed.
Example C91_copy_shows_example :
  exists h' s', copy _ _ _ c91_place c91_heap c91_instr 1 (-2) = (h', s') /\ s_comps s' = [4; 5] /\
    nth_error (see_all h' s') 1 = nth_error (see_all c91_heap c91_instr) 2 /\ nth_error (see_all h' s') 2 = None.
Proof. do 2 eexists. split; [reflexivity|]. repeat split. Qed.
Example C91_copy_of_all_example : closed c91_heap /\ exists_in c91_heap c91_instr /\ placed c91_heap c91_instr.
Proof. exact c91_closed. Qed.
Example C91_changing_the_copy_example :
  exists h' s' hi', copy _ _ _ c91_place c91_heap c91_instr 0 (-1) = (h', s') /\ changes (fun a => In a (s_comps s')) (h_inst _ _ _ h') hi' /\ hi' <> h_inst _ _ _ h'.
Proof.
  do 2 eexists. exists (assign _ _ _ (h_inst _ _ _ c91_heap ++ h_inst _ _ _ c91_heap) 4 (c91_inst "z" 9 None [])). split; [reflexivity|].
  split; [eapply (ch_one _ _ 4); [vm_compute; tauto|apply ch_none]|discriminate].
Qed.
Example C91_changing_the_original_example :
  exists h' s' hi', copy _ _ _ c91_place c91_heap c91_instr 0 (-1) = (h', s') /\ changes (fun a => ~ In a (s_comps s')) (h_inst _ _ _ h') hi' /\ hi' <> h_inst _ _ _ h' /\
    forall a, option_map (i_name _ _ _) (nth_error hi' a) = option_map (i_name _ _ _) (nth_error (h_inst _ _ _ h') a).
Proof.
  do 2 eexists. exists (assign _ _ _ (h_inst _ _ _ c91_heap ++ h_inst _ _ _ c91_heap) 0 (c91_inst "a" 9 None [])). split; [reflexivity|].
  split; [eapply (ch_one _ _ 0); [vm_compute; intuition discriminate|apply ch_none]|]. split; [discriminate|]. intros [|a]; reflexivity.
Qed.
Example C91_split_example :
  exists h' f g h1 h2, split _ _ _ c91_place (fun o => o) (fun _ => 0%Z) c91_heap c91_instr "b" = Some (h', f, g) /\
    s_comps f = [4; 5] /\ s_comps g = [6; 7; 8] /\ translate _ _ _ h' f = Some h1 /\ translate _ _ _ h' g = Some h2 /\
    map (option_map (fun c => (v_at_ref c, v_at c, map (option_map (fun o => pj_abs (o_jump o))) (v_jumps c)))) (see_all h2 g) =
      [Some (None, 2%Z, []); Some (Some (Some "b"), 3%Z, [Some 0%Z]); Some (None, 4%Z, [Some 1%Z])].
Proof. do 5 eexists. split; [reflexivity|]. split; [reflexivity|]. split; [reflexivity|]. split; [reflexivity|]. split; reflexivity. Qed.
Example C91_parts_example :
  (forall p q a b x y j, nth_error (s_comps c91_instr) p = Some a -> nth_error (s_comps c91_instr) q = Some b -> nth_error (h_inst _ _ _ c91_heap) a = Some x ->
     nth_error (h_inst _ _ _ c91_heap) b = Some y -> In j (i_jump _ _ _ x) -> In j (i_jump _ _ _ y) -> p = q) /\
  (forall a x, In a (s_comps c91_instr) -> nth_error (h_inst _ _ _ c91_heap) a = Some x -> i_name _ _ _ x = "b" -> i_jump _ _ _ x = []).
Proof.
  split.
  - intros [|[|[|[|[|]]]]] [|[|[|[|[|]]]]] a b x y j A B X Y; cbn in A, B; try discriminate; injection A as <-; injection B as <-; cbn in X, Y; injection X as <-; injection Y as <-; cbn; intuition (try lia).
  - intros a x I E. cbn in I. destruct I as [<-|[<-|[<-|[<-|[]]]]]; cbn in E; injection E as <-; cbn; congruence.
Qed.
Example C91_translating_another_example :
  exists h' f g, split _ _ _ c91_place (fun o => o) (fun _ => 0%Z) c91_heap c91_instr "b" = Some (h', f, g) /\
    (forall j, has_jump h' f j -> ~ has_jump h' g j) /\ has_jump h' g 0 /\ exists h1, translate _ _ _ h' g = Some h1 /\ h1 <> h'.
Proof.
  do 3 eexists. split; [reflexivity|]. split; [|split; [exists 7; eexists; split; [vm_compute; tauto|split; [reflexivity|left; reflexivity]]|eexists; split; [reflexivity|discriminate]]].
  intros j (a & x & Ia & Ha & Ja). cbn in Ia. destruct Ia as [<-|[<-|[]]]; cbn in Ha; injection Ha as <-; destruct Ja.
Qed.

(* A copy refers to components of the original: when one of these is given another name the
   copy refers to a component it does not have. *)
Theorem C91_renaming_the_original_refuted :
  exists (h : heap Z Z string) s h' s' x c r, closed h /\ exists_in h s /\ placed h s /\ copy _ _ _ c91_place h s 0 (-1) = (h', s') /\ ~ In 0 (s_comps s') /\
    (let h'' := mkH _ _ _ (assign _ _ _ (h_inst _ _ _ h') 0 x) (h_jump _ _ _ h') in
     In (Some c) (see_all h'' s') /\ v_at_ref c = Some (Some r) /\ forall d, In (Some d) (see_all h'' s') -> v_name d <> r).
Proof.
  exists c91_heap, c91_instr. do 2 eexists. exists (c91_inst "z" 1 None []). do 2 eexists. split; [apply c91_closed|]. split; [apply c91_closed|]. split; [apply c91_closed|].
  split; [reflexivity|]. split; [vm_compute; intuition discriminate|]. cbv zeta. split; [right; left; reflexivity|]. split; [reflexivity|].
  cbn. intros d I. repeat (destruct I as [I|I]; [injection I as <-; cbn; discriminate|]). destruct I.
Qed.
Print Assumptions C91_renaming_the_original_refuted.
(* With a last further back than the first component, all components but one are copied
   instead of none. *)
Theorem C91_far_back_refuted :
  forall vec orient rest place (h : heap vec orient rest) s h' s', exists_in h s -> s_comps s <> [] ->
    copy _ _ _ place h s 0 (- Z.of_nat (List.length (s_comps s)) - 2) = (h', s') -> List.length (s_comps s') = List.length (s_comps s) - 1.
Proof.
  intros vec orient rest place h s h' s' X N E. apply copy_old in E as (_ & _ & _ & S & _). rewrite S, seq_length, objects_length by (apply slice_Forall; exact X).
  unfold copied, slice. set (n := List.length (s_comps s)). assert (n <> 0) by (unfold n; destruct (s_comps s); cbn; congruence).
  destruct (Z.ltb_spec (- Z.of_nat n - 2) 0); [|lia]. rewrite firstn_length, skipn_length. fold n. unfold bound. destruct (Z.ltb_spec (- Z.of_nat n - 2 + (1 + Z.of_nat n)) 0); [|lia]. change (0 <? 0)%Z with false. cbv iota. change (Z.to_nat 0) with 0. rewrite Nat.min_0_l. lia.
Qed.
Print Assumptions C91_far_back_refuted.
(* The component at which an instrument is split is in both parts, and both have the same
   jumps: once the first part is translated, the second jumps to where that component is in the
   first.  Here a component with JUMP PREVIOUS. *)
Theorem C91_jump_of_the_split_component_refuted :
  exists (h : heap Z Z string) s n h' f g h1 h2 c o, closed h /\ exists_in h s /\ placed h s /\
    split _ _ _ c91_place (fun o => o) (fun _ => 0%Z) h s n = Some (h', f, g) /\ translate _ _ _ h' f = Some h1 /\ translate _ _ _ h1 g = Some h2 /\
    nth_error (see_all h2 g) 0 = Some (Some c) /\ v_name c = n /\ v_jumps c = [Some o] /\ pj_rel (o_jump o) = (-1)%Z /\ pj_abs (o_jump o) = 2%Z /\ List.length (s_comps g) = 1.
Proof.
  exists c91_heap, c91_instr, "d". do 7 eexists. split; [apply c91_closed|]. split; [apply c91_closed|]. split; [apply c91_closed|].
  split; [reflexivity|]. split; [reflexivity|]. split; [reflexivity|]. split; [reflexivity|]. repeat split.
Qed.
Print Assumptions C91_jump_of_the_split_component_refuted.
(* An instrument that was translated before it is split gives a second part whose jumps go to
   other components than those they name. *)
Theorem C91_split_after_translating_refuted :
  exists (h : heap Z Z string) s n h0 h' f g h2 c o d, closed h /\ exists_in h s /\ placed h s /\
    translate _ _ _ h s = Some h0 /\ split _ _ _ c91_place (fun o => o) (fun _ => 0%Z) h0 s n = Some (h', f, g) /\ translate _ _ _ h' g = Some h2 /\
    In (Some c) (see_all h2 g) /\ v_jumps c = [Some o] /\ pj_target (o_jump o) = n /\ nth_error (see_all h2 g) (Z.to_nat (pj_abs (o_jump o))) = Some (Some d) /\ v_name d <> n.
Proof.
  exists c91_heap, c91_instr, "b". do 8 eexists. split; [apply c91_closed|]. split; [apply c91_closed|]. split; [apply c91_closed|].
  split; [reflexivity|]. split; [reflexivity|]. split; [reflexivity|]. split; [right; left; reflexivity|]. split; [reflexivity|]. split; [reflexivity|]. split; [reflexivity|]. discriminate.
Qed.
Print Assumptions C91_split_after_translating_refuted.
