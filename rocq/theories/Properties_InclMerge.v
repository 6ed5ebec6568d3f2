(** C69: an included instrument file counts like its text in the place of the %include line.
    C70: what the two ways of reading an instrument keep. *)
From Coq Require Import List String Bool Arith Lia Ascii.
From Verif Require Import PyStr Expr InstrModel Refs InclMerge.
Import ListNotations.
Local Open Scope string_scope.
Local Open Scope list_scope.

(** ** Specification *)
Section Spec.
Variables P M : Type.
Notation header := (header P M).
Notation titem := (titem P M).
(** the first of the entries of every name, in order *)
Fixpoint firsts {A} (l : list (string * A)) : list (string * A) :=
  match l with [] => [] | x :: t => x :: filter (fun y : string * A => negb (fst y =?s fst x)) (firsts t) end.
(** the last of the entries of every name, in order *)
Fixpoint lasts {A} (l : list (string * A)) : list (string * A) :=
  match l with [] => [] | x :: t => if existsb (fun y : string * A => fst y =?s fst x) t then lasts t else x :: lasts t end.
(** the TRACE section as one text: the items of the included files stand in the place of the line, without the REMOVABLE instances *)
Fixpoint in_place (inside : bool) (it : titem) : list titem :=
  match it with
  | TComp d ps => if inside && d_removable d then [] else [it]
  | TSearch _ => [it]
  | TIncl h l => map (@TSearch P M) (h_search h) ++ flat_map (in_place true) l
  end.
(** a part of all included files, in order; [before]: in front of what the file itself includes *)
Fixpoint parts {A} (before : bool) (part : header -> list A) (it : titem) : list A :=
  match it with
  | TIncl h l => if before then part h ++ flat_map (parts before part) l else flat_map (parts before part) l ++ part h
  | _ => []
  end.
(** the whole file as one text *)
Definition one_text (h : header) (l : list titem) : header :=
  let pre {A} (f : header -> list A) := f h ++ flat_map (parts true f) l in
  let post {A} (f : header -> list A) := flat_map (parts false f) l ++ f h in
  mkH (h_name h) (firsts (pre (@h_params P M))) (h_search h) (pre (@h_metas P M)) (h_deps h)
    (pre (@h_decl P M)) (pre (@h_user P M)) (pre (@h_init P M)) (post (@h_save P M)) (post (@h_final P M)).
(** references as the grammar has them, and not PREVIOUS(0) (see C19) *)
Definition plain_ref (r : cref) : Prop := match r with CPrev (Some n) => n <> 0 | CPrev None => True | CName n => n <> "PREVIOUS" end.
Definition plain_decl (d : decl) : Prop :=
  (exists n, d_name d = NId n) /\ (forall r, d_type d = TCopy r \/ d_at d = Some r \/ d_rot d = Some (Some r) -> plain_ref r).
(** in included files instances have names of their own *)
Fixpoint plain (inside : bool) (it : titem) : Prop :=
  match it with
  | TComp d _ => inside = true -> plain_decl d
  | TSearch _ => True
  | TIncl _ l => fold_right (fun x q => plain true x /\ q) True l
  end.
(** included files have no REMOVABLE instances *)
Fixpoint fixed (inside : bool) (it : titem) : Prop :=
  match it with
  | TComp d _ => inside = true -> d_removable d = false
  | TSearch _ => True
  | TIncl _ l => fold_right (fun x q => fixed true x /\ q) True l
  end.
End Spec.
Arguments in_place {P M} _ _. Arguments parts {P M A} _ _ _. Arguments one_text {P M} _ _. Arguments plain {P M} _ _. Arguments fixed {P M} _ _.

(** ** Lists *)
Lemma fold_right_and {A} (f : A -> Prop) l : fold_right (fun x q => f x /\ q) True l <-> Forall f l.
Proof. induction l as [|x t IH]; cbn; [split; auto|]. rewrite IH. split; [intros []; now constructor|intro H; inversion H; auto]. Qed.
Lemma filter_filter {A} (f g : A -> bool) l : filter f (filter g l) = filter (fun x => g x && f x) l.
Proof. induction l as [|x t IH]; cbn; [reflexivity|]. destruct (g x); cbn; [destruct (f x); now rewrite IH|exact IH]. Qed.
Lemma filter_true {A} (f : A -> bool) l : (forall x, In x l -> f x = true) -> filter f l = l.
Proof. induction l as [|x t IH]; intro H; cbn; [reflexivity|]. rewrite (H x (or_introl eq_refl)), IH; auto. intros; apply H; now right. Qed.
Lemma eqb_sym' a b : (a =?s b) = (b =?s a).
Proof. apply String.eqb_sym. Qed.
Lemma has_app {A} (a b : list (string * A)) n : has (a ++ b) n = has a n || has b n.
Proof. unfold has. apply existsb_app. Qed.
Lemma has_filter {A} (f : string -> bool) (l : list (string * A)) n : has (filter (fun x => f (fst x)) l) n = has l n && f n.
Proof.
  unfold has. induction l as [|x t IH]; [reflexivity|]. cbn [filter existsb]. destruct (f (fst x)) eqn:E.
  - cbn [existsb]. rewrite IH. destruct (n =?s fst x) eqn:E'; [|reflexivity]. apply String.eqb_eq in E'. subst. now rewrite E.
  - rewrite IH. destruct (n =?s fst x) eqn:E'; [|reflexivity]. apply String.eqb_eq in E'. subst. rewrite E. now rewrite !andb_false_r.
Qed.
Lemma has_firsts {A} (l : list (string * A)) n : has (firsts l) n = has l n.
Proof.
  induction l as [|x t IH]; [reflexivity|]. cbn [firsts]. unfold has in *. cbn [existsb]. destruct (n =?s fst x) eqn:E; [reflexivity|]. cbn.
  pose proof (has_filter (fun k => negb (k =?s fst x)) (firsts t) n) as F. unfold has in F. rewrite F, IH, E. cbn. now rewrite andb_true_r.
Qed.
Lemma fold_add_new {P} (x a : list (string * P)) :
  fold_left add_new x a = a ++ filter (fun y : string * P => negb (has a (fst y))) (firsts x).
Proof.
  revert a. induction x as [|y t IH]; intro a; cbn [fold_left firsts filter]; [now rewrite app_nil_r|]. rewrite IH. unfold add_new. destruct (has a (fst y)) eqn:E; cbn.
  - f_equal. rewrite filter_filter. apply filter_ext. intros [k v]. cbn. destruct (k =?s fst y) eqn:E'; [|reflexivity]. apply String.eqb_eq in E'. subst. now rewrite E.
  - rewrite <- app_assoc. cbn. f_equal. f_equal. rewrite filter_filter. apply filter_ext. intros [k v]. cbn [fst]. rewrite has_app. unfold has at 2. cbn [existsb fst]. rewrite orb_false_r, negb_orb. apply andb_comm.
Qed.
Lemma firsts_app {P} (a b : list (string * P)) : firsts (a ++ b) = firsts a ++ filter (fun y : string * P => negb (has a (fst y))) (firsts b).
Proof.
  induction a as [|x t IH]; cbn [app firsts].
  - symmetry. apply filter_true. reflexivity.
  - rewrite IH, filter_app, filter_filter. cbn [app]. f_equal. f_equal. apply filter_ext. intros [k v]. unfold has. cbn [existsb fst]. rewrite negb_orb. apply andb_comm.
Qed.
Lemma firsts_idem {P} (l : list (string * P)) : firsts (firsts l) = firsts l.
Proof.
  induction l as [|x t IH]; [reflexivity|]. cbn [firsts]. f_equal.
  assert (F : forall (f : string -> bool) (l : list (string * P)), firsts (filter (fun y => f (fst y)) l) = filter (fun y => f (fst y)) (firsts l)).
  { clear. intros f l. induction l as [|x t IH]; [reflexivity|]. cbn [firsts filter]. destruct (f (fst x)) eqn:E; cbn [firsts].
    - f_equal. rewrite IH, !filter_filter. apply filter_ext. intros. apply andb_comm.
    - rewrite IH, filter_filter. apply filter_ext. intros [k v]. cbn. destruct (k =?s fst x) eqn:E'; [|reflexivity]. apply String.eqb_eq in E'. subst. now rewrite E. }
  rewrite (F (fun k => negb (k =?s fst x))), IH, filter_filter. apply filter_ext. intros. apply andb_diag.
Qed.
Lemma add_params_spec {P} (new l l' : list (string * P)) : add_params l new = Ok l' -> l' = l ++ new /\ (forall x, In x new -> has l (fst x) = false) /\ firsts new = new.
Proof.
  revert l. induction new as [|x t IH]; intros l H; cbn in H; [injection H as <-; rewrite app_nil_r; repeat split; intros x []|].
  destruct (has l (fst x)) eqn:E; [discriminate|]. apply IH in H as (-> & H & F). rewrite <- app_assoc. split; [reflexivity|]. split.
  - intros y [<-|Y]; [exact E|]. specialize (H y Y). rewrite has_app in H. now apply orb_false_iff in H.
  - cbn [firsts]. f_equal. rewrite F. apply filter_true. intros y Y. specialize (H y Y). rewrite has_app in H. apply orb_false_iff in H as [_ H]. unfold has in H. cbn in H. now rewrite orb_false_r in H; rewrite H.
Qed.
Lemma add_params_ok {P} (new l : list (string * P)) : firsts new = new -> (forall x, In x new -> has l (fst x) = false) -> add_params l new = Ok (l ++ new).
Proof.
  revert l. induction new as [|x t IH]; intros l F H; cbn; [now rewrite app_nil_r|]. rewrite (H x (or_introl eq_refl)). cbn [firsts] in F. injection F as F.
  assert (F' : firsts t = t /\ forall y, In y t -> fst y =?s fst x = false).
  { assert (L : forall (f : string * P -> bool) l, List.length (filter f l) <= List.length l) by (clear; intros f l; induction l as [|z u IH]; cbn; [auto|]; destruct (f z); cbn; lia).
    assert (L' : forall l : list (string * P), List.length (firsts l) <= List.length l) by (clear - L; induction l as [|z u IH]; cbn; [auto|]; specialize (L (fun y : string * P => negb (fst y =?s fst z)) (firsts u)); lia).
    assert (K : forall (f : string * P -> bool) l, List.length (filter f l) = List.length l -> filter f l = l).
    { clear - L. intros f l. induction l as [|z u IH]; cbn; intro E; [reflexivity|]. destruct (f z); cbn in E; [f_equal; apply IH; lia|]. specialize (L f u). lia. }
    assert (E : filter (fun y : string * P => negb (fst y =?s fst x)) (firsts t) = firsts t).
    { apply K. specialize (L (fun y => negb (fst y =?s fst x)) (firsts t)). specialize (L' t). rewrite F in *. lia. }
    rewrite E in F. split; [exact F|]. intros y Y. rewrite <- F in Y. rewrite <- E in Y. apply filter_In in Y as [_ Y]. now destruct (fst y =?s fst x). }
  destruct F' as [F1 F2]. rewrite IH; [now rewrite <- app_assoc|exact F1|]. intros y Y. rewrite has_app, (H y (or_intror Y)). unfold has. cbn. now rewrite F2.
Qed.
Lemma fold_add_meta {M} (x a : list (string * M)) :
  fold_left add_metadata x a = filter (fun y : string * M => negb (has x (fst y))) a ++ lasts x.
Proof.
  revert a. induction x as [|m t IH]; intro a; cbn [fold_left lasts]; [rewrite app_nil_r; symmetry; apply filter_true; reflexivity|]. rewrite IH.
  assert (E : add_metadata a m = filter (fun y : string * M => negb (fst y =?s fst m)) a ++ [m]).
  { unfold add_metadata. destruct (has a (fst m)) eqn:E; [reflexivity|]. f_equal. symmetry. apply filter_true. intros y Y. destruct (fst y =?s fst m) eqn:E'; [|reflexivity].
    apply String.eqb_eq in E'. assert (has a (fst m) = true) by (apply existsb_exists; exists y; split; [exact Y|rewrite E'; apply String.eqb_refl]). congruence. }
  rewrite E, filter_app, filter_filter, <- app_assoc. f_equal.
  - apply filter_ext. intros [k v]. unfold has. cbn [existsb fst]. now rewrite negb_orb.
  - cbn [filter]. unfold has. replace (existsb (fun y : string * M => fst y =?s fst m) t) with (existsb (fun x => fst m =?s fst x) t) by (clear; induction t; cbn; [reflexivity|]; now rewrite IHt, eqb_sym').
    now destruct (existsb _ t).
Qed.
Lemma has_lasts {M} (l : list (string * M)) n : has (lasts l) n = has l n.
Proof.
  induction l as [|x t IH]; [reflexivity|]. cbn [lasts]. destruct (existsb _ t) eqn:E; unfold has in *; cbn [existsb]; rewrite IH; [|reflexivity].
  destruct (n =?s fst x) eqn:E'; [|reflexivity]. apply String.eqb_eq in E'. subst. cbn. apply existsb_exists in E as (y & Y & E). apply existsb_exists. exists y. split; [exact Y|]. now rewrite eqb_sym'.
Qed.
Lemma lasts_idem {M} (l : list (string * M)) : lasts (lasts l) = lasts l.
Proof.
  induction l as [|x t IH]; [reflexivity|]. cbn [lasts]. destruct (existsb _ t) eqn:E; [exact IH|]. cbn [lasts]. rewrite IH.
  assert (X : existsb (fun y : string * M => fst y =?s fst x) (lasts t) = false).
  { pose proof (has_lasts t (fst x)) as Q. unfold has in Q.
    assert (Z : forall l : list (string * M), existsb (fun y => fst y =?s fst x) l = existsb (fun y => fst x =?s fst y) l) by (clear; induction l; cbn; [reflexivity|]; now rewrite IHl, eqb_sym').
    rewrite Z in *. congruence. }
  now rewrite X.
Qed.

Section Facts.
Variables P M R : Type.
Variable dec : nat -> string.
Variable definition : list R -> list string -> string -> option (list string * list string).
Variable matches : R -> string -> bool.
Variable from_spec : string -> option R.
Notation header := (header P M).
Notation titem := (titem P M).
Notation trace := (trace dec definition matches from_spec).
Notation trace_item := (trace_item dec definition matches from_spec).
Notation file := (file dec definition matches from_spec).
Notation st := (st P M).

Lemma titems_ind (Q : list titem -> Prop) : Q [] -> (forall d ps l, Q l -> Q (TComp d ps :: l)) -> (forall x l, Q l -> Q (TSearch x :: l)) ->
  (forall h l' l, Q l' -> Q l -> Q (TIncl h l' :: l)) -> forall l, Q l.
Proof.
  intros H0 H1 H2 H3. assert (F : forall it l, Q l -> Q (it :: l)).
  { fix F 1. intros [d ps|x|h l'] l Hl; [now apply H1|now apply H2|]. apply H3; [|exact Hl]. exact ((fix g (l : list titem) : Q l := match l with [] => H0 | x :: t => F x t (g t) end) l'). }
  induction l as [|x t IH]; auto.
Qed.

(** ** Everything but the instances *)
Lemma blocks_app a b : blocks (a ++ b) = blocks a ++ blocks b.
Proof. apply filter_app. Qed.
Lemma start_spec (h : header) (r : rd R) s0 r0 : start matches from_spec h r = Ok (s0, r0) ->
  searches matches from_spec r (h_search h) = Ok r0 /\ firsts (h_params h) = h_params h /\
  s0 = mkS (h_params h) (lasts (h_metas h)) [] [] (h_deps h) (blocks (h_decl h)) (blocks (h_user h)) (blocks (h_init h)) [] [].
Proof.
  unfold start. destruct (add_params [] (h_params h)) as [p| |] eqn:E; try discriminate. destruct (searches _ _ r (h_search h)) as [r'| |]; try discriminate.
  intros [= <- <-]. apply add_params_spec in E as (-> & _ & F). repeat split; [exact F|]. cbn [app]. f_equal. exact (fold_add_meta (h_metas h) []).
Qed.
Lemma add_new_again (a hp x : list (string * P)) : firsts hp = hp -> fold_left add_new (fold_left add_new x hp) a = fold_left add_new (hp ++ x) a.
Proof.
  intro F. rewrite (fold_add_new x hp). rewrite !fold_add_new. f_equal. f_equal.
  assert (E : hp ++ filter (fun y : string * P => negb (has hp (fst y))) (firsts x) = firsts (hp ++ x)) by (rewrite firsts_app, F; reflexivity).
  rewrite E. apply firsts_idem.
Qed.
Lemma add_metadata_again (a hm x : list (string * M)) : fold_left add_metadata (fold_left add_metadata x (lasts hm)) a = fold_left add_metadata (hm ++ x) a.
Proof.
  assert (E : lasts hm = fold_left add_metadata hm []) by (symmetry; exact (fold_add_meta hm [])). rewrite E, <- fold_left_app. rewrite (fold_add_meta (hm ++ x) []). cbn [filter app]. rewrite !fold_add_meta, lasts_idem. f_equal.
  apply filter_ext. intros y. now rewrite has_lasts.
Qed.
Definition direct (it : titem) : list string := match it with TIncl h _ => [h_name h] | _ => [] end.
Record rest (s s' : st) (l : list titem) : Prop := {
  rest_params : params s' = fold_left add_new (flat_map (parts true h_params) l) (params s);
  rest_metas : metas s' = fold_left add_metadata (flat_map (parts true h_metas) l) (metas s);
  rest_included : included s' = included s ++ flat_map direct l;
  rest_flags : flags s' = flags s;
  rest_decl : s_decl s' = s_decl s ++ blocks (flat_map (parts true h_decl) l);
  rest_user : s_user s' = s_user s ++ blocks (flat_map (parts true h_user) l);
  rest_init : s_init s' = s_init s ++ blocks (flat_map (parts true h_init) l);
  rest_save : s_save s' = s_save s ++ blocks (flat_map (parts false h_save) l);
  rest_final : s_final s' = s_final s ++ blocks (flat_map (parts false h_final) l) }.
Lemma trace_rest : forall l dest s r s' r', trace dest s r l = Ok (s', r') -> rest s s' l.
Proof.
  apply (titems_ind (fun l => forall dest s r s' r', trace dest s r l = Ok (s', r') -> rest s s' l)).
  - intros dest s r s' r' [= <- <-]. split; cbn; now rewrite ?app_nil_r.
  - intros d ps l IH dest s r s' r' H. cbn [InclMerge.trace InclMerge.trace_item] in H. destruct (component dec definition dest (comps s) r d ps) as [[c r1]| |]; try discriminate.
    apply IH in H. destruct H. split; assumption.
  - intros x l IH dest s r s' r' H. cbn [InclMerge.trace InclMerge.trace_item] in H. destruct (search matches from_spec r x) as [r1| |]; try discriminate.
    apply IH in H. destruct H. split; assumption.
  - intros h l' l IH' IH dest s r s' r' H. cbn [InclMerge.trace] in H. rewrite trace_incl in H. unfold InclMerge.file in H.
    destruct (start matches from_spec h r) as [[s0 r0]| |] eqn:E; try discriminate. apply start_spec in E as (_ & F & ->).
    match type of H with context [InclMerge.trace _ _ _ _ ?a ?b ?c l'] => destruct (trace a b c l') as [[s1 r1]| |] eqn:E1 end; try discriminate. apply IH' in E1.
    unfold merge in H. destruct (add_comps (comps s) (comps (finish h s1))) as [c| |]; try discriminate. apply IH in H.
    destruct E1 as [A1 A2 A3 A4 A5 A6 A7 A8 A9]. destruct H as [B1 B2 B3 B4 B5 B6 B7 B8 B9]. cbn [finish params metas included flags s_decl s_user s_init s_save s_final] in *.
    split; cbn [flat_map parts direct].
    + rewrite B1, A1, fold_left_app, add_new_again; auto.
    + rewrite B2, A2, fold_left_app, add_metadata_again. reflexivity.
    + rewrite B3, <- app_assoc. reflexivity.
    + exact B4.
    + rewrite B5, A5, !blocks_app, !app_assoc. reflexivity.
    + rewrite B6, A6, !blocks_app, !app_assoc. reflexivity.
    + rewrite B7, A7, !blocks_app, !app_assoc. reflexivity.
    + rewrite B8, A8, !blocks_app, !app_assoc, ?app_nil_r. reflexivity.
    + rewrite B9, A9, !blocks_app, !app_assoc, ?app_nil_r. reflexivity.
Qed.

(** ** The instances *)
Definition fixed_i (x : rinst * list (string * string)) : Prop := r_removable (fst x) = false.
Notation instance := (rinst * list (string * string))%type.
Notation inames l := (names (map fst l)).
Lemma comp_inst_shape dest (c : list rinst) d l : component_instance dec (fun _ => true) dest c d = Ok l ->
  (l = c /\ dest <> None /\ d_removable d = true) \/
  (exists x, l = c ++ [x] /\ r_removable x = d_removable d /\ (dest <> None -> d_removable d = false) /\ ~ In (r_name x) (names c)).
Proof.
  unfold component_instance. destruct (type_of _ dest c (d_type d)) as [ty| |]; try discriminate. destruct (reference dest c (d_at d)) as [a| |]; try discriminate.
  destruct (match d_rot d with None => Ok a | Some r => reference dest c r end) as [b| |]; try discriminate.
  set (x := mkR _ ty _ _ _). assert (A : forall l, r_add c x = Ok l -> l = c ++ [x] /\ ~ In (r_name x) (names c)).
  { intro l0. unfold r_add. destruct (existsb _ c) eqn:E; [discriminate|]. intros [= <-]. split; [reflexivity|]. intro H. apply existsb_names in H. congruence. }
  destruct dest as [D|].
  - destruct (d_removable d) eqn:E; [intros [= <-]; left; repeat split; auto; discriminate|]. intro H. apply A in H as [-> H]. right. exists x. repeat split; auto.
  - intro H. apply A in H as [-> H]. right. exists x. repeat split; auto. intro C. now elim C.
Qed.
Lemma component_shape dest (c : list instance) (r : rd R) d ps c' r' : component dec definition dest c r d ps = Ok (c', r') ->
  (c' = c /\ dest <> None /\ d_removable d = true) \/
  (exists x, c' = c ++ [x] /\ r_removable (fst x) = d_removable d /\ (dest <> None -> d_removable d = false) /\ ~ In (r_name (fst x)) (inames c)).
Proof.
  unfold component. destruct (match d_type d with TName n => load definition r n | TCopy _ => Ok r end) as [r1| |]; try discriminate.
  destruct (component_instance _ _ dest (map fst c) d) as [l| |] eqn:E; try discriminate. destruct (values dest (map fst c) ps) as [v| |]; try discriminate. intros [= <- <-].
  apply comp_inst_shape in E as [(-> & E)|(x & -> & E)].
  - left. split; [|exact E]. rewrite skipn_all2 by (rewrite map_length; auto). cbn. apply app_nil_r.
  - right. exists (x, v). split; [|exact E]. rewrite skipn_app, skipn_all2 by (rewrite map_length; auto). rewrite map_length, Nat.sub_diag. reflexivity.
Qed.
Lemma add_comps_spec (new c c' : list instance) : add_comps c new = Ok c' -> Forall fixed_i new ->
  c' = c ++ new /\ (NoDup (inames c) -> NoDup (inames c')).
Proof.
  revert c. induction new as [|x t IH]; intros c H F; cbn [add_comps] in H; [injection H as <-; rewrite app_nil_r; auto|].
  inversion F as [|? ? F1 F2]; subst. unfold fixed_i in F1. rewrite F1 in H. match type of H with context [existsb ?f c] => destruct (existsb f c) eqn:E end; [discriminate|]. apply IH in H as [-> H]; [|exact F2]. rewrite <- app_assoc in *. split; [reflexivity|].
  intro N. apply H. unfold names in *. rewrite !map_app. apply NoDup_app_one; [exact N|]. intro J. apply in_map_iff in J as (y & E1 & J). apply in_map_iff in J as (z & <- & J).
  refine (eq_true_false_abs _ _ E). apply existsb_exists. exists z. split; [exact J|]. apply String.eqb_eq. exact E1.
Qed.
Lemma trace_extends : forall (l : list titem) dest (s : st) r s' r', trace dest s r l = Ok (s', r') ->
  (exists e, comps s' = comps s ++ e /\ (dest <> None -> Forall fixed_i e)) /\ (NoDup (inames (comps s)) -> NoDup (inames (comps s'))).
Proof.
  intro l. pattern l. apply titems_ind; clear l.
  - intros dest s r s' r' [= <- <-]. split; [exists []; rewrite app_nil_r; auto|auto].
  - intros d ps l IH dest s r s' r' H. cbn [InclMerge.trace InclMerge.trace_item] in H. destruct (component dec definition dest (comps s) r d ps) as [[c r1]| |] eqn:E; try discriminate.
    apply IH in H as [(e & H & F) N]. cbn [comps with_comps] in *. apply component_shape in E as [(-> & _)|(x & -> & E1 & E2 & E3)]; [split; [eauto|exact N]|]. split.
    + exists (x :: e). rewrite H, <- app_assoc. split; [reflexivity|]. intro D. constructor; [|auto]. unfold fixed_i. rewrite E1. auto.
    + intro N0. apply N. unfold names in *. rewrite !map_app. apply NoDup_app_one; auto.
  - intros x l IH dest s r s' r' H. cbn [InclMerge.trace InclMerge.trace_item] in H. destruct (search matches from_spec r x) as [r1| |]; try discriminate. now apply IH in H.
  - intros h l' l IH' IH dest s r s' r' H. cbn [InclMerge.trace] in H. rewrite trace_incl in H. unfold InclMerge.file in H.
    destruct (start matches from_spec h r) as [[s0 r0]| |] eqn:E; try discriminate. apply start_spec in E as (_ & _ & ->).
    match type of H with context [InclMerge.trace _ _ _ _ ?a ?b ?c l'] => destruct (trace a b c l') as [[s1 r1]| |] eqn:E1 end; try discriminate. apply IH' in E1 as [(e1 & E1 & F1) _]. cbn [comps app] in E1.
    unfold merge in H. destruct (add_comps (comps s) (comps (finish h s1))) as [c| |] eqn:E2; try discriminate. cbn [finish comps] in E2. rewrite E1 in E2. apply add_comps_spec in E2 as [-> N2]; [|apply F1; discriminate].
    apply IH in H as [(e & H & F) N]. cbn [comps] in *. split.
    + exists (e1 ++ e). rewrite H, <- app_assoc. split; [reflexivity|]. intro D. apply Forall_app. split; [apply F1; discriminate|auto].
    + auto.
Qed.

(** references of an included file are found in the whole *)
Lemma find_unique (l : list rinst) x : NoDup (names l) -> In x l -> find (fun y => r_name y =?s r_name x) l = Some x.
Proof.
  induction l as [|y t IH]; intros N I; [destruct I|]. cbn [names map] in N. apply NoDup_cons_iff in N as [Ny N]. cbn [find]. destruct I as [->|I]; [now rewrite String.eqb_refl|].
  destruct (r_name y =?s r_name x) eqn:E; [|now apply IH]. apply String.eqb_eq in E. elim Ny. rewrite E. now apply in_map.
Qed.
Lemma r_get_unique (l : list rinst) x : NoDup (names l) -> In x l -> r_name x <> "PREVIOUS" -> r_get l (r_name x) = Ok x.
Proof. intros N I Q. unfold r_get. destruct (r_name x =?s "PREVIOUS") eqn:E; [now apply String.eqb_eq in E|]. now rewrite find_unique. Qed.
Lemma r_get_name (l : list rinst) n x : r_get l n = Ok x -> n <> "PREVIOUS" -> In x l /\ r_name x = n.
Proof.
  unfold r_get. intros H Q. destruct (n =?s "PREVIOUS") eqn:E; [now apply String.eqb_eq in E|]. destruct (find _ l) as [y|] eqn:E1; [|discriminate]. injection H as ->. apply find_some in E1 as [I E1]. split; [exact I|now apply String.eqb_eq].
Qed.
Lemma ref_flat (O d c : list rinst) rf o : component_ref (Some d) c rf = Ok o -> plain_ref rf -> NoDup (names (O ++ d ++ c)) -> component_ref None (O ++ d ++ c) rf = Ok o.
Proof.
  intros H W N. destruct rf as [n|n]; cbn [component_ref] in *.
  - set (k := match n with None => 1 | Some c => c end) in *. assert (K : k <> 0) by (subst k; destruct n; [exact W|discriminate]). rewrite !app_length.
    assert (Q : forall (a b : list rinst) j, j <> 0 -> j <= List.length b -> r_last (a ++ b) j = r_last b j).
    { clear. intros a b j J L. unfold r_last. rewrite app_length. replace (List.length a + List.length b <? j)%nat with false by (symmetry; apply Nat.ltb_ge; lia).
      replace (List.length b <? j)%nat with false by (symmetry; apply Nat.ltb_ge; lia). unfold py_neg_index. replace (j =? 0)%nat with false by (symmetry; apply Nat.eqb_neq; lia).
      rewrite rev_app_distr, nth_error_app1 by (rewrite rev_length; lia). reflexivity. }
    destruct (k <=? List.length c)%nat eqn:E.
    + apply Nat.leb_le in E. replace (k <=? List.length O + (List.length d + List.length c))%nat with true by (symmetry; apply Nat.leb_le; lia). rewrite app_assoc, Q; auto.
    + apply Nat.leb_gt in E. destruct (r_last d (k - List.length c)) as [x| |] eqn:E1; try discriminate. injection H as <-.
      unfold r_last in E1. destruct (List.length d <? k - List.length c)%nat eqn:E2; [discriminate|]. apply Nat.ltb_ge in E2.
      replace (k <=? List.length O + (List.length d + List.length c))%nat with true by (symmetry; apply Nat.leb_le; lia).
      rewrite Q by (rewrite ?app_length; lia). unfold r_last. rewrite app_length. replace (List.length d + List.length c <? k)%nat with false by (symmetry; apply Nat.ltb_ge; lia).
      unfold py_neg_index in *. replace (k =? 0)%nat with false by (symmetry; apply Nat.eqb_neq; lia). replace (k - List.length c =? 0)%nat with false in E1 by (symmetry; apply Nat.eqb_neq; lia).
      rewrite rev_app_distr, nth_error_app2 by (rewrite rev_length; lia). rewrite rev_length. replace (k - 1 - List.length c) with (k - List.length c - 1) by lia.
      destruct (nth_error (rev d) (k - List.length c - 1)); [|discriminate]. now injection E1 as ->.
  - cbn in W. unfold by_name in *.
    assert (G : forall x, In x (O ++ d ++ c) -> r_name x = n -> (if existsb (fun y => r_name y =?s n) (O ++ d ++ c) then match r_get (O ++ d ++ c) n with Ok x => Ok (Some x) | _ => Raise end else Ok None) = Ok (Some x)).
    { intros x I E. replace (existsb (fun y => r_name y =?s n) (O ++ d ++ c)) with true by (symmetry; apply existsb_exists; exists x; split; [exact I|now apply String.eqb_eq]). rewrite <- E in *. rewrite r_get_unique; auto. }
    destruct (existsb _ c).
    + destruct (r_get c n) as [x| |] eqn:E; try discriminate. injection H as <-. apply r_get_name in E as [I E]; [|exact W]. apply G; [|exact E]. apply in_or_app. right. apply in_or_app. now right.
    + destruct (r_get d n) as [x| |] eqn:E; try discriminate. injection H as <-. apply r_get_name in E as [I E]; [|exact W]. apply G; [|exact E]. apply in_or_app. right. apply in_or_app. now left.
Qed.
Definition inside (dest : option (list rinst)) : bool := match dest with Some _ => true | None => false end.
Definition up (dest : option (list rinst)) (O : list rinst) : Prop := dest = None -> O = [].
Lemma ref_flat' dest (O c : list rinst) rf o : component_ref dest c rf = Ok o -> up dest O -> (dest <> None -> plain_ref rf) -> NoDup (names (O ++ dlist dest ++ c)) ->
  component_ref None (O ++ dlist dest ++ c) rf = Ok o.
Proof. destruct dest as [d|]; intros H U W N; [apply ref_flat; auto; apply W; discriminate|]. rewrite (U eq_refl). exact H. Qed.
Lemma instance_flat dest (O c : list rinst) d x : component_instance dec (fun _ => true) dest c d = Ok (c ++ [x]) -> up dest O -> (dest <> None -> plain_decl d) ->
  NoDup (names (O ++ dlist dest ++ c ++ [x])) -> component_instance dec (fun _ => true) None (O ++ dlist dest ++ c) d = Ok ((O ++ dlist dest ++ c) ++ [x]).
Proof.
  intros H U W N. assert (N0 : NoDup (names (O ++ dlist dest ++ c)) /\ ~ In (r_name x) (names (O ++ dlist dest ++ c))).
  { rewrite !app_assoc in *. unfold names in *. rewrite map_app in N. apply NoDup_remove in N. rewrite app_nil_r in N. exact N. }
  destruct N0 as [N0 N1]. unfold component_instance in *.
  assert (T : forall t ty, d_type d = t -> type_of (fun _ => true) dest c t = Ok ty -> type_of (fun _ => true) None (O ++ dlist dest ++ c) t = Ok ty).
  { intros [s|rf] ty Et Ht; [exact Ht|]. cbn [type_of] in *. destruct (component_ref dest c rf) as [o| |] eqn:E; try discriminate. erewrite ref_flat'; eauto. intro D. destruct (W D) as [_ W']. apply W'. auto. }
  destruct (type_of _ dest c (d_type d)) as [ty| |] eqn:E1; try discriminate. rewrite (T _ _ eq_refl E1).
  assert (F : forall q o, (forall rf, q = Some rf -> dest <> None -> plain_ref rf) -> reference dest c q = Ok o -> reference None (O ++ dlist dest ++ c) q = Ok o).
  { intros [rf|] o Hq Ho; [|exact Ho]. cbn [reference] in *. eapply ref_flat'; eauto. }
  destruct (reference dest c (d_at d)) as [a| |] eqn:E2; try discriminate. rewrite (F _ _ (fun rf E D => proj2 (W D) rf (or_intror (or_introl E))) E2).
  destruct (match d_rot d with None => Ok a | Some r => reference dest c r end) as [b| |] eqn:E3; try discriminate.
  assert (E3' : match d_rot d with None => Ok a | Some r => reference None (O ++ dlist dest ++ c) r end = Ok b).
  { destruct (d_rot d) as [q|] eqn:E; [|exact E3]. apply F; [|exact E3]. intros rf -> D. apply (proj2 (W D)). auto. }
  rewrite E3'. assert (Nm : dest <> None -> name_of dec (O ++ dlist dest ++ c) (d_name d) = name_of dec c (d_name d)) by (intro D; destruct (W D) as [[n ->] _]; reflexivity).
  assert (A : forall y, r_add c y = Ok (c ++ [x]) -> y = x).
  { intros y. unfold r_add. destruct (existsb _ c); [discriminate|]. intros [= E]. apply app_inv_head in E. now injection E. }
  assert (B : r_add (O ++ dlist dest ++ c) x = Ok ((O ++ dlist dest ++ c) ++ [x])).
  { unfold r_add. destruct (existsb _ (O ++ dlist dest ++ c)) eqn:E; [|reflexivity]. now apply existsb_names in E. }
  destruct dest as [D|].
  - destruct (d_removable d) eqn:Er; [injection H as H; apply (f_equal (@List.length _)) in H; rewrite app_length in H; cbn in H; lia|].
    apply A in H. rewrite Nm by discriminate. rewrite H. exact B.
  - rewrite (U eq_refl) in *. cbn [dlist app] in *. exact H.
Qed.
Lemma values_flat dest (O c : list rinst) ps v : values dest c ps = Ok v -> up dest O -> values None (O ++ dlist dest ++ c) ps = Ok v.
Proof.
  intros H U. revert v H. induction ps as [|[n x] t IH]; intros v H; [exact H|]. cbn [values] in *. destruct (value dest c x) as [y| |] eqn:E; try discriminate.
  destruct (values dest c t) as [w| |]; try discriminate. rewrite (IH w eq_refl).
  assert (V : value None (O ++ dlist dest ++ c) x = Ok y); [|now rewrite V].
  destruct x; cbn [value] in *; auto. unfold last_name in *. rewrite !rev_app_distr. destruct (rev c) as [|z u]; [|exact E].
  destruct dest as [d|]; [|discriminate]. cbn [dlist app]. destruct (rev d) as [|z u]; [discriminate|]. exact E.
Qed.
(** ** The reader *)
Fixpoint used (it : titem) : list string :=
  match it with TComp d _ => match d_type d with TName t => [t] | TCopy _ => [] end | TSearch _ => [] | TIncl _ l => flat_map used l end.
(** the type is known, and the DEPENDENCY strings that came with it are kept *)
Definition known_type (r : rd R) (t : string) : Prop :=
  exists g known u new fl, definition g known u = Some (new, fl) /\ In t new /\ incl fl (c_flags r).
Definition grows (r r' : rd R) : Prop :=
  incl (seen r) (seen r') /\ (exists e, c_flags r' = c_flags r ++ e) /\ (exists g, regs r' = g ++ regs r /\ forall x, In x g -> exists spec, from_spec spec = Some x).
Lemma grows_refl r : grows r r.
Proof. split; [intros x; auto|]. split; [exists []; now rewrite app_nil_r|]. exists []. split; [reflexivity|]. intros x []. Qed.
Lemma grows_trans a b c : grows a b -> grows b c -> grows a c.
Proof.
  intros (A1 & (e & A2) & (g & A3 & A4)) (B1 & (e' & B2) & (g' & B3 & B4)). split; [intros x X; auto|]. split; [exists (e ++ e'); rewrite B2, A2; symmetry; apply app_assoc|].
  exists (g' ++ g). split; [rewrite B3, A3; apply app_assoc|]. intros x X. apply in_app_or in X as [X|X]; auto.
Qed.
Definition sound (r : rd R) : Prop := forall t, In t (seen r) -> known_type r t.
Lemma known_grows r r' t : grows r r' -> known_type r t -> known_type r' t.
Proof. intros (_ & (e & E) & _) (g & k & u & new & fl & D & I & F). exists g, k, u, new, fl. split; [exact D|]. split; [exact I|]. rewrite E. intros x X. apply in_or_app. left. auto. Qed.
Hypothesis definition_own : forall g k u new fl, definition g k u = Some (new, fl) -> In u new.
Lemma load_grows r r' n : load definition r n = Ok r' -> grows r r' /\ In n (seen r') /\ (sound r -> sound r').
Proof.
  unfold load. destruct (existsb (fun x => x =?s n) (seen r)) eqn:E.
  - intros [= <-]. split; [apply grows_refl|]. split; [|auto]. apply existsb_exists in E as (x & X & E). apply String.eqb_eq in E. now subst.
  - destruct (definition (regs r) (seen r) n) as [[new fl]|] eqn:D; [|discriminate]. intros [= <-].
    assert (G : grows r (mkRd (seen r ++ new) (c_flags r ++ fl) (regs r))).
    { split; [intros x X; apply in_or_app; now left|]. split; [exists fl; reflexivity|]. exists []. split; [reflexivity|]. intros x []. }
    split; [exact G|]. split; [apply in_or_app; right; eapply definition_own; eauto|].
    intros S' t T. cbn [seen] in T. apply in_app_or in T as [T|T]; [apply (known_grows r); auto|]. exists (regs r), (seen r), n, new, fl. split; [exact D|]. split; [exact T|]. cbn. intros x X. apply in_or_app. now right.
Qed.
Lemma search_grows r r' x : search matches from_spec r x = Ok r' -> grows r r' /\ (sound r -> sound r').
Proof.
  unfold search. destruct (existsb _ (regs r)); [intros [= <-]; split; [apply grows_refl|auto]|]. destruct (from_spec x) as [g|] eqn:E; [|discriminate]. intros [= <-].
  assert (G : grows r (mkRd (seen r) (c_flags r) (g :: regs r))).
  { split; [intros y; auto|]. split; [exists []; cbn; now rewrite app_nil_r|]. exists [g]. split; [reflexivity|]. intros y [<-|[]]. eauto. }
  split; [exact G|]. intros S' t T. apply (known_grows r); [exact G|]. now apply S'.
Qed.
Lemma searches_grows l r r' : searches matches from_spec r l = Ok r' -> grows r r' /\ (sound r -> sound r').
Proof.
  revert r. induction l as [|x t IH]; intros r H; cbn [searches] in H; [injection H as <-; split; [apply grows_refl|auto]|]. destruct (search matches from_spec r x) as [r1| |] eqn:E; try discriminate.
  apply search_grows in E as [G S1]. apply IH in H as [G' S2]. split; [eapply grows_trans; eauto|auto].
Qed.
Lemma trace_reader : forall (l : list titem) dest (s : st) r s' r', trace dest s r l = Ok (s', r') -> grows r r' /\ (sound r -> sound r') /\ incl (flat_map used l) (seen r').
Proof.
  intro l. pattern l. apply titems_ind; clear l.
  - intros dest s r s' r' [= <- <-]. split; [apply grows_refl|]. split; [auto|]. intros x [].
  - intros d ps l IH dest s r s' r' H. cbn [InclMerge.trace InclMerge.trace_item] in H. unfold component in H. cbn [flat_map used].
    assert (L : forall r1, (match d_type d with TName n => load definition r n | TCopy _ => Ok r end) = Ok r1 -> grows r r1 /\ (sound r -> sound r1) /\ incl (match d_type d with TName t => [t] | TCopy _ => [] end) (seen r1)).
    { intros r1. destruct (d_type d) as [n|q]; [|intros [= <-]; split; [apply grows_refl|]; split; [auto|intros x []]]. intro E. apply load_grows in E as (G & I & S'). split; [exact G|]. split; [exact S'|]. intros x [<-|[]]. exact I. }
    destruct (match d_type d with TName n => load definition r n | TCopy _ => Ok r end) as [r1| |]; try discriminate. destruct (L r1 eq_refl) as (G & S1 & I).
    destruct (component_instance _ _ dest (map fst (comps s)) d) as [c| |]; try discriminate. destruct (values dest (map fst (comps s)) ps) as [v| |]; try discriminate. apply IH in H as (G' & S2 & I').
    split; [eapply grows_trans; eauto|]. split; [auto|]. destruct G' as (G' & _). intros x X. apply in_app_or in X as [X|X]; auto.
  - intros x l IH dest s r s' r' H. cbn [InclMerge.trace InclMerge.trace_item] in H. destruct (search matches from_spec r x) as [r1| |] eqn:E; try discriminate. apply search_grows in E as [G S1]. apply IH in H as (G' & S2 & I).
    split; [eapply grows_trans; eauto|]. split; [auto|]. exact I.
  - intros h l' l IH' IH dest s r s' r' H. cbn [InclMerge.trace] in H. rewrite trace_incl in H. unfold InclMerge.file in H.
    destruct (start matches from_spec h r) as [[s0 r0]| |] eqn:E; try discriminate. apply start_spec in E as (Es & _ & _). apply searches_grows in Es as [G0 S0].
    destruct (trace (Some (map fst (comps s))) s0 r0 l') as [[s1 r1]| |] eqn:E1; try discriminate. apply IH' in E1 as (G1 & S1 & I1). destruct (merge s (h_name h) (finish h s1)) as [s2| |]; try discriminate. apply IH in H as (G2 & S2 & I2).
    split; [eapply grows_trans; [eapply grows_trans; eauto|exact G2]|]. split; [auto|]. cbn [flat_map used]. destruct G2 as (G2 & _). intros x X. apply in_app_or in X as [X|X]; auto.
Qed.
Lemma load_regs (r r' : rd R) n : load definition r n = Ok r' -> regs r' = regs r.
Proof. unfold load. destruct (existsb _ (seen r)); [now intros [= <-]|]. destruct (definition (regs r) (seen r) n) as [[new fl]|]; [|discriminate]. now intros [= <-]. Qed.
(** every type is defined, whatever the registries *)
Definition always : Prop := forall g s n, definition g s n <> None.
Variable A : Prop.
Hypothesis A_always : A -> always.
Definition near (r r' : rd R) : Prop := regs r' = regs r /\ (r' = r \/ A).
Lemma load_near (r r' r1 : rd R) n : near r r' -> load definition r n = Ok r1 -> exists r1', load definition r' n = Ok r1' /\ near r1 r1'.
Proof.
  intros [E [->|HA]] H; [exists r1; split; [exact H|split; auto]|]. pose proof (load_regs _ _ _ H) as L. unfold load in *.
  destruct (existsb (fun x => x =?s n) (seen r')); [exists r'; split; [reflexivity|split; [congruence|auto]]|]. pose proof (A_always HA (regs r') (seen r') n) as D.
  destruct (definition (regs r') (seen r') n) as [[new fl]|]; [|congruence]. eexists. split; [reflexivity|]. split; [cbn; congruence|auto].
Qed.
Lemma component_near dest (c : list instance) r r' d ps x r1 (out : list instance) O : component dec definition dest c r d ps = Ok (c ++ [x], r1) -> near r r' ->
  up dest O -> map fst out = O ++ dlist dest -> (dest <> None -> plain_decl d) -> NoDup (inames (out ++ c ++ [x])) ->
  exists r1', component dec definition None (out ++ c) r' d ps = Ok (out ++ c ++ [x], r1') /\ near r1 r1'.
Proof.
  intros H Hn U Ho W N. unfold component in *.
  assert (L : forall r2, (match d_type d with TName n => load definition r n | TCopy _ => Ok r end) = Ok r2 -> exists r2', (match d_type d with TName n => load definition r' n | TCopy _ => Ok r' end) = Ok r2' /\ near r2 r2').
  { intros r2. destruct (d_type d); [apply load_near; exact Hn|]. intros [= <-]. eauto. }
  destruct (match d_type d with TName n => load definition r n | TCopy _ => Ok r end) as [r2| |]; try discriminate. destruct (L r2 eq_refl) as (r2' & -> & Hn2). clear L.
  destruct (component_instance _ _ dest (map fst c) d) as [l| |] eqn:E; try discriminate. destruct (values dest (map fst c) ps) as [v| |] eqn:Ev; try discriminate. injection H as H <-. apply app_inv_head in H.
  assert (El : exists y, l = map fst c ++ [y] /\ x = (y, v)).
  { destruct (comp_inst_shape _ _ _ _ E) as [(-> & _)|(y & -> & _)].
    - rewrite skipn_all2 in H by (rewrite map_length; auto). discriminate.
    - exists y. split; [reflexivity|]. rewrite skipn_app, skipn_all2 in H by (rewrite map_length; auto). rewrite map_length, Nat.sub_diag in H. cbn in H. now injection H as <-. }
  destruct El as (y & -> & ->). rewrite map_app, Ho.
  assert (N' : NoDup (names (O ++ dlist dest ++ map fst c ++ [y]))) by (rewrite !map_app, Ho in N; cbn [map fst] in N; rewrite <- !app_assoc in N; exact N).
  rewrite <- app_assoc. rewrite (instance_flat _ O _ _ _ E U W N'). rewrite (values_flat _ O _ _ _ Ev U). exists r2'. split; [|exact Hn2]. f_equal. f_equal. rewrite !app_assoc. f_equal.
  assert (Hl : List.length (out ++ c) = List.length ((O ++ dlist dest) ++ map fst c)) by (rewrite <- Ho, !app_length, !map_length; reflexivity).
  rewrite Hl, skipn_app, skipn_all2 by auto. rewrite Nat.sub_diag. reflexivity.
Qed.
Lemma search_near (r r' r1 : rd R) x : near r r' -> search matches from_spec r x = Ok r1 -> exists r1', search matches from_spec r' x = Ok r1' /\ near r1 r1'.
Proof.
  intros [E Q] H. unfold search in *. rewrite E. destruct (existsb _ (regs r)); [injection H as <-; exists r'; repeat split; auto|]. destruct (from_spec x) as [g|]; [|discriminate]. injection H as <-.
  eexists. split; [reflexivity|]. split; [reflexivity|]. destruct Q as [->|Q]; auto.
Qed.
Lemma searches_near l (r r' r1 : rd R) : near r r' -> searches matches from_spec r l = Ok r1 -> exists r1', searches matches from_spec r' l = Ok r1' /\ near r1 r1'.
Proof.
  revert r r'. induction l as [|x t IH]; intros r r' Hn H; cbn [searches] in *; [injection H as <-; eauto|]. destruct (search matches from_spec r x) as [r2| |] eqn:E; try discriminate.
  destruct (search_near _ _ _ _ Hn E) as (r2' & -> & Hn2). eauto.
Qed.
Lemma trace_app dest a b (s : st) r : trace dest s r (a ++ b) = match trace dest s r a with Ok (s', r') => trace dest s' r' b | _ => Raise end.
Proof. revert s r. induction a as [|x t IH]; intros s r; cbn [app InclMerge.trace]; [reflexivity|]. destruct (trace_item dest s r x) as [[s1 r1]| |]; auto. Qed.
Lemma trace_searches dest l (s : st) r : trace dest s r (map TSearch l) = match searches matches from_spec r l with Ok r' => Ok (s, r') | _ => Raise end.
Proof. revert r. induction l as [|x t IH]; intro r; cbn [map InclMerge.trace InclMerge.trace_item searches]; [reflexivity|]. destruct (search matches from_spec r x) as [r1| |]; auto. Qed.
Lemma nodup_prefix {B} (a b : list B) : NoDup (a ++ b) -> NoDup a.
Proof. induction a as [|x t IH]; intro H; [constructor|]. apply NoDup_cons_iff in H as [N H]. constructor; [|auto]. intro I. apply N, in_or_app. now left. Qed.

Lemma trace_flat : forall (l : list titem) dest (s : st) r s2 r2, trace dest s r l = Ok (s2, r2) -> Forall (plain (inside dest)) l -> (Forall (fixed (inside dest)) l \/ A) ->
  forall (out : list instance) O (s' : st) r', up dest O -> map fst out = O ++ dlist dest -> NoDup (inames (out ++ comps s2)) -> comps s' = out ++ comps s -> near r r' ->
  exists r2', trace None s' r' (flat_map (in_place (inside dest)) l) = Ok (with_comps s' (out ++ comps s2), r2') /\ near r2 r2'.
Proof.
  intro l. pattern l. apply titems_ind; clear l.
  - intros dest s r s2 r2 [= <- <-] _ _ out O s' r' U Ho N Hs Hn. exists r'. split; [|exact Hn]. cbn. rewrite <- Hs. now destruct s'.
  - intros d ps l IH dest s r s2 r2 H W Fx out O s' r' U Ho N Hs Hn. inversion W as [|? ? W1 W2]; subst. assert (Fx2 : Forall (fixed (inside dest)) l \/ A) by (destruct Fx as [Fx|]; [left; now inversion Fx|auto]).
    cbn [InclMerge.trace InclMerge.trace_item] in H. destruct (component dec definition dest (comps s) r d ps) as [[c r1]| |] eqn:E; try discriminate.
    pose proof (trace_extends _ _ _ _ _ _ H) as [(e & He & _) _]. cbn [comps with_comps] in He.
    assert (W1' : dest <> None -> plain_decl d) by (intro D; apply W1; destruct dest; [reflexivity|now elim D]).
    cbn [flat_map in_place]. destruct (component_shape _ _ _ _ _ _ _ E) as [(-> & D & Er)|(x & -> & Er & D & _)].
    + assert (In_ : inside dest = true) by (destruct dest; [reflexivity|now elim D]). rewrite In_, Er. cbn [andb app]. assert (HA : A) by (destruct Fx as [Fx|]; [inversion Fx as [|? ? Fx1 _]; subst; cbn in Fx1; specialize (Fx1 In_); congruence|auto]).
      rewrite <- In_. eapply IH; [exact H|exact W2|auto|exact U|exact Ho|exact N|exact Hs|]. destruct Hn as [Hn1 _]. split; [|auto].
      unfold component in E. destruct (d_type d) as [n|q]; [destruct (load definition r n) as [r3| |] eqn:El; try discriminate; apply load_regs in El|];
        (destruct (component_instance _ _ dest (map fst (comps s)) d); try discriminate); (destruct (values dest (map fst (comps s)) ps); try discriminate); injection E as _ <-; congruence.
    + assert (K : inside dest && d_removable d = false) by (destruct dest; [cbn; apply D; discriminate|reflexivity]). rewrite K. cbn [app InclMerge.trace InclMerge.trace_item].
      assert (N1 : NoDup (inames (out ++ comps s ++ [x]))) by (rewrite He in N; rewrite app_assoc in N; unfold names in *; rewrite !map_app in *; apply nodup_prefix in N; exact N).
      destruct (component_near _ _ _ _ _ _ _ _ _ _ E Hn U Ho W1' N1) as (r1' & E' & Hn1). rewrite Hs, E'.
      destruct (IH dest (with_comps s (comps s ++ [x])) r1 s2 r2 H W2 Fx2 out O (with_comps s' (out ++ comps s ++ [x])) r1' U Ho N eq_refl Hn1) as (r2' & E2 & Hn2).
      exists r2'. split; [exact E2|exact Hn2].
  - intros x l IH dest s r s2 r2 H W Fx out O s' r' U Ho N Hs Hn. inversion W as [|? ? W1 W2]; subst. assert (Fx2 : Forall (fixed (inside dest)) l \/ A) by (destruct Fx as [Fx|]; [left; now inversion Fx|auto]).
    cbn [InclMerge.trace InclMerge.trace_item] in H. destruct (search matches from_spec r x) as [r1| |] eqn:E; try discriminate. destruct (search_near _ _ _ _ Hn E) as (r1' & E' & Hn1).
    cbn [flat_map in_place app InclMerge.trace InclMerge.trace_item]. rewrite E'. eapply IH; eauto.
  - intros h l' l IH' IH dest s r s2 r2 H W Fx out O s' r' U Ho N Hs Hn. inversion W as [|? ? W1 W2]; subst. assert (Fx2 : Forall (fixed (inside dest)) l \/ A) by (destruct Fx as [Fx|]; [left; now inversion Fx|auto]).
    cbn [plain] in W1. apply fold_right_and in W1. assert (Fx1 : Forall (fixed true) l' \/ A) by (destruct Fx as [Fx|]; [left; inversion Fx as [|? ? Fx1 _]; subst; cbn [fixed] in Fx1; now apply fold_right_and in Fx1|auto]).
    cbn [InclMerge.trace] in H. rewrite trace_incl in H. unfold InclMerge.file in H.
    destruct (start matches from_spec h r) as [[s0 r0]| |] eqn:E; try discriminate. apply start_spec in E as (Es & _ & E0).
    destruct (trace (Some (map fst (comps s))) s0 r0 l') as [[s1 r1]| |] eqn:E1; try discriminate. pose proof (trace_extends _ _ _ _ _ _ E1) as [(e1 & He1 & F1) _].
    assert (C0 : comps s0 = []) by (rewrite E0; reflexivity). rewrite C0 in He1. cbn [app] in He1.
    unfold merge in H. destruct (add_comps (comps s) (comps (finish h s1))) as [c| |] eqn:E2; try discriminate. cbn [finish comps] in E2. apply add_comps_spec in E2 as [-> _]; [|rewrite He1; apply F1; discriminate].
    pose proof (trace_extends _ _ _ _ _ _ H) as [(e & He & _) _]. cbn [comps] in He.
    cbn [flat_map in_place]. rewrite <- app_assoc, trace_app, trace_searches. destruct (searches_near _ _ _ _ Hn Es) as (r0' & -> & Hn0). rewrite trace_app.
    assert (Ho' : map fst (out ++ comps s) = (O ++ dlist dest) ++ dlist (Some (map fst (comps s)))) by (rewrite map_app, Ho; reflexivity).
    assert (U' : up (Some (map fst (comps s))) (O ++ dlist dest)) by (intro; discriminate).
    assert (N1 : NoDup (inames ((out ++ comps s) ++ comps s1))) by (rewrite He in N; rewrite !app_assoc in N; unfold names in *; rewrite !map_app in *; apply nodup_prefix in N; exact N).
    destruct (IH' (Some (map fst (comps s))) s0 r0 s1 r1 E1 W1 Fx1 (out ++ comps s) (O ++ dlist dest) s' r0' U' Ho' N1) as (r1' & E3 & Hn1); [rewrite C0, app_nil_r; exact Hs|exact Hn0|].
    cbn [inside] in E3. rewrite E3. match type of H with InclMerge.trace _ _ _ _ dest ?b r1 l = _ => destruct (IH dest b r1 s2 r2 H W2 Fx2 out O (with_comps s' ((out ++ comps s) ++ comps s1)) r1' U Ho N) as (r2' & E4 & Hn2) end;
      [cbn [comps with_comps]; now rewrite app_assoc|exact Hn1|].
    exists r2'. split; [exact E4|exact Hn2].
Qed.
End Facts.

Definition without_included {P M} (s : st P M) : st P M :=
  mkS (params s) (metas s) (comps s) [] (flags s) (s_decl s) (s_user s) (s_init s) (s_save s) (s_final s).
Lemma file_text {P M R} dec definition matches from_spec (A : Prop) (h : header P M) l (r : rd R) s r2 : (A -> always R definition) ->
  file dec definition matches from_spec None r h l = Ok (s, r2) -> Forall (plain false) l -> (Forall (fixed false) l \/ A) ->
  exists r2', file dec definition matches from_spec None r (one_text h l) (flat_map (in_place false) l) = Ok (without_included s, r2') /\ near R A r2 r2'.
Proof.
  intros HA H W Fx. unfold file in *. destruct (start matches from_spec h r) as [[s0 r0]| |] eqn:E; try discriminate. apply start_spec in E as (Es & Ef & E0).
  destruct (trace dec definition matches from_spec None s0 r0 l) as [[s1 r1]| |] eqn:E1; try discriminate. injection H as <- <-.
  pose proof (trace_rest _ _ _ _ _ _ _ _ _ _ _ _ _ E1) as Q. pose proof (trace_extends _ _ _ _ _ _ _ _ _ _ _ _ _ E1) as [_ N].
  set (s0' := mkS (firsts (h_params h ++ flat_map (parts true h_params) l)) (lasts (h_metas h ++ flat_map (parts true h_metas) l)) [] [] (h_deps h)
     (blocks (h_decl h ++ flat_map (parts true h_decl) l)) (blocks (h_user h ++ flat_map (parts true h_user) l)) (blocks (h_init h ++ flat_map (parts true h_init) l)) [] []).
  assert (S0 : start matches from_spec (one_text h l) r = Ok (s0', r0)).
  { unfold start, one_text. cbn [h_params h_search h_metas h_deps h_decl h_user h_init]. rewrite add_params_ok; [|apply firsts_idem|reflexivity]. rewrite Es. cbn [app]. subst s0'. f_equal. f_equal. f_equal. exact (fold_add_meta (h_metas h ++ flat_map (parts true h_metas) l) []). }
  rewrite S0. destruct (trace_flat P M R dec definition matches from_spec A HA l None s0 r0 s1 r1 E1 W Fx [] [] s0' r0 (fun _ => eq_refl) eq_refl) as (r2' & E2 & Hn).
  - apply N. rewrite E0. constructor.
  - rewrite E0. reflexivity.
  - split; auto.
  - cbn [inside] in E2. rewrite E2. exists r2'. split; [|exact Hn]. f_equal. f_equal. destruct Q as [B1 B2 B3 B4 B5 B6 B7 B8 B9]. rewrite E0 in *. subst s0'.
    cbn [params metas comps included flags s_decl s_user s_init s_save s_final] in *. unfold finish, without_included, with_comps, one_text. cbn [params metas comps included flags s_decl s_user s_init s_save s_final h_save h_final].
    rewrite B1, B2, B4, B5, B6, B7, B8, B9, !blocks_app. cbn [app]. f_equal.
    + rewrite fold_add_new, firsts_app, Ef. reflexivity.
    + assert (E : lasts (h_metas h) = fold_left add_metadata (h_metas h) []) by (symmetry; exact (fold_add_meta (h_metas h) [])).
      rewrite E, <- fold_left_app. symmetry. exact (fold_add_meta (h_metas h ++ flat_map (parts true h_metas) l) []).
Qed.

(** C69: when reading a file with its included files succeeds, reading it as one text gives the same instrument, and leaves the reader
    (known types, DEPENDENCY strings of components, registries) the same.  Only the list of included names differs. *)
Theorem C69_text_in_place : forall P M R dec definition matches from_spec (h : header P M) l (r : rd R) s r2,
  file dec definition matches from_spec None r h l = Ok (s, r2) -> Forall (plain false) l -> Forall (fixed false) l ->
  file dec definition matches from_spec None r (one_text h l) (flat_map (in_place false) l) = Ok (without_included s, r2).
Proof.
  intros P M R dec definition matches from_spec h l r s r2 H W Fx. destruct (file_text dec definition matches from_spec False h l r s r2) as (r2' & E & _ & [->|[]]); auto. intros [].
Qed.
Print Assumptions C69_text_in_place.
(** C69: REMOVABLE instances of included files are left out, all else is the same; the types must be known whichever instances are read before. *)
Theorem C69_removable : forall P M R dec definition matches from_spec (h : header P M) l (r : rd R) s r2,
  (forall g k n, definition g k n <> None) ->
  file dec definition matches from_spec None r h l = Ok (s, r2) -> Forall (plain false) l ->
  exists r2', file dec definition matches from_spec None r (one_text h l) (flat_map (in_place false) l) = Ok (without_included s, r2') /\ regs r2' = regs r2.
Proof.
  intros P M R dec definition matches from_spec h l r s r2 D H W. destruct (file_text dec definition matches from_spec True h l r s r2) as (r2' & E & Q & _); auto. eauto.
Qed.
Print Assumptions C69_removable.
(** C69: the parts, in full: of parameters of one name the first counts, of metadata the last; the included DECLARE, USERVARS and INITIALIZE
    follow those of the file, its SAVE and FINALLY follow the included ones; names are not used twice. *)
Theorem C69_parts : forall P M R dec definition matches from_spec (h : header P M) l (r : rd R) s r2,
  file dec definition matches from_spec None r h l = Ok (s, r2) ->
  params s = firsts (h_params h ++ flat_map (parts true h_params) l) /\ metas s = lasts (h_metas h ++ flat_map (parts true h_metas) l) /\
  s_decl s = blocks (h_decl h ++ flat_map (parts true h_decl) l) /\ s_user s = blocks (h_user h ++ flat_map (parts true h_user) l) /\
  s_init s = blocks (h_init h ++ flat_map (parts true h_init) l) /\ s_save s = blocks (flat_map (parts false h_save) l ++ h_save h) /\
  s_final s = blocks (flat_map (parts false h_final) l ++ h_final h) /\ included s = flat_map (direct P M) l /\ NoDup (names (map fst (comps s))).
Proof.
  intros P M R dec definition matches from_spec h l r s r2 H. unfold file in *. destruct (start matches from_spec h r) as [[s0 r0]| |] eqn:E; try discriminate. apply start_spec in E as (Es & Ef & E0).
  destruct (trace dec definition matches from_spec None s0 r0 l) as [[s1 r1]| |] eqn:E1; try discriminate. injection H as <- <-.
  pose proof (trace_rest _ _ _ _ _ _ _ _ _ _ _ _ _ E1) as [B1 B2 B3 B4 B5 B6 B7 B8 B9]. pose proof (trace_extends _ _ _ _ _ _ _ _ _ _ _ _ _ E1) as [_ N]. rewrite E0 in *.
  cbn [finish params metas comps included flags s_decl s_user s_init s_save s_final] in *. rewrite !blocks_app. repeat split; auto.
  - rewrite B1, fold_add_new, firsts_app, Ef. reflexivity.
  - assert (E : lasts (h_metas h) = fold_left add_metadata (h_metas h) []) by (symmetry; exact (fold_add_meta (h_metas h) [])).
    rewrite B2, E, <- fold_left_app. exact (fold_add_meta (h_metas h ++ flat_map (parts true h_metas) l) []).
  - now rewrite B8.
  - now rewrite B9.
  - apply N. constructor.
Qed.
Print Assumptions C69_parts.

(** ** Examples and findings *)
Ltac all_items := repeat (apply Forall_cons; [cbn|]); try apply Forall_nil; repeat match goal with |- _ /\ _ => split | |- True => exact Logic.I end; intro; try discriminate.
Ltac plain_item := split; [eexists; reflexivity|]; intros rf [E|[E|E]]; inversion E; cbn; solve [discriminate|auto].
Section Ex.
Let hdr (n : string) (ps : list (string * string)) (deps decl save : list string) : header string string := mkH n ps [] [] deps decl [] [] save [].
Let comp (n : string) (a : option cref) (ps : list (string * pval)) : titem string string := TComp (mkDecl false (NId n) (TName "Arm") a None) ps.
Let dec (n : nat) : string := match n with 1 => "1" | 2 => "2" | _ => "3" end.
Let def (g : list string) (k : list string) (n : string) : option (list string * list string) := Some ([n], [("-l" ++ n)%string]).
Let rd0 : rd string := mkRd [] [] ["mcstas"].
Let read := file (P := string) (M := string) dec def String.eqb Some None rd0.
Example C69_example :
  let l := [comp "a" None []; TIncl (hdr "B" [("p", "2"); ("q", "3")] [] ["int b;"] ["b();"])
              [comp "x" (Some (CName "a")) []; comp "y" (Some (CPrev (Some 2))) [("n", VPrev)]]; comp "c" (Some (CPrev None)) []] in
  let h := hdr "A" [("p", "1")] [] ["int a;"] ["a();"] in
  Forall (plain false) l /\ Forall (fixed false) l /\
  read h l = Ok (mkS [("p", "1"); ("q", "3")] []
    [(mkR "a" "Arm" false None None, []); (mkR "x" "Arm" false (Some "a") (Some "a"), []); (mkR "y" "Arm" false (Some "a") (Some "a"), [("n", "x")]); (mkR "c" "Arm" false (Some "y") (Some "y"), [])]
    ["B"] [] ["int a;"; "int b;"] [] [] ["b();"; "a();"] [], mkRd ["Arm"] ["-lArm"] ["mcstas"]).
Proof.
  cbn zeta. split; [|split; [|vm_compute; reflexivity]].
  - all_items; plain_item.
  - all_items; reflexivity.
Qed.
Example C69_removable_example :
  let l := [comp "a" None []; TIncl (hdr "B" [] [] [] []) [TComp (mkDecl true (NId "source") (TName "Source") None None) []; comp "x" (Some (CPrev None)) []]] in
  exists s r2, read (hdr "A" [] [] [] []) l = Ok (s, r2) /\ map (fun x => (r_name (fst x), r_at (fst x))) (comps s) = [("a", None); ("x", Some "a")].
Proof. do 2 eexists. split; vm_compute; reflexivity. Qed.

(* Instances of an included file that are named by COPY get their number from the included file alone: where the text in place has
   Comp_2, the included instance is Comp_1. *)
Theorem C69_copy_names_refuted : exists l s s' r r',
  read (hdr "A" [] [] [] []) l = Ok (s, r) /\ read (one_text (hdr "A" [] [] [] []) l) (flat_map (in_place false) l) = Ok (s', r') /\
  map (fun x : rinst * _ => r_name (fst x)) (comps s) = ["a"; "Comp_1"] /\ map (fun x : rinst * _ => r_name (fst x)) (comps s') = ["a"; "Comp_2"].
Proof.
  exists [comp "a" None []; TIncl (hdr "B" [] [] [] []) [TComp (mkDecl false NCopy (TName "Arm") None None) []]]. do 4 eexists. repeat split; vm_compute; reflexivity.
Qed.
(* A file that is included by an included file does not see the instances of the outermost one: AT (0,0,1) RELATIVE a is an error there,
   though the same text in place is read. *)
Theorem C69_two_levels_refuted : exists l s r,
  Forall (plain false) l /\ Forall (fixed false) l /\ read (hdr "A" [] [] [] []) l = Raise /\
  read (one_text (hdr "A" [] [] [] []) l) (flat_map (in_place false) l) = Ok (s, r) /\ map (fun x : rinst * _ => (r_name (fst x), r_at (fst x))) (comps s) = [("a", None); ("x", Some "a")].
Proof.
  exists [comp "a" None []; TIncl (hdr "B" [] [] [] []) [TIncl (hdr "C" [] [] [] []) [comp "x" (Some (CName "a")) []]]]. do 2 eexists. split; [|split; [|repeat split; vm_compute; reflexivity]].
  - all_items; plain_item.
  - all_items; reflexivity.
Qed.
(* DEPENDENCY of an included instrument is read and then dropped: neither the instrument nor the reader has it, so the program is compiled
   without it. *)
Theorem C69_included_dependency_refuted : exists h' l' s r,
  h_deps h' = ["-lncrystal"] /\ read (hdr "A" [] [] [] []) [TIncl h' l'] = Ok (s, r) /\ ~ In "-lncrystal" (flags s ++ c_flags r).
Proof. exists (hdr "B" [] ["-lncrystal"] [] []), [comp "x" None []]. do 2 eexists. split; [reflexivity|]. split; [vm_compute; reflexivity|]. cbn. intuition discriminate. Qed.
(* The type of a REMOVABLE instance that is left out has been read all the same: its DEPENDENCY stays. *)
Theorem C69_removable_flags_refuted : exists l s r,
  read (hdr "A" [] [] [] []) l = Ok (s, r) /\ ~ In "Source" (map (fun x : rinst * _ => r_type (fst x)) (comps s)) /\ In "-lSource" (c_flags r).
Proof.
  exists [TIncl (hdr "B" [] [] [] []) [TComp (mkDecl true (NId "source") (TName "Source") None None) []; comp "x" None []]]. do 2 eexists.
  split; [vm_compute; reflexivity|]. cbn. split; [intuition discriminate|auto].
Qed.
End Ex.
(* MYSELF in an expression is never read: the visitor asks for an attribute that is set nowhere. *)
Theorem C69_myself_refuted : forall P M R dec definition matches from_spec dest (s : st P M) (r : rd R) d ps n l,
  In (n, VMyself) ps -> trace dec definition matches from_spec dest s r (TComp d ps :: l) = Raise.
Proof.
  intros P M R dec definition matches from_spec dest s r d ps n l I. cbn [trace trace_item]. unfold component.
  assert (V : forall c v, values dest c ps <> Ok v).
  { intros c. induction ps as [|[m x] t IH]; [destruct I|]. intros v. cbn [values]. destruct I as [[= -> ->]|I]; [discriminate|]. destruct (value dest c x); try discriminate.
    specialize (IH I). destruct (values dest c t) as [w| |]; try discriminate. now elim (IH w). }
  destruct (match d_type d with TName n => load definition r n | TCopy _ => Ok r end); try reflexivity. destruct (component_instance _ _ dest (map fst (comps s)) d); try reflexivity.
  specialize (V (map fst (comps s))). destruct (values dest (map fst (comps s)) ps) as [v| |]; try reflexivity. now elim (V v).
Qed.
Print Assumptions C69_copy_names_refuted.
Print Assumptions C69_two_levels_refuted.
Print Assumptions C69_included_dependency_refuted.
Print Assumptions C69_removable_flags_refuted.
Print Assumptions C69_myself_refuted.

(** ** C70: the two ways of reading *)
Section Ways.
Variables P M R : Type.
Variable dec : nat -> string.
Variable definition : list R -> list string -> string -> option (list string * list string).
Variable matches : R -> string -> bool.
Variable from_spec : string -> option R.
Variable ordered : list R -> list R.
Notation parse := (parse_mccode_instr (P := P) (M := M) dec definition matches from_spec ordered).
Notation get := (get_instrument (P := P) (M := M) dec definition matches from_spec ordered).
Definition but_flags (s : st P M) : st P M := mkS (params s) (metas s) (comps s) (included s) [] (s_decl s) (s_user s) (s_init s) (s_save s) (s_final s).
Lemma file_flags dest (r : rd R) (h : header P M) l s r' : file dec definition matches from_spec dest r h l = Ok (s, r') -> flags s = h_deps h.
Proof.
  unfold file. destruct (start matches from_spec h r) as [[s0 r0]| |] eqn:E; try discriminate. apply start_spec in E as (_ & _ & ->).
  match goal with |- context [trace _ _ _ _ ?a ?b ?c l] => destruct (trace dec definition matches from_spec a b c l) as [[s1 r1]| |] eqn:E1 end; try discriminate. intros [= <- <-].
  apply trace_rest in E1 as [_ _ _ B _ _ _ _ _]. exact B.
Qed.
(** C70: both ways succeed or fail together and differ in two points: one has the DEPENDENCY strings of the instrument in front of those
    of the components, the other only the latter; one has the registries that were given, the other those and what SEARCH added in front. *)
Theorem C70_ways : (forall g k u new fl, definition g k u = Some (new, fl) -> In u new) ->
  forall given h l,
  (forall i gi, parse given h l = Ok (i, gi) -> exists j gj, get given h l = Ok (j, gj) /\ but_flags i = but_flags j /\ flags i = h_deps h ++ flags j /\
     gi = given /\ exists added, gj = added ++ ordered given /\ forall x, In x added -> exists spec, from_spec spec = Some x) /\
  (parse given h l = Raise <-> get given h l = Raise).
Proof.
  intros O given h l. unfold parse_mccode_instr, get_instrument. destruct (file dec definition matches from_spec None (mkRd [] [] (ordered given)) h l) as [[s r]| |] eqn:E; [|split; [discriminate|tauto]|split; [discriminate|split; auto]].
  split; [|split; discriminate]. intros i gi [= <- <-]. pose proof (file_flags _ _ _ _ _ _ E) as F. unfold file in E.
  destruct (start matches from_spec h (mkRd [] [] (ordered given))) as [[s0 r0]| |] eqn:Es; try discriminate. destruct (trace dec definition matches from_spec None s0 r0 l) as [[s1 r1]| |] eqn:Et; try discriminate. injection E as <- <-.
  apply start_spec in Es as (Es & _ & _). apply (searches_grows R definition) in Es as [G0 _]. apply trace_reader in Et as (G1 & _); [|exact O]. destruct (grows_trans _ _ _ _ _ G0 G1) as (_ & _ & G).
  do 2 eexists. split; [reflexivity|]. split; [reflexivity|]. split; [cbn [flags]; now rewrite <- F|]. split; [reflexivity|]. exact G.
Qed.
(** C70: the DEPENDENCY strings that come with every component type used, in the file or in an included one, are among the flags either way. *)
Theorem C70_types : (forall g k u new fl, definition g k u = Some (new, fl) -> In u new) ->
  forall given h l j gj t, get given h l = Ok (j, gj) -> In t (flat_map (used P M) l) ->
  exists g known u new fl, definition g known u = Some (new, fl) /\ In t new /\ incl fl (flags j).
Proof.
  intros O given h l j gj t. unfold get_instrument. destruct (file dec definition matches from_spec None (mkRd [] [] (ordered given)) h l) as [[s r]| |] eqn:E; try discriminate. intros [= <- <-] T. cbn [flags]. unfold file in E.
  destruct (start matches from_spec h (mkRd [] [] (ordered given))) as [[s0 r0]| |] eqn:Es; try discriminate. destruct (trace dec definition matches from_spec None s0 r0 l) as [[s1 r1]| |] eqn:Et; try discriminate. injection E as _ <-.
  apply start_spec in Es as (Es & _ & _). apply (searches_grows R definition) in Es as [_ S0]. apply trace_reader in Et as (_ & S1 & I); [|exact O].
  apply S1; [apply S0; intros x []|]. now apply I.
Qed.
End Ways.
Print Assumptions C70_ways.
Print Assumptions C70_types.

Section ExWays.
Let dec (n : nat) : string := match n with 1 => "1" | 2 => "2" | _ => "3" end.
Let def (g : list string) (k : list string) (n : string) : option (list string * list string) := Some ([n], [("-l" ++ n)%string]).
Let arm (n : string) : titem string string := TComp (mkDecl false (NId n) (TName "Arm") None None) [].
Let parse := parse_mccode_instr (P := string) (M := string) dec def String.eqb Some (fun g => g).
Let get := get_instrument (P := string) (M := string) dec def String.eqb Some (fun g => g).
Example C70_example : (forall g k u new fl, def g k u = Some (new, fl) -> In u new) /\
  parse ["mcstas"] (mkH "A" [] ["mine"] [] ["-lm"] [] [] [] [] []) [arm "a"; arm "b"] =
    Ok (mkS [] [] [(mkR "a" "Arm" false None None, []); (mkR "b" "Arm" false None None, [])] [] ["-lm"; "-lArm"] [] [] [] [] [], ["mcstas"]).
Proof. split; [intros g k u new fl [= <- <-]; now left|vm_compute; reflexivity]. Qed.
(* Reader.get_instrument, which the command line uses, replaces the flags of the instrument: a DEPENDENCY line of the .instr file itself
   has no effect. *)
Theorem C70_own_dependency_refuted : exists h l j gj, h_deps h = ["-lncrystal"] /\ get ["mcstas"] h l = Ok (j, gj) /\ ~ In "-lncrystal" (flags j).
Proof. exists (mkH "A" [] [] [] ["-lncrystal"] [] [] [] [] []), [arm "a"]. do 2 eexists. split; [reflexivity|]. split; [vm_compute; reflexivity|]. cbn. intuition discriminate. Qed.
(* The functions of the loader keep the registries they were given: a registry that SEARCH added, from which component types were read, is
   not among those of the instrument, so GETPATH and the libraries of these types are not found there. *)
Theorem C70_search_refuted : exists h l i gi j gj, h_search h = ["mine"] /\ parse ["mcstas"] h l = Ok (i, gi) /\ get ["mcstas"] h l = Ok (j, gj) /\ ~ In "mine" gi /\ In "mine" gj.
Proof. exists (mkH "A" [] ["mine"] [] [] [] [] [] [] []), [arm "a"]. do 4 eexists. split; [reflexivity|]. split; [vm_compute; reflexivity|]. split; [vm_compute; reflexivity|]. cbn. intuition discriminate. Qed.
End ExWays.
Print Assumptions C70_own_dependency_refuted.
Print Assumptions C70_search_refuted.
