(** The names of an expression and how they are marked: as an instrument parameter, or as any other identifier. The operators of
    expressions (Expr.v) neither invent names nor change the mark of one. *)
From Coq Require Import List String Bool QArith Qcanon ZArith Arith Lia.
From Verif Require Import PyStr Expr ExprSem ExprFacts ExprTotal.
Import ListNotations.
Local Open Scope string_scope.
Local Open Scope list_scope.

(** the operators whose left operand names an object of which a part is taken *)
Definition headed (op : binop) : bool := match op with BPtr | BStruct | BItem => true | _ => false end.
(** the names standing for values, with [true] for a parameter, expression.py:38-72 *)
Fixpoint tags (n : node) : list (string * bool) :=
  match n with
  | NVal (PStr s) _ OParam => [(s, true)]
  | NVal (PStr s) _ OId => [(s, false)]
  | NRaw _ | NVal _ _ _ => []
  | NBox _ l => flat_map tags l
  | NUn _ _ a => flat_map tags a
  | NBin op _ l r => (if headed op then [] else flat_map tags l) ++ flat_map tags r
  | NTri _ f s t => flat_map tags f ++ flat_map tags s ++ flat_map tags t
  | NExpr l => flat_map tags l
  end.

Lemma rmap_tags_incl f l : Forall (fun x => forall y, f x = Ok y -> incl (tags y) (tags x)) l ->
  forall l', rmap f l = Ok l' -> incl (flat_map tags l') (flat_map tags l).
Proof.
  induction 1 as [|x t Hx Ht IH]; intros l' E.
  - inversion E; subst. apply incl_refl.
  - apply rmap_cons in E as (y & ys & Ex & Et & ->). cbn.
    apply incl_app; [apply incl_appl; auto|apply incl_appr; auto].
Qed.

Lemma mk_un_tags op a n : mk_un op a = Ok n -> tags n = flat_map tags a.
Proof. intro E. apply mk_un_inv in E as [d ->]. reflexivity. Qed.
Lemma mk_bin_tags op l r n : mk_bin op l r = Ok n -> tags n = (if headed op then [] else flat_map tags l) ++ flat_map tags r.
Proof. intro E. apply mk_bin_inv in E as [d ->]. reflexivity. Qed.
Lemma mk_tri_tags f s t n : mk_tri f s t = Ok n -> tags n = flat_map tags f ++ flat_map tags s ++ flat_map tags t.
Proof. intro E. apply mk_tri_inv in E as [d ->]. reflexivity. Qed.

Lemma as_type_tags d n : forall n', as_type d n = Ok n' -> incl (tags n') (tags n).
Proof.
  induction n using node_ind'; intros n' E; cbn [as_type] in E; try discriminate.
  - inversion E; subst. apply incl_refl.
  - inversion E; subst. apply incl_refl.
  - bind_inv E. rewrite (mk_un_tags _ _ _ E). cbn [tags]. eapply rmap_tags_incl; eauto.
  - bind_inv E. bind_inv E. rewrite (mk_bin_tags _ _ _ _ E). cbn [tags]. destruct (headed op).
    { eapply rmap_tags_incl; eauto. }
    apply incl_app; [apply incl_appl|apply incl_appr]; eapply rmap_tags_incl; eauto.
  - bind_inv E. bind_inv E. bind_inv E. rewrite (mk_tri_tags _ _ _ _ E). cbn [tags].
    apply incl_app; [apply incl_appl; eapply rmap_tags_incl; eauto|].
    apply incl_appr. apply incl_app; [apply incl_appl|apply incl_appr]; eapply rmap_tags_incl; eauto.
Qed.

Lemma neg_tags n : forall n', neg n = Ok n' -> incl (tags n') (tags n).
Proof.
  induction n using node_ind'; intros n' E; cbn [neg] in E.
  - inversion E; subst. apply incl_refl.
  - destruct (ot_is_id o || is_strt d).
    + rewrite (mk_un_tags _ _ _ E). cbn [flat_map]. rewrite app_nil_r. apply incl_refl.
    + destruct p; try discriminate. inversion E; subst. cbn. intros x [].
  - destruct (is_strt d).
    + rewrite (mk_un_tags _ _ _ E). cbn [flat_map]. rewrite app_nil_r. apply incl_refl.
    + bind_inv E. inversion E; subst. cbn [tags]. eapply rmap_tags_incl; eauto.
  - destruct op; try (rewrite (mk_un_tags _ _ _ E); cbn [flat_map]; rewrite app_nil_r; apply incl_refl).
    destruct a as [|x [|? ?]]; try discriminate. inversion E; subst. cbn. rewrite app_nil_r. apply incl_refl.
  - rewrite (mk_un_tags _ _ _ E). cbn [flat_map]. rewrite app_nil_r. apply incl_refl.
  - rewrite (mk_un_tags _ _ _ E). cbn [flat_map]. rewrite app_nil_r. apply incl_refl.
  - bind_inv E. inversion E; subst. cbn [tags]. eapply rmap_tags_incl; eauto.
Qed.

(** proof helper: operators that bring no names into an expression *)
Definition op_tags (f : aop -> node -> node -> res node) : Prop :=
  forall o a b r, f o a b = Ok r -> incl (tags r) (tags a ++ tags b).

Lemma held_tags a x : held a = Ok x -> incl (tags x) (tags a).
Proof.
  destruct a; cbn; try discriminate.
  - destruct p; try discriminate. intro H; inversion H; subst. cbn. intros y [].
  - intro H; inversion H; subst. apply incl_refl.
Qed.
Lemma hold_tags r d r' : hold r d = Ok r' -> incl (tags r') (tags r).
Proof. destruct r; cbn; try discriminate; intro H; inversion H; subst; cbn; try apply incl_refl. Qed.


Lemma fold_const_tags rec o a b d r : op_tags rec -> fold_const rec o a b d = Ok r ->
  incl (tags r) (tags a ++ tags b).
Proof.
  intros Hr E. unfold fold_const in E. bind_inv E. bind_inv E. bind_inv E.
  eapply incl_tran; [eapply hold_tags; eauto|].
  eapply incl_tran; [eapply Hr; eauto|].
  apply incl_app2; eapply held_tags; eauto.
Qed.

Lemma mk_bin_tags1 op a b r : mk_bin op [a] [b] = Ok r -> incl (tags r) (tags a ++ tags b).
Proof.
  intro E. rewrite (mk_bin_tags _ _ _ _ E). cbn [flat_map]. rewrite !app_nil_r. destruct (headed op).
  - apply incl_appr, incl_refl.
  - apply incl_refl.
Qed.
Lemma as_list_tags b : flat_map tags (as_list b) = tags b.
Proof. destruct b; cbn; rewrite ?app_nil_r; reflexivity. Qed.
Lemma coerce_tags b : tags (coerce b) = tags b.
Proof. destruct b; cbn; try reflexivity. Qed.
Lemma strip1_tags b : tags (strip1 b) = tags b.
Proof. destruct b; try reflexivity. destruct l as [|? [|? ?]]; cbn; rewrite ?app_nil_r; reflexivity. Qed.

Lemma addsub_tags rec minus a b r : op_tags rec -> value_addsub rec minus a b = Ok r ->
  incl (tags r) (tags a ++ tags b).
Proof.
  intros Hr E. unfold value_addsub in E.
  bind_inv E. destruct a0.
  { destruct minus.
    - apply incl_appr. eapply neg_tags; eauto.
    - inversion E; subst. apply incl_appr, incl_refl. }
  bind_inv E. destruct a0.
  { inversion E; subst. apply incl_appl, incl_refl. }
  assert (Hgen : forall flip : res bool,
      (do f <- flip;
       if f then do y <- held b; do y' <- neg y; rec (if minus then AAdd else ASub) a y' else
       if is_op b || is_id a || is_id b then mk_bin (bop_of (if minus then ASub else AAdd)) [a] [b] else
       do da <- dt_of a; do db <- dt_of b;
       if is_strt (dt_add da db) then mk_bin (bop_of (if minus then ASub else AAdd)) [a] [b]
       else fold_const rec (if minus then ASub else AAdd) a b (dt_add da db)) = Ok r ->
      incl (tags r) (tags a ++ tags b)).
  { intros flip G. bind_inv G. destruct a0.
    - bind_inv G. bind_inv G. eapply incl_tran; [eapply Hr; eauto|].
      apply incl_app2; [apply incl_refl|].
      eapply incl_tran; [eapply neg_tags; eauto|eapply held_tags; eauto].
    - destruct (is_op b || is_id a || is_id b).
      + eapply mk_bin_tags1; eauto.
      + bind_inv G. bind_inv G. destruct (is_strt _).
        * eapply mk_bin_tags1; eauto.
        * eapply fold_const_tags; eauto. }
  destruct b as [q|p d o|d l|op d l|op d l r0|d f s t|l]; try (eapply Hgen; exact E).
  destruct op; try (eapply Hgen; exact E).
  destruct l as [|w [|? ?]]; try (eapply Hgen; exact E).
  eapply incl_tran; [eapply Hr; eauto|]. cbn. rewrite app_nil_r. apply incl_refl.
Qed.

Ltac fr := first [ apply incl_nil_l
  | apply incl_appl; apply incl_refl | apply incl_appr; apply incl_refl
  | eapply mk_bin_tags1; eassumption
  | apply incl_appl; eapply as_type_tags; eassumption
  | apply incl_appr; eapply as_type_tags; eassumption
  | apply incl_appl; eapply neg_tags; eassumption
  | apply incl_appr; eapply neg_tags; eassumption
  | apply incl_appl; eapply incl_tran; [eapply as_type_tags; eassumption|eapply neg_tags; eassumption]
  | apply incl_appr; eapply incl_tran; [eapply as_type_tags; eassumption|eapply neg_tags; eassumption]
  | eapply fold_const_tags; eassumption ].

Lemma int_round_tags a r : int_round a = Ok r -> incl (tags r) (tags a).
Proof. destruct a; try discriminate. destruct p; try discriminate. intro H; inversion H; subst. intros x []. Qed.

Lemma value_op_tags rec o a b r : op_tags rec -> value_op rec o a b = Ok r ->
  incl (tags r) (tags a ++ tags b).
Proof.
  intros Hr E. destruct o; cbn [value_op] in E.
  - eapply addsub_tags; eauto.
  - eapply addsub_tags; eauto.
  - unfold value_mul in E. do 4 bind_inv E.
    match type of E with (if ?c then _ else _) = _ => destruct c end; [inversion E; subst; fr|].
    bind_inv E. match type of E with (if ?c then _ else _) = _ => destruct c end; [fr|].
    bind_inv E. match type of E with (if ?c then _ else _) = _ => destruct c end; [bind_inv E; fr|].
    bind_inv E. match type of E with (if ?c then _ else _) = _ => destruct c end; [fr|].
    bind_inv E. match type of E with (if ?c then _ else _) = _ => destruct c end; [bind_inv E; fr|].
    match type of E with (if ?c then _ else _) = _ => destruct c end; [fr|].
    match type of E with (if ?c then _ else _) = _ => destruct c end; fr.
  - unfold value_div in E. do 4 bind_inv E.
    match type of E with (if ?c then _ else _) = _ => destruct c end; [inversion E; subst; fr|].
    bind_inv E. match type of E with (if ?c then _ else _) = _ => destruct c end; [fr|].
    bind_inv E. match type of E with (if ?c then _ else _) = _ => destruct c end; [bind_inv E; fr|].
    bind_inv E. match type of E with (if ?c then _ else _) = _ => destruct c end; [discriminate|].
    match type of E with (if ?c then _ else _) = _ => destruct c end; [fr|].
    match type of E with (if ?c then _ else _) = _ => destruct c end; fr.
  - unfold value_floordiv in E. do 3 bind_inv E.
    match type of E with (if ?c then _ else _) = _ => destruct c end; [inversion E; subst; fr|].
    bind_inv E. match type of E with (if ?c then _ else _) = _ => destruct c end.
    { apply incl_appl. eapply int_round_tags; eauto. }
    bind_inv E. match type of E with (if ?c then _ else _) = _ => destruct c end.
    { bind_inv E. apply incl_appl. eapply incl_tran; [eapply neg_tags; eauto|eapply int_round_tags; eauto]. }
    bind_inv E. match type of E with (if ?c then _ else _) = _ => destruct c end; [discriminate|].
    match type of E with (if ?c then _ else _) = _ => destruct c end; [fr|].
    destruct a; try discriminate. destruct p; try discriminate.
    destruct b; try discriminate. destruct p; try discriminate.
    bind_inv E. inversion E; subst. cbn. apply incl_nil_l.
  - unfold value_pow in E. bind_inv E.
    match type of E with (if ?c then _ else _) = _ => destruct c end; [inversion E; subst; fr|].
    bind_inv E. match type of E with (if ?c then _ else _) = _ => destruct c end; [inversion E; subst; fr|].
    bind_inv E. match type of E with (if ?c then _ else _) = _ => destruct c end; [bind_inv E; inversion E; subst; fr|].
    fr.
Qed.

Lemma op_op_tags o a b r : op_op o a b = Ok r -> incl (tags r) (tags a ++ tags b).
Proof.
  assert (M : forall op, mk_bin op [a] (as_list b) = Ok r -> incl (tags r) (tags a ++ tags b)).
  { intros op E. rewrite (mk_bin_tags _ _ _ _ E), as_list_tags. cbn [flat_map]. rewrite app_nil_r. destruct (headed op); [apply incl_appr|]; apply incl_refl. }
  assert (Ra : Ok a = Ok r -> incl (tags r) (tags a ++ tags b)).
  { intro E. injection E as ->. fr. }
  assert (Rb : Ok b = Ok r -> incl (tags r) (tags a ++ tags b)).
  { intro E. injection E as ->. fr. }
  intro E. destruct o; cbn [op_op] in E; try discriminate; bind_inv E;
  match type of E with (if ?c then _ else _) = _ => destruct c end;
  try discriminate; try (exact (Ra E)); try (exact (Rb E)); try (eapply M; exact E);
  bind_inv E; (match type of E with (if ?c then _ else _) = _ => destruct c end; [exact (Ra E)|]);
  bind_inv E; (match type of E with (if ?c then _ else _) = _ => destruct c end; [fr|]);
  eapply M; exact E.
Qed.

Lemma py_op_tags fuel : op_tags (py_op fuel).
Proof.
  induction fuel as [|fuel IH]; intros o a b r E; [discriminate|]. cbn [py_op] in E.
  assert (Hv : value_op (py_op fuel) o a (coerce b) = Ok r -> incl (tags r) (tags a ++ tags b)).
  { intro G. rewrite <- (coerce_tags b). eapply value_op_tags; eauto. }
  destruct a; try (exact (Hv E)); try (eapply op_op_tags; exact E).
  - destruct b; try discriminate.
    + bind_inv E. inversion E; subst. apply incl_nil_l.
    + destruct l as [|w [|? ?]]; try discriminate. bind_inv E. inversion E; subst.
      cbn [tags flat_map]. rewrite !app_nil_r. eapply IH in E0. exact E0.
  - destruct l as [|w [|? ?]]; try discriminate. bind_inv E. inversion E; subst.
    cbn [tags flat_map]. rewrite !app_nil_r. eapply IH in E0. now rewrite strip1_tags in E0.
Qed.

