(** simplify, evaluate, depends_on and verify_parameters of Expr.v against the
    meaning of ExprSem.v *)
From Coq Require Import List String Ascii Bool QArith Qcanon Qround ZArith Lia.
From Verif Require Import PyStr Expr ExprSem.
Import ListNotations.
Local Open Scope list_scope.
Local Open Scope Qc_scope.

Ltac bind_inv H :=
  match type of H with
  | rbind ?e _ = Ok _ =>
      let E := fresh "E" in
      destruct e eqn:E; cbn [rbind] in H; try discriminate H
  end.

Section Facts.
  Variable IB : binop -> list val -> list val -> option val.
  Variable IU : unop -> list val -> option val.

  Section OneEnv.
  Variable env : string -> option val.
  Notation den := (den IB IU env).
  Notation refines := (refines IB IU env).

  (** operands and their replacements, list-wise *)
  Definition refl_l (l l' : list node) : Prop :=
    forall m vs, catM (den m) l = Some vs -> catM (den m) l' = Some vs.

  Lemma refines_expr l : refl_l l l.
  Proof. intros m vs H; exact H. Qed.

  Lemma mk_un_refines op d a a' n : refl_l a a' -> mk_un op a' = Ok n -> refines (NUn op d a) n.
  Proof.
    intros R E m vs D. apply mk_un_inv in E as [d' ->]. cbn [ExprSem.den] in *.
    destruct m; [discriminate|].
    destruct (catM (den false) a) eqn:Da; try discriminate. now rewrite (R _ _ Da).
  Qed.

  Lemma bin_refines op d d' l r l' r' :
    refl_l l l' -> refl_l r r' -> refines (NBin op d l r) (NBin op d' l' r').
  Proof.
    intros Rl Rr m vs D.
    assert (Hc : forall ml mr (k : list val -> list val -> option (list val)) w,
      match catM (den ml) l, catM (den mr) r with Some a, Some b => k a b | _, _ => None end = Some w ->
      match catM (den ml) l', catM (den mr) r' with Some a, Some b => k a b | _, _ => None end = Some w).
    { intros ml mr k w. destruct (catM (den ml) l) eqn:El; try discriminate.
      destruct (catM (den mr) r) eqn:Er; try discriminate.
      now rewrite (Rl _ _ El), (Rr _ _ Er). }
    destruct op; cbn [ExprSem.den] in *; try (destruct m; [discriminate|]);
      (eapply Hc in D; exact D).
  Qed.

  Lemma mk_bin_refines op d l r l' r' n :
    refl_l l l' -> refl_l r r' -> mk_bin op l' r' = Ok n -> refines (NBin op d l r) n.
  Proof. intros Rl Rr E. apply mk_bin_inv in E as [d' ->]. now apply bin_refines. Qed.

  Lemma mk_tri_refines d f s t f' s' t' n :
    refl_l f f' -> refl_l s s' -> refl_l t t' -> mk_tri f' s' t' = Ok n -> refines (NTri d f s t) n.
  Proof.
    intros Rf Rs Rt E m vs D. apply mk_tri_inv in E as [d' ->]. cbn [ExprSem.den] in *.
    destruct m; [discriminate|].
    destruct (catM (den false) f) as [[|[c|] [|? ?]]|] eqn:Df; try discriminate.
    rewrite (Rf _ _ Df). destruct (Qc_eq_dec c 0); auto.
  Qed.

  Lemma arith_bin_inv o d l r m vs :
    den m (NBin (bop_of o) d l r) = Some vs ->
    m = false /\ exists a b z, catM (den false) l = Some [VN a] /\ catM (den false) r = Some [VN b] /\
      num_sem IB o a b = Some z /\ vs = [z].
  Proof.
    intro D. assert (m = false /\
      match catM (den false) l, catM (den false) r with
      | Some xs, Some ys => single (bin_sem IB (bop_of o) xs ys) | _, _ => None end = Some vs) as [-> D'].
    { destruct o; cbn [ExprSem.den bop_of] in D; destruct m; try discriminate; auto. }
    split; auto. clear D.
    destruct (catM (den false) l) as [xs|]; try discriminate.
    destruct (catM (den false) r) as [ys|]; try discriminate.
    unfold bin_sem in D'. assert (arith_of (bop_of o) = Some o) as Ho by (destruct o; reflexivity).
    rewrite Ho in D'. destruct xs as [|[a|] [|? ?]]; try discriminate.
    destruct ys as [|[b|] [|? ?]]; try discriminate.
    destruct (num_sem IB o a b) eqn:Z; try discriminate. inversion D'. eauto 8.
  Qed.

  (** the decisions of BinaryOp.simplify keep the value *)
  Lemma simplify_bin_sound op d l r n : simplify_bin op l r = Ok n -> refines (NBin op d l r) n.
  Proof.
    intros E. unfold simplify_bin in E.
    bind_inv E. destruct a.
    { (* left operand is the neutral element *)
      inversion E; subst. destruct l as [|x [|? ?]]; try discriminate.
      intros m vs D.
      destruct op; try discriminate.
      - apply (arith_bin_inv AAdd) in D as (-> & a & b & z & Dl & Dr & Z & ->).
        cbn [catM] in Dl. rewrite (is_zero_sound IB IU env _ E0 _ Dl) in Z. cbn in Z.
        cbn [ExprSem.den]. rewrite Dr. injection Z as <-. do 3 f_equal; ring.
      - apply (arith_bin_inv AMul) in D as (-> & a & b & z & Dl & Dr & Z & ->).
        cbn [catM] in Dl. rewrite (is_value_sound IB IU env _ _ E0 _ Dl) in Z. cbn in Z.
        cbn [ExprSem.den]. rewrite Dr. injection Z as <-. do 3 f_equal; ring. }
    bind_inv E. destruct a.
    { inversion E; subst. destruct r as [|y [|? ?]]; try discriminate.
      intros m vs D.
      destruct op; try discriminate.
      - apply (arith_bin_inv AAdd) in D as (-> & a & b & z & Dl & Dr & Z & ->).
        cbn [catM] in Dr. rewrite (is_zero_sound IB IU env _ E1 _ Dr) in Z. cbn in Z.
        cbn [ExprSem.den]. rewrite Dl. injection Z as <-. do 3 f_equal; ring.
      - apply (arith_bin_inv ASub) in D as (-> & a & b & z & Dl & Dr & Z & ->).
        cbn [catM] in Dr. rewrite (is_zero_sound IB IU env _ E1 _ Dr) in Z. cbn in Z.
        cbn [ExprSem.den]. rewrite Dl. injection Z as <-. do 3 f_equal; ring.
      - apply (arith_bin_inv AMul) in D as (-> & a & b & z & Dl & Dr & Z & ->).
        cbn [catM] in Dr. rewrite (is_value_sound IB IU env _ _ E1 _ Dr) in Z. cbn in Z.
        cbn [ExprSem.den]. rewrite Dl. injection Z as <-. do 3 f_equal; ring.
      - apply (arith_bin_inv ADiv) in D as (-> & a & b & z & Dl & Dr & Z & ->).
        cbn [catM] in Dr. rewrite (is_value_sound IB IU env _ _ E1 _ Dr) in Z. cbn in Z.
        cbn [ExprSem.den]. rewrite Dl. injection Z as <-. now rewrite div_1. }
    assert (Hgen : mk_bin op l r = Ok n -> refines (NBin op d l r) n).
    { apply mk_bin_refines; apply refines_expr. }
    destruct l as [|x [|? ?]]; try (exact (Hgen E)).
    destruct r as [|y [|? ?]]; try (exact (Hgen E)).
    destruct (is_constant x && is_constant y); [|exact (Hgen E)].
    destruct op; try (exact (Hgen E)); intros m vs D.
    - apply (arith_bin_inv AAdd) in D as (-> & a & b & z & Dl & Dr & Z & ->).
      eapply apply_op_sound; [exact E|exact Dl|exact Dr|exact I|exact Z].
    - apply (arith_bin_inv ASub) in D as (-> & a & b & z & Dl & Dr & Z & ->).
      eapply apply_op_sound; [exact E|exact Dl|exact Dr|exact I|exact Z].
    - apply (arith_bin_inv AMul) in D as (-> & a & b & z & Dl & Dr & Z & ->).
      eapply apply_op_sound; [exact E|exact Dl|exact Dr|exact I|exact Z].
    - apply (arith_bin_inv ADiv) in D as (-> & a & b & z & Dl & Dr & Z & ->).
      eapply apply_op_sound; [exact E|exact Dl|exact Dr|exact I|exact Z].
  Qed.

  Lemma simplify_tri_sound d f s t n : simplify_tri f s t = Ok n -> refines (NTri d f s t) n.
  Proof.
    intros E. unfold simplify_tri in E.
    assert (Hgen : mk_tri f s t = Ok n -> refines (NTri d f s t) n).
    { apply mk_tri_refines; apply refines_expr. }
    destruct f as [|x [|? ?]]; try (exact (Hgen E)).
    bind_inv E. bind_inv E.
    destruct (a && negb a0) eqn:C1.
    { apply andb_prop in C1 as [-> _]. inversion E; subst. intros m vs D. cbn [ExprSem.den] in *.
      destruct m; [discriminate|]. cbn [catM] in D.
      destruct (den false x) as [[|[c|] [|? ?]]|] eqn:Dx; try discriminate.
      pose proof (is_value_sound IB IU env _ _ E0 _ Dx) as ->.
      destruct (Qc_eq_dec 1 0) as [N|]; [discriminate N|exact D]. }
    destruct (a0 && negb a) eqn:C2; [|exact (Hgen E)].
    apply andb_prop in C2 as [-> _]. inversion E; subst. intros m vs D. cbn [ExprSem.den] in *.
    destruct m; [discriminate|]. cbn [catM] in D.
    destruct (den false x) as [[|[c|] [|? ?]]|] eqn:Dx; try discriminate.
    pose proof (is_value_sound IB IU env _ _ E1 _ Dx) as ->.
    destruct (Qc_eq_dec 0 0) as [|N]; [exact D|congruence].
  Qed.

  Lemma simplify_un_sound op d a n : simplify_un op a = Ok n -> refines (NUn op d a) n.
  Proof.
    intros E.
    assert (Hgen : mk_un op a = Ok n -> refines (NUn op d a) n).
    { apply mk_un_refines, refines_expr. }
    destruct op; try (exact (Hgen E)).
    destruct a as [|x [|? ?]]; try (exact (Hgen E)).
    - destruct x; try (exact (Hgen E)); cbn in E; inversion E; subst; intros m vs D; cbn [ExprSem.den] in D;
      (destruct m; [discriminate|]); cbn [catM] in D.
      + destruct (den false (NVal p d0 o)); inversion D; reflexivity.
      + destruct (den false (NBox d0 l)); inversion D; reflexivity.
    - destruct x; exact (Hgen E).
  Qed.

  Lemma refines_trans a b c : refines a b -> refines b c -> refines a c.
  Proof. unfold ExprSem.refines. auto. Qed.

  Theorem simplify_refines n : forall n', simplify n = Ok n' -> refines n n'.
  Proof.
    induction n using node_ind'; intros n' E; cbn [simplify] in E; try discriminate.
    - inversion E; subst. intros m vs D; exact D.
    - inversion E; subst. intros m vs D; exact D.
    - bind_inv E. pose proof (rmap_refines IB IU env simplify a H _ E0) as R.
      eapply refines_trans; [|apply (simplify_un_sound op d _ _ E)].
      intros m vs D. cbn [ExprSem.den] in *. destruct m; [discriminate|].
      destruct (catM (den false) a) eqn:Da; try discriminate. now rewrite (R _ _ Da).
    - bind_inv E. bind_inv E.
      eapply refines_trans; [|apply (simplify_bin_sound op d _ _ _ E)].
      apply bin_refines; [exact (rmap_refines IB IU env simplify l H _ E0)|
                          exact (rmap_refines IB IU env simplify r H0 _ E1)].
    - bind_inv E. bind_inv E. bind_inv E.
      eapply refines_trans; [|apply (simplify_tri_sound d _ _ _ _ E)].
      pose proof (rmap_refines IB IU env simplify f H _ E0) as Rf.
      pose proof (rmap_refines IB IU env simplify s H0 _ E1) as Rs.
      pose proof (rmap_refines IB IU env simplify t H1 _ E2) as Rt.
      intros m vs D. cbn [ExprSem.den] in *.
      destruct m; [discriminate|].
      destruct (catM (den false) f) as [[|[c|] [|? ?]]|] eqn:Df; try discriminate.
      rewrite (Rf _ _ Df). destruct (Qc_eq_dec c 0); auto.
    - bind_inv E. inversion E; subst.
      pose proof (rmap_refines IB IU env simplify l H _ E0) as R. intros m vs D. cbn [ExprSem.den] in *. auto.
  Qed.
  End OneEnv.

  (** ** evaluate is substitution *)
  (** the environment in which the names in [known] have the value of the expression
      they are bound to *)
  Definition subst_env (env : string -> option val) (known : list (string * node)) (x : string) : option val :=
    match lookup known x with
    | Some v => match den IB IU env false v with Some [w] => Some w | _ => None end
    | None => env x
    end.

  (** no name of [ks] is used as the name of a struct member *)
  Fixpoint no_member (m : bool) (ks : list string) (n : node) : bool :=
    match n with
    | NRaw _ => true
    | NVal (PStr s) _ o => negb (m && ot_is_id o && existsb (String.eqb s) ks)
    | NVal (PNum _) _ _ => true
    | NBox _ l => forallb (no_member m ks) l
    | NUn _ _ a => forallb (no_member false ks) a
    | NBin op _ l r =>
        match op with
        | BStruct | BPtr => forallb (no_member m ks) l && forallb (no_member true ks) r
        | BItem | BCall => forallb (no_member m ks) l && forallb (no_member false ks) r
        | _ => forallb (no_member false ks) l && forallb (no_member false ks) r
        end
    | NTri _ f s t => forallb (no_member false ks) f && forallb (no_member false ks) s
                      && forallb (no_member false ks) t
    | NExpr l => forallb (no_member m ks) l
    end.

  (** no Value holds an Expr (evaluate and depends_on do not look inside) *)
  Fixpoint no_box (n : node) : bool :=
    match n with
    | NRaw _ | NVal _ _ _ => true
    | NBox _ _ => false
    | NUn _ _ a => forallb no_box a
    | NBin _ _ l r => forallb no_box l && forallb no_box r
    | NTri _ f s t => forallb no_box f && forallb no_box s && forallb no_box t
    | NExpr l => forallb no_box l
    end.

  Section Subst.
  Variable env : string -> option val.
  Variable known : list (string * node).
  Let ks := map fst known.
  Notation dnew := (den IB IU (subst_env env known)).
  Notation dold := (den IB IU env).

  Lemma lookup_in x v : lookup known x = Some v -> existsb (String.eqb x) ks = true.
  Proof.
    unfold ks. induction known as [|[k w] t IH]; simpl; try discriminate.
    destruct (k =? x)%string eqn:E; intro H.
    - apply String.eqb_eq in E; subst. rewrite String.eqb_refl. reflexivity.
    - rewrite (IH H). apply orb_true_r.
  Qed.

  Lemma rmap_subst f (m : bool) l :
    Forall (fun x => forall y, no_member m ks x = true -> no_box x = true -> f x = Ok y ->
                     forall vs, dnew m x = Some vs -> dold m y = Some vs) l ->
    forallb (no_member m ks) l = true -> forallb no_box l = true ->
    forall l', rmap f l = Ok l' ->
    forall vs, catM (dnew m) l = Some vs -> catM (dold m) l' = Some vs.
  Proof.
    induction 1 as [|x t Hx Ht IH]; intros Nm Nb l' E vs D.
    - discriminate D.
    - cbn [forallb] in Nm, Nb. apply andb_prop in Nm as [Nm1 Nm2]. apply andb_prop in Nb as [Nb1 Nb2].
      apply rmap_cons in E as (y & ys & Ex & Et & ->).
      destruct t as [|x2 t].
      + cbn in Et. inversion Et; subst. exact (Hx _ Nm1 Nb1 Ex vs D).
      + destruct ys as [|y2 ys]; [apply rmap_cons in Et as (? & ? & ? & ? & ?); discriminate|].
        rewrite catM_cons2 in D |- *.
        destruct (dnew m x) eqn:Dx; try discriminate.
        destruct (catM (dnew m) (x2 :: t)) eqn:Dt; try discriminate.
        rewrite (Hx y Nm1 Nb1 Ex _ eq_refl), (IH Nm2 Nb2 _ Et _ eq_refl). exact D.
  Qed.

  Lemma Forall_inst (P : bool -> node -> Prop) l m :
    Forall (fun x => forall m, P m x) l -> Forall (P m) l.
  Proof. intro H. eapply Forall_impl; [|exact H]. auto. Qed.

  Theorem evaluate_subst n : forall m n',
    no_member m ks n = true -> no_box n = true -> evaluate known n = Ok n' ->
    forall vs, dnew m n = Some vs -> dold m n' = Some vs.
  Proof.
    induction n using node_ind'; intros m n' Nm Nb E vs D; cbn [evaluate] in E; try discriminate.
    - (* Value *)
      destruct p as [q|s].
      + inversion E; subst. exact D.
      + destruct (ot_is_id o) eqn:I.
        * cbn [no_member] in Nm. rewrite I in Nm. cbn [ExprSem.den] in D. rewrite I in D.
          destruct (lookup known s) as [v|] eqn:L.
          { inversion E; subst. rewrite (lookup_in _ _ L) in Nm.
            destruct m; [discriminate|]. rewrite strip1_den.
            unfold subst_env in D. rewrite L in D.
            destruct (dold false v) as [[|w [|? ?]]|]; try discriminate. exact D. }
          { inversion E; subst. cbn [ExprSem.den]. rewrite I.
            destruct m; auto. unfold subst_env in D. rewrite L in D. exact D. }
        * inversion E; subst. cbn [ExprSem.den] in *. rewrite I in *. exact D.
    - (* unary *)
      bind_inv E. bind_inv E. cbn [no_member no_box] in Nm, Nb.
      cbn [ExprSem.den] in D. destruct m; [discriminate|].
      destruct (catM (dnew false) a) as [xs|] eqn:Da; try discriminate.
      assert (Dx : catM (dold false) a0 = Some xs).
      { refine (rmap_subst (evaluate known) false a _ Nm Nb _ E0 _ Da).
        eapply Forall_impl; [|exact H]. intros x Hx y H1' H2' H3' vs' H4'. eapply Hx; eassumption. }
      eapply (simplify_refines env); [exact E|].
      apply mk_un_inv in E1 as [d' ->]. cbn [ExprSem.den]. now rewrite Dx.
    - (* binary *)
      bind_inv E. bind_inv E. bind_inv E. cbn [no_box] in Nb. apply andb_prop in Nb as [Nb1 Nb2].
      assert (Hc : forall ml mr,
        forallb (no_member ml ks) l = true -> forallb (no_member mr ks) r = true ->
        forall (k : list val -> list val -> option (list val)) w,
        match catM (dnew ml) l, catM (dnew mr) r with Some a, Some b => k a b | _, _ => None end = Some w ->
        match catM (dold ml) a, catM (dold mr) a0 with Some a, Some b => k a b | _, _ => None end = Some w).
      { intros ml mr Nl Nr k w.
        destruct (catM (dnew ml) l) as [xs|] eqn:El; try discriminate.
        destruct (catM (dnew mr) r) as [ys|] eqn:Er; try discriminate.
        assert (catM (dold ml) a = Some xs) as ->.
        { refine (rmap_subst (evaluate known) ml l _ Nl Nb1 _ E0 _ El).
        eapply Forall_impl; [|exact H]. intros x Hx y H1' H2' H3' vs' H4'. eapply Hx; eassumption. }
        assert (catM (dold mr) a0 = Some ys) as ->.
        { refine (rmap_subst (evaluate known) mr r _ Nr Nb2 _ E1 _ Er).
        eapply Forall_impl; [|exact H0]. intros x Hx y H1' H2' H3' vs' H4'. eapply Hx; eassumption. }
        auto. }
      eapply (simplify_refines env); [exact E|].
      apply mk_bin_inv in E2 as [d' ->].
      destruct op; cbn [ExprSem.den no_member] in *; apply andb_prop in Nm as [Nm1 Nm2];
      try (destruct m; [discriminate|]);
      (eapply Hc in D; [exact D|assumption|assumption]).
    - (* trinary *)
      bind_inv E. bind_inv E. bind_inv E. bind_inv E.
      cbn [no_member no_box] in Nm, Nb.
      apply andb_prop in Nm as [Nm Nm3]. apply andb_prop in Nm as [Nm1 Nm2].
      apply andb_prop in Nb as [Nb Nb3]. apply andb_prop in Nb as [Nb1 Nb2].
      cbn [ExprSem.den] in D. destruct m; [discriminate|].
      assert (Hl : forall l l', Forall (fun x => forall m n', no_member m ks x = true -> no_box x = true ->
            evaluate known x = Ok n' -> forall vs, dnew m x = Some vs -> dold m n' = Some vs) l ->
          forallb (no_member false ks) l = true -> forallb no_box l = true ->
          rmap (evaluate known) l = Ok l' -> forall ws, catM (dnew false) l = Some ws ->
          catM (dold false) l' = Some ws).
      { intros l l' F N1 N2 R ws Dl. refine (rmap_subst (evaluate known) false l _ N1 N2 _ R _ Dl).
        eapply Forall_impl; [|exact F]. intros x Hx y H1' H2' H3' vs' H4'. eapply Hx; eassumption. }
      eapply (simplify_refines env); [exact E|].
      apply mk_tri_inv in E3 as [d' ->]. cbn [ExprSem.den].
      destruct (catM (dnew false) f) as [[|[c|] [|? ?]]|] eqn:Df; try discriminate.
      rewrite (Hl f a H Nm1 Nb1 E0 _ Df).
      destruct (Qc_eq_dec c 0).
      + exact (Hl t a1 H1 Nm3 Nb3 E2 _ D).
      + exact (Hl s a0 H0 Nm2 Nb2 E1 _ D).
    - (* Expr *)
      bind_inv E. cbn [no_member no_box] in Nm, Nb.
      eapply (simplify_refines env); [exact E|]. cbn [ExprSem.den] in *.
      refine (rmap_subst (evaluate known) m l _ Nm Nb _ E0 _ D).
        eapply Forall_impl; [|exact H]. intros x Hx y H1' H2' H3' vs' H4'. eapply Hx; eassumption.
  Qed.
  End Subst.

  (** ** depends_on *)
  Lemma catM_ext {A B} (f g : A -> option (list B)) l :
    Forall (fun x => f x = g x) l -> catM f l = catM g l.
  Proof.
    induction 1 as [|x t Hx Ht IH]; [reflexivity|].
    destruct t as [|y t]; [exact Hx|]. rewrite !catM_cons2, Hx, IH. reflexivity.
  Qed.

  Lemma existsb_false_Forall {A} (p : A -> bool) l : existsb p l = false -> Forall (fun x => p x = false) l.
  Proof.
    induction l; simpl; intro H; constructor; apply orb_false_iff in H as [H1 H2]; auto.
  Qed.
  Lemma forallb_Forall {A} (p : A -> bool) l : forallb p l = true -> Forall (fun x => p x = true) l.
  Proof. intro H. apply Forall_forall. intros x Hx. rewrite forallb_forall in H. auto. Qed.

  Lemma Forall_and3 {A} (P Q R S : A -> Prop) l :
    (forall x, P x -> Q x -> R x -> S x) -> Forall P l -> Forall Q l -> Forall R l -> Forall S l.
  Proof.
    intros H. induction 1; intros F1 F2; inversion F1; inversion F2; subst; constructor; auto.
  Qed.

  Theorem depends_on_frame x env env' n :
    (forall y, y <> x -> env y = env' y) ->
    forall m, no_box n = true -> depends_on x n = false ->
    den IB IU env m n = den IB IU env' m n.
  Proof.
    intro Hx.
    assert (Hl : forall m l, Forall (fun n => forall m, no_box n = true -> depends_on x n = false ->
        den IB IU env m n = den IB IU env' m n) l ->
      forallb no_box l = true -> existsb (depends_on x) l = false ->
      catM (den IB IU env m) l = catM (den IB IU env' m) l).
    { intros m l F B D. apply catM_ext.
      apply forallb_Forall in B. apply existsb_false_Forall in D.
      eapply Forall_and3; [|exact F|exact B|exact D]. cbn. auto. }
    induction n using node_ind'; intros m B D; cbn [ExprSem.den]; cbn [no_box depends_on] in B, D.
    - reflexivity.
    - destruct p; auto. destruct (ot_is_id o); auto. destruct m; auto.
      cbn in D. rewrite Hx; auto. intro. subst. rewrite String.eqb_refl in D. discriminate.
    - discriminate.
    - destruct m; auto. now rewrite (Hl false a).
    - apply andb_prop in B as [B1 B2]. apply orb_false_iff in D as [D1 D2].
      destruct op; try (destruct m; [reflexivity|]); rewrite (Hl _ l), (Hl _ r); auto.
    - apply andb_prop in B as [B B3]. apply andb_prop in B as [B1 B2].
      apply orb_false_iff in D as [D D3]. apply orb_false_iff in D as [D1 D2].
      destruct m; auto. rewrite (Hl _ f), (Hl _ s), (Hl _ t); auto.
    - auto.
  Qed.

  (** ** verify_parameters *)
  Theorem verify_den env names n : forall m, den IB IU env m (verify names n) = den IB IU env m n.
  Proof.
    assert (Hl : forall m l, Forall (fun n => forall m, den IB IU env m (verify names n) = den IB IU env m n) l ->
      catM (den IB IU env m) (map (verify names) l) = catM (den IB IU env m) l).
    { intros m l F. induction F as [|y t Hy Ht IH]; [reflexivity|].
      destruct t as [|z t]; [exact (Hy m)|].
      cbn [map]. rewrite !catM_cons2. rewrite (Hy m). cbn [map] in IH. now rewrite IH. }
    induction n using node_ind'; intro m; cbn [verify].
    - reflexivity.
    - destruct p; auto. destruct (ot_is_id o) eqn:I; cbn [andb]; auto.
      destruct (existsb (String.eqb s) names); auto. cbn [ExprSem.den]. rewrite I. reflexivity.
    - reflexivity.
    - cbn [ExprSem.den]. now rewrite Hl.
    - destruct op; cbn [ExprSem.den]; rewrite !Hl; auto.
    - cbn [ExprSem.den]. now rewrite !Hl.
    - cbn [ExprSem.den]. now rewrite Hl.
  Qed.
End Facts.

(** the identifiers of a tree with their parameter flag, left to right *)
Fixpoint idents (n : node) : list (string * bool) :=
  match n with
  | NVal (PStr s) _ OId => [(s, false)]
  | NVal (PStr s) _ OParam => [(s, true)]
  | NRaw _ | NVal _ _ _ | NBox _ _ => []
  | NUn _ _ a => flat_map idents a
  | NBin _ _ l r => flat_map idents l ++ flat_map idents r
  | NTri _ f s t => flat_map idents f ++ flat_map idents s ++ flat_map idents t
  | NExpr l => flat_map idents l
  end.

(** specification: a name becomes a parameter if it is among the given names *)
Definition relabel (names : list string) (p : string * bool) : string * bool :=
  (fst p, snd p || existsb (String.eqb (fst p)) names).

Lemma verify_idents names n : idents (verify names n) = map (relabel names) (idents n).
Proof.
  assert (Hl : forall l, Forall (fun n => idents (verify names n) = map (relabel names) (idents n)) l ->
    flat_map idents (map (verify names) l) = map (relabel names) (flat_map idents l)).
  { induction 1 as [|x t Hx Ht IH]; [reflexivity|]. cbn. now rewrite Hx, IH, map_app. }
  induction n using node_ind'; cbn [verify idents].
  - reflexivity.
  - destruct p; [reflexivity|]. destruct o; cbn [ot_is_id andb]; try reflexivity;
    unfold relabel; destruct (existsb (String.eqb s) names) eqn:E; cbn; rewrite ?E; reflexivity.
  - reflexivity.
  - now rewrite Hl.
  - now rewrite map_app, !Hl.
  - now rewrite !map_app, !Hl.
  - now rewrite Hl.
Qed.
