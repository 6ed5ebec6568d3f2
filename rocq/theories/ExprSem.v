(** Meaning of expression trees, independent of the rewriting code in Expr.v, and the
    proofs that the rewriting preserves it. *)
From Coq Require Import List String Ascii Bool QArith Qcanon Qround ZArith Lia.
From Verif Require Import PyStr Expr.
Import ListNotations.
Local Open Scope list_scope.
Local Open Scope Qc_scope.

(** A value is a number or a text (string constants, function and member names). *)
Inductive val := VN (q : Qc) | VS (s : string).

(** first failure aborts, an empty list denotes nothing; results are concatenated *)
Definition catM {A B} (f : A -> option (list B)) : list A -> option (list B) :=
  fix go l := match l with
              | [] => None
              | [x] => f x
              | x :: t => match f x, go t with
                          | Some a, Some b => Some (a ++ b)
                          | _, _ => None
                          end
              end.

(** specification: integral numbers *)
Definition is_integer (q : Qc) : Prop := exists z : Z, q = Z2Qc z.

Section Den.
  (** what the operations that are not arithmetic mean is left open: every theorem
      holds for each choice of these three *)
  Variable IB : binop -> list val -> list val -> option val.
  Variable IU : unop -> list val -> option val.
  Variable env : string -> option val.

  (** textbook arithmetic; division by zero and 0 to a non-positive power undefined *)
  Definition num_sem (o : aop) (a b : Qc) : option val :=
    match o with
    | AAdd => Some (VN (a + b))
    | ASub => Some (VN (a - b))
    | AMul => Some (VN (a * b))
    | ADiv => if Qc_eq_dec b 0 then None else Some (VN (a / b))
    | AFloor => if Qc_eq_dec b 0 then None else Some (VN (Qc_floor (a / b)))
    | APow => if Qc_eq_dec a 0 then (if Qclt_le_dec 0 b then Some (VN 0) else None)
              else if Qc_eq_dec b 0 then Some (VN 1)
              else if Qc_eq_dec a 1 then Some (VN 1)
              else IB BPow [VN a] [VN b]
    end.

  (** specification: the operations that are arithmetic *)
  Definition arith_of (op : binop) : option aop :=
    match op with
    | BAdd => Some AAdd | BSub => Some ASub | BMul => Some AMul
    | BDiv => Some ADiv | BFloor => Some AFloor | BPow => Some APow
    | _ => None
    end.

  (** specification: what a binary operation stands for *)
  Definition bin_sem (op : binop) (xs ys : list val) : option val :=
    match arith_of op with
    | Some o => match xs, ys with
                | [VN a], [VN b] => num_sem o a b
                | _, _ => None
                end
    | None => IB op xs ys
    end.

  (** specification: what a unary operation stands for *)
  Definition un_sem (op : unop) (xs : list val) : option (list val) :=
    match op with
    | UGroup => Some xs
    | UNeg => match xs with [VN a] => Some [VN (- a)] | _ => None end
    | UPos => match xs with [VN a] => Some [VN a] | _ => None end
    | UAbs => match xs with [VN a] => Some [VN (Qc_abs a)] | _ => None end
    | URound => match xs with [VN a] => Some [VN (Qc_round a)] | _ => None end
    | _ => option_map (fun v => [v]) (IU op xs)
    end.

  (** specification: one value *)
  Definition single (o : option val) : option (list val) := option_map (fun v => [v]) o.

  (** [den m n]: the values denoted by n; in member position (m = true, right of '.' or
      '->') an identifier stands for its own name, elsewhere for its value *)
  Fixpoint den (m : bool) (n : node) : option (list val) :=
    match n with
    | NRaw q => Some [VN q]
    | NVal p _ o =>
        if ot_is_id o
        then match p with
             | PStr s => if m then Some [VS s] else single (env s)
             | PNum _ => None
             end
        else match p with PNum q => Some [VN q] | PStr s => Some [VS s] end
    | NBox _ l => catM (den m) l
    | NUn op _ a =>
        if m then None else
        match catM (den false) a with Some xs => un_sem op xs | None => None end
    | NBin op _ l r =>
        match op with
        | BStruct | BPtr =>
            match catM (den m) l, catM (den true) r with
            | Some xs, Some ys => single (bin_sem op xs ys) | _, _ => None end
        | BItem | BCall =>
            match catM (den m) l, catM (den false) r with
            | Some xs, Some ys => single (bin_sem op xs ys) | _, _ => None end
        | _ =>
            if m then None else
            match catM (den false) l, catM (den false) r with
            | Some xs, Some ys => single (bin_sem op xs ys) | _, _ => None end
        end
    | NTri _ f s t =>
        if m then None else
        match catM (den false) f with
        | Some [VN c] => if Qc_eq_dec c 0 then catM (den false) t else catM (den false) s
        | _ => None
        end
    | NExpr l => catM (den m) l
    end.

  (** specification: what a list of nodes stands for *)
  Definition denl (m : bool) (l : list node) := catM (den m) l.
  (** specification: the node stands for this number *)
  Definition num (n : node) (q : Qc) : Prop := den false n = Some [VN q].

  (** ** generic facts *)
  Lemma den_single m x : catM (den m) [x] = den m x.
  Proof. reflexivity. Qed.

  Lemma rmap_cons {A B} (f : A -> res B) x t l' :
    rmap f (x :: t) = Ok l' ->
    exists y ys, f x = Ok y /\ rmap f t = Ok ys /\ l' = y :: ys.
  Proof.
    simpl. destruct (f x); simpl; try congruence.
    destruct (rmap f t); simpl; try congruence.
    intro H; inversion H; subst. eauto.
  Qed.

  Lemma rmap_single {A B} (f : A -> res B) x l' :
    rmap f [x] = Ok l' -> exists y, f x = Ok y /\ l' = [y].
  Proof.
    intro H. apply rmap_cons in H as (y & ys & E & E2 & ->).
    simpl in E2. inversion E2; subst. eauto.
  Qed.

  Lemma catM_cons2 {A B} (f : A -> option (list B)) x y t :
    catM f (x :: y :: t) = match f x, catM f (y :: t) with
                           | Some a, Some b => Some (a ++ b) | _, _ => None end.
  Proof. reflexivity. Qed.

  Lemma catM_nonempty {A B} (f : A -> option (list B)) l :
    Forall (fun x => f x <> Some []) l -> catM f l <> Some [].
  Proof.
    induction 1 as [|x t Hx Ht IH]; [discriminate|].
    destruct t as [|y t]; [exact Hx|]. rewrite catM_cons2.
    destruct (f x) as [[|v a]|]; try congruence.
    destruct (catM f (y :: t)); discriminate.
  Qed.

  Lemma den_nonempty n : forall m, den m n <> Some [].
  Proof.
    induction n using node_ind'; intro m; cbn [den].
    - discriminate.
    - destruct (ot_is_id o), p, m; try discriminate. destruct (env s); discriminate.
    - apply catM_nonempty. eapply Forall_impl; [|exact H]. auto.
    - destruct m; [discriminate|].
      assert (catM (den false) a <> Some []) as Hn
        by (apply catM_nonempty; eapply Forall_impl; [|exact H]; auto).
      destruct (catM (den false) a) as [xs|]; try discriminate.
      destruct op; cbn [un_sem]; try congruence;
      try (destruct xs as [|[|] [|? ?]]; discriminate);
      unfold option_map; destruct (IU _ xs); discriminate.
    - destruct op; repeat match goal with |- context [match ?x with _ => _ end] => destruct x end;
      try discriminate; unfold single, option_map; destruct (bin_sem _ _ _); discriminate.
    - destruct m; [discriminate|].
      destruct (catM (den false) f) as [[|[c|] [|? ?]]|]; try discriminate.
      destruct (Qc_eq_dec c 0); apply catM_nonempty; eapply Forall_impl; try eassumption; auto.
    - apply catM_nonempty. eapply Forall_impl; [|exact H]. auto.
  Qed.

  Lemma catM_one m l v : catM (den m) l = Some [v] -> exists x, l = [x] /\ den m x = Some [v].
  Proof.
    destruct l as [|x [|y t]]; intro H; [discriminate|eauto|].
    exfalso. rewrite catM_cons2 in H.
    destruct (den m x) as [[|v1 a]|] eqn:Dx; try discriminate.
    - now apply den_nonempty in Dx.
    - destruct (catM (den m) (y :: t)) as [b|] eqn:Dt; try discriminate.
      destruct b as [|v2 b].
      + revert Dt. apply catM_nonempty. apply Forall_forall. intros; apply den_nonempty.
      + destruct a; discriminate.
  Qed.

  (** specification: whatever the one stands for the other stands for too *)
  Definition refines (n n' : node) : Prop :=
    forall m vs, den m n = Some vs -> den m n' = Some vs.

  Lemma rmap_refines f l :
    Forall (fun x => forall y, f x = Ok y -> refines x y) l ->
    forall l', rmap f l = Ok l' ->
    forall m vs, catM (den m) l = Some vs -> catM (den m) l' = Some vs.
  Proof.
    induction 1 as [|x t Hx Ht IH]; intros l' E m vs D.
    - discriminate D.
    - apply rmap_cons in E as (y & ys & Ex & Et & ->).
      destruct t as [|x2 t].
      + cbn in Et. inversion Et; subst. exact (Hx _ Ex m vs D).
      + destruct ys as [|y2 ys]; [apply rmap_cons in Et as (? & ? & ? & ? & ?); discriminate|].
        rewrite catM_cons2 in D |- *.
        destruct (den m x) eqn:Dx; try discriminate.
        destruct (catM (den m) (x2 :: t)) eqn:Dt; try discriminate.
        rewrite (Hx y Ex m _ Dx), (IH _ Et m _ Dt). exact D.
  Qed.

  (** ** constructors *)
  Lemma mk_un_inv op a n : mk_un op a = Ok n -> exists d, n = NUn op d a.
  Proof. unfold mk_un. destruct (one_dt a); simpl; try congruence. intro H; inversion H. eauto. Qed.
  Lemma mk_bin_inv op l r n : mk_bin op l r = Ok n -> exists d, n = NBin op d l r.
  Proof.
    unfold mk_bin. destruct op; try (intro H; inversion H; eauto; fail);
    destruct (one_dt l); simpl; try congruence; destruct (one_dt r); simpl; try congruence;
    intro H; inversion H; eauto.
  Qed.
  Lemma mk_tri_inv f s t n : mk_tri f s t = Ok n -> exists d, n = NTri d f s t.
  Proof.
    unfold mk_tri. destruct (one_dt s); simpl; try congruence.
    destruct (one_dt t); simpl; try congruence. intro H; inversion H; eauto.
  Qed.

  Lemma num_bin o d l r a b z :
    denl false l = Some [VN a] -> denl false r = Some [VN b] ->
    num_sem o a b = Some z -> den false (NBin (bop_of o) d l r) = Some [z].
  Proof.
    unfold denl; intros Hl Hr Hz. destruct o; cbn [den bop_of]; rewrite Hl, Hr;
    unfold bin_sem; cbn [arith_of]; rewrite Hz; reflexivity.
  Qed.

  Lemma num_mk_bin o l r a b z n :
    mk_bin (bop_of o) l r = Ok n ->
    denl false l = Some [VN a] -> denl false r = Some [VN b] ->
    num_sem o a b = Some z -> den false n = Some [z].
  Proof. intros E. apply mk_bin_inv in E as [d ->]. apply num_bin. Qed.

  (** ** as_type only changes labels *)
  Lemma rmap_same f l :
    Forall (fun x => forall y, f x = Ok y -> forall m, den m y = den m x) l ->
    forall l', rmap f l = Ok l' -> forall m, catM (den m) l' = catM (den m) l.
  Proof.
    induction 1 as [|x t Hx Ht IH]; intros l' E m.
    - simpl in E. inversion E; subst. reflexivity.
    - apply rmap_cons in E as (y & ys & Ex & Et & ->).
      destruct t as [|x2 t].
      + cbn in Et. inversion Et; subst. exact (Hx _ Ex m).
      + destruct ys as [|y2 ys]; [apply rmap_cons in Et as (? & ? & ? & ? & ?); discriminate|].
        rewrite !catM_cons2. now rewrite (Hx y Ex m), (IH _ Et m).
  Qed.

  Ltac bind_inv H :=
    match type of H with
    | rbind ?e _ = Ok _ =>
        let E := fresh "E" in
        destruct e eqn:E; cbn [rbind] in H; try discriminate H
    end.

  Lemma as_type_den d n : forall n', as_type d n = Ok n' -> forall m, den m n' = den m n.
  Proof.
    induction n using node_ind'; intros n' E m; cbn [as_type] in E; try discriminate.
    - inversion E; subst. reflexivity.
    - inversion E; subst. reflexivity.
    - bind_inv E. apply mk_un_inv in E as [d' ->]. cbn [den].
      now rewrite (rmap_same _ _ H _ E0).
    - bind_inv E. bind_inv E. apply mk_bin_inv in E as [d' ->].
      destruct op; cbn [den]; rewrite ?(rmap_same _ _ H _ E0), ?(rmap_same _ _ H0 _ E1); reflexivity.
    - bind_inv E. bind_inv E. bind_inv E. apply mk_tri_inv in E as [d' ->]. cbn [den].
      now rewrite (rmap_same _ _ H _ E0), (rmap_same _ _ H0 _ E1), (rmap_same _ _ H1 _ E2).
  Qed.

  (** ** recognisers *)
  Lemma eq_num_sound n : forall q, eq_num n q = true -> forall vs, den false n = Some vs -> vs = [VN q].
  Proof.
    induction n using node_ind'; intros v E vs D; cbn [eq_num] in E; try discriminate.
    - apply Qc_eqb_eq in E; subst. cbn in D. congruence.
    - destruct p; try discriminate. apply Qc_eqb_eq in E; subst. cbn in D.
      destruct (ot_is_id o); congruence.
    - destruct l as [|x [|? ?]]; try discriminate. inversion H; subst.
      eapply H2; eauto.
    - destruct l as [|x [|? ?]]; try discriminate. inversion H; subst.
      eapply H2; eauto.
  Qed.

  Lemma is_zero_sound n : is_zero n = Ok true -> forall q, num n q -> q = 0.
  Proof.
    unfold num. induction n using node_ind'; cbn [is_zero]; try discriminate.
    - destruct (ot_is_id o) eqn:I; try discriminate. cbn [den]. rewrite I.
      destruct (match o with OValue => true | _ => false end && is_strt d).
      + destruct p; try discriminate; congruence.
      + destruct p; try congruence. intro E; inversion E.
        intros q' D. inversion D; subst. now apply Qc_eqb_eq.
    - destruct (is_strt d); try discriminate. destruct l as [|x [|? ?]]; try discriminate.
      intros E q D. inversion E. cbn [den] in D. rewrite den_single in D.
      apply (eq_num_sound _ _ H1) in D. congruence.
    - destruct l as [|x [|? ?]]; try discriminate. intros E q D. inversion H; subst.
      cbn [den] in D. rewrite den_single in D. eauto.
  Qed.

  Lemma is_value_sound n v : is_value n v = Ok true -> forall q, num n q -> q = v.
  Proof.
    unfold num. induction n using node_ind'; cbn [is_value]; try discriminate.
    - intros E q D. inversion E. apply andb_prop in H0 as [_ H1].
      apply (eq_num_sound (NVal p d o)) with (vs := [VN q]) in H1; [congruence|exact D].
    - intros E q D. inversion E as [E1].
      apply (eq_num_sound (NBox d l)) with (vs := [VN q]) in E1; [congruence|exact D].
    - destruct l as [|x [|? ?]]; try discriminate. intros E q D. inversion H; subst.
      cbn [den] in D. rewrite den_single in D. eauto.
  Qed.

  (** ** unary operators *)
  Definition un_num (op : unop) : option (Qc -> Qc) :=
    match op with UNeg => Some Qcopp | UAbs => Some Qc_abs | URound => Some Qc_round | _ => None end.

  Lemma mk_un_num op g n n' q :
    un_num op = Some g -> mk_un op [n] = Ok n' -> num n q -> num n' (g q).
  Proof.
    unfold num. intros Hg E D. apply mk_un_inv in E as [d ->].
    cbn [den]. rewrite den_single, D.
    destruct op; simpl in Hg; inversion Hg; reflexivity.
  Qed.
  Lemma rmap_num g f l :
    Forall (fun x => forall y q, f x = Ok y -> num x q -> num y (g q)) l ->
    forall l' q, rmap f l = Ok l' -> catM (den false) l = Some [VN q] ->
    catM (den false) l' = Some [VN (g q)].
  Proof.
    intros F l' q E D. apply catM_one in D as (x & -> & D).
    apply rmap_single in E as (y & E & ->). inversion F; subst.
    rewrite den_single. apply (H1 _ _ E D).
  Qed.

  Lemma neg_num n : forall n' q, neg n = Ok n' -> num n q -> num n' (- q).
  Proof.
    induction n using node_ind'; intros n' v E D; cbn [neg] in E.
    - inversion E; subst. unfold num in *. cbn in *. congruence.
    - destruct (ot_is_id o || is_strt d) eqn:C.
      + eapply (mk_un_num UNeg Qcopp); eauto.
      + apply orb_false_iff in C as [C1 C2].
        destruct p; try discriminate. inversion E; subst. unfold num in *. cbn in D |- *.
        rewrite C1 in D. congruence.
    - destruct (is_strt d).
      + eapply (mk_un_num UNeg Qcopp); eauto.
      + bind_inv E. inversion E; subst. unfold num in *. cbn [den] in *.
        eapply rmap_num; eauto.
    - destruct op; try (eapply (mk_un_num UNeg Qcopp); eauto; fail).
      destruct a as [|x [|? ?]]; try discriminate. inversion E; subst.
      unfold num in *. cbn [den] in D. rewrite den_single in D.
      destruct (den false n') as [[|[w|] [|? ?]]|]; try discriminate. cbn in D.
      injection D as D1. rewrite <- D1. do 3 f_equal; ring.
    - eapply (mk_un_num UNeg Qcopp); eauto.
    - eapply (mk_un_num UNeg Qcopp); eauto.
    - bind_inv E. inversion E; subst. unfold num in *. cbn [den] in *.
      eapply rmap_num; eauto.
  Qed.

  Lemma Qc_abs_idem q : Qc_abs (Qc_abs q) = Qc_abs q.
  Proof.
    unfold Qc_abs. destruct (Qclt_le_dec q 0) as [H|H].
    - destruct (Qclt_le_dec (- q) 0) as [H1|H1]; [|reflexivity].
      exfalso. apply Qclt_le_weak in H. apply Qcopp_le_compat in H.
      replace (- (0)) with 0 in H by reflexivity. exact (Qclt_not_le _ _ H1 H).
    - destruct (Qclt_le_dec q 0) as [H1|H1]; [|reflexivity].
      exfalso. exact (Qclt_not_le _ _ H1 H).
  Qed.

  Lemma nabs_num n : forall n' q, nabs n = Ok n' -> num n q -> num n' (Qc_abs q).
  Proof.
    induction n using node_ind'; intros n' v E D; cbn [nabs] in E.
    - inversion E; subst. unfold num in *. cbn in *. congruence.
    - destruct (ot_is_id o || is_strt d) eqn:C.
      + eapply (mk_un_num UAbs Qc_abs); eauto.
      + apply orb_false_iff in C as [C1 C2].
        destruct p; try discriminate. inversion E; subst. unfold num in *. cbn in D |- *.
        rewrite C1 in D. congruence.
    - destruct (is_strt d).
      + eapply (mk_un_num UAbs Qc_abs); eauto.
      + bind_inv E. inversion E; subst. unfold num in *. cbn [den] in *.
        eapply rmap_num; eauto.
    - destruct op; try (eapply (mk_un_num UAbs Qc_abs); eauto; fail).
      inversion E; subst. unfold num in *. rewrite D. cbn [den] in D.
      destruct (catM (den false) a) as [[|[w|] [|? ?]]|]; try discriminate. cbn in D.
      injection D as D1. rewrite <- D1. now rewrite Qc_abs_idem.
    - eapply (mk_un_num UAbs Qc_abs); eauto.
    - eapply (mk_un_num UAbs Qc_abs); eauto.
    - bind_inv E. inversion E; subst. unfold num in *. cbn [den] in *.
      eapply rmap_num; eauto.
  Qed.

  (** ** binary operators *)
  Lemma best_num_num q : num (best_num q) q.
  Proof. reflexivity. Qed.
  Lemma coerce_den n m : den m (coerce n) = den m n.
  Proof. destruct n; reflexivity. Qed.
  Lemma strip1_den n m : den m (strip1 n) = den m n.
  Proof. destruct n; try reflexivity. destruct l as [|? [|? ?]]; reflexivity. Qed.
  Lemma as_list_den n m : denl m (as_list n) = den m n.
  Proof. destruct n; reflexivity. Qed.

  Lemma held_num a x q : held a = Ok x -> num a q -> num x q.
  Proof.
    unfold num. destruct a; cbn; try discriminate.
    - destruct p; try discriminate. intro H; inversion H; subst.
      destruct (ot_is_id o); cbn; congruence.
    - intro H; inversion H; subst. auto.
  Qed.
  Lemma hold_num r d r' v : hold r d = Ok r' -> den false r = Some [v] -> den false r' = Some [v].
  Proof.
    destruct r; cbn; try discriminate; intro H; inversion H; subst; auto.
  Qed.

  Lemma raw_num o a b r z : raw_op o a b = Ok r -> num_sem o a b = Some z -> z = VN r.
  Proof.
    destruct o; cbn; try congruence; destruct (Qc_eq_dec b 0);
    try congruence; destruct (Qc_eqb b 0); congruence.
  Qed.

  (** where Python's own floor division and power agree with arithmetic *)
  Definition side (o : aop) (x y : Qc) : Prop :=
    match o with
    | AFloor => y = 1 \/ y = - (1) -> is_integer x
    | APow => x = 0 -> 0 < y
    | _ => True
    end.

  (** specification: operators that agree with arithmetic *)
  Definition sound_op (f : aop -> node -> node -> res node) : Prop :=
    forall o a b r x y z, f o a b = Ok r -> num a x -> num b y -> side o x y ->
      num_sem o x y = Some z -> den false r = Some [z].

  Lemma Qfloor_inject z : Qfloor (inject_Z z) = z.
  Proof. unfold Qfloor, inject_Z. apply Z.div_1_r. Qed.

  Lemma this_Z2Qc z : this (Z2Qc z) = inject_Z z.
  Proof.
    unfold Z2Qc, Q2Qc, inject_Z. cbn. unfold Qred.
    pose proof (Z.ggcd_gcd z 1). pose proof (Z.ggcd_correct_divisors z 1).
    destruct (Z.ggcd z 1) as [g [p q]]. cbn in *. rewrite Z.gcd_1_r in H. subst g.
    destruct H0 as [H0 H1]. rewrite Z.mul_1_l in H0, H1. now subst.
  Qed.

  Lemma Qc_floor_int z : Qc_floor (Z2Qc z) = Z2Qc z.
  Proof. unfold Qc_floor. now rewrite this_Z2Qc, Qfloor_inject. Qed.

  Lemma Qc_round_int z : Qc_round (Z2Qc z) = Z2Qc z.
  Proof.
    unfold Qc_round. rewrite this_Z2Qc. unfold Qround_even. rewrite Qfloor_inject.
    assert (H : ((inject_Z z - inject_Z z) ?= 1 # 2)%Q = Lt).
    { apply Qlt_alt. unfold Qminus. rewrite Qplus_opp_r. reflexivity. }
    now rewrite H.
  Qed.

  Lemma Z2Qc_opp z : - Z2Qc z = Z2Qc (- z).
  Proof.
    apply Qc_is_canon. rewrite this_Z2Qc. unfold Z2Qc, Qcopp. cbn [this Q2Qc].
    rewrite !Qred_correct. unfold inject_Z, Qopp; cbn. reflexivity.
  Qed.

  Lemma div_1 x : x / 1 = x.
  Proof. field. intro H; discriminate H. Qed.
  Lemma div_m1 x : x / - (1) = - x.
  Proof. field. intro H; discriminate H. Qed.

  Lemma num_inj n x y : num n x -> num n y -> x = y.
  Proof. unfold num. congruence. Qed.

  Lemma fold_const_sound rec o a b d r x y z :
    sound_op rec -> fold_const rec o a b d = Ok r -> num a x -> num b y -> side o x y ->
    num_sem o x y = Some z -> den false r = Some [z].
  Proof.
    intros Hr E Ha Hb S Z. unfold fold_const in E.
    bind_inv E. bind_inv E. bind_inv E.
    eapply hold_num; eauto. eapply Hr; eauto; eapply held_num; eauto.
  Qed.

  Lemma Qcplus_0_r' x : x + 0 = x. Proof. ring. Qed.
  Lemma addsub_sound rec minus a b r x y z :
    sound_op rec -> value_addsub rec minus a b = Ok r -> num a x -> num b y ->
    num_sem (if minus then ASub else AAdd) x y = Some z -> den false r = Some [z].
  Proof.
    intros Hr E Ha Hb Z. unfold value_addsub in E.
    assert (Hz : z = VN (if minus then x - y else x + y)) by (destruct minus; cbn in Z; congruence).
    subst z.
    bind_inv E. destruct a0.
    { assert (x = 0) by (eapply is_zero_sound; eauto). subst x.
      destruct minus.
      - apply (neg_num _ _ _ E) in Hb. unfold num in Hb. rewrite Hb.
        do 3 f_equal; ring.
      - inversion E; subst. unfold num in Hb. rewrite Hb. do 3 f_equal; ring. }
    bind_inv E. destruct a0.
    { assert (y = 0) by (eapply is_zero_sound; eauto). subst y.
      inversion E; subst. unfold num in Ha. rewrite Ha.
      destruct minus; do 3 f_equal; ring. }
    assert (Hgen : forall flip : res bool,
      (do f <- flip;
       if f then do y <- held b; do y' <- neg y; rec (if minus then AAdd else ASub) a y' else
       if is_op b || is_id a || is_id b then mk_bin (bop_of (if minus then ASub else AAdd)) [a] [b] else
       do da <- dt_of a; do db <- dt_of b;
       if is_strt (dt_add da db) then mk_bin (bop_of (if minus then ASub else AAdd)) [a] [b]
       else fold_const rec (if minus then ASub else AAdd) a b (dt_add da db)) = Ok r ->
      den false r = Some [VN (if minus then x - y else x + y)]).
    { intros flip G. bind_inv G. destruct a0.
      - bind_inv G. bind_inv G. apply (held_num _ _ _ E3) in Hb.
        apply (neg_num _ _ _ E4) in Hb.
        eapply Hr; [exact G|exact Ha|exact Hb|destruct minus; exact I|].
        destruct minus; cbn; do 2 f_equal; ring.
      - destruct (is_op b || is_id a || is_id b).
        + eapply num_mk_bin; eauto.
        + bind_inv G. bind_inv G. destruct (is_strt _).
          * eapply num_mk_bin; eauto.
          * eapply fold_const_sound; eauto. destruct minus; exact I. }
    destruct b as [q|p d o|d l|op d l|op d l r0|d f s t|l]; try (eapply Hgen; exact E).
    destruct op; try (eapply Hgen; exact E).
    destruct l as [|w [|? ?]]; try (eapply Hgen; exact E).
    unfold num in Hb. cbn [den] in Hb. rewrite den_single in Hb.
    destruct (den false w) as [[|[v|] [|? ?]]|] eqn:Dw; try discriminate. cbn in Hb.
    injection Hb as Hb.
    eapply Hr; [exact E|exact Ha|exact Dw|destruct minus; exact I|].
    rewrite <- Hb. destruct minus; cbn; do 2 f_equal; ring.
  Qed.

  Lemma mul_sound rec a b r x y z :
    sound_op rec -> value_mul rec a b = Ok r -> num a x -> num b y ->
    num_sem AMul x y = Some z -> den false r = Some [z].
  Proof.
    intros Hr E Ha Hb Z. unfold value_mul in E. cbn in Z. injection Z as <-.
    bind_inv E. bind_inv E. bind_inv E. bind_inv E.
    destruct a3.
    { inversion E; subst. cbn. do 3 f_equal.
      destruct a2.
      - rewrite (is_zero_sound _ E2 _ Ha). ring.
      - rewrite (is_zero_sound _ E3 _ Hb). ring. }
    bind_inv E. destruct a3.
    { rewrite (as_type_den _ _ _ E). unfold num in Hb. rewrite Hb.
      rewrite (is_value_sound _ _ E4 _ Ha). do 3 f_equal; ring. }
    bind_inv E. destruct a3.
    { bind_inv E. rewrite (as_type_den _ _ _ E).
      rewrite (neg_num _ _ _ E6 Hb), (is_value_sound _ _ E5 _ Ha). do 3 f_equal; ring. }
    bind_inv E. destruct a3.
    { rewrite (as_type_den _ _ _ E). unfold num in Ha. rewrite Ha.
      rewrite (is_value_sound _ _ E6 _ Hb). do 3 f_equal; ring. }
    bind_inv E. destruct a3.
    { bind_inv E. rewrite (as_type_den _ _ _ E).
      rewrite (neg_num _ _ _ E8 Ha), (is_value_sound _ _ E7 _ Hb). do 3 f_equal; ring. }
    destruct (is_op b || is_id a || is_id b); [eapply (num_mk_bin AMul); eauto; reflexivity|].
    destruct (is_strt _); [eapply (num_mk_bin AMul); eauto; reflexivity|].
    eapply fold_const_sound; eauto; reflexivity || exact I.
  Qed.

  Lemma div_sound rec a b r x y z :
    sound_op rec -> value_div rec a b = Ok r -> num a x -> num b y ->
    num_sem ADiv x y = Some z -> den false r = Some [z].
  Proof.
    intros Hr E Ha Hb Z. unfold value_div in E. pose proof Z as Z0. cbn in Z.
    destruct (Qc_eq_dec y 0) as [|Hy]; [discriminate|]. injection Z as <-.
    bind_inv E. bind_inv E. bind_inv E. bind_inv E.
    destruct a3.
    { inversion E; subst. cbn. do 3 f_equal.
      rewrite (is_zero_sound _ E3 _ Ha). field. exact Hy. }
    bind_inv E. destruct a3.
    { rewrite (as_type_den _ _ _ E). unfold num in Ha. rewrite Ha.
      rewrite (is_value_sound _ _ E4 _ Hb). do 3 f_equal; now rewrite div_1. }
    bind_inv E. destruct a3.
    { bind_inv E. rewrite (as_type_den _ _ _ E).
      rewrite (neg_num _ _ _ E6 Ha), (is_value_sound _ _ E5 _ Hb). do 3 f_equal.
      symmetry. apply div_m1. }
    bind_inv E. destruct a3; [discriminate|].
    destruct (is_op b || is_id a || is_id b); [eapply (num_mk_bin ADiv); eauto|].
    destruct (is_strt _); [eapply (num_mk_bin ADiv); eauto|].
    eapply fold_const_sound; eauto; exact I.
  Qed.

  Lemma floor_sound a b r x y z :
    value_floordiv a b = Ok r -> num a x -> num b y -> side AFloor x y ->
    num_sem AFloor x y = Some z -> den false r = Some [z].
  Proof.
    intros E Ha Hb S Z. unfold value_floordiv in E. pose proof Z as Z0. cbn in Z.
    destruct (Qc_eq_dec y 0) as [|Hy]; [discriminate|]. injection Z as <-.
    bind_inv E. bind_inv E. bind_inv E.
    assert (Hir : forall n, int_round a = Ok n -> num n (Qc_round x)).
    { intros n H. unfold int_round in H. destruct a; try discriminate. destruct p; try discriminate.
      inversion H; subst. unfold num in *. cbn in Ha |- *. destruct (ot_is_id o); congruence. }
    destruct a2.
    { inversion E; subst. cbn. do 3 f_equal.
      rewrite (is_zero_sound _ E2 _ Ha).
      replace (0 / y) with 0 by (field; exact Hy). reflexivity. }
    bind_inv E. destruct a2.
    { pose proof (is_value_sound _ _ E3 _ Hb) as ->. destruct (S (or_introl eq_refl)) as [k ->].
      rewrite (Hir _ E), div_1, Qc_floor_int, Qc_round_int. reflexivity. }
    bind_inv E. destruct a2.
    { pose proof (is_value_sound _ _ E4 _ Hb) as ->. destruct (S (or_intror eq_refl)) as [k ->].
      bind_inv E. pose proof (neg_num _ _ _ E (Hir _ eq_refl)) as H. rewrite H.
      rewrite div_m1, Qc_round_int, Z2Qc_opp, Qc_floor_int. reflexivity. }
    bind_inv E. destruct a2; [discriminate|].
    destruct (is_op b || is_id a || is_id b); [eapply (num_mk_bin AFloor); eauto|].
    destruct a; try discriminate. destruct p; try discriminate.
    destruct b; try discriminate. destruct p; try discriminate.
    bind_inv E. inversion E; subst. unfold num in Ha, Hb. cbn in Ha, Hb.
    destruct (ot_is_id o); try discriminate. destruct (ot_is_id o0); try discriminate.
    inversion Ha; inversion Hb; subst. cbn. do 2 f_equal.
    pose proof (raw_num AFloor _ _ _ _ E6 Z0). congruence.
  Qed.

  Lemma pow_sound a b r x y z :
    value_pow a b = Ok r -> num a x -> num b y -> side APow x y ->
    num_sem APow x y = Some z -> den false r = Some [z].
  Proof.
    intros E Ha Hb S Z. unfold value_pow in E. pose proof Z as Z0. cbn in Z, S.
    bind_inv E. destruct a0.
    { pose proof (is_zero_sound _ E0 _ Ha) as ->. inversion E; subst. unfold num in Ha. rewrite Ha.
      destruct (Qc_eq_dec 0 0) as [_|N]; [|congruence]. destruct (Qclt_le_dec 0 y); congruence. }
    bind_inv E. destruct a0.
    { pose proof (is_value_sound _ _ E1 _ Ha) as ->. inversion E; subst. unfold num in Ha. rewrite Ha.
      destruct (Qc_eq_dec 1 0) as [N|_]; [discriminate N|].
      destruct (Qc_eq_dec y 0); [congruence|]. destruct (Qc_eq_dec 1 1); congruence. }
    bind_inv E. destruct a0.
    { pose proof (is_zero_sound _ E2 _ Hb) as ->. bind_inv E. inversion E; subst. cbn.
      destruct (Qc_eq_dec x 0) as [->|].
      - exfalso. apply (Qclt_not_le 0 0); [exact (S eq_refl)|apply Qcle_refl].
      - destruct (Qc_eq_dec 0 0); congruence. }
    eapply (num_mk_bin APow); eauto.
  Qed.

  Lemma op_op_sound o a b r x y z :
    op_op o a b = Ok r -> num a x -> num b y -> side o x y ->
    num_sem o x y = Some z -> den false r = Some [z].
  Proof.
    intros E Ha Hb S Z. unfold num in Ha.
    assert (Hl : denl false (as_list b) = Some [VN y]) by (now rewrite as_list_den).
    assert (Ha' : denl false [a] = Some [VN x]) by exact Ha.
    pose proof Z as Z0.
    destruct o; cbn [op_op] in E; try discriminate; cbn in Z;
      try (destruct (Qc_eq_dec y 0) as [|Hy]; [discriminate|]);
      injection Z as <-; bind_inv E; destruct a0; try discriminate.
    - inversion E; subst. rewrite (is_zero_sound _ E0 _ Hb), Ha. do 3 f_equal; ring.
    - eapply (num_mk_bin AAdd); eauto.
    - inversion E; subst. rewrite (is_zero_sound _ E0 _ Hb), Ha. do 3 f_equal; ring.
    - eapply (num_mk_bin ASub); eauto.
    - inversion E; subst. pose proof Hb as Hb'. unfold num in Hb'. rewrite Hb'.
      rewrite (is_zero_sound _ E0 _ Hb). do 3 f_equal; ring.
    - bind_inv E. destruct a0.
      { inversion E; subst. rewrite (is_value_sound _ _ E1 _ Hb), Ha. do 3 f_equal; ring. }
      bind_inv E. destruct a0.
      { rewrite (neg_num _ _ _ E Ha), (is_value_sound _ _ E2 _ Hb). do 3 f_equal; ring. }
      eapply (num_mk_bin AMul); eauto.
    - bind_inv E. destruct a0.
      { inversion E; subst. rewrite (is_value_sound _ _ E1 _ Hb), Ha.
        rewrite div_1. reflexivity. }
      bind_inv E. destruct a0.
      { rewrite (neg_num _ _ _ E Ha), (is_value_sound _ _ E2 _ Hb), div_m1. reflexivity. }
      eapply (num_mk_bin ADiv); eauto.
    - bind_inv E. destruct a0.
      { inversion E; subst. pose proof (is_value_sound _ _ E1 _ Hb) as ->.
        destruct (S (or_introl eq_refl)) as [k ->]. rewrite Ha.
        rewrite div_1, Qc_floor_int. reflexivity. }
      bind_inv E. destruct a0.
      { pose proof (is_value_sound _ _ E2 _ Hb) as ->.
        destruct (S (or_intror eq_refl)) as [k ->].
        rewrite (neg_num _ _ _ E Ha).
        rewrite div_m1, Z2Qc_opp, Qc_floor_int. reflexivity. }
      eapply (num_mk_bin AFloor); eauto.
  Qed.

  Theorem py_op_sound fuel : sound_op (py_op fuel).
  Proof.
    induction fuel as [|fuel IH]; intros o a b r x y z E Ha Hb S Z; [discriminate|].
    cbn [py_op] in E.
    assert (Hv : value_op (py_op fuel) o a (coerce b) = Ok r -> den false r = Some [z]).
    { intro G. assert (Hb' : num (coerce b) y) by (unfold num; now rewrite coerce_den).
      destruct o; cbn [value_op] in G.
      - eapply (addsub_sound _ false); eauto.
      - eapply (addsub_sound _ true); eauto.
      - eapply mul_sound; eauto.
      - eapply div_sound; eauto.
      - eapply floor_sound; eauto.
      - eapply pow_sound; eauto. }
    assert (Ho : op_op o a b = Ok r -> den false r = Some [z]).
    { intro G. eapply op_op_sound; eauto. }
    destruct a; try (exact (Hv E)); try (exact (Ho E)).
    - destruct b; try discriminate.
      + bind_inv E. inversion E; subst. unfold num in Ha, Hb. cbn in Ha, Hb.
        inversion Ha; inversion Hb; subst. cbn. rewrite (raw_num _ _ _ _ _ E0 Z). reflexivity.
      + destruct l as [|w [|? ?]]; try discriminate. bind_inv E. inversion E; subst.
        cbn [den]. rewrite den_single. unfold num in Ha. cbn in Ha. inversion Ha; subst.
        eapply IH; [exact E0|apply best_num_num|exact Hb|exact S|exact Z].
    - destruct l as [|w [|? ?]]; try discriminate. bind_inv E. inversion E; subst.
      cbn [den]. rewrite den_single.
      eapply IH; [exact E0|exact Ha|unfold num; rewrite strip1_den; exact Hb|exact S|exact Z].
  Qed.

  Theorem apply_op_sound o a b r x y z :
    apply_op o a b = Ok r -> num a x -> num b y -> side o x y ->
    num_sem o x y = Some z -> den false r = Some [z].
  Proof. apply py_op_sound. Qed.
End Den.
