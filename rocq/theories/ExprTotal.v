(** Which expressions the operators accept, and which identifiers can occur in what
    they return. *)
From Coq Require Import List String Ascii Bool QArith Qcanon Qround ZArith Lia.
From Verif Require Import PyStr Expr ExprSem ExprFacts.
Import ListNotations.
Local Open Scope list_scope.
Local Open Scope Qc_scope.

(** * Plain numeric trees: what the grammar and the operators build from numbers,
    identifiers, function names and operations *)
Fixpoint plain (n : node) : bool :=
  match n with
  | NRaw _ | NBox _ _ | NExpr _ => false
  | NVal p d o =>
      negb (is_strt d) &&
      match p, o with
      | PNum _, OValue => true
      | PStr _, (OId | OParam | OFunc) => true
      | _, _ => false
      end
  | NUn _ d a => negb (is_strt d) && match a with [x] => plain x | _ => false end
  | NBin op d l r =>
      negb (is_strt d) &&
      match op with
      | BCall | BStruct | BPtr | BItem => forallb plain l && forallb plain r
      | _ => match l, r with [x], [y] => plain x && plain y | _, _ => false end
      end
  | NTri d f s t =>
      negb (is_strt d) &&
      forallb plain f && match s, t with [x], [y] => plain x && plain y | _, _ => false end
  end.

Lemma plain_dt n : plain n = true -> exists d, dt_of n = Ok d /\ is_strt d = false.
Proof.
  destruct n; cbn; try discriminate; intro H; repeat (apply andb_prop in H as [H ?]);
  apply negb_true_iff in H; eauto.
Qed.

Lemma one_dt_single n d : dt_of n = Ok d -> one_dt [n] = Ok d.
Proof. intro H. unfold one_dt. cbn. rewrite H. reflexivity. Qed.

Lemma dt_add_nonstr a b : is_strt a = false -> is_strt b = false -> is_strt (dt_add a b) = false.
Proof. destruct a, b; cbn; congruence. Qed.

Lemma mk_un_plain op n : plain n = true -> exists r, mk_un op [n] = Ok r /\ plain r = true.
Proof.
  intro H. destruct (plain_dt _ H) as (d & E & S). unfold mk_un.
  rewrite (one_dt_single _ _ E). cbn. eexists; split; [reflexivity|]. cbn. now rewrite S, H.
Qed.

(** specification: calls, members and elements, which accept any operands *)
Definition loose (op : binop) : bool :=
  match op with BCall | BStruct | BPtr | BItem => true | _ => false end.

Lemma mk_bin_plain op a b : plain a = true -> plain b = true ->
  exists r, mk_bin op [a] [b] = Ok r /\ plain r = true.
Proof.
  intros Ha Hb. destruct (plain_dt _ Ha) as (da & Ea & Sa). destruct (plain_dt _ Hb) as (db & Eb & Sb).
  unfold mk_bin. rewrite (one_dt_single _ _ Ea), (one_dt_single _ _ Eb). cbn [rbind].
  pose proof (dt_add_nonstr _ _ Sa Sb) as S.
  destruct op; (eexists; split; [reflexivity|]); cbn; rewrite ?S, ?Ha, ?Hb; reflexivity.
Qed.

Lemma rmap_plain f l :
  Forall (fun x => plain x = true -> exists r, f x = Ok r /\ plain r = true) l ->
  forallb plain l = true -> exists l', rmap f l = Ok l' /\ forallb plain l' = true /\ List.length l' = List.length l.
Proof.
  induction 1 as [|x t Hx Ht IH]; intro H.
  - exists []. auto.
  - cbn in H. apply andb_prop in H as [H1 H2]. destruct (Hx H1) as (y & Ey & Py).
    destruct (IH H2) as (ys & Eys & Pys & L). cbn. rewrite Ey. cbn. rewrite Eys. cbn.
    eexists; split; [reflexivity|]. cbn. rewrite Py, Pys, L. auto.
Qed.

Lemma as_type_plain d n : is_strt d = false -> plain n = true ->
  exists r, as_type d n = Ok r /\ plain r = true.
Proof.
  intro Sd. induction n using node_ind'; cbn [plain as_type]; intro P; try discriminate.
  - apply andb_prop in P as [P1 P2]. eexists; split; [reflexivity|]. cbn. now rewrite Sd, P2.
  - apply andb_prop in P as [P1 P2]. destruct a as [|x [|? ?]]; try discriminate.
    inversion H; subst. destruct (H2 P2) as (y & E & Py). cbn. rewrite E. cbn.
    apply mk_un_plain; auto.
  - apply andb_prop in P as [P1 P2].
    assert (G : match l, r with [x], [y] => plain x && plain y | _, _ => false end = true ->
      exists r0, (do l' <- rmap (as_type d) l; do r' <- rmap (as_type d) r; mk_bin op l' r') = Ok r0 /\ plain r0 = true).
    { intro Q. destruct l as [|x [|? ?]]; try discriminate. destruct r as [|y [|? ?]]; try discriminate.
      apply andb_prop in Q as [Q1 Q2]. inversion H; inversion H0; subst.
      destruct (H3 Q1) as (x' & E & Px). destruct (H7 Q2) as (y' & E' & Py).
      cbn. rewrite E, E'. cbn [rbind]. apply mk_bin_plain; auto. }
    assert (G2 : forallb plain l && forallb plain r = true -> loose op = true ->
      exists r0, (do l' <- rmap (as_type d) l; do r' <- rmap (as_type d) r; mk_bin op l' r') = Ok r0 /\ plain r0 = true).
    { intros Q L. apply andb_prop in Q as [Q1 Q2].
      destruct (rmap_plain (as_type d) l H Q1) as (l' & E1 & Pl & _).
      destruct (rmap_plain (as_type d) r H0 Q2) as (r' & E2 & Pr & _).
      rewrite E1, E2. cbn [rbind]. destruct op; try discriminate L;
      (eexists; split; [reflexivity|]); cbn; now rewrite Pl, Pr. }
    destruct op; auto.
  - apply andb_prop in P as [P P3]. apply andb_prop in P as [P1 P2].
    destruct (rmap_plain (as_type d) f H P2) as (f' & E1 & Pf & _). rewrite E1. cbn [rbind].
    destruct s as [|x [|? ?]]; try discriminate. destruct t as [|y [|? ?]]; try discriminate.
    apply andb_prop in P3 as [Q1 Q2]. inversion H0; inversion H1; subst.
    destruct (H4 Q1) as (x' & E & Px). destruct (H8 Q2) as (y' & E' & Py).
    cbn. rewrite E, E'. cbn [rbind]. unfold mk_tri.
    destruct (plain_dt _ Px) as (da & Ea & Sa). destruct (plain_dt _ Py) as (db & Eb & Sb).
    rewrite (one_dt_single _ _ Ea), (one_dt_single _ _ Eb). cbn [rbind].
    eexists; split; [reflexivity|]. cbn. rewrite (dt_add_nonstr _ _ Sa Sb), Pf, Px, Py. reflexivity.
Qed.

(** everything except a function name standing alone can be negated *)
Definition operand (n : node) : bool :=
  plain n && match n with NVal _ _ OFunc => false | _ => true end.

Lemma operand_plain n : operand n = true -> plain n = true.
Proof. unfold operand. intro H. now apply andb_prop in H as [H _]. Qed.

(** trees whose arithmetic operands are operands, all the way down *)
Fixpoint arith (n : node) : bool :=
  operand n &&
  match n with
  | NUn UNeg _ [x] => arith x
  | _ => true
  end.
Lemma arith_operand n : arith n = true -> operand n = true.
Proof. destruct n; cbn [arith]; intro H; now apply andb_prop in H as [H _]. Qed.
Lemma arith_plain n : arith n = true -> plain n = true.
Proof. intro. now apply operand_plain, arith_operand. Qed.

Lemma plain_zero n : plain n = true -> exists b, is_zero n = Ok b.
Proof.
  destruct n; cbn; try discriminate; eauto. intro H. apply andb_prop in H as [H1 H2].
  apply negb_true_iff in H1. destruct (ot_is_id o); eauto. rewrite H1, andb_false_r.
  destruct p; eauto.
Qed.
Lemma plain_value n q : plain n = true -> exists b, is_value n q = Ok b.
Proof. destruct n; cbn; try discriminate; eauto. Qed.

Lemma neg_arith n : arith n = true -> exists r, neg n = Ok r /\ arith r = true.
Proof.
  intro H. pose proof (arith_operand _ H) as Ho. pose proof (arith_plain _ H) as Hp.
  assert (G : exists r, mk_un UNeg [n] = Ok r /\ arith r = true).
  { destruct (mk_un_plain UNeg n Hp) as (r & E & P). exists r. split; auto.
    apply mk_un_inv in E as [d ->]. cbn [arith]. unfold operand. rewrite P, H. reflexivity. }
  destruct n; try discriminate.
  - cbn [neg]. cbn [plain] in Hp. apply andb_prop in Hp as [P1 P2]. apply negb_true_iff in P1.
    rewrite P1, orb_false_r. unfold operand in Ho. apply andb_prop in Ho as [_ Ho].
    destruct (ot_is_id o) eqn:I; [exact G|].
    destruct p.
    + eexists; split; [reflexivity|]. cbn. unfold operand. cbn. now rewrite P1.
    + destruct o; discriminate.
  - cbn [neg]. destruct op; try exact G.
    destruct a as [|x [|? ?]].
    + cbn [plain] in Hp. apply andb_prop in Hp as [_ Hp]. discriminate.
    + eexists; split; [reflexivity|]. cbn [arith] in H. now apply andb_prop in H as [_ H].
    + cbn [plain] in Hp. apply andb_prop in Hp as [_ Hp]. discriminate.
  - exact G.
  - exact G.
Qed.

Lemma as_type_arith d n : is_strt d = false -> arith n = true ->
  exists r, as_type d n = Ok r /\ arith r = true.
Proof.
  intro Sd. induction n using node_ind'; intro A;
    pose proof (arith_plain _ A) as P; destruct (as_type_plain d _ Sd P) as (r0 & E & Pr);
    exists r0; split; auto; cbn [as_type] in E; try discriminate P.
  - inversion E; subst. cbn [arith] in *. unfold operand in *. rewrite Pr.
    apply andb_prop in A as [A _]. apply andb_prop in A as [_ A]. now rewrite A.
  - bind_inv E. apply mk_un_inv in E as [d' ->]. cbn [arith]. unfold operand. rewrite Pr. cbn [andb].
    destruct op; try reflexivity. destruct a as [|x [|? ?]]; cbn [rmap] in E0.
    + inversion E0; subst; reflexivity.
    + cbn [arith] in A. apply andb_prop in A as [_ A]. inversion H; subst.
      destruct (H2 A) as (y & Ey & Ay). rewrite Ey in E0. cbn in E0. inversion E0; subst. exact Ay.
    + cbn in P. apply andb_prop in P as [_ P]. discriminate.
  - bind_inv E. bind_inv E. apply mk_bin_inv in E as [d' ->]. cbn [arith]. unfold operand. now rewrite Pr.
  - bind_inv E. bind_inv E. bind_inv E. apply mk_tri_inv in E as [d' ->]. cbn [arith]. unfold operand. now rewrite Pr.
Qed.

Lemma arith_bin op a b r : mk_bin op [a] [b] = Ok r -> plain r = true -> arith r = true.
Proof. intros E P. apply mk_bin_inv in E as [d ->]. cbn [arith]. unfold operand. now rewrite P. Qed.

Lemma mk_bin_arith op a b : arith a = true -> arith b = true ->
  exists r, mk_bin op [a] [b] = Ok r /\ arith r = true.
Proof.
  intros Ha Hb. destruct (mk_bin_plain op a b (arith_plain _ Ha) (arith_plain _ Hb)) as (r & E & P).
  exists r. split; auto. eapply arith_bin; eauto.
Qed.

Lemma mk_value_arith q d : is_strt d = false -> arith (mk_value (PNum q) d) = true.
Proof. intro H. cbn. unfold operand. cbn. now rewrite H. Qed.

(** specification: a Value *)
Definition is_val (n : node) : bool := match n with NVal _ _ _ => true | _ => false end.

(** specification: a Value that holds a number *)
Definition is_num (n : node) : bool := match n with NVal (PNum _) _ _ => true | _ => false end.
(** specification: a negated operand *)
Definition is_neg (n : node) : bool := match n with NUn UNeg _ [_] => true | _ => false end.

Lemma addsub_nonneg rec minus a b : arith a = true -> arith b = true -> is_val a = true ->
  lt_zero b = Ok false \/ (is_num b = false /\ is_neg b = false) ->
  (forall x y, exists q, rec AAdd (NRaw x) (NRaw y) = Ok (NRaw q) /\ exists q', rec ASub (NRaw x) (NRaw y) = Ok (NRaw q')) ->
  exists r, value_addsub rec minus a b = Ok r /\ arith r = true.
Proof.
  intros Ha Hb Va Hneg Hrec. unfold value_addsub.
  destruct (plain_zero _ (arith_plain _ Ha)) as [za ->]. cbn [rbind]. destruct za.
  { destruct minus; eauto. apply neg_arith; auto. }
  destruct (plain_zero _ (arith_plain _ Hb)) as [zb ->]. cbn [rbind]. destruct zb; eauto.
  assert (Hgen : exists r,
    (do flip <- (if is_id a then match b with NVal (PNum _) _ _ | NBox _ _ => lt_zero b | _ => Ok false end else Ok false);
     if flip then do y <- held b; do y' <- neg y; rec (if minus then AAdd else ASub) a y' else
     if is_op b || is_id a || is_id b then mk_bin (bop_of (if minus then ASub else AAdd)) [a] [b] else
     do da <- dt_of a; do db <- dt_of b;
     if is_strt (dt_add da db) then mk_bin (bop_of (if minus then ASub else AAdd)) [a] [b]
     else fold_const rec (if minus then ASub else AAdd) a b (dt_add da db)) = Ok r /\ arith r = true).
  { assert ((if is_id a then match b with NVal (PNum _) _ _ | NBox _ _ => lt_zero b | _ => Ok false end else Ok false) = Ok false) as ->.
    { destruct (is_id a); auto. destruct Hneg as [L|[L1 L2]].
      - destruct b; auto. destruct p; auto.
      - pose proof (arith_plain _ Hb) as P. destruct b; auto; try discriminate. destruct p; auto; discriminate. }
    cbn [rbind].
    destruct (is_op b || is_id a || is_id b) eqn:C; [apply mk_bin_arith; auto|].
    apply orb_false_iff in C as [C C3]. apply orb_false_iff in C as [C1 C2].
    destruct (plain_dt _ (arith_plain _ Ha)) as (da & -> & Sa).
    destruct (plain_dt _ (arith_plain _ Hb)) as (db & -> & Sb). cbn [rbind].
    pose proof (dt_add_nonstr _ _ Sa Sb) as S. rewrite S.
    destruct a as [|p d o| | | | |]; try discriminate. destruct p as [x|s].
    - destruct b as [|p' d' o'| | | | |]; try discriminate. destruct p' as [y|s'].
      + unfold fold_const. cbn [held rbind].
        destruct (Hrec x y) as (q & E1 & q' & E2).
        destruct minus; [rewrite E2|rewrite E1]; cbn [rbind hold]; eexists; split; try reflexivity;
        apply mk_value_arith; exact S.
      + exfalso. cbn in C3. pose proof (arith_operand _ Hb) as O. unfold operand in O. cbn in O.
        destruct o'; cbn in *; rewrite ?andb_false_r in O; discriminate.
    - exfalso. cbn in C2. pose proof (arith_operand _ Ha) as O. unfold operand in O. cbn in O.
      destruct o; cbn in *; rewrite ?andb_false_r in O; discriminate. }
  destruct b as [q|p d o|d l|op d l|op d l r0|d f s t|l]; try exact Hgen.
  destruct op; try exact Hgen. destruct l as [|w [|? ?]]; try exact Hgen.
  exfalso. destruct Hneg as [L|[_ L]]; discriminate.
Qed.

Lemma raw_rec fuel x y :
  exists q, py_op (S fuel) AAdd (NRaw x) (NRaw y) = Ok (NRaw q) /\
  exists q', py_op (S fuel) ASub (NRaw x) (NRaw y) = Ok (NRaw q').
Proof. cbn. eauto. Qed.

Lemma Qc_ltb_opp q : Qc_ltb q 0 = true -> Qc_ltb (- q) 0 = false.
Proof.
  intro H. destruct (Qc_ltb (- q) 0) eqn:E; auto. apply Qc_ltb_lt in H, E.
  exfalso. apply Qclt_le_weak in H. apply Qcopp_le_compat in H.
  replace (- (0)) with 0 in H by reflexivity. exact (Qclt_not_le _ _ E H).
Qed.

Lemma addsub_arith : forall n fuel minus a b, (size b <= n)%nat -> (n + 2 <= fuel)%nat ->
  arith a = true -> arith b = true -> is_val a = true ->
  exists r, value_addsub (py_op fuel) minus a b = Ok r /\ arith r = true.
Proof.
  induction n as [|n IH]; intros fuel minus a b Hn Hf Ha Hb Va.
  { destruct b; cbn in Hn; lia. }
  destruct fuel as [|fuel]; [lia|]. destruct fuel as [|fuel]; [lia|].
  destruct (is_neg b) eqn:Nb.
  - (* a +- (-x) *)
    destruct b as [| | |op d l| | |]; try discriminate. destruct op; try discriminate.
    destruct l as [|x [|? ?]]; try discriminate.
    unfold value_addsub.
    destruct (plain_zero _ (arith_plain _ Ha)) as [za ->]. cbn [rbind]. destruct za.
    { destruct minus; eauto. apply neg_arith; auto. }
    cbn [is_zero rbind]. cbn [arith] in Hb. apply andb_prop in Hb as [_ Hx].
    assert (Sx : (size x <= n)%nat) by (cbn in Hn; lia).
    assert (Hc : coerce x = x).
    { pose proof (arith_plain _ Hx). destruct x; try reflexivity; discriminate. }
    destruct a; try discriminate.
    assert (G : exists r, value_addsub (py_op (S fuel)) (negb minus) (NVal p d0 o) x = Ok r /\ arith r = true).
    { apply IH; auto; lia. }
    destruct minus; cbn [py_op]; rewrite Hc; exact G.
  - destruct (is_num b) eqn:Mb.
    + destruct (lt_zero b) as [[|]| |] eqn:L.
      * (* negative constant *)
        destruct b as [|p d o| | | | |]; try discriminate. destruct p as [q|]; try discriminate.
        destruct (is_id a) eqn:Ia.
        2:{ assert (G : forall q', exists r, value_addsub (py_op (S (S fuel))) minus a (NVal (PNum q') d o) = Ok r /\ arith r = true).
            { intro q'. assert (Hb' : arith (NVal (PNum q') d o) = true).
              { cbn in Hb |- *. exact Hb. }
              (* a is a constant: the sign test is never made *)
              unfold value_addsub.
              destruct (plain_zero _ (arith_plain _ Ha)) as [za ->]. cbn [rbind]. destruct za.
              { destruct minus; eauto. apply neg_arith; auto. }
              destruct (plain_zero _ (arith_plain _ Hb')) as [zb ->]. cbn [rbind]. destruct zb; eauto.
              rewrite Ia. cbn [rbind is_op is_id orb].
              assert (Io : ot_is_id o = false).
              { pose proof (arith_plain _ Hb) as P. cbn in P. apply andb_prop in P as [_ P]. destruct o; discriminate || reflexivity. }
              rewrite Io.
              destruct (plain_dt _ (arith_plain _ Ha)) as (da & -> & Sa).
              destruct (plain_dt _ (arith_plain _ Hb')) as (db & -> & Sb). cbn [rbind].
              pose proof (dt_add_nonstr _ _ Sa Sb) as S. rewrite S.
              destruct a as [|p d' o'| | | | |]; try discriminate. destruct p as [x|s].
              - unfold fold_const. destruct minus; cbn; eexists; (split; [reflexivity|]);
                apply mk_value_arith; exact S.
              - exfalso. cbn in Ia. pose proof (arith_operand _ Ha) as O. unfold operand in O. cbn in O.
                destruct o'; cbn in *; rewrite ?andb_false_r in O; discriminate. }
            apply G. }
        unfold value_addsub.
        destruct (plain_zero _ (arith_plain _ Ha)) as [za ->]. cbn [rbind]. destruct za.
        { destruct minus; eauto. apply neg_arith; auto. }
        destruct (plain_zero _ (arith_plain _ Hb)) as [zb ->]. cbn [rbind]. destruct zb; eauto.
        rewrite Ia, L. cbn [rbind held neg].
        assert (Lq : lt_zero (best_num (- q)) = Ok false).
        { cbn in L |- *. destruct (ot_is_id o) eqn:Io.
          - pose proof (arith_plain _ Hb) as P. cbn in P. apply andb_prop in P as [_ P]. destruct o; discriminate.
          - injection L as L. now rewrite Qc_ltb_opp. }
        assert (G : exists r, value_addsub (py_op (S fuel)) (negb minus) a (best_num (- q)) = Ok r /\ arith r = true).
        { apply addsub_nonneg; auto.
          - unfold best_num. destruct (Qc_is_int (- q)); reflexivity.
          - apply raw_rec. }
        destruct a; try discriminate. destruct minus; exact G.
      * apply addsub_nonneg; auto. apply raw_rec.
      * exfalso. destruct b as [|p d o| | | | |]; try discriminate. destruct p; try discriminate.
        cbn in L. destruct (ot_is_id o); discriminate.
      * exfalso. destruct b as [|p d o| | | | |]; try discriminate. destruct p; try discriminate.
        cbn in L. destruct (ot_is_id o); discriminate.
    + apply addsub_nonneg; auto. apply raw_rec.
Qed.

Lemma arith_as_list n : arith n = true -> as_list n = [n].
Proof. intro H. apply arith_plain in H. destruct n; try discriminate; reflexivity. Qed.
Lemma arith_coerce n : arith n = true -> coerce n = n.
Proof. intro H. apply arith_plain in H. destruct n; try discriminate; reflexivity. Qed.

Lemma arith_const_num n : arith n = true -> is_op n = false -> is_id n = false ->
  exists q d, n = NVal (PNum q) d OValue /\ is_strt d = false.
Proof.
  intros A O I. pose proof (arith_operand _ A) as Op. pose proof (arith_plain _ A) as P.
  destruct n; try discriminate. cbn in P. apply andb_prop in P as [P1 P2]. apply negb_true_iff in P1.
  unfold operand in Op. apply andb_prop in Op as [_ Op].
  destruct p, o; try discriminate. eauto.
Qed.

Theorem apply_op_total o a b : arith a = true -> arith b = true ->
  o = AAdd \/ o = ASub \/ o = AMul \/ (o = ADiv /\ is_zero b = Ok false) ->
  exists r, apply_op o a b = Ok r /\ arith r = true.
Proof.
  intros Ha Hb Ho. unfold apply_op.
  remember (4 * (size a + size b) + 4)%nat as n eqn:En.
  assert (Hn : exists k, n = S k /\ (size b + 2 <= k)%nat).
  { exists (4 * (size a + size b) + 3)%nat. split; lia. }
  destruct Hn as (k & -> & Hk).
  destruct (is_val a) eqn:Va.
  - destruct a as [|p d oo| | | | |]; try discriminate. set (a := NVal p d oo) in *.
    cbn [py_op]. change (exists r, value_op (py_op k) o a (coerce b) = Ok r /\ arith r = true).
    rewrite (arith_coerce _ Hb).
    destruct (plain_dt _ (arith_plain _ Ha)) as (da & Ea & Sa).
    destruct (plain_dt _ (arith_plain _ Hb)) as (db & Eb & Sb).
    pose proof (dt_add_nonstr _ _ Sa Sb) as S.
    destruct Ho as [->|[->|[->|[-> Hz]]]]; cbn [value_op].
    + eapply addsub_arith; eauto.
    + eapply addsub_arith; eauto.
    + unfold value_mul. rewrite Ea, Eb. cbn [rbind].
      destruct (plain_zero _ (arith_plain _ Ha)) as [za ->]. cbn [rbind].
      destruct (plain_zero _ (arith_plain _ Hb)) as [zb Hzb].
      assert (E : (if za then Ok true else is_zero b) = Ok (za || zb)) by (destruct za; auto).
      rewrite E. cbn [rbind]. destruct (za || zb).
      { rewrite S. eexists; split; [reflexivity|]. apply mk_value_arith; auto. }
      destruct (plain_value _ 1 (arith_plain _ Ha)) as [c1 ->]. cbn [rbind]. destruct c1; [apply as_type_arith; auto|].
      destruct (plain_value _ (- (1)) (arith_plain _ Ha)) as [c2 ->]. cbn [rbind]. destruct c2.
      { destruct (neg_arith _ Hb) as (b' & -> & Hb'). cbn [rbind]. apply as_type_arith; auto. }
      destruct (plain_value _ 1 (arith_plain _ Hb)) as [c3 ->]. cbn [rbind]. destruct c3; [apply as_type_arith; auto|].
      destruct (plain_value _ (- (1)) (arith_plain _ Hb)) as [c4 ->]. cbn [rbind]. destruct c4.
      { destruct (neg_arith _ Ha) as (a' & -> & Ha'). cbn [rbind]. apply as_type_arith; auto. }
      destruct (is_op b || is_id a || is_id b) eqn:C; [apply mk_bin_arith; auto|].
      rewrite S. apply orb_false_iff in C as [C C3]. apply orb_false_iff in C as [C1 C2].
      destruct (arith_const_num _ Ha eq_refl C2) as (x & dx & Hx & _).
      destruct (arith_const_num _ Hb C1 C3) as (y & dy & Hy & _). rewrite Hx, Hy.
      unfold fold_const. cbn [held rbind]. destruct k; [lia|]. cbn [py_op raw_op rbind hold].
      eexists; split; [reflexivity|]. apply mk_value_arith; auto.
    + unfold value_div. rewrite Ea, Eb. cbn [rbind].
      assert (dt_div da db = Ok DFloat) as -> by (destruct da, db; cbn in *; congruence). cbn [rbind].
      destruct (plain_zero _ (arith_plain _ Ha)) as [za ->]. cbn [rbind]. destruct za.
      { eexists; split; [reflexivity|]. apply mk_value_arith; auto. }
      destruct (plain_value _ 1 (arith_plain _ Hb)) as [c3 ->]. cbn [rbind]. destruct c3; [apply as_type_arith; auto|].
      destruct (plain_value _ (- (1)) (arith_plain _ Hb)) as [c4 ->]. cbn [rbind]. destruct c4.
      { destruct (neg_arith _ Ha) as (a' & -> & Ha'). cbn [rbind]. apply as_type_arith; auto. }
      rewrite Hz. cbn [rbind].
      destruct (is_op b || is_id a || is_id b) eqn:C; [apply mk_bin_arith; auto|].
      cbn [is_strt dtype_eqb]. apply orb_false_iff in C as [C C3]. apply orb_false_iff in C as [C1 C2].
      destruct (arith_const_num _ Ha eq_refl C2) as (x & dx & Hx & _).
      destruct (arith_const_num _ Hb C1 C3) as (y & dy & Hy & Sy). rewrite Hx, Hy.
      unfold fold_const. cbn [held rbind]. destruct k; [lia|]. cbn [py_op raw_op rbind].
      rewrite Hy in Hz. cbn in Hz. rewrite Sy in Hz. injection Hz as ->. cbn [rbind hold].
      eexists; split; [reflexivity|]. apply mk_value_arith; auto.
  - assert (Hop : exists r, op_op o a b = Ok r /\ arith r = true).
    { unfold op_op. rewrite (arith_as_list _ Hb).
      destruct (plain_zero _ (arith_plain _ Hb)) as [zb Hzb].
      destruct (plain_value _ 1 (arith_plain _ Hb)) as [c1 H1].
      destruct (plain_value _ (- (1)) (arith_plain _ Hb)) as [c2 H2].
      destruct Ho as [->|[->|[->|[-> Hz]]]]; rewrite ?Hz, ?Hzb, ?H1, ?H2; cbn [rbind].
      - destruct zb; eauto. apply mk_bin_arith; auto.
      - destruct zb; eauto. apply mk_bin_arith; auto.
      - destruct zb; eauto. destruct c1; eauto. destruct c2; [apply neg_arith; auto|apply mk_bin_arith; auto].
      - destruct c1; eauto. destruct c2; [apply neg_arith; auto|apply mk_bin_arith; auto]. }
    pose proof (arith_plain _ Ha) as P. destruct a; try discriminate; exact Hop.
Qed.

(** * Identifiers in results *)
(** every identifier of a tree, including those inside Values that hold an Expr *)
Fixpoint free (n : node) : list string :=
  match n with
  | NVal (PStr s) _ (OId | OParam) => [s]
  | NRaw _ | NVal _ _ _ => []
  | NBox _ l => flat_map free l
  | NUn _ _ a => flat_map free a
  | NBin _ _ l r => flat_map free l ++ flat_map free r
  | NTri _ f s t => flat_map free f ++ flat_map free s ++ flat_map free t
  | NExpr l => flat_map free l
  end.

Lemma rmap_free_incl f l : Forall (fun x => forall y, f x = Ok y -> incl (free y) (free x)) l ->
  forall l', rmap f l = Ok l' -> incl (flat_map free l') (flat_map free l).
Proof.
  induction 1 as [|x t Hx Ht IH]; intros l' E.
  - inversion E; subst. apply incl_refl.
  - apply rmap_cons in E as (y & ys & Ex & Et & ->). cbn.
    apply incl_app; [apply incl_appl; auto|apply incl_appr; auto].
Qed.

Lemma mk_un_free op a n : mk_un op a = Ok n -> free n = flat_map free a.
Proof. intro E. apply mk_un_inv in E as [d ->]. reflexivity. Qed.
Lemma mk_bin_free op l r n : mk_bin op l r = Ok n -> free n = flat_map free l ++ flat_map free r.
Proof. intro E. apply mk_bin_inv in E as [d ->]. reflexivity. Qed.
Lemma mk_tri_free f s t n : mk_tri f s t = Ok n -> free n = flat_map free f ++ flat_map free s ++ flat_map free t.
Proof. intro E. apply mk_tri_inv in E as [d ->]. reflexivity. Qed.

Lemma as_type_free d n : forall n', as_type d n = Ok n' -> incl (free n') (free n).
Proof.
  induction n using node_ind'; intros n' E; cbn [as_type] in E; try discriminate.
  - inversion E; subst. apply incl_refl.
  - inversion E; subst. apply incl_refl.
  - bind_inv E. rewrite (mk_un_free _ _ _ E). cbn [free]. eapply rmap_free_incl; eauto.
  - bind_inv E. bind_inv E. rewrite (mk_bin_free _ _ _ _ E). cbn [free].
    apply incl_app; [apply incl_appl|apply incl_appr]; eapply rmap_free_incl; eauto.
  - bind_inv E. bind_inv E. bind_inv E. rewrite (mk_tri_free _ _ _ _ E). cbn [free].
    apply incl_app; [apply incl_appl; eapply rmap_free_incl; eauto|].
    apply incl_appr. apply incl_app; [apply incl_appl|apply incl_appr]; eapply rmap_free_incl; eauto.
Qed.

Lemma neg_free n : forall n', neg n = Ok n' -> incl (free n') (free n).
Proof.
  induction n using node_ind'; intros n' E; cbn [neg] in E.
  - inversion E; subst. apply incl_refl.
  - destruct (ot_is_id o || is_strt d).
    + rewrite (mk_un_free _ _ _ E). cbn [flat_map]. rewrite app_nil_r. apply incl_refl.
    + destruct p; try discriminate. inversion E; subst. cbn. intros x [].
  - destruct (is_strt d).
    + rewrite (mk_un_free _ _ _ E). cbn [flat_map]. rewrite app_nil_r. apply incl_refl.
    + bind_inv E. inversion E; subst. cbn [free]. eapply rmap_free_incl; eauto.
  - destruct op; try (rewrite (mk_un_free _ _ _ E); cbn [flat_map]; rewrite app_nil_r; apply incl_refl).
    destruct a as [|x [|? ?]]; try discriminate. inversion E; subst. cbn. rewrite app_nil_r. apply incl_refl.
  - rewrite (mk_un_free _ _ _ E). cbn [flat_map]. rewrite app_nil_r. apply incl_refl.
  - rewrite (mk_un_free _ _ _ E). cbn [flat_map]. rewrite app_nil_r. apply incl_refl.
  - bind_inv E. inversion E; subst. cbn [free]. eapply rmap_free_incl; eauto.
Qed.

(** proof helper: operators that bring no identifiers into an expression *)
Definition op_free (f : aop -> node -> node -> res node) : Prop :=
  forall o a b r, f o a b = Ok r -> incl (free r) (free a ++ free b).

Lemma held_free a x : held a = Ok x -> incl (free x) (free a).
Proof.
  destruct a; cbn; try discriminate.
  - destruct p; try discriminate. intro H; inversion H; subst. cbn. intros y [].
  - intro H; inversion H; subst. apply incl_refl.
Qed.
Lemma hold_free r d r' : hold r d = Ok r' -> incl (free r') (free r).
Proof. destruct r; cbn; try discriminate; intro H; inversion H; subst; cbn; try apply incl_refl. Qed.

Lemma incl_app2 {A} (a a' b b' : list A) : incl a a' -> incl b b' -> incl (a ++ b) (a' ++ b').
Proof. intros H1 H2. apply incl_app; [apply incl_appl|apply incl_appr]; auto. Qed.

Lemma fold_const_free rec o a b d r : op_free rec -> fold_const rec o a b d = Ok r ->
  incl (free r) (free a ++ free b).
Proof.
  intros Hr E. unfold fold_const in E. bind_inv E. bind_inv E. bind_inv E.
  eapply incl_tran; [eapply hold_free; eauto|].
  eapply incl_tran; [eapply Hr; eauto|].
  apply incl_app2; eapply held_free; eauto.
Qed.

Lemma mk_bin_free1 op a b r : mk_bin op [a] [b] = Ok r -> incl (free r) (free a ++ free b).
Proof. intro E. rewrite (mk_bin_free _ _ _ _ E). cbn. rewrite !app_nil_r. apply incl_refl. Qed.
Lemma as_list_free b : flat_map free (as_list b) = free b.
Proof. destruct b; cbn; rewrite ?app_nil_r; reflexivity. Qed.
Lemma coerce_free b : free (coerce b) = free b.
Proof. destruct b; cbn; try reflexivity. Qed.
Lemma strip1_free b : free (strip1 b) = free b.
Proof. destruct b; try reflexivity. destruct l as [|? [|? ?]]; cbn; rewrite ?app_nil_r; reflexivity. Qed.

Lemma addsub_free rec minus a b r : op_free rec -> value_addsub rec minus a b = Ok r ->
  incl (free r) (free a ++ free b).
Proof.
  intros Hr E. unfold value_addsub in E.
  bind_inv E. destruct a0.
  { destruct minus.
    - apply incl_appr. eapply neg_free; eauto.
    - inversion E; subst. apply incl_appr, incl_refl. }
  bind_inv E. destruct a0.
  { inversion E; subst. apply incl_appl, incl_refl. }
  assert (Hgen : forall flip : res bool,
      (do f <- flip;
       if f then do y <- held b; do y' <- neg y; rec (if minus then AAdd else ASub) a y' else
       if is_op b || is_id a || is_id b then mk_bin (bop_of (if minus then ASub else AAdd)) [a] [b] else
       do da <- dt_of a; do db <- dt_of b;
       if is_strt (dt_add da db) then mk_bin (bop_of (if minus then ASub else AAdd)) [a] [b]
       else fold_const rec (if minus then ASub else AAdd) a b (dt_add da db)) = Ok r ->
      incl (free r) (free a ++ free b)).
  { intros flip G. bind_inv G. destruct a0.
    - bind_inv G. bind_inv G. eapply incl_tran; [eapply Hr; eauto|].
      apply incl_app2; [apply incl_refl|].
      eapply incl_tran; [eapply neg_free; eauto|eapply held_free; eauto].
    - destruct (is_op b || is_id a || is_id b).
      + eapply mk_bin_free1; eauto.
      + bind_inv G. bind_inv G. destruct (is_strt _).
        * eapply mk_bin_free1; eauto.
        * eapply fold_const_free; eauto. }
  destruct b as [q|p d o|d l|op d l|op d l r0|d f s t|l]; try (eapply Hgen; exact E).
  destruct op; try (eapply Hgen; exact E).
  destruct l as [|w [|? ?]]; try (eapply Hgen; exact E).
  eapply incl_tran; [eapply Hr; eauto|]. cbn. rewrite app_nil_r. apply incl_refl.
Qed.

Ltac fr := first [ apply incl_nil_l
  | apply incl_appl; apply incl_refl | apply incl_appr; apply incl_refl
  | eapply mk_bin_free1; eassumption
  | apply incl_appl; eapply as_type_free; eassumption
  | apply incl_appr; eapply as_type_free; eassumption
  | apply incl_appl; eapply neg_free; eassumption
  | apply incl_appr; eapply neg_free; eassumption
  | apply incl_appl; eapply incl_tran; [eapply as_type_free; eassumption|eapply neg_free; eassumption]
  | apply incl_appr; eapply incl_tran; [eapply as_type_free; eassumption|eapply neg_free; eassumption]
  | eapply fold_const_free; eassumption ].

Lemma int_round_free a r : int_round a = Ok r -> incl (free r) (free a).
Proof. destruct a; try discriminate. destruct p; try discriminate. intro H; inversion H; subst. intros x []. Qed.

Lemma value_op_free rec o a b r : op_free rec -> value_op rec o a b = Ok r ->
  incl (free r) (free a ++ free b).
Proof.
  intros Hr E. destruct o; cbn [value_op] in E.
  - eapply addsub_free; eauto.
  - eapply addsub_free; eauto.
  - unfold value_mul in E. do 4 bind_inv E.
    match type of E with (if ?c then _ else _) = _ => destruct c end; [inversion E; subst; fr|].
    bind_inv E. match type of E with (if ?c then _ else _) = _ => destruct c end; [fr|].
    bind_inv E. match type of E with (if ?c then _ else _) = _ => destruct c end; [bind_inv E; fr|].
    bind_inv E. match type of E with (if ?c then _ else _) = _ => destruct c end; [fr|].
    bind_inv E. match type of E with (if ?c then _ else _) = _ => destruct c end; [bind_inv E; fr|].
    match type of E with (if ?c then _ else _) = _ => destruct c end; [fr|].
    match type of E with (if ?c then _ else _) = _ => destruct c end; fr.
  - unfold value_div in E. do 4 bind_inv E.
    match type of E with (if ?c then _ else _) = _ => destruct c end; [inversion E; subst; fr|].
    bind_inv E. match type of E with (if ?c then _ else _) = _ => destruct c end; [fr|].
    bind_inv E. match type of E with (if ?c then _ else _) = _ => destruct c end; [bind_inv E; fr|].
    bind_inv E. match type of E with (if ?c then _ else _) = _ => destruct c end; [discriminate|].
    match type of E with (if ?c then _ else _) = _ => destruct c end; [fr|].
    match type of E with (if ?c then _ else _) = _ => destruct c end; fr.
  - unfold value_floordiv in E. do 3 bind_inv E.
    match type of E with (if ?c then _ else _) = _ => destruct c end; [inversion E; subst; fr|].
    bind_inv E. match type of E with (if ?c then _ else _) = _ => destruct c end.
    { apply incl_appl. eapply int_round_free; eauto. }
    bind_inv E. match type of E with (if ?c then _ else _) = _ => destruct c end.
    { bind_inv E. apply incl_appl. eapply incl_tran; [eapply neg_free; eauto|eapply int_round_free; eauto]. }
    bind_inv E. match type of E with (if ?c then _ else _) = _ => destruct c end; [discriminate|].
    match type of E with (if ?c then _ else _) = _ => destruct c end; [fr|].
    destruct a; try discriminate. destruct p; try discriminate.
    destruct b; try discriminate. destruct p; try discriminate.
    bind_inv E. inversion E; subst. cbn. apply incl_nil_l.
  - unfold value_pow in E. bind_inv E.
    match type of E with (if ?c then _ else _) = _ => destruct c end; [inversion E; subst; fr|].
    bind_inv E. match type of E with (if ?c then _ else _) = _ => destruct c end; [inversion E; subst; fr|].
    bind_inv E. match type of E with (if ?c then _ else _) = _ => destruct c end; [bind_inv E; inversion E; subst; fr|].
    fr.
Qed.

Lemma op_op_free o a b r : op_op o a b = Ok r -> incl (free r) (free a ++ free b).
Proof.
  assert (M : forall op, mk_bin op [a] (as_list b) = Ok r -> incl (free r) (free a ++ free b)).
  { intros op E. rewrite (mk_bin_free _ _ _ _ E), as_list_free. cbn. rewrite app_nil_r. apply incl_refl. }
  assert (Ra : Ok a = Ok r -> incl (free r) (free a ++ free b)).
  { intro E. injection E as ->. fr. }
  assert (Rb : Ok b = Ok r -> incl (free r) (free a ++ free b)).
  { intro E. injection E as ->. fr. }
  intro E. destruct o; cbn [op_op] in E; try discriminate; bind_inv E;
  match type of E with (if ?c then _ else _) = _ => destruct c end;
  try discriminate; try (exact (Ra E)); try (exact (Rb E)); try (eapply M; exact E);
  bind_inv E; (match type of E with (if ?c then _ else _) = _ => destruct c end; [exact (Ra E)|]);
  bind_inv E; (match type of E with (if ?c then _ else _) = _ => destruct c end; [fr|]);
  eapply M; exact E.
Qed.

Lemma py_op_free fuel : op_free (py_op fuel).
Proof.
  induction fuel as [|fuel IH]; intros o a b r E; [discriminate|]. cbn [py_op] in E.
  assert (Hv : value_op (py_op fuel) o a (coerce b) = Ok r -> incl (free r) (free a ++ free b)).
  { intro G. rewrite <- (coerce_free b). eapply value_op_free; eauto. }
  destruct a; try (exact (Hv E)); try (eapply op_op_free; exact E).
  - destruct b; try discriminate.
    + bind_inv E. inversion E; subst. apply incl_nil_l.
    + destruct l as [|w [|? ?]]; try discriminate. bind_inv E. inversion E; subst.
      cbn [free flat_map]. rewrite !app_nil_r. eapply IH in E0. exact E0.
  - destruct l as [|w [|? ?]]; try discriminate. bind_inv E. inversion E; subst.
    cbn [free flat_map]. rewrite !app_nil_r. eapply IH in E0. now rewrite strip1_free in E0.
Qed.

Lemma simplify_free n : forall n', simplify n = Ok n' -> incl (free n') (free n).
Proof.
  induction n using node_ind'; intros n' E; cbn [simplify] in E; try discriminate.
  - inversion E; subst. apply incl_refl.
  - inversion E; subst. apply incl_refl.
  - bind_inv E. pose proof (rmap_free_incl _ _ H _ E0) as R. cbn [free].
    eapply incl_tran; [|exact R].
    assert (G : mk_un op a0 = Ok n' -> incl (free n') (flat_map free a0)).
    { intro G. rewrite (mk_un_free _ _ _ G). apply incl_refl. }
    destruct op; try (exact (G E)).
    destruct a0 as [|x [|? ?]]; try (exact (G E)).
    + destruct x; try (exact (G E)); cbn in E; inversion E; subst; cbn [flat_map]; rewrite app_nil_r; apply incl_refl.
    + destruct x; exact (G E).
  - bind_inv E. bind_inv E.
    pose proof (rmap_free_incl _ _ H _ E0) as R1. pose proof (rmap_free_incl _ _ H0 _ E1) as R2.
    cbn [free]. eapply incl_tran; [|apply incl_app2; [exact R1|exact R2]].
    unfold simplify_bin in E. bind_inv E.
    match type of E with (if ?c then _ else _) = _ => destruct c end; [inversion E; subst; fr|].
    bind_inv E. match type of E with (if ?c then _ else _) = _ => destruct c end; [inversion E; subst; fr|].
    assert (G : mk_bin op a a0 = Ok n' -> incl (free n') (flat_map free a ++ flat_map free a0)).
    { intro G. rewrite (mk_bin_free _ _ _ _ G). apply incl_refl. }
    destruct a as [|x [|? ?]]; try (exact (G E)).
    destruct a0 as [|y [|? ?]]; try (exact (G E)).
    destruct (is_constant x && is_constant y); [|exact (G E)].
    cbn [flat_map]. rewrite !app_nil_r.
    destruct op; try (eapply py_op_free; exact E); eapply mk_bin_free1; eauto.
  - bind_inv E. bind_inv E. bind_inv E.
    pose proof (rmap_free_incl _ _ H _ E0) as R1. pose proof (rmap_free_incl _ _ H0 _ E1) as R2.
    pose proof (rmap_free_incl _ _ H1 _ E2) as R3.
    cbn [free]. eapply incl_tran; [|apply incl_app2; [exact R1|apply incl_app2; [exact R2|exact R3]]].
    assert (G : mk_tri a a0 a1 = Ok n' -> incl (free n') (flat_map free a ++ flat_map free a0 ++ flat_map free a1)).
    { intro G. rewrite (mk_tri_free _ _ _ _ G). apply incl_refl. }
    unfold simplify_tri in E. destruct a as [|x [|? ?]]; try (exact (G E)).
    bind_inv E. bind_inv E.
    match type of E with (if ?c then _ else _) = _ => destruct c end.
    { inversion E; subst. apply incl_appr. apply incl_appl, incl_refl. }
    match type of E with (if ?c then _ else _) = _ => destruct c end.
    { inversion E; subst. apply incl_appr. apply incl_appr, incl_refl. }
    exact (G E).
  - bind_inv E. inversion E; subst. cbn [free]. eapply rmap_free_incl; eauto.
Qed.

(** the identifiers bound by [known] disappear, those of the bound expressions appear *)
Definition after (known : list (string * node)) (x : string) (n : node) : Prop :=
  (In x (free n) /\ lookup known x = None) \/
  (exists y v, In y (free n) /\ lookup known y = Some v /\ In x (free v)).

Lemma rmap_after known f l :
  Forall (fun n => no_box n = true -> forall n', f n = Ok n' -> forall x, In x (free n') -> after known x n) l ->
  forallb no_box l = true ->
  forall l', rmap f l = Ok l' -> forall x, In x (flat_map free l') ->
  (In x (flat_map free l) /\ lookup known x = None) \/
  (exists y v, In y (flat_map free l) /\ lookup known y = Some v /\ In x (free v)).
Proof.
  induction 1 as [|n t Hn Ht IH]; intros B l' E x Hx.
  - inversion E; subst. destruct Hx.
  - cbn in B. apply andb_prop in B as [B1 B2]. apply rmap_cons in E as (y & ys & Ex & Et & ->).
    cbn in Hx. apply in_app_iff in Hx as [Hx|Hx].
    + destruct (Hn B1 _ Ex _ Hx) as [[H1 H2]|(z & v & H1 & H2 & H3)].
      * left. split; auto. cbn. apply in_app_iff; auto.
      * right. exists z, v. split; auto. cbn. apply in_app_iff; auto.
    + destruct (IH B2 _ Et _ Hx) as [[H1 H2]|(z & v & H1 & H2 & H3)].
      * left. split; auto. cbn. apply in_app_iff; auto.
      * right. exists z, v. split; auto. cbn. apply in_app_iff; auto.
Qed.

Lemma after_incl known x n l :
  ((In x l /\ lookup known x = None) \/ (exists y v, In y l /\ lookup known y = Some v /\ In x (free v))) ->
  incl l (free n) -> after known x n.
Proof.
  intros [[H1 H2]|(y & v & H1 & H2 & H3)] I; [left; auto|right; exists y, v; auto].
Qed.

Theorem evaluate_free known n : no_box n = true -> forall n', evaluate known n = Ok n' ->
  forall x, In x (free n') -> after known x n.
Proof.
  induction n using node_ind'; intros B n' E x Hx; cbn [evaluate] in E; try discriminate.
  - destruct p as [q|s].
    + inversion E; subst. destruct Hx.
    + destruct (ot_is_id o) eqn:I.
      * assert (F : free (NVal (PStr s) d o) = [s]) by (destruct o; try discriminate; reflexivity).
        destruct (lookup known s) as [v|] eqn:L; inversion E; subst.
        { rewrite strip1_free in Hx. right. exists s, v. rewrite F. cbn. auto. }
        { left. rewrite F in Hx |- *. cbn in Hx. destruct Hx as [<-|[]]. cbn. auto. }
      * inversion E; subst. exfalso. destruct o; try discriminate; destruct Hx.
  - bind_inv E. bind_inv E. cbn [no_box] in B. apply (simplify_free _ _ E) in Hx.
    rewrite (mk_un_free _ _ _ E1) in Hx.
    eapply after_incl; [eapply rmap_after; eauto|apply incl_refl].
  - bind_inv E. bind_inv E. bind_inv E. cbn [no_box] in B. apply andb_prop in B as [B1 B2].
    apply (simplify_free _ _ E) in Hx. rewrite (mk_bin_free _ _ _ _ E2) in Hx.
    apply in_app_iff in Hx as [Hx|Hx].
    + eapply after_incl; [eapply (rmap_after known _ l); eauto|apply incl_appl, incl_refl].
    + eapply after_incl; [eapply (rmap_after known _ r); eauto|apply incl_appr, incl_refl].
  - bind_inv E. bind_inv E. bind_inv E. bind_inv E. cbn [no_box] in B.
    apply andb_prop in B as [B B3]. apply andb_prop in B as [B1 B2].
    apply (simplify_free _ _ E) in Hx. rewrite (mk_tri_free _ _ _ _ E3) in Hx.
    apply in_app_iff in Hx as [Hx|Hx]; [|apply in_app_iff in Hx as [Hx|Hx]].
    + eapply after_incl; [eapply (rmap_after known _ f); eauto|apply incl_appl, incl_refl].
    + eapply after_incl; [eapply (rmap_after known _ s); eauto|].
      cbn [free]. apply incl_appr, incl_appl, incl_refl.
    + eapply after_incl; [eapply (rmap_after known _ t); eauto|].
      cbn [free]. apply incl_appr, incl_appr, incl_refl.
  - bind_inv E. cbn [no_box] in B. apply (simplify_free (NExpr a)) in E. apply E in Hx. cbn [free] in Hx.
    eapply after_incl; [eapply (rmap_after known _ l); eauto|apply incl_refl].
Qed.
