(* Properties C01-C06, C09, C10: expression objects. *)
From Coq Require Import List String Ascii Bool QArith Qcanon Qround ZArith Lia Permutation.
From Verif Require Import PyStr Expr ExprSem ExprFacts ExprTotal ExprEq.
Import ListNotations.
Local Open Scope list_scope.
Local Open Scope string_scope.
Local Open Scope Qc_scope.

(* shorthands for examples *)
Definition idn (s : string) : node := NVal (PStr s) DUndef OId.
Definition cint (z : Z) : node := NVal (PNum (Z2Qc z)) DInt OValue.
Definition cflt (q : Qc) : node := NVal (PNum q) DFloat OValue.
Definition noIB : binop -> list val -> list val -> option val := fun _ _ _ => None.
Definition noIU : unop -> list val -> option val := fun _ _ => None.

(* ---------------- C01 ---------------- *)
(* ordinary arithmetic on two numbers *)
Definition ordinary (o : aop) (x y : Qc) : option Qc :=
  match o with
  | AAdd => Some (x + y) | ASub => Some (x - y) | AMul => Some (x * y)
  | ADiv => if Qc_eq_dec y 0 then None else Some (x / y)
  | _ => None
  end.

Theorem C01_operators_preserve_value :
  forall IB IU env o a b r x y z,
    num IB IU env a x -> num IB IU env b y -> ordinary o x y = Some z ->
    apply_op o a b = Ok r -> num IB IU env r z.
Proof.
  intros IB IU env o a b r x y z Ha Hb Hz E. unfold num.
  eapply apply_op_sound; eauto.
  - destruct o; try discriminate; exact I.
  - destruct o; try discriminate; cbn in *; try (inversion Hz; subst; reflexivity).
    destruct (Qc_eq_dec y 0); [discriminate|]. inversion Hz; subst. reflexivity.
Qed.
Print Assumptions C01_operators_preserve_value.

Theorem C01_negation_preserves_value :
  forall IB IU env a r x, num IB IU env a x -> neg a = Ok r -> num IB IU env r (- x).
Proof. intros. eapply neg_num; eauto. Qed.
Print Assumptions C01_negation_preserves_value.

(* The operators do return an expression: sums, differences and products of numeric
   expressions always exist, quotients unless the divisor is a constant zero, and the
   result can be used as an operand again. *)
Theorem C01_operators_defined :
  forall o a b, arith a = true -> arith b = true ->
    o = AAdd \/ o = ASub \/ o = AMul \/ (o = ADiv /\ is_zero b = Ok false) ->
    exists r, apply_op o a b = Ok r /\ arith r = true.
Proof. exact apply_op_total. Qed.
Print Assumptions C01_operators_defined.

(* Whole formulas: what a user writes with the Python operators on numbers and
   identifiers. *)
Inductive term := TC (q : Qc) | TI (s : string) | TOp (o : aop) (a b : term) | TNeg (a : term).
Fixpoint basic (t : term) : bool :=
  match t with
  | TC _ | TI _ => true
  | TNeg a => basic a
  | TOp (AAdd | ASub | AMul) a b => basic a && basic b
  | TOp _ _ _ => false
  end.
Fixpoint with_div (t : term) : bool :=
  match t with
  | TC _ | TI _ => true
  | TNeg a => with_div a
  | TOp (AAdd | ASub | AMul | ADiv) a b => with_div a && with_div b
  | TOp _ _ _ => false
  end.
Fixpoint teval (env : string -> option Qc) (t : term) : option Qc :=
  match t with
  | TC q => Some q
  | TI s => env s
  | TNeg a => option_map Qcopp (teval env a)
  | TOp o a b => match teval env a, teval env b with
                 | Some x, Some y => ordinary o x y
                 | _, _ => None
                 end
  end.
Fixpoint build (t : term) : res node :=
  match t with
  | TC q => Ok (best_num q)
  | TI s => Ok (NVal (PStr s) DUndef OId)
  | TNeg a => do x <- build a; neg x
  | TOp o a b => do x <- build a; do y <- build b; apply_op o x y
  end.

Theorem C01_formula_value :
  forall IB IU env t n q,
    build t = Ok n -> teval env t = Some q ->
    num IB IU (fun s => option_map VN (env s)) n q.
Proof.
  intros IB IU env. induction t as [c|s|o a IHa b IHb|a IHa]; intros n q E V; cbn in E, V.
  - inversion E; inversion V; subst. apply best_num_num.
  - inversion E; subst. unfold num. cbn. now rewrite V.
  - bind_inv E. bind_inv E. destruct (teval env a) as [x|]; [|discriminate].
    destruct (teval env b) as [y|]; [|discriminate].
    exact (C01_operators_preserve_value IB IU _ _ _ _ _ _ _ _ (IHa _ _ eq_refl eq_refl) (IHb _ _ eq_refl eq_refl) V E).
  - bind_inv E. destruct (teval env a) as [x|]; [|discriminate]. inversion V; subst.
    exact (C01_negation_preserves_value IB IU _ _ _ _ (IHa _ _ eq_refl eq_refl) E).
Qed.
Print Assumptions C01_formula_value.

Theorem C01_formula_defined :
  forall t, basic t = true -> exists n, build t = Ok n /\ arith n = true.
Proof.
  induction t as [c|s|o a IHa b IHb|a IHa]; intro H; cbn in H |- *.
  - eexists; split; [reflexivity|]. unfold best_num. destruct (Qc_is_int c); reflexivity.
  - eexists; split; reflexivity.
  - assert (G : o = AAdd \/ o = ASub \/ o = AMul) by (destruct o; try discriminate; auto).
    assert (B : basic a = true /\ basic b = true)
      by (destruct o; try discriminate; now apply andb_prop in H).
    destruct B as [Ba Bb]. destruct (IHa Ba) as (x & -> & Ax). destruct (IHb Bb) as (y & -> & Ay). cbn.
    apply apply_op_total; auto. tauto.
  - destruct (IHa H) as (x & -> & Ax). cbn. apply neg_arith; auto.
Qed.
Print Assumptions C01_formula_defined.

(* 2*x - (-(y)) - 3 with the shortcuts for negation and for negative constants *)
Example C01_example :
  exists n, build (TOp ASub (TOp ASub (TOp AMul (TC (Z2Qc 2)) (TI "x")) (TNeg (TI "y"))) (TC (Z2Qc 3))) = Ok n /\
    num noIB noIU (fun s => option_map VN (if (s =? "x")%string then Some (Z2Qc 5) else Some (Z2Qc 7))) n (Z2Qc 14).
Proof. eexists; split; [reflexivity|]. vm_compute. reflexivity. Qed.
Example C01_example_fold :
  build (TOp AAdd (TC (Z2Qc 2)) (TC (Z2Qc 3))) = Ok (cint 5).
Proof. vm_compute. reflexivity. Qed.

(* An operation plus a plain Python number raises (AttributeError), the other order works. *)
Theorem C01_operation_plus_number_refuted :
  exists e q, arith e = true /\ apply_op AAdd e (NRaw q) = Raise /\
    exists r, apply_op AAdd (best_num q) e = Ok r.
Proof.
  exists (NBin BAdd DUndef [idn "x"] [idn "y"]), 1. split; [reflexivity|]. split; [reflexivity|].
  eexists. reflexivity.
Qed.
Print Assumptions C01_operation_plus_number_refuted.

(* ---------------- C02 ---------------- *)
Theorem C02_simplify_preserves_value :
  forall IB IU env n n' vs,
    simplify n = Ok n' -> den IB IU env false n = Some vs -> den IB IU env false n' = Some vs.
Proof. intros IB IU env n n' vs E D. exact (simplify_refines IB IU env n n' E false vs D). Qed.
Print Assumptions C02_simplify_preserves_value.

(* no identifier appears that was not there *)
Theorem C02_simplify_no_new_identifiers :
  forall n n', simplify n = Ok n' -> incl (free n') (free n).
Proof. intros n n' E. now apply simplify_free. Qed.
Print Assumptions C02_simplify_no_new_identifiers.

(* (0 + x) * 1 and (2*3) + x, as raw trees *)
Example C02_example :
  simplify (NBin BMul DUndef [NBin BAdd DUndef [cint 0] [idn "x"]] [cint 1])
    = Ok (NExpr [NExpr [idn "x"]]) /\
  simplify (NBin BAdd DUndef [NBin BMul DInt [cint 2] [cint 3]] [idn "x"])
    = Ok (NBin BAdd DInt [cint 6] [idn "x"]).
Proof. vm_compute. split; reflexivity. Qed.

(* ---------------- C03 ---------------- *)
Lemma apply_op_value o p d t b :
  exists k, apply_op o (NVal p d t) b = value_op (py_op k) o (NVal p d t) (coerce b).
Proof.
  exists (4 * (size (NVal p d t) + size b) + 3)%nat. unfold apply_op.
  replace (4 * (size (NVal p d t) + size b) + 4)%nat
    with (S (4 * (size (NVal p d t) + size b) + 3)) by lia. reflexivity.
Qed.
(* Full statement: // and ** of constants are Python's. *)
(* floor division is Python's unless the divisor is 1 or -1 and the dividend is not whole *)
Theorem C03_floor_division_partial :
  forall x y d d' r,
    is_strt d = false -> is_strt d' = false -> y <> 0 ->
    (y = 1 \/ y = - (1) -> is_integer x) ->
    apply_op AFloor (NVal (PNum x) d OValue) (NVal (PNum y) d' OValue) = Ok r ->
    num noIB noIU (fun _ => None) r (Qc_floor (x / y)).
Proof.
  intros x y d d' r Sd Sd' Hy Hs E. unfold num.
  eapply (apply_op_sound noIB noIU (fun _ => None) AFloor) with (x := x) (y := y); eauto.
  - reflexivity.
  - reflexivity.
  - cbn. destruct (Qc_eq_dec y 0); [contradiction|reflexivity].
Qed.
Print Assumptions C03_floor_division_partial.

Theorem C03_floor_division_defined :
  forall x y d d', is_strt d = false -> is_strt d' = false -> y <> 0 ->
    exists q, apply_op AFloor (NVal (PNum x) d OValue) (NVal (PNum y) d' OValue) = Ok (NVal (PNum q) DInt OValue).
Proof.
  intros x y d d' Sd Sd' Hy.
  destruct (apply_op_value AFloor (PNum x) d OValue (NVal (PNum y) d' OValue)) as [k ->]. cbn [coerce value_op].
  unfold value_floordiv. cbn [dt_of rbind is_zero ot_is_id andb]. rewrite Sd, Sd'. cbn [rbind].
  destruct (Qc_eqb x 0); [cbn; eauto|]. cbn [is_value ot_is_id negb andb eq_num rbind].
  destruct (Qc_eqb y 1); [cbn; eauto|]. destruct (Qc_eqb y (- (1))); [cbn; eauto|].
  assert (N : Qc_eqb y 0 = false).
  { destruct (Qc_eqb y 0) eqn:N; auto. apply Qc_eqb_eq in N. contradiction. }
  rewrite N. cbn [is_op is_id ot_is_id orb raw_op]. rewrite N. cbn [rbind]. eauto.
Qed.
Print Assumptions C03_floor_division_defined.

(* 2.7 // 1 is 3 and 2.7 // -1 is -3 here; Python says 2 and -3 *)
Theorem C03_floor_division_by_one_refuted :
  exists x r, apply_op AFloor (NVal (PNum x) DFloat OValue) (NVal (PNum 1) DInt OValue) = Ok r /\
    ~ num noIB noIU (fun _ => None) r (Qc_floor (x / 1)).
Proof.
  exists (Q2Qc (27 # 10)). eexists. split; [vm_compute; reflexivity|].
  vm_compute. discriminate.
Qed.
Print Assumptions C03_floor_division_by_one_refuted.

(* an identifier floor-divided by one raises, since round() of a str does *)
Theorem C03_identifier_floor_one_refuted :
  forall s d, is_strt d = false ->
    apply_op AFloor (NVal (PStr s) d OId) (NVal (PNum 1) DInt OValue) = Raise.
Proof.
  intros s d H. destruct (apply_op_value AFloor (PStr s) d OId (NVal (PNum 1) DInt OValue)) as [k ->]. reflexivity.
Qed.
Print Assumptions C03_identifier_floor_one_refuted.

(* powers: right whenever the base is not zero or the exponent is positive *)
Theorem C03_power_partial :
  forall IB IU env a b r x y z,
    num IB IU env a x -> num IB IU env b y -> (x = 0 -> 0 < y) ->
    num_sem IB APow x y = Some z ->
    apply_op APow a b = Ok r -> den IB IU env false r = Some [z].
Proof. intros. eapply apply_op_sound; eauto. Qed.
Print Assumptions C03_power_partial.

(* 0 ** 0 is 0 (Python: 1) and 0 ** -1 is 0 (Python: ZeroDivisionError) *)
Theorem C03_zero_power_refuted :
  forall y d d', is_strt d = false ->
    apply_op APow (NVal (PNum 0) d OValue) (NVal (PNum y) d' OValue) = Ok (NVal (PNum 0) d OValue).
Proof.
  intros y d d' H.
  destruct (apply_op_value APow (PNum 0) d OValue (NVal (PNum y) d' OValue)) as [k ->]. cbn [coerce value_op].
  unfold value_pow. cbn [is_zero ot_is_id andb]. rewrite H. reflexivity.
Qed.
Print Assumptions C03_zero_power_refuted.

(* an operation cannot be raised to a power at all *)
Theorem C03_power_of_operation_refuted :
  forall a b, is_op a = true -> apply_op APow a b = Raise.
Proof.
  intros a b H. unfold apply_op.
  replace (4 * (size a + size b) + 4)%nat with (S (4 * (size a + size b) + 3)) by lia.
  destruct a; try discriminate; reflexivity.
Qed.
Print Assumptions C03_power_of_operation_refuted.

(* division of a non-zero constant by the constant zero is reported *)
Theorem C03_zero_divisor_reported :
  forall o x d d', o = ADiv \/ o = AFloor -> x <> 0 -> is_strt d = false -> is_strt d' = false ->
    apply_op o (NVal (PNum x) d OValue) (NVal (PNum 0) d' OValue) = Raise.
Proof.
  intros o x d d' Ho Hx Sd Sd'.
  assert (N : Qc_eqb x 0 = false).
  { destruct (Qc_eqb x 0) eqn:N; auto. apply Qc_eqb_eq in N. contradiction. }
  assert (N1 : Qc_eqb 0 1 = false) by reflexivity.
  assert (N2 : Qc_eqb 0 (- (1)) = false) by reflexivity.
  assert (N3 : Qc_eqb 0 0 = true) by reflexivity.
  destruct (apply_op_value o (PNum x) d OValue (NVal (PNum 0) d' OValue)) as [k ->].
  destruct Ho as [-> | ->]; cbn [coerce value_op].
  - unfold value_div. cbn [dt_of rbind is_zero ot_is_id andb]. rewrite Sd.
    assert (dt_div d d' = Ok DFloat) as -> by (destruct d, d'; cbn in *; congruence). cbn [rbind].
    rewrite N. cbn [is_value ot_is_id negb andb eq_num rbind]. rewrite N1, N2. rewrite Sd', N3. reflexivity.
  - unfold value_floordiv. cbn [dt_of rbind is_zero ot_is_id andb]. rewrite Sd. cbn [rbind].
    rewrite N. cbn [is_value ot_is_id negb andb eq_num rbind]. rewrite N1, N2. rewrite Sd', N3. reflexivity.
Qed.
Print Assumptions C03_zero_divisor_reported.

(* an operation divided by the constant zero is reported too *)
Theorem C03_zero_divisor_of_operation_reported :
  forall o a d, o = ADiv \/ o = AFloor -> is_op a = true -> is_strt d = false ->
    apply_op o a (NVal (PNum 0) d OValue) = Raise.
Proof.
  intros o a d Ho Ha Sd. unfold apply_op.
  replace (4 * (size a + size (NVal (PNum 0) d OValue)) + 4)%nat
    with (S (4 * (size a + size (NVal (PNum 0) d OValue)) + 3)) by lia.
  assert (Z : is_zero (NVal (PNum 0) d OValue) = Ok true) by (cbn; now rewrite Sd).
  assert (G : op_op o a (NVal (PNum 0) d OValue) = Raise).
  { destruct Ho as [-> | ->]; cbn [op_op]; rewrite Z; reflexivity. }
  destruct a; try discriminate; exact G.
Qed.
Print Assumptions C03_zero_divisor_of_operation_reported.

(* 0 / 0 and 0 // 0 are silently 0 *)
Theorem C03_zero_over_zero_refuted :
  apply_op ADiv (cint 0) (cint 0) = Ok (cflt 0) /\ apply_op AFloor (cint 0) (cint 0) = Ok (cint 0).
Proof. vm_compute. split; reflexivity. Qed.
Print Assumptions C03_zero_over_zero_refuted.

(* rounding an operation typed as integer does nothing: 1/2 of two integer parameters is
   such an operation *)
Theorem C03_round_of_integer_typed_quotient_refuted :
  exists n env, nround n = Ok n /\ num noIB noIU env n (Q2Qc (1 # 2)).
Proof.
  exists (NBin BDiv DInt [NVal (PStr "i") DInt OId] [NVal (PStr "j") DInt OId]).
  exists (fun s => if (s =? "i")%string then Some (VN 1) else Some (VN (Z2Qc 2))).
  split; [reflexivity|]. vm_compute. reflexivity.
Qed.
Print Assumptions C03_round_of_integer_typed_quotient_refuted.

Example C03_example_floor : apply_op AFloor (cint (-7)) (cint 2) = Ok (cint (-4)).
Proof. vm_compute. reflexivity. Qed.

(* ---------------- C04 ---------------- *)
(* Full statement: no side condition. Missing: names used as struct members, and
   expressions held inside a Value; both are refuted below. *)
Theorem C04_evaluate_is_substitution_partial :
  forall IB IU env known n n' vs,
    no_member false (map fst known) n = true -> no_box n = true ->
    evaluate known n = Ok n' ->
    den IB IU (subst_env IB IU env known) false n = Some vs ->
    den IB IU env false n' = Some vs.
Proof. intros. eapply evaluate_subst; eauto. Qed.
Print Assumptions C04_evaluate_is_substitution_partial.

Theorem C04_known_identifiers_disappear :
  forall known n n' x,
    no_box n = true ->
    (forall k v, In (k, v) known -> free v = []) ->
    evaluate known n = Ok n' ->
    In x (free n') -> In x (free n) /\ ~ In x (map fst known).
Proof.
  intros known n n' x B C E H.
  assert (L : forall k v, lookup known k = Some v -> In (k, v) known).
  { clear. induction known as [|[k0 v0] t IH]; cbn; [discriminate|]. intros k v H.
    destruct (k0 =? k)%string eqn:Q; [apply String.eqb_eq in Q; inversion H; subst; auto|auto]. }
  destruct (evaluate_free known n B n' E x H) as [[H1 H2]|(y & v & H1 & H2 & H3)].
  - split; auto. intro I. clear - H2 I. induction known as [|[k v] t IH]; cbn in *; [exact I|].
    destruct (k =? x)%string eqn:Q; [discriminate|]. destruct I as [->|I]; [|auto].
    now rewrite String.eqb_refl in Q.
  - rewrite (C _ _ (L _ _ H2)) in H3. destruct H3.
Qed.
Print Assumptions C04_known_identifiers_disappear.

Example C04_example :
  evaluate [("a", cint 2)] (NBin BAdd DUndef [NBin BMul DUndef [idn "a"] [cint 3]] [idn "x"])
    = Ok (NBin BAdd DInt [cint 6] [idn "x"]).
Proof. vm_compute. reflexivity. Qed.

(* s.b with a known value for an unrelated b becomes s.(2) *)
Theorem C04_member_name_refuted :
  exists known n n', no_box n = true /\ evaluate known n = Ok n' /\
    exists IB IU env vs, den IB IU (subst_env IB IU env known) false n = Some vs /\
      den IB IU env false n' <> Some vs.
Proof.
  exists [("b", cint 2)], (NBin BStruct DUndef [idn "s"] [idn "b"]).
  eexists. split; [reflexivity|]. split; [vm_compute; reflexivity|].
  exists (fun op xs ys => match ys with [VS "b"] => Some (VN 1) | _ => None end), noIU,
    (fun s => Some (VN 0)), [VN 1].
  split; [vm_compute; reflexivity|]. vm_compute. discriminate.
Qed.
Print Assumptions C04_member_name_refuted.

(* (a + x).evaluate(a=0), then 1 + that, then evaluate(x=2): the x is still there *)
Theorem C04_second_evaluation_refuted :
  exists e1 e2 e3,
    evaluate [("a", cint 0)] (NExpr [NBin BAdd DUndef [idn "a"] [idn "x"]]) = Ok e1 /\
    apply_op AAdd (NRaw 1) e1 = Ok e2 /\
    evaluate [("x", cint 2)] e2 = Ok e3 /\ In "x" (free e3).
Proof. do 3 eexists. repeat split; try (vm_compute; reflexivity). vm_compute. auto. Qed.
Print Assumptions C04_second_evaluation_refuted.

(* ---------------- C05 ---------------- *)
(* Full statement: no side condition; refuted for an Expr held inside a Value. *)
Theorem C05_independent_is_constant_partial :
  forall IB IU x env env' n,
    (forall y, y <> x -> env y = env' y) -> no_box n = true -> depends_on x n = false ->
    den IB IU env false n = den IB IU env' false n.
Proof. intros. eapply depends_on_frame; eauto. Qed.
Print Assumptions C05_independent_is_constant_partial.

Theorem C05_occurring_names_reported :
  forall x n, no_box n = true -> In x (free n) -> depends_on x n = true.
Proof.
  intros x n. 
  assert (Hl : forall l, Forall (fun n => no_box n = true -> In x (free n) -> depends_on x n = true) l ->
    forallb no_box l = true -> In x (flat_map free l) -> existsb (depends_on x) l = true).
  { induction 1 as [|y t Hy Ht IH]; intros B I; [destruct I|]. cbn in *.
    apply andb_prop in B as [B1 B2]. apply in_app_iff in I as [I|I].
    - now rewrite Hy.
    - now rewrite IH, orb_true_r. }
  induction n using node_ind'; cbn [no_box free depends_on]; intros B I; try discriminate.
  - destruct I.
  - destruct p; [destruct I|]. destruct o; cbn in I; try tauto; destruct I as [->|[]]; cbn; apply String.eqb_refl.
  - auto.
  - apply andb_prop in B as [B1 B2]. apply in_app_iff in I as [I|I]; apply orb_true_iff; auto.
  - apply andb_prop in B as [B B3]. apply andb_prop in B as [B1 B2].
    apply in_app_iff in I as [I|I]; [|apply in_app_iff in I as [I|I]].
    + now rewrite (Hl f).
    + now rewrite (Hl s), orb_true_r.
    + now rewrite (Hl t), orb_true_r.
  - auto.
Qed.
Print Assumptions C05_occurring_names_reported.

(* `name in expr` is true whenever depends_on is, so the same two facts hold of it *)
Theorem C05_membership_sound :
  forall IB IU x env env' n,
    (forall y, y <> x -> env y = env' y) -> no_box n = true -> contains x n = false ->
    den IB IU env false n = den IB IU env' false n.
Proof.
  intros IB IU x env env' n Hx B C. eapply depends_on_frame; eauto.
  destruct (depends_on x n) eqn:D; auto. apply depends_contains in D. congruence.
Qed.
Print Assumptions C05_membership_sound.

Example C05_example :
  depends_on "x" (NBin BMul DUndef [idn "y"] [NUn UNeg DUndef [idn "x"]]) = true /\
  depends_on "z" (NBin BMul DUndef [idn "y"] [NUn UNeg DUndef [idn "x"]]) = false.
Proof. split; reflexivity. Qed.

(* 1 + (a + x).evaluate(a=0) depends on x, but says it does not *)
Theorem C05_hidden_dependence_refuted :
  exists e1 e2,
    evaluate [("a", cint 0)] (NExpr [NBin BAdd DUndef [idn "a"] [idn "x"]]) = Ok e1 /\
    apply_op AAdd (NRaw 1) e1 = Ok e2 /\ depends_on "x" e2 = false /\
    exists env env', (forall y, y <> "x" -> env y = env' y) /\
      den noIB noIU env false e2 <> den noIB noIU env' false e2.
Proof.
  do 2 eexists. split; [vm_compute; reflexivity|]. split; [vm_compute; reflexivity|].
  split; [reflexivity|].
  exists (fun s => if (s =? "x")%string then Some (VN 0) else None),
         (fun s => if (s =? "x")%string then Some (VN 1) else None). split.
  - intros y H. destruct (y =? "x")%string eqn:E; auto. apply String.eqb_eq in E. contradiction.
  - vm_compute. discriminate.
Qed.
Print Assumptions C05_hidden_dependence_refuted.

(* ---------------- C06 ---------------- *)
Theorem C06_promotion_is_a_join :
  (forall a b, dt_add a b = dt_add b a) /\
  (forall a b c, dt_add a (dt_add b c) = dt_add (dt_add a b) c) /\
  (forall a, dt_add a a = a) /\
  (forall a, dt_add DUndef a = a) /\
  dt_add DInt DFloat = DFloat /\ (forall a, dt_add DStr a = DStr).
Proof.
  repeat split; intros; try apply dt_add_comm; try apply dt_add_assoc;
  try (destruct a; reflexivity).
Qed.
Print Assumptions C06_promotion_is_a_join.

Theorem C06_order_and_brackets_do_not_matter :
  forall s t, Permutation (leaves s) (leaves t) -> sum_dt s = sum_dt t.
Proof. intros s t P. apply rank_inj. rewrite !sum_maxr. now apply maxr_perm. Qed.
Print Assumptions C06_order_and_brackets_do_not_matter.

(* and the operations built by the code report exactly that sum *)
Theorem C06_reported_type :
  forall o a b n da db, bop_of o = BAdd \/ bop_of o = BSub \/ bop_of o = BMul ->
    dt_of a = Ok da -> dt_of b = Ok db -> mk_bin (bop_of o) [a] [b] = Ok n ->
    dt_of n = Ok (dt_add da db).
Proof.
  intros o a b n da db Ho Ea Eb E.
  assert (G : forall op, op = BAdd \/ op = BSub \/ op = BMul -> mk_bin op [a] [b] = Ok n -> dt_of n = Ok (dt_add da db)).
  { intros op [->|[->| ->]] G; unfold mk_bin in G;
    rewrite (one_dt_single _ _ Ea), (one_dt_single _ _ Eb) in G; cbn in G; inversion G; subst; reflexivity. }
  eapply G; eauto.
Qed.
Print Assumptions C06_reported_type.

Example C06_example :
  sum_dt (Plus (Leaf DInt) (Plus (Leaf DUndef) (Leaf DFloat))) =
  sum_dt (Plus (Plus (Leaf DFloat) (Leaf DInt)) (Leaf DUndef)) /\
  sum_dt (Plus (Leaf DInt) (Plus (Leaf DUndef) (Leaf DFloat))) = DFloat.
Proof. split; reflexivity. Qed.

(* ---------------- C09 ---------------- *)
Theorem C09_equality_is_an_equivalence_partial :
  (forall a, clean a = true -> node_eq a a = true) /\
  (forall a b, node_eq a b = node_eq b a) /\
  (forall a b c, node_eq a b = true -> node_eq b c = true -> node_eq a c = true).
Proof. repeat split; intros; [now apply node_eq_refl|apply node_eq_sym|eapply node_eq_trans; eauto]. Qed.
Print Assumptions C09_equality_is_an_equivalence_partial.

(* Full statement: without [labelled]; an identifier equals a function or an unquoted
   string of the same spelling, see the refutation. *)
Theorem C09_equal_means_same_value_partial :
  forall IB IU env k a b, labelled k a = true -> labelled k b = true -> node_eq a b = true ->
    den IB IU env false a = den IB IU env false b.
Proof. intros. eapply node_eq_den; eauto. Qed.
Print Assumptions C09_equal_means_same_value_partial.

(* two Expr objects: the same three facts *)
Theorem C09_expr_equality_symmetric :
  forall l l', obj_eq (OE l) (OE l') = obj_eq (OE l') (OE l).
Proof.
  intros l l'.
  assert (E : forall a b, obj_eq (OE a) (OE b) = all2 node_eq b a) by (intros [|? [|? ?]] b; reflexivity).
  rewrite !E. apply all2_sym. rewrite Forall_forall. intros x _ y. apply node_eq_sym.
Qed.
Print Assumptions C09_expr_equality_symmetric.

Example C09_example :
  node_eq (NBin BMul DUndef [NBin BAdd DUndef [idn "a"] [idn "b"]] [cint 2])
          (NBin BMul DUndef [cint 2] [NBin BAdd DUndef [idn "b"] [idn "a"]]) = true.
Proof. vm_compute. reflexivity. Qed.

(* a bare operation and an Expr holding it compare differently in the two directions *)
Theorem C09_symmetry_refuted :
  exists a b, obj_eq a b = true /\ obj_eq b a = false.
Proof.
  exists (OE [NBin BAdd DUndef [idn "a"] [idn "b"]]), (ON (NBin BAdd DUndef [idn "a"] [idn "b"])).
  split; reflexivity.
Qed.
Print Assumptions C09_symmetry_refuted.

(* the identifier x equals the string constant x written without quotes *)
Theorem C09_same_value_refuted :
  exists a b env, node_eq a b = true /\ clean a = true /\ clean b = true /\
    den noIB noIU env false a <> den noIB noIU env false b.
Proof.
  exists (idn "x"), (NVal (PStr "x") DStr OValue), (fun _ => Some (VN 1)).
  repeat split. vm_compute. discriminate.
Qed.
Print Assumptions C09_same_value_refuted.

(* ---------------- C10 ---------------- *)
(* forget which identifiers are flagged *)
Fixpoint unflag (n : node) : node :=
  match n with
  | NVal p d OParam => NVal p d OId
  | NRaw _ | NVal _ _ _ => n
  | NBox d l => NBox d (map unflag l)
  | NUn op d a => NUn op d (map unflag a)
  | NBin op d l r => NBin op d (map unflag l) (map unflag r)
  | NTri d f s t => NTri d (map unflag f) (map unflag s) (map unflag t)
  | NExpr l => NExpr (map unflag l)
  end.

(* every identifier keeps its flag or gains it when it is one of the names *)
Theorem C10_exactly_the_parameters_are_flagged :
  forall names n,
    idents (verify names n) =
      map (fun p => (fst p, snd p || existsb (String.eqb (fst p)) names)) (idents n).
Proof. intros. apply verify_idents. Qed.
Print Assumptions C10_exactly_the_parameters_are_flagged.

Lemma map_ext_Forall' {A B} (f g : A -> B) l : Forall (fun x => f x = g x) l -> map f l = map g l.
Proof. induction 1; cbn; congruence. Qed.

Theorem C10_nothing_else_changes :
  forall names n, unflag (verify names n) = unflag n.
Proof.
  intros names. induction n using node_ind'; cbn [verify]; try reflexivity.
  - destruct p; [reflexivity|]. destruct (ot_is_id o) eqn:I; cbn [andb]; [|reflexivity].
    destruct (existsb _ _); [|reflexivity]. destruct o; try discriminate; reflexivity.
  - cbn [unflag]. rewrite map_map. f_equal. now apply map_ext_Forall'.
  - cbn [unflag]. rewrite !map_map. f_equal; now apply map_ext_Forall'.
  - cbn [unflag]. rewrite !map_map. f_equal; now apply map_ext_Forall'.
  - cbn [unflag]. rewrite map_map. f_equal. now apply map_ext_Forall'.
Qed.
Print Assumptions C10_nothing_else_changes.

Theorem C10_value_kept :
  forall IB IU env names n, den IB IU env false (verify names n) = den IB IU env false n.
Proof. intros. apply verify_den. Qed.
Print Assumptions C10_value_kept.

Theorem C10_idempotent : forall names n, verify names (verify names n) = verify names n.
Proof.
  intros names. induction n using node_ind'; cbn [verify]; try reflexivity.
  - destruct p; [reflexivity|]. destruct (ot_is_id o && existsb (String.eqb s) names) eqn:I; cbn [verify].
    + apply andb_prop in I as [_ ->]. reflexivity.
    + now rewrite I.
  - rewrite map_map. f_equal. now apply map_ext_Forall'.
  - rewrite !map_map. f_equal; now apply map_ext_Forall'.
  - rewrite !map_map. f_equal; now apply map_ext_Forall'.
  - rewrite map_map. f_equal. now apply map_ext_Forall'.
Qed.
Print Assumptions C10_idempotent.

(* starting from unflagged identifiers: flagged iff named *)
Theorem C10_flagged_iff_named :
  forall names n s b, (forall p, In p (idents n) -> snd p = false) ->
    In (s, b) (idents (verify names n)) -> (b = true <-> In s names).
Proof.
  intros names n s b H I. rewrite verify_idents in I. apply in_map_iff in I as ([s' b'] & E & I).
  unfold relabel in E. cbn in E. pose proof (H _ I) as F. cbn in F. subst b'. inversion E; subst. cbn.
  rewrite existsb_exists. split.
  - intros (x & Hx & Q). apply String.eqb_eq in Q. congruence.
  - intro Hs. exists s. split; auto. apply String.eqb_refl.
Qed.
Print Assumptions C10_flagged_iff_named.

Example C10_example :
  verify ["p"] (NBin BAdd DUndef [idn "p"] [idn "x"]) = NBin BAdd DUndef [NVal (PStr "p") DUndef OParam] [idn "x"].
Proof. reflexivity. Qed.

(* identifiers inside a Value that holds an Expr are not flagged *)
Theorem C10_hidden_identifier_refuted :
  exists e1 e2,
    evaluate [("a", cint 0)] (NExpr [NBin BAdd DUndef [idn "a"] [idn "x"]]) = Ok e1 /\
    apply_op AAdd (NRaw 1) e1 = Ok e2 /\ In "x" (free e2) /\ verify ["x"] e2 = e2 /\ unflag e2 = e2.
Proof.
  do 2 eexists. split; [vm_compute; reflexivity|]. split; [vm_compute; reflexivity|].
  split; [vm_compute; auto|]. split; reflexivity.
Qed.
Print Assumptions C10_hidden_identifier_refuted.
