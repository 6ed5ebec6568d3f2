(** Property C53, continued: the visitors keep the value of the text; property C56: assignments evaluated symbolically. *)
From Coq Require Import List String Ascii Bool QArith Qcanon Qround ZArith Arith Lia.
From Verif Require Import PyStr Expr ExprSem ExprFacts ExprTotal ExprTags Properties_Expr Print Properties_Print Visit.
Import ListNotations.
Local Open Scope string_scope.
Local Open Scope list_scope.
Local Open Scope nat_scope.

(** * The text as a tree *)
(** what the text says, without any evaluation *)
Fixpoint raw (t : tree) : node :=
  match t with
  | XNum q _ => NVal (PNum q) DUndef OValue
  | XStr s => NVal (PStr s) DStr OValue
  | XId s => leaf s
  | XArrow s e => NBin BPtr DUndef [leaf s] [raw e]
  | XDot s e => NBin BStruct DUndef [leaf s] [raw e]
  | XAt s e => NBin BItem DUndef [leaf s] [raw e]
  | XCall s l => NBin BCall DUndef [NVal (PStr s) DUndef OFunc] (map raw l)
  | XGroup e => NUn UGroup DUndef [raw e]
  | XSign minus e => NUn (if minus then UNeg else UPos) DUndef [raw e]
  | XArith o l r => NBin (bop_of o) DUndef [raw l] [raw r]
  | XBin op l r => NBin op DUndef [raw l] [raw r]
  | XNot e => NUn UNot DUndef [raw e]
  | XIf c a b => NTri DUndef [raw c] [raw a] [raw b]
  end.
(** operators of the grammar: + - * / ^ are [XArith], the others [XBin] *)
Definition plain_op (op : binop) : bool := match op with BMod | BShl | BShr | BLt | BGt | BLe | BGe | BNeq | BEq | BOr | BAnd => true | _ => false end.
Fixpoint wf (t : tree) : Prop :=
  match t with
  | XNum _ _ | XStr _ | XId _ => True
  | XArrow _ e | XDot _ e | XAt _ e | XGroup e | XSign _ e | XNot e => wf e
  | XCall _ l => (fix all l := match l with [] => True | x :: r => wf x /\ all r end) l
  | XArith o l r => o <> AFloor /\ wf l /\ wf r
  | XBin op l r => plain_op op = true /\ wf l /\ wf r
  | XIf c a b => wf c /\ wf a /\ wf b
  end.

(** everything the reader of instrument files returns is such a tree *)
Lemma raw_args l ns : Forall2 (fun n t => raw t = n /\ wf t) ns l -> map raw l = ns /\ (fix all l := match l with [] => True | x :: r => wf x /\ all r end) l.
Proof. induction 1 as [|n t ns l (E & W) _ (IH & IW)]; [split; reflexivity|]. split; [cbn; now rewrite E, IH|split; assumption]. Qed.
Lemma mc_bin s op p q : binfo mc_table s = Some (op, p, q) -> plain_op op = true \/ exists o, op = bop_of o /\ o <> AFloor.
Proof.
  intro H. cbn in H. unfold look in H. destruct (find _ _) as [[k v]|] eqn:F; [|discriminate]. apply find_some in F as [F _].
  cbn in F, H. injection H as ->.
  repeat match type of F with _ \/ _ => destruct F as [F|F]; [injection F as _ <- _ _; first [left; reflexivity | right; match goal with |- exists o, ?b = _ /\ _ => first [exists AAdd; split; [reflexivity|discriminate] | exists ASub; split; [reflexivity|discriminate] | exists AMul; split; [reflexivity|discriminate] | exists ADiv; split; [reflexivity|discriminate] | exists APow; split; [reflexivity|discriminate]] end]|] end.
  destruct F.
Qed.
Lemma mc_pre s op p : pinfo mc_table s = Some (op, p) -> op = UNeg \/ op = UPos \/ op = UNot.
Proof.
  intro H. cbn in H. unfold look in H. destruct (find _ _) as [[k v]|] eqn:F; [|discriminate]. apply find_some in F as [F _].
  cbn in F, H. injection H as ->. repeat match type of F with _ \/ _ => destruct F as [F|F]; [injection F as _ <- _; auto|] end. destruct F.
Qed.
Definition shape_of (n : node) : Prop := exists t, raw t = n /\ wf t.
Lemma read_shape : forall f,
  (forall mn ts n r, pexpr mc_table f mn ts = Some (n, r) -> shape_of n)
  /\ (forall mn lhs ts n r, shape_of lhs -> ploop mc_table f mn lhs ts = Some (n, r) -> shape_of n)
  /\ (forall ts ns r, pargs mc_table f ts = Some (ns, r) -> Forall shape_of ns).
Proof.
  induction f as [|f (IE & IL & IA)]; [split; [|split]; intros; discriminate|]. split; [|split].
  - intros mn ts n r H. destruct ts as [|x ts]; [discriminate|]. destruct x as [q|s|s|s| | | | | | | | |]; try discriminate.
    + rewrite e_num in H. destruct (Qc_ltb q 0); [discriminate|]. eapply IL; [|exact H]. exists (XNum q DInt). repeat split.
    + rewrite e_str in H. eapply IL; [|exact H]. exists (XStr s). repeat split.
    + assert (Pl : forall ts', ploop mc_table f mn (leaf s) ts' = Some (n, r) -> shape_of n) by (intros ts' H'; eapply IL; [|exact H']; exists (XId s); repeat split).
      destruct ts as [|[q|s2|s2|s2| | | | | | | | |] ts]; try exact (Pl _ H); try (cbn in H; exact (Pl _ H)).
      * rewrite e_call in H. destruct (pargs mc_table f ts) as [[args r']|] eqn:A; [|discriminate]. eapply IL; [|exact H]. apply IA in A.
        assert (F : exists l, Forall2 (fun n t => raw t = n /\ wf t) args l).
        { clear H. induction A as [|n0 ns (t & T) _ (l & L)]; [exists []; constructor|]. exists (t :: l). now constructor. }
        destruct F as (l & L). apply raw_args in L as (E & W). exists (XCall s l). split; [cbn [raw]; now rewrite E|exact W].
      * rewrite e_item in H. destruct (pexpr mc_table f 0 ts) as [[e [|[] rest]]|] eqn:A; try discriminate. eapply IL; [|exact H].
        apply IE in A as (t & E & W). exists (XAt s t). split; [cbn [raw]; now rewrite E|exact W].
      * destruct ts as [|[] r']; try (cbn in H; exact (Pl _ H)). rewrite e_struct in H. eapply IL; [|exact H]. exists (XDot s (XId s0)). repeat split.
      * destruct ts as [|[] r']; try (cbn in H; exact (Pl _ H)). rewrite e_ptr in H. eapply IL; [|exact H]. exists (XArrow s (XId s0)). repeat split.
    + rewrite Print.e_op in H. destruct (pinfo mc_table s) as [[op pm]|] eqn:P; [|discriminate]. destruct (pexpr mc_table f pm ts) as [[e rest]|] eqn:A; [|discriminate].
      eapply IL; [|exact H]. apply IE in A as (t & E & W). destruct (mc_pre _ _ _ P) as [-> | [-> | ->]]; [exists (XSign true t)|exists (XSign false t)|exists (XNot t)]; (split; [cbn [raw]; now rewrite E|exact W]).
    + rewrite e_group in H. destruct (pexpr mc_table f 0 ts) as [[e [|[] rest]]|] eqn:A; try discriminate. eapply IL; [|exact H].
      apply IE in A as (t & E & W). exists (XGroup t). split; [cbn [raw]; now rewrite E|exact W].
  - intros mn lhs ts n r Hl H. assert (Done : forall x, Some (lhs, x) = Some (n, r) -> shape_of n) by (intros x X; injection X as <- _; exact Hl).
    destruct ts as [|x ts]; [exact (Done _ H)|]. destruct x as [q|s|s|s| | | | | | | | |]; try exact (Done _ H).
    + rewrite l_op in H. destruct (binfo mc_table s) as [[[op p] rm]|] eqn:B; [|exact (Done _ H)]. destruct (mn <=? p); [|exact (Done _ H)].
      destruct (pexpr mc_table f rm ts) as [[e rest]|] eqn:A; [|discriminate]. eapply IL; [|exact H]. apply IE in A as (t & E & W). destruct Hl as (tl & El & Wl).
      destruct (mc_bin _ _ _ _ B) as [Po|(o & -> & No)]; [exists (XBin op tl t)|exists (XArith o tl t)]; (split; [cbn [raw]; now rewrite E, El|cbn [wf]; auto]).
    + rewrite l_tri in H. destruct (mn <=? tlevel mc_table); [|exact (Done _ H)]. destruct (pexpr mc_table f 0 ts) as [[e [|[] rest]]|] eqn:A; try discriminate.
      destruct (pexpr mc_table f (tlast mc_table) rest) as [[e' rest']|] eqn:A'; [|discriminate]. eapply IL; [|exact H].
      apply IE in A as (t & E & W). apply IE in A' as (t' & E' & W'). destruct Hl as (tl & El & Wl). exists (XIf tl t t'). split; [cbn [raw]; now rewrite E, E', El|cbn [wf]; auto].
  - intros ts ns r H. rewrite a_eq in H. destruct (pexpr mc_table f 0 ts) as [[e [|[] rest]]|] eqn:A; try discriminate; apply IE in A.
    + injection H as <- _. repeat constructor. exact A.
    + destruct (pargs mc_table f rest) as [[es r']|] eqn:A'; [|discriminate]. injection H as <- _. constructor; [exact A|]. eapply IA. exact A'.
Qed.
Theorem C53_texts_are_trees : forall ts n, reads mc_table ts n -> exists t, raw t = n /\ wf t.
Proof. intros ts n (k & K). destruct (read_shape k) as (R & _). exact (R 0 ts n [] (K k (le_n k))). Qed.
Print Assumptions C53_texts_are_trees.

(** * The visitors keep the value *)
(** Which names a tree uses how: as a value, as the name before . -> or [, and as the name of a member. *)
Inductive usage := Value | Head | Member.
Fixpoint uses (m : bool) (t : tree) : list (usage * string) :=
  match t with
  | XNum _ _ | XStr _ => []
  | XId s => [(if m then Member else Value, s)]
  | XArrow s e | XDot s e => (if m then Member else Head, s) :: uses true e
  | XAt s e => (if m then Member else Head, s) :: uses false e
  | XCall _ l => flat_map (uses false) l
  | XGroup e | XSign _ e | XNot e => uses m e
  | XArith _ l r | XBin _ l r => uses m l ++ uses m r
  | XIf c a b => uses m c ++ uses m a ++ uses m b
  end.

Section Value.
  Variable IB : binop -> list val -> list val -> option val.
  Variable IU : unop -> list val -> option val.
  (** [given]: the names of the text; [env]: the names of the expression that is made from it *)
  Variables given env : string -> option val.
  Variable ident : string -> expr.
  Hypothesis Hsingle : forall s, exists n, ident s = [n].
  Definition stands (u : usage * string) : Prop :=
    let (k, s) := u in
    match k with
    | Value => forall v, given s = Some v -> catM (den IB IU env false) (ident s) = Some [v]
    | Head => forall v, given s = Some v -> env s = Some v
    | Member => catM (den IB IU env true) (ident s) = Some [VS s]
    end.

  Lemma one_ok r e : one r = Ok e -> exists n, r = Ok n /\ e = [n].
  Proof. unfold one. destruct r; cbn; intro H; try discriminate. injection H as <-. eauto. Qed.
  Lemma visit_single t : forall e, visit ident t = Ok e -> exists n, e = [n].
  Proof.
    induction t using tree_ind'; intros v E; cbn [visit] in E; try (injection E as <-; eauto); try (destruct (Hsingle s) as (n & ->); eauto);
      repeat match type of E with rbind ?x _ = _ => let X := fresh "X" in destruct x eqn:X; cbn [rbind] in E; try discriminate end;
      try (apply one_ok in E as (n & _ & ->); eauto).
    - destruct b; [|injection E as <-; eauto]. destruct (IHt _ eq_refl) as (n & ->). unfold e_neg in E. cbn in E.
      destruct (neg n); cbn in E; try discriminate. injection E as <-. eauto.
    - destruct (IHt1 _ eq_refl) as (n & ->). unfold e_op in E. destruct (apply_op _ _ _); cbn in E; try discriminate. injection E as <-. eauto.
  Qed.

  Lemma visit_value t : wf t -> forall m e vs, Forall stands (uses m t) -> visit ident t = Ok e ->
    den IB IU given m (raw t) = Some vs -> catM (den IB IU env m) e = Some vs.
  Proof.
    induction t using tree_ind'; intros W m v vs N E D; cbn [visit] in E; cbn [raw] in D; cbn [uses] in N; cbn [wf] in W.
    - injection E as <-. exact D.
    - injection E as <-. exact D.
    - injection E as <-. inversion N as [|? ? N1 _]; subst. destruct m; cbn in N1, D.
      + injection D as <-. exact N1.
      + destruct (given s) as [w|]; [|discriminate]. injection D as <-. now apply N1.
    - destruct (visit ident t) as [x| |] eqn:X; try discriminate. cbn [rbind] in E. apply one_ok in E as (n & E & ->). apply mk_bin_inv in E as (d & ->).
      inversion N as [|? ? N1 N2]; subst. cbn [den] in D. rewrite !den_single in *. cbn [den]. rewrite ?den_single. cbn [den leaf idv ot_is_id] in D |- *.
      destruct (den IB IU given true (raw t)) as [ys|] eqn:Dy; [|destruct m; destruct (given s); discriminate]. rewrite (IHt W true x ys N2 eq_refl Dy).
      destruct m; [exact D|]. cbn in N1. destruct (given s) as [w|]; [|discriminate]. rewrite (N1 w eq_refl). exact D.
    - destruct (visit ident t) as [x| |] eqn:X; try discriminate. cbn [rbind] in E. apply one_ok in E as (n & E & ->). apply mk_bin_inv in E as (d & ->).
      inversion N as [|? ? N1 N2]; subst. cbn [den] in D. rewrite !den_single in *. cbn [den]. rewrite ?den_single. cbn [den leaf idv ot_is_id] in D |- *.
      destruct (den IB IU given true (raw t)) as [ys|] eqn:Dy; [|destruct m; destruct (given s); discriminate]. rewrite (IHt W true x ys N2 eq_refl Dy).
      destruct m; [exact D|]. cbn in N1. destruct (given s) as [w|]; [|discriminate]. rewrite (N1 w eq_refl). exact D.
    - destruct (visit ident t) as [x| |] eqn:X; try discriminate. cbn [rbind] in E. apply one_ok in E as (n & E & ->). apply mk_bin_inv in E as (d & ->).
      inversion N as [|? ? N1 N2]; subst. cbn [den] in D. rewrite !den_single in *. cbn [den]. rewrite ?den_single. cbn [den leaf idv ot_is_id] in D |- *.
      destruct (den IB IU given false (raw t)) as [ys|] eqn:Dy; [|destruct m; destruct (given s); discriminate]. rewrite (IHt W false x ys N2 eq_refl Dy).
      destruct m; [exact D|]. cbn in N1. destruct (given s) as [w|]; [|discriminate]. rewrite (N1 w eq_refl). exact D.
    - match type of E with rbind ?x _ = _ => destruct x as [ns| |] eqn:X end; try discriminate. cbn [rbind] in E. apply one_ok in E as (n & E & ->). apply mk_bin_inv in E as (d & ->).
      assert (A : forall ys, catM (den IB IU given false) (map raw l) = Some ys -> catM (den IB IU env false) ns = Some ys).
      { clear D. revert ns X W N. induction H as [|t l Ht Hl IH]; intros ns X W N ys A; [discriminate|]. destruct W as [W1 W2]. cbn [flat_map] in N. apply Forall_app in N as [Na Nb].
        destruct (visit ident t) as [x| |] eqn:Vt; try discriminate. cbn [rbind] in X. destruct (visit_single t x Vt) as (n1 & ->).
        match type of X with rbind ?r _ = _ => destruct r as [ns'| |] eqn:X' end; try discriminate. cbn [rbind] in X. injection X as <-.
        destruct l as [|t2 l].
        - injection X' as <-. exact (Ht W1 false [n1] ys Na eq_refl A).
        - cbn [map] in A. rewrite catM_cons2 in A. destruct (den IB IU given false (raw t)) as [y1|] eqn:D1; [|discriminate].
          destruct (catM (den IB IU given false) (raw t2 :: map raw l)) as [y2|] eqn:D2; [|discriminate]. injection A as <-.
          pose proof (Ht W1 false [n1] y1 Na eq_refl D1) as R1. rewrite den_single in R1. pose proof (IH ns' eq_refl W2 Nb y2 D2) as R2.
          destruct ns' as [|n2 ns']; [discriminate R2|]. rewrite catM_cons2, R1, R2. reflexivity. }
      cbn [den] in D. rewrite !den_single in *. cbn [den]. rewrite ?den_single. cbn [den ot_is_id] in D |- *. destruct (catM (den IB IU given false) (map raw l)) as [ys|]; [|destruct m; discriminate].
      rewrite (A ys eq_refl). exact D.
    - destruct (visit ident t) as [x| |] eqn:X; try discriminate. cbn [rbind] in E. apply one_ok in E as (n & E & ->). apply mk_un_inv in E as (d & ->).
      cbn [den] in D |- *. destruct m; [discriminate|]. rewrite !den_single in *. cbn [den]. destruct (den IB IU given false (raw t)) as [ys|] eqn:Dy; [|discriminate].
      rewrite (IHt W false x ys N eq_refl Dy). exact D.
    - destruct (visit ident t) as [x| |] eqn:X; try discriminate. cbn [rbind] in E. cbn [den] in D. destruct m; [discriminate|]. rewrite den_single in D.
      destruct (den IB IU given false (raw t)) as [ys|] eqn:Dy; [|discriminate]. pose proof (IHt W false x ys N eq_refl Dy) as R. destruct b.
      + destruct (visit_single t x X) as (n & ->). unfold e_neg in E. cbn [rmap] in E. destruct (neg n) as [n'| |] eqn:Ne; try discriminate. cbn [rbind] in E. injection E as <-.
        cbn [un_sem] in D. destruct ys as [|[q|] [|]]; try discriminate. injection D as <-. rewrite den_single in *. exact (neg_num _ _ _ _ _ _ Ne R).
      + injection E as <-. cbn [un_sem] in D. destruct ys as [|[q|] [|]]; try discriminate. injection D as <-. exact R.
    - destruct W as (No & W1 & W2). apply Forall_app in N as [Na Nb].
      destruct (visit ident t1) as [x| |] eqn:X; try discriminate. destruct (visit ident t2) as [y| |] eqn:Y; try discriminate. cbn [rbind] in E.
      destruct (visit_single t1 x X) as (a & ->). destruct (visit_single t2 y Y) as (b & ->). unfold e_op in E.
      destruct (apply_op o a b) as [n| |] eqn:A; try discriminate. cbn [rbind] in E. injection E as <-.
      assert (S1 : m = false /\ exists xs ys, den IB IU given false (raw t1) = Some xs /\ den IB IU given false (raw t2) = Some ys /\ single (bin_sem IB (bop_of o) xs ys) = Some vs).
      { cbn [den] in D. destruct o; cbn [bop_of] in D; (destruct m; [discriminate|]); split; try reflexivity; rewrite !den_single in D;
          (destruct (den IB IU given false (raw t1)) as [xs|]; [|discriminate]); (destruct (den IB IU given false (raw t2)) as [ys|]; [|discriminate]); exists xs, ys; auto. }
      destruct S1 as (-> & xs & ys & Dx & Dy & Dv). pose proof (IHt1 W1 false [a] xs Na eq_refl Dx) as R1. pose proof (IHt2 W2 false [b] ys Nb eq_refl Dy) as R2.
      unfold bin_sem in Dv. assert (Ar : arith_of (bop_of o) = Some o) by (destruct o; reflexivity). rewrite Ar in Dv.
      destruct xs as [|[p|] [|]]; try discriminate. destruct ys as [|[q|] [|]]; try discriminate.
      destruct (num_sem IB o p q) as [z|] eqn:Z; [|discriminate]. injection Dv as <-. rewrite den_single in *.
      refine (apply_op_sound IB IU env o a b n p q z A R1 R2 _ Z). destruct o; try exact I; [contradiction|]. cbn [side]. intros ->. cbn [num_sem] in Z.
      destruct (Qc_eq_dec 0 0) as [_|C]; [|contradiction]. destruct (Qclt_le_dec 0 q) as [L|]; [exact L|discriminate].
    - destruct W as (Po & W1 & W2). apply Forall_app in N as [Na Nb].
      destruct (visit ident t1) as [x| |] eqn:X; try discriminate. destruct (visit ident t2) as [y| |] eqn:Y; try discriminate. cbn [rbind] in E.
      apply one_ok in E as (n & E & ->). apply mk_bin_inv in E as (d & ->). destruct o; try discriminate Po; cbn [den] in D |- *; (destruct m; [discriminate|]); rewrite !den_single in *;
        (destruct (den IB IU given false (raw t1)) as [xs|] eqn:Dx; [|discriminate]); (destruct (den IB IU given false (raw t2)) as [ys|] eqn:Dy; [|discriminate]);
        cbn [den]; rewrite (IHt1 W1 false x xs Na eq_refl Dx), (IHt2 W2 false y ys Nb eq_refl Dy); exact D.
    - destruct (visit ident t) as [x| |] eqn:X; try discriminate. cbn [rbind] in E. apply one_ok in E as (n & E & ->). apply mk_un_inv in E as (d & ->).
      cbn [den] in D |- *. destruct m; [discriminate|]. rewrite !den_single in *. cbn [den]. destruct (den IB IU given false (raw t)) as [ys|] eqn:Dy; [|discriminate].
      rewrite (IHt W false x ys N eq_refl Dy). exact D.
    - destruct W as (W1 & W2 & W3). apply Forall_app in N as [Na N]. apply Forall_app in N as [Nb Nc].
      destruct (visit ident t1) as [x| |] eqn:X; try discriminate. destruct (visit ident t2) as [y| |] eqn:Y; try discriminate. destruct (visit ident t3) as [z| |] eqn:Z; try discriminate. cbn [rbind] in E.
      apply one_ok in E as (n & E & ->). apply mk_tri_inv in E as (d & ->). cbn [den] in D |- *. destruct m; [discriminate|]. rewrite !den_single in *. cbn [den].
      destruct (den IB IU given false (raw t1)) as [xs|] eqn:Dx; [|discriminate]. rewrite (IHt1 W1 false x xs Na eq_refl Dx).
      destruct xs as [|[c|] [|]]; try discriminate. destruct (Qc_eq_dec c 0); [exact (IHt3 W3 false z vs Nc eq_refl D)|exact (IHt2 W2 false y vs Nb eq_refl D)].
  Qed.
End Value.

(** The expression made from a text of an instrument file has the value of the text, whichever names are parameters.
    Missing: texts for which the visitors raise an exception (see below). *)
Theorem C53_expression_has_the_value_of_the_text_partial : forall IB IU env params ts t e vs,
  reads mc_table ts (raw t) -> wf t -> visit (ident_instr params) t = Ok e ->
  den IB IU env false (raw t) = Some vs -> catM (den IB IU env false) e = Some vs.
Proof.
  intros IB IU env params ts t e vs _ W V D. refine (visit_value IB IU env env (ident_instr params) _ t W false e vs _ V D).
  - intro s. unfold ident_instr. destruct (find _ _) as [[k d]|]; eauto.
  - apply Forall_forall. intros [k s] _. unfold stands, ident_instr.
    destruct k; [intros v E|intros v E; exact E|]; (destruct (find _ _) as [[k d]|]; cbn; [|]; try reflexivity; now rewrite E).
Qed.
Print Assumptions C53_expression_has_the_value_of_the_text_partial.

(** The visitors succeed for all expressions of numbers, numeric names, brackets, signs, calls, elements, comparisons, logic and the
    operators + - * and / by something that is not the constant zero. *)
Section Defined.
  Variable ident : string -> expr.
  Fixpoint numeric (t : tree) : Prop :=
    match t with
    | XNum _ d => d = DInt \/ d = DFloat
    | XStr _ => False
    | XId s => exists n, ident s = [n] /\ arith n = true
    | XArrow _ _ | XDot _ _ => False
    | XAt _ e | XGroup e | XSign _ e | XNot e => numeric e
    | XCall _ l => (fix all l := match l with [] => True | x :: r => numeric x /\ all r end) l
    | XArith o l r => numeric l /\ numeric r /\ match o with
                      | AAdd | ASub | AMul => True
                      | ADiv => forall n, visit ident r = Ok [n] -> is_zero n = Ok false
                      | _ => False end
    | XBin op l r => plain_op op = true /\ numeric l /\ numeric r
    | XIf c a b => numeric c /\ numeric a /\ numeric b
    end.
  Lemma visit_total t : numeric t -> exists n, visit ident t = Ok [n] /\ arith n = true.
  Proof.
    assert (Un : forall op n, op <> UNeg -> arith n = true -> exists r, one (mk_un op [n]) = Ok [r] /\ arith r = true).
    { intros op n No A. destruct (mk_un_plain op n (arith_plain n A)) as (r & E & P). exists r. rewrite E. split; [reflexivity|].
      apply mk_un_inv in E as (d & ->). cbn [arith]. unfold operand. rewrite P. destruct op; try reflexivity. contradiction. }
    assert (Bin : forall op a b, arith a = true -> arith b = true -> exists r, one (mk_bin op [a] [b]) = Ok [r] /\ arith r = true).
    { intros op a b A B. destruct (mk_bin_arith op a b A B) as (r & E & P). exists r. now rewrite E. }
    induction t using tree_ind'; intro N; cbn [numeric] in N; cbn [visit]; try contradiction.
    - eexists. split; [reflexivity|]. destruct N as [-> | ->]; reflexivity.
    - destruct N as (n & -> & A). eauto.
    - destruct (IHt N) as (n & -> & A). cbn [rbind]. apply Bin; [reflexivity|exact A].
    - assert (L : exists ns, (fix go l := match l with [] => Ok [] | x :: r => do v <- visit ident x; match v with [] => Raise | n :: _ => do ns <- go r; Ok (n :: ns) end end) l = Ok ns /\ forallb ExprTotal.plain ns = true).
      { induction H as [|t l Ht _ IH]; [exists []; split; reflexivity|]. destruct N as [N1 N2]. destruct (Ht N1) as (n & -> & A). destruct (IH N2) as (ns & -> & P). cbn [rbind].
        exists (n :: ns). split; [reflexivity|]. cbn [forallb]. now rewrite (arith_plain n A), P. }
      destruct L as (ns & -> & P). cbn [rbind mk_bin one]. eexists. split; [reflexivity|]. cbn [arith]. unfold operand. cbn. now rewrite P.
    - destruct (IHt N) as (n & -> & A). cbn [rbind]. apply Un; [discriminate|exact A].
    - destruct (IHt N) as (n & -> & A). cbn [rbind]. destruct b; [|eauto]. destruct (neg_arith n A) as (r & E & P). exists r. unfold e_neg. cbn [rmap]. rewrite E. auto.
    - destruct N as (N1 & N2 & No). destruct (IHt1 N1) as (a & V1 & A). destruct (IHt2 N2) as (b & V2 & B). rewrite V1, V2. cbn [rbind]. unfold e_op.
      destruct (apply_op_total o a b A B) as (r & E & P); [destruct o; try contradiction; auto; right; right; right; auto|exists r; rewrite E; auto].
    - destruct N as (Po & N1 & N2). destruct (IHt1 N1) as (a & -> & A). destruct (IHt2 N2) as (b & -> & B). cbn [rbind]. now apply Bin.
    - destruct (IHt N) as (n & -> & A). cbn [rbind]. apply Un; [discriminate|exact A].
    - destruct N as (N1 & N2 & N3). destruct (IHt1 N1) as (a & -> & A). destruct (IHt2 N2) as (b & -> & B). destruct (IHt3 N3) as (c & -> & C). cbn [rbind]. unfold mk_tri.
      destruct (plain_dt _ (arith_plain _ B)) as (db & Eb & Sb). destruct (plain_dt _ (arith_plain _ C)) as (dc & Ec & Sc). rewrite (one_dt_single _ _ Eb), (one_dt_single _ _ Ec). cbn [rbind one].
      eexists. split; [reflexivity|]. cbn [arith]. unfold operand. cbn [ExprTotal.plain forallb]. rewrite (dt_add_nonstr _ _ Sb Sc), (arith_plain _ A), (arith_plain _ B), (arith_plain _ C). reflexivity.
  Qed.
End Defined.
Theorem C53_numeric_texts_are_accepted : forall params t, numeric (ident_instr params) t -> exists n, visit (ident_instr params) t = Ok [n].
Proof. intros params t N. destruct (visit_total _ t N) as (n & E & _). eauto. Qed.
Print Assumptions C53_numeric_texts_are_accepted.
(* 2 * (i + rand01(1)) / L, i a parameter *)
Definition ex_tree : tree := XArith ADiv (XArith AMul (XNum (Z2Qc 2) DInt) (XGroup (XArith AAdd (XId "i") (XCall "rand01" [XNum 1 DInt])))) (XId "L").
Example C53_visitor_example : wf ex_tree /\ numeric (ident_instr [("i", DInt)]) ex_tree
  /\ reads mc_table [TNum (Z2Qc 2); TOp "*"; TL; TId "i"; TOp "+"; TId "rand01"; TL; TNum 1; TR; TR; TOp "/"; TId "L"] (raw ex_tree)
  /\ exists e, visit (ident_instr [("i", DInt)]) ex_tree = Ok e.
Proof.
  split; [repeat split; discriminate|]. split; [cbn; repeat split; auto; try (eexists; split; reflexivity)|].
  - intros n H. injection H as <-. reflexivity.
  - split; [exists 20; intros f Hf; do 20 (destruct f as [|f]; [lia|]); vm_compute; reflexivity|]. eexists. vm_compute. reflexivity.
Qed.

(** * Parameters and other names *)
Lemma visit_tags ident (Q : string * bool -> Prop) : (forall s, Forall Q (flat_map tags (ident s))) ->
  forall t e, visit ident t = Ok e -> Forall Q (flat_map tags e).
Proof.
  intro Hi. assert (In2 : forall l l' : list (string * bool), incl l l' -> Forall Q l' -> Forall Q l).
  { intros l l' I F. apply Forall_forall. intros x Hx. exact (proj1 (Forall_forall Q l') F x (I x Hx)). }
  assert (Un : forall op v e, one (mk_un op v) = Ok e -> Forall Q (flat_map tags v) -> Forall Q (flat_map tags e)).
  { intros op v e E F. unfold one in E. bind_inv E. injection E as <-. cbn [flat_map]. rewrite app_nil_r, (mk_un_tags _ _ _ E0). exact F. }
  assert (Bin : forall op l r e, one (mk_bin op l r) = Ok e -> headed op = true \/ Forall Q (flat_map tags l) -> Forall Q (flat_map tags r) -> Forall Q (flat_map tags e)).
  { intros op l r e E FL FR. unfold one in E. bind_inv E. injection E as <-. cbn [flat_map]. rewrite app_nil_r, (mk_bin_tags _ _ _ _ E0).
    destruct (headed op); apply Forall_app; split; auto. destruct FL as [|FL]; [discriminate|exact FL]. }
  induction t using tree_ind'; intros v E; cbn [visit] in E.
  - injection E as <-. constructor.
  - injection E as <-. constructor.
  - injection E as <-. apply Hi.
  - bind_inv E. eapply Bin; [exact E|now left|now apply IHt].
  - bind_inv E. eapply Bin; [exact E|now left|now apply IHt].
  - bind_inv E. eapply Bin; [exact E|now left|now apply IHt].
  - bind_inv E. eapply Bin; [exact E|right; constructor|]. clear E. revert a E0. induction H as [|t l Ht _ IH]; intros ns E.
    + injection E as <-. constructor.
    + bind_inv E. destruct a as [|n r]; [discriminate|]. bind_inv E. injection E as <-. cbn [flat_map]. apply Forall_app. split; [|exact (IH _ eq_refl)].
      specialize (Ht _ eq_refl). cbn [flat_map] in Ht. now apply Forall_app in Ht.
  - bind_inv E. eapply Un; [exact E|now apply IHt].
  - bind_inv E. destruct b; [|injection E as <-; now apply IHt]. specialize (IHt _ eq_refl). eapply In2; [|exact IHt]. unfold e_neg in E.
    eapply rmap_tags_incl; [|exact E]. apply Forall_forall. intros x _ y. apply neg_tags.
  - bind_inv E. bind_inv E. specialize (IHt1 _ eq_refl). specialize (IHt2 _ eq_refl). unfold e_op in E. destruct a as [|x [|? ?]]; try discriminate. bind_inv E. injection E as <-.
    cbn [flat_map] in *. rewrite app_nil_r in *. eapply In2; [exact (py_op_tags _ _ _ _ _ E2)|]. apply Forall_app. split; [exact IHt1|].
    destruct a0 as [|y [|? ?]]; cbn [tags flat_map] in *; rewrite ?app_nil_r in *; exact IHt2.
  - bind_inv E. bind_inv E. eapply Bin; [exact E|right; now apply IHt1|now apply IHt2].
  - bind_inv E. eapply Un; [exact E|now apply IHt].
  - bind_inv E. bind_inv E. bind_inv E. unfold one in E. bind_inv E. injection E as <-. cbn [flat_map]. rewrite app_nil_r, (mk_tri_tags _ _ _ _ E3).
    apply Forall_app. split; [now apply IHt1|]. apply Forall_app. split; [now apply IHt2|now apply IHt3].
Qed.
(** A name standing for a value in the expression made from a text is marked as a parameter, and so found in the structure of the
    parameters by the generated program, if and only if the instrument has a parameter of that name. *)
Theorem C53_names_are_marked : forall params t e, visit (ident_instr params) t = Ok e ->
  forall s marked, In (s, marked) (flat_map tags e) -> (marked = true <-> In s (map fst params)).
Proof.
  intros params t e V s b I.
  refine (proj1 (Forall_forall (fun p : string * bool => snd p = true <-> In (fst p) (map fst params)) (flat_map tags e)) (visit_tags (ident_instr params) _ _ t e V) (s, b) I).
  clear. intro s. unfold ident_instr. destruct (find _ _) as [[k d]|] eqn:F.
  - apply find_some in F as (F & K). cbn in K. apply String.eqb_eq in K as ->. repeat constructor. intros _. apply (in_map fst) in F. exact F.
  - repeat constructor; [discriminate|]. cbn. intro I. apply in_map_iff in I as ((k & d) & <- & I). pose proof (find_none _ _ F _ I) as N. cbn in N. now rewrite String.eqb_refl in N.
Qed.
Print Assumptions C53_names_are_marked.
Example C53_names_example : exists e, visit (ident_instr [("i", DInt)]) ex_tree = Ok e /\ flat_map tags e = [("i", true); ("L", false)].
Proof. eexists. split; vm_compute; reflexivity. Qed.

(** A member of a structure with the name of a parameter is looked for in the structure of the parameters: x.gap *)
Theorem C53_member_with_parameter_name_refuted : forall params x m d, find (fun p => fst p =?s m) params = Some (m, d) ->
  exists e, visit (ident_instr params) (XDot x (XId m)) = Ok [e]
    /\ print (prefixed "_instrument_var._parameters.") true e = [TId x; TDot; TId ("_instrument_var._parameters." ++ m)%string].
Proof. intros params x m d F. cbn [visit]. unfold ident_instr. rewrite F. eexists. split; reflexivity. Qed.
Print Assumptions C53_member_with_parameter_name_refuted.
(** An element of a parameter, and a member of one, is not looked for in the structure of the parameters: s[0] with a text s *)
Theorem C53_element_of_parameter_refuted : forall params x i, In x (map fst params) -> forall d, find (fun p => fst p =?s i) params = Some (i, d) ->
  exists e, visit (ident_instr params) (XAt x (XId i)) = Ok [e]
    /\ print (prefixed "_instrument_var._parameters.") true e = [TId x; TLB; TId ("_instrument_var._parameters." ++ i)%string; TRB].
Proof. intros params x i _ d F. cbn [visit]. unfold ident_instr. rewrite F. eexists. split; reflexivity. Qed.
Print Assumptions C53_element_of_parameter_refuted.
Example C53_parameter_names_example : find (fun p => fst p =?s "gap") [("s", DStr); ("gap", DFloat)] = Some ("gap", DFloat) /\ In "s" (map fst [("s", DStr); ("gap", DFloat)]).
Proof. split; [reflexivity|now left]. Qed.

(** A power of anything in brackets, of a negated name, or of a call cannot be read: the operations have no power. *)
Theorem C53_power_of_operation_refuted : forall ident e r, (forall l, visit ident e = Ok l -> exists n, l = [n]) ->
  forall v, visit ident (XArith APow (XGroup e) r) <> Ok v.
Proof.
  intros ident e r Hs v H. cbn [visit] in H. destruct (visit ident e) as [x| |]; try discriminate. destruct (Hs x eq_refl) as (n & ->). cbn [rbind] in H.
  unfold mk_un in H. destruct (one_dt [n]) as [d| |]; try discriminate. cbn [rbind one] in H. destruct (visit ident r) as [y| |]; discriminate.
Qed.
Print Assumptions C53_power_of_operation_refuted.
Example C53_power_of_operation_example : reads mc_table [TL; TId "a"; TOp "+"; TId "b"; TR; TOp "^"; TNum (Z2Qc 2)] (raw (XArith APow (XGroup (XArith AAdd (XId "a") (XId "b"))) (XNum (Z2Qc 2) DInt))).
Proof. exists 20. intros f Hf. do 20 (destruct f as [|f]; [lia|]). vm_compute. reflexivity. Qed.

(** A call without arguments, f(): the alternative of the grammar for texts (McCommon.g4:43) also matches nothing and is visited as
    an empty text, so that the call is written with an argument. *)
Theorem C53_call_without_arguments_refuted : forall ident f,
  exists e, visit ident (XCall f [XStr """"""]) = Ok [e] /\ print plain true e = [TId f; TL; TStr """"""; TR].
Proof. intros. eexists. split; reflexivity. Qed.
Print Assumptions C53_call_without_arguments_refuted.

(** * C56: assignments *)
Definition upd (s : string -> option val) (x : string) (v : val) : string -> option val := fun y => if x =?s y then Some v else s y.
(** what C does with a sequence of assignments to variables that hold any value (no conversion on assignment) *)
Inductive executes (IB : binop -> list val -> list val -> option val) (IU : unop -> list val -> option val)
  : list (string * list tok) -> (string -> option val) -> (string -> option val) -> Prop :=
| x_done s : executes IB IU [] s s
| x_assign x ts n v r s s' : reads c_table ts n -> den IB IU s false n = Some [v] -> executes IB IU r (upd s x v) s' -> executes IB IU ((x, ts) :: r) s s'.
(** what the grammar makes of the statements *)
Definition parsed (src : list (string * list tok)) (p : list assignment) : Prop :=
  Forall2 (fun st a => fst st = fst a /\ reads mc_table (snd st) (raw (snd a)) /\ wf (snd a)) src p.
(** names before . -> [ and names of members are neither known nor assigned *)
Definition separate (known : dict) (p : list assignment) : Prop :=
  forall x e k s, In (x, e) p -> In (k, s) (uses false e) -> k <> Value -> get known s = None /\ ~ In s (map fst p).

Lemma get_put d x v y : get (put d x v) y = if x =?s y then Some v else get d y.
Proof.
  induction d as [|[k w] d IH]; cbn [put get]; [reflexivity|]. destruct (String.eqb_spec k x) as [->|Nk]; cbn [get]; [destruct (x =?s y); reflexivity|].
  rewrite IH. destruct (String.eqb_spec x y) as [->|]; [|reflexivity]. now rewrite (proj2 (String.eqb_neq k y) Nk).
Qed.
Definition singles (d : dict) : Prop := forall s e, get d s = Some e -> exists n, e = [n].
Definition agrees IB IU env (d : dict) (s : string -> option val) : Prop := forall x v, s x = Some v -> catM (den IB IU env false) (ident_found d x) = Some [v].

Lemma assign_all_ok IB IU env src p : parsed src p -> Forall (fun st => Forall shared_tok (snd st)) src ->
  forall known start final found, singles known -> agrees IB IU env known start -> separate known p ->
    executes IB IU src start final -> assign_all known p = Ok found -> singles found /\ agrees IB IU env found final.
Proof.
  induction 1 as [|[x ts] [y e] src p (Ex & R & W) _ IH]; intros Sh known start final found Hs Ha Hsep X A.
  - inversion X; subst. injection A as <-. auto.
  - inversion Sh as [|? ? Sh1 Sh2]; subst. cbn [fst snd] in *. subst y. cbn [assign_all] in A. destruct (visit (ident_found known) e) as [v| |] eqn:V; try discriminate. cbn [rbind] in A.
    inversion X as [|? ? n w ? ? ? Rc D X']; subst. apply (proj2 (C53_same_reading_partial ts n Sh1)) in Rc.
    assert (n = raw e) as -> by (destruct Rc as [k1 K1], R as [k2 K2]; specialize (K1 (k1 + k2) ltac:(lia)); specialize (K2 (k1 + k2) ltac:(lia)); congruence).
    assert (Single : forall s, exists n, ident_found known s = [n]) by (intro s; unfold ident_found; destruct (get known s) eqn:G; [exact (Hs s _ G)|eauto]).
    assert (Dv : catM (den IB IU env false) v = Some [w]).
    { refine (visit_value IB IU start env (ident_found known) Single e W false v [w] _ V D). apply Forall_forall. intros [k s] Hu. destruct k; cbn [stands].
      - intros u Hu'. exact (Ha s u Hu').
      - destruct (Hsep x e Head s (or_introl eq_refl) Hu ltac:(discriminate)) as (Hk & _). intros u Hu'. specialize (Ha s u Hu'). unfold ident_found in Ha. rewrite Hk in Ha. cbn in Ha.
        destruct (env s); [injection Ha as <-; reflexivity|discriminate].
      - destruct (Hsep x e Member s (or_introl eq_refl) Hu ltac:(discriminate)) as (Hk & _). unfold ident_found. rewrite Hk. reflexivity. }
    destruct (visit_single (ident_found known) Single e v V) as (nv & ->).
    apply (IH Sh2 (put known x [nv]) (upd start x w) final found).
    + intros s l G. rewrite get_put in G. destruct (x =?s s); [injection G as <-; eauto|exact (Hs s l G)].
    + intros s u G. unfold upd in G. unfold ident_found. rewrite get_put. destruct (x =?s s); [injection G as <-; exact Dv|exact (Ha s u G)].
    + intros x' e' k s He Hu Nk. destruct (Hsep x' e' k s (or_intror He) Hu Nk) as (G & Ni). cbn [map fst] in Ni. rewrite get_put.
      destruct (String.eqb_spec x s) as [->|]; [exfalso; apply Ni; now left|]. split; [exact G|]. intro; apply Ni; now right.
    + exact X'.
    + exact A.
Qed.
Lemma set_dt_den IB IU env d n : forall n', set_dt d n = Ok n' -> forall m, den IB IU env m n' = den IB IU env m n.
Proof.
  induction n using node_ind'; intros n' E m; cbn [set_dt] in E; try discriminate; try (injection E as <-; reflexivity).
  destruct l as [|x [|]]; try discriminate. pose proof (Forall_inv H) as Hx. cbn beta in Hx. destruct (set_dt d x) as [y| |] eqn:Y; try discriminate. injection E as <-. cbn [den]. rewrite !den_single. now apply Hx.
Qed.
Lemma rmap_in {A B} (f : A -> res B) l l' : rmap f l = Ok l' -> forall x, In x l -> exists y, f x = Ok y /\ In y l'.
Proof.
  revert l'. induction l as [|a l IH]; intros l' E x H; [destruct H|]. cbn [rmap] in E. destruct (f a) as [b| |] eqn:F; try discriminate. cbn [rbind] in E.
  destruct (rmap f l) as [bs| |] eqn:R; try discriminate. injection E as <-. destruct H as [->|H]; [exists b; split; [exact F|now left]|].
  destruct (IH bs eq_refl x H) as (y & Fy & Iy). exists y. split; [exact Fy|now right].
Qed.

(** The symbolic values of the variables, taken in any state, are the values that the variables have after C has executed the
    statements from that state.  [known] may hold values of some variables, in terms of names whose values are [env].
    Missing: operators that C and the grammar order differently (C53), conversion to the type of the variable, members and
    elements of variables that are known or assigned. *)
Theorem C56_symbolic_values_partial : forall IB IU env known src p start final vars result after,
  parsed src p -> Forall (fun st => Forall shared_tok (snd st)) src -> separate known p -> singles known ->
  (forall x v, start x = Some v -> catM (den IB IU env false) (ident_found known x) = Some [v]) ->
  executes IB IU src start final ->
  evaluate_c vars p known = Ok (result, after) ->
  forall x d v, In (x, d) vars -> final x = Some v -> exists e, In (x, e) result /\ catM (den IB IU env false) e = Some [v].
Proof.
  intros IB IU env known src p start final vars result after P Sh Sep Hs Ha X E x d v Hx Hv. unfold evaluate_c in E.
  destruct (assign_all known p) as [found| |] eqn:A; try discriminate. cbn [rbind] in E. destruct (assign_all_ok IB IU env src p P Sh known start final found Hs Ha Sep X A) as (Sf & Af).
  match type of E with rbind ?r _ = _ => destruct r as [l| |] eqn:L end; try discriminate. cbn [rbind] in E. injection E as <- _.
  destruct (rmap_in _ _ _ L (x, d) Hx) as ([x' e] & F & I). cbn [fst snd] in F. destruct (get_found found x d) as [e'| |] eqn:G; try discriminate. cbn [rbind] in F. injection F as <- <-.
  exists e'. split; [exact I|]. specialize (Af x v Hv). unfold get_found in G. assert (S1 : exists n, ident_found found x = [n]) by (unfold ident_found; destruct (get found x) eqn:Gx; [exact (Sf x _ Gx)|eauto]).
  destruct S1 as (n & Sn). rewrite Sn in *. cbn [rmap] in G. destruct (simplify n) as [n'| |] eqn:Sm; try discriminate. cbn [rbind one] in G.
  destruct (set_dt d n') as [n2| |] eqn:T; try discriminate. cbn [rbind] in G. injection G as <-. rewrite den_single in *. rewrite (set_dt_den _ _ _ _ _ _ T). exact (simplify_refines IB IU env n n' Sm false _ Af).
Qed.
Print Assumptions C56_symbolic_values_partial.

(** expressions of numbers, names, brackets, signs, calls, elements, comparisons, logic, + - * and division by a number other than 0 *)
Fixpoint simple (t : tree) : Prop :=
  match t with
  | XNum _ d => d = DInt \/ d = DFloat
  | XId _ => True
  | XStr _ | XArrow _ _ | XDot _ _ => False
  | XAt _ e | XGroup e | XSign _ e | XNot e => simple e
  | XCall _ l => (fix all l := match l with [] => True | x :: r => simple x /\ all r end) l
  | XArith o l r => simple l /\ simple r /\ match o with
                    | AAdd | ASub | AMul => True
                    | ADiv => match r with XNum q _ => q <> 0%Qc | _ => False end
                    | _ => False end
  | XBin op l r => plain_op op = true /\ simple l /\ simple r
  | XIf c a b => simple c /\ simple a /\ simple b
  end.
Lemma simple_numeric ident : (forall s, exists n, ident s = [n] /\ arith n = true) -> forall t, simple t -> numeric ident t.
Proof.
  intros Hi t. induction t using tree_ind'; cbn [simple numeric]; intro N; try contradiction; auto.
  - induction H as [|t l Ht _ IH]; [exact I|]. destruct N as [N1 N2]. split; [exact (Ht N1)|exact (IH N2)].
  - destruct N as (N1 & N2 & No). repeat split; auto. destruct o; auto. destruct t2; try contradiction. intros n E. cbn [visit] in E. injection E as <-.
    unfold is_zero. destruct N2 as [-> | ->]; cbn; destruct (Qc_eqb q 0) eqn:Z; try reflexivity; apply Qc_eqb_eq in Z; contradiction.
  - tauto.
  - tauto.
Qed.
(** Any sequence of such assignments is evaluated, whatever values are known for the variables (as long as they are numbers). *)
Theorem C56_simple_assignments_are_evaluated : forall p known,
  (forall x e, In (x, e) p -> simple e) -> (forall s e, get known s = Some e -> exists n, e = [n] /\ arith n = true) ->
  exists after, evaluate_c [] p known = Ok ([], after) /\ forall s e, get after s = Some e -> exists n, e = [n] /\ arith n = true.
Proof.
  intros p. unfold evaluate_c. cbn [rmap rbind]. induction p as [|[x e] p IH]; intros known Hp Hk; cbn [assign_all].
  - exists known. split; [reflexivity|exact Hk].
  - assert (Hi : forall s, exists n, ident_found known s = [n] /\ arith n = true) by (intro s; unfold ident_found; destruct (get known s) eqn:G; [exact (Hk s _ G)|eexists; split; reflexivity]).
    destruct (visit_total (ident_found known) e (simple_numeric _ Hi e (Hp x e (or_introl eq_refl)))) as (n & -> & A). cbn [rbind].
    apply IH; [intros; eapply Hp; right; eassumption|]. intros s l G. rewrite get_put in G. destruct (x =?s s); [injection G as <-; eauto|exact (Hk s l G)].
Qed.
Print Assumptions C56_simple_assignments_are_evaluated.
(* { x = 2 * L; y = x + i; x = y; } with L known as k / 3, i not known *)
Definition ex_src : list (string * list tok) :=
  [("x", [TNum (Z2Qc 2); TOp "*"; TId "L"]); ("y", [TId "x"; TOp "+"; TId "i"]); ("x", [TId "y"])].
Definition ex_prog : list assignment := [("x", XArith AMul (XNum (Z2Qc 2) DInt) (XId "L")); ("y", XArith AAdd (XId "x") (XId "i")); ("x", XId "y")].
Definition ex_known : dict := [("L", [NBin BDiv DFloat [idv "k"] [NVal (PNum (Z2Qc 3)) DInt OValue]])].
Definition ex_env (s : string) : option val := if s =?s "k" then Some (VN (Z2Qc 12)) else if s =?s "i" then Some (VN 1%Qc) else None.
Definition ex_start (s : string) : option val := if s =?s "L" then Some (VN (Z2Qc 4)) else if s =?s "i" then Some (VN 1%Qc) else None.
Ltac reads_by := exists 20; let f := fresh in let Hf := fresh in intros f Hf; do 20 (destruct f as [|f]; [lia|]); vm_compute; reflexivity.
Example C56_example : parsed ex_src ex_prog /\ Forall (fun st => Forall shared_tok (snd st)) ex_src /\ separate ex_known ex_prog /\ singles ex_known
  /\ (forall x v, ex_start x = Some v -> catM (den (fun _ _ _ => None) (fun _ _ => None) ex_env false) (ident_found ex_known x) = Some [v])
  /\ (exists final, executes (fun _ _ _ => None) (fun _ _ => None) ex_src ex_start final /\ final "x" = Some (VN (Z2Qc 9)))
  /\ (exists r, evaluate_c [("x", DFloat)] ex_prog ex_known = Ok r) /\ (forall x e, In (x, e) ex_prog -> simple e).
Proof.
  assert (R1 : reads c_table [TNum (Z2Qc 2); TOp "*"; TId "L"] (raw (XArith AMul (XNum (Z2Qc 2) DInt) (XId "L")))) by reads_by.
  assert (R2 : reads c_table [TId "x"; TOp "+"; TId "i"] (raw (XArith AAdd (XId "x") (XId "i")))) by reads_by.
  assert (R3 : reads c_table [TId "y"] (raw (XId "y"))) by reads_by.
  split; [repeat (apply Forall2_cons); try apply Forall2_nil; (split; [reflexivity|split; [reads_by|cbn; repeat split; discriminate]])|].
  split; [repeat (apply Forall_cons; cbn [snd]); try apply Forall_nil; cbn; tauto|].
  split; [intros x e k s H U N; cbn in H; destruct H as [H|[H|[H|[]]]]; injection H as <- <-; cbn in U; intuition; match goal with H : (_, _) = _ |- _ => injection H as <- <- end; contradiction|].
  split; [intros s e H; unfold ex_known in H; cbn [get] in H; destruct ("L" =?s s); [injection H as <-; eauto|discriminate]|].
  split; [intros x v H; unfold ex_start in H; destruct (String.eqb_spec x "L") as [->|]; [injection H as <-; transitivity (Some [VN (Z2Qc 12 / Z2Qc 3)%Qc]); [reflexivity|do 3 f_equal; apply Qc_is_canon; reflexivity]|]; destruct (String.eqb_spec x "i") as [->|]; [injection H as <-; reflexivity|discriminate]|].
  split; [eexists; split; [eapply x_assign; [exact R1|vm_compute; reflexivity|]; eapply x_assign; [exact R2|vm_compute; reflexivity|]; eapply x_assign; [exact R3|vm_compute; reflexivity|]; constructor|transitivity (Some (VN (Z2Qc 2 * Z2Qc 4 + 1)%Qc)); [vm_compute; reflexivity|do 2 f_equal; apply Qc_is_canon; reflexivity]]|].
  split; [eexists; vm_compute; reflexivity|]. intros x e H. cbn in H. destruct H as [H|[H|[H|[]]]]; injection H as <- <-; cbn; auto.
Qed.

(** A variable of integer type is given a value that is not an integer, where C would have dropped the fraction: int n; n = 3.5; *)
Theorem C56_integer_variable_refuted : forall IB IU env x q known, exists after,
  evaluate_c [(x, DInt)] [(x, XNum q DFloat)] known = Ok ([(x, [NVal (PNum q) DInt OValue])], after)
  /\ catM (den IB IU env false) [NVal (PNum q) DInt OValue] = Some [VN q].
Proof.
  intros IB IU env x q known. eexists. split; [|reflexivity]. unfold evaluate_c, get_found, ident_found. cbn [assign_all visit rbind rmap fst snd]. rewrite get_put, String.eqb_refl. reflexivity.
Qed.
Print Assumptions C56_integer_variable_refuted.
(** The name of a member is replaced by the value of a variable with the same name: b = 1; c = a.b; gives a.1 *)
Theorem C56_member_name_refuted : forall a b c q, b <> c -> (0 <= q)%Qc -> exists e after,
  evaluate_c [(c, DFloat)] [(b, XNum q DInt); (c, XDot a (XId b))] [] = Ok ([(c, [e])], after) /\ print plain true e = [TId a; TDot; TNum q].
Proof.
  intros a b c q N P. assert (Q : Qc_ltb q 0 = false) by (unfold Qc_ltb; destruct (Qclt_le_dec q 0) as [L|]; [destruct (Qcle_not_lt _ _ P L)|reflexivity]).
  assert (A : exists d, assign_all [] [(b, XNum q DInt); (c, XDot a (XId b))] = Ok [(b, [NVal (PNum q) DInt OValue]); (c, [NBin BStruct d [idv a] [NVal (PNum q) DInt OValue]])]).
  { eexists. cbn [assign_all visit rbind put]. unfold ident_found. cbn [get]. rewrite String.eqb_refl. cbn. rewrite (proj2 (String.eqb_neq b c) N). reflexivity. }
  destruct A as (d & A). eexists. eexists. unfold evaluate_c. rewrite A. cbn [rbind rmap fst snd]. unfold get_found, ident_found. cbn [get]. rewrite (proj2 (String.eqb_neq b c) N), String.eqb_refl.
  split; [reflexivity|]. cbn [print]. cbn -[Qc_ltb]. unfold num_toks. now rewrite Q.
Qed.
Print Assumptions C56_member_name_refuted.
(** The variable in front of a member, of [ ] or of -> is not replaced: x = y; z = x[q]; gives x[q], in terms of the old x *)
Theorem C56_head_not_replaced_refuted : forall x y z q, x <> z -> (0 <= q)%Qc -> exists e after,
  evaluate_c [(z, DFloat)] [(x, XId y); (z, XAt x (XNum q DInt))] [] = Ok ([(z, [e])], after) /\ print plain true e = [TId x; TLB; TNum q; TRB].
Proof.
  intros x y z q N P. assert (Q : Qc_ltb q 0 = false) by (unfold Qc_ltb; destruct (Qclt_le_dec q 0) as [L|]; [destruct (Qcle_not_lt _ _ P L)|reflexivity]).
  assert (A : exists d, assign_all [] [(x, XId y); (z, XAt x (XNum q DInt))] = Ok [(x, [idv y]); (z, [NBin BItem d [idv x] [NVal (PNum q) DInt OValue]])]).
  { eexists. cbn [assign_all visit rbind put]. unfold ident_found. cbn [get]. cbn. rewrite (proj2 (String.eqb_neq x z) N). reflexivity. }
  destruct A as (d & A). eexists. eexists. unfold evaluate_c. rewrite A. cbn [rbind rmap fst snd]. unfold get_found, ident_found. cbn [get]. rewrite (proj2 (String.eqb_neq x z) N), String.eqb_refl.
  split; [reflexivity|]. cbn [print]. cbn -[Qc_ltb]. unfold num_toks. now rewrite Q.
Qed.
Print Assumptions C56_head_not_replaced_refuted.
(** The dictionary of known values of the caller is changed, so that the same statements evaluated again with it give another result:
    x = x + 1; evaluated twice. *)
Theorem C56_known_values_unchanged_refuted : forall x, exists r r' after after',
  evaluate_c [(x, DFloat)] [(x, XArith AAdd (XId x) (XNum 1%Qc DInt))] [] = Ok (r, after)
  /\ evaluate_c [(x, DFloat)] [(x, XArith AAdd (XId x) (XNum 1%Qc DInt))] after = Ok (r', after') /\ after <> [] /\ r' <> r.
Proof.
  intro x. set (p := [(x, XArith AAdd (XId x) (XNum 1%Qc DInt))]). set (one := NVal (PNum 1%Qc) DInt OValue).
  set (e1 := NBin BAdd DInt [idv x] [one]). set (e2 := NBin BAdd DInt [e1] [one]).
  assert (A1 : assign_all [] p = Ok [(x, [e1])]) by reflexivity.
  assert (A2 : assign_all [(x, [e1])] p = Ok [(x, [e2])]).
  { unfold p. cbn [assign_all visit rbind]. unfold ident_found. cbn [get]. rewrite String.eqb_refl. cbn [rbind].
    change (e_op AAdd [e1] [NVal (PNum 1%Qc) DInt OValue]) with (@Ok (list node) [e2]). cbn [rbind put]. now rewrite String.eqb_refl. }
  exists [(x, [NBin BAdd DFloat [idv x] [one]])], [(x, [NBin BAdd DFloat [e1] [one]])], [(x, [e1])], [(x, [e2])]. unfold evaluate_c. rewrite A1, A2. cbn [rbind rmap fst snd]. unfold get_found, ident_found. cbn [get]. rewrite String.eqb_refl.
  repeat split; discriminate.
Qed.
Print Assumptions C56_known_values_unchanged_refuted.
