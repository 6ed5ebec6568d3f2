(** Comparison of expressions, `in`, and sums of data types. *)
From Coq Require Import List String Ascii Bool QArith Qcanon Qround ZArith Lia Permutation.
From Verif Require Import PyStr Expr ExprSem ExprFacts.
Import ListNotations.
Local Open Scope list_scope.
Local Open Scope Qc_scope.

(** the operator == of Python on what Values hold *)
Definition payload_eqb (a b : payload) : bool :=
  match a, b with
  | PNum x, PNum y => Qc_eqb x y
  | PStr x, PStr y => (x =? y)%string
  | _, _ => false
  end.
Lemma payload_eqb_eq a b : payload_eqb a b = true <-> a = b.
Proof.
  destruct a, b; cbn; split; try discriminate; intro H.
  - apply Qc_eqb_eq in H. congruence.
  - inversion H; subst. now apply Qc_eqb_eq.
  - apply String.eqb_eq in H. congruence.
  - inversion H; subst. apply String.eqb_refl.
Qed.

(** the names of operations are compared as texts *)
Definition binop_dec (a b : binop) : {a = b} + {a <> b}.
Proof. decide equality; apply string_dec. Defined.
(** the names of operations are compared as texts *)
Definition unop_dec (a b : unop) : {a = b} + {a <> b}.
Proof. decide equality; apply string_dec. Defined.
(** the operator == of Python on the names of operations *)
Definition binop_eqb a b : bool := if binop_dec a b then true else false.
(** the operator == of Python on the names of operations *)
Definition unop_eqb a b : bool := if unop_dec a b then true else false.
Lemma binop_eqb_eq a b : binop_eqb a b = true <-> a = b.
Proof. unfold binop_eqb. destruct (binop_dec a b); split; congruence. Qed.
Lemma unop_eqb_eq a b : unop_eqb a b = true <-> a = b.
Proof. unfold unop_eqb. destruct (unop_dec a b); split; congruence. Qed.

Section All2.
  Context {A : Type} (f : A -> A -> bool).
  (** Python's comparison of two lists, and Expr.__eq__ (expression.py:1231-1239) *)
  Fixpoint all2 (l l' : list A) : bool :=
    match l, l' with
    | [], [] => true
    | x :: t, y :: t' => f x y && all2 t t'
    | _, _ => false
    end.
End All2.

(** __eq__ between trees without Expr objects inside: Value 930-934, UnaryOp 586-589,
    BinaryOp 458-467, TrinaryOp 334-337 *)
Fixpoint node_eq (a b : node) : bool :=
  match a, b with
  | NVal p _ _, NVal p' _ _ => payload_eqb p p'
  | NUn op _ x, NUn op' _ x' => unop_eqb op op' && all2 node_eq x x'
  | NBin op _ l r, NBin op' _ l' r' =>
      binop_eqb op op' &&
      ((match op with
        | BMul | BAdd => all2 node_eq l r' && all2 node_eq r l'
        | _ => false
        end) || (all2 node_eq l l' && all2 node_eq r r'))
  | NTri _ f s t, NTri _ f' s' t' => all2 node_eq f f' && all2 node_eq s s' && all2 node_eq t t'
  | _, _ => false
  end.

(** what a user compares: an Expr (a list of trees) or a bare Value or operation *)
Inductive obj := OE (l : list node) | ON (n : node).
(** Expr.__eq__ 1231-1239 (elements of the other operand on the left of each ==);
    Value.__eq__ with an Expr: Value.best wraps it and number == Expr, str == Expr fall
    back to Expr.__eq__ with a plain number or str; the operations return False *)
Definition obj_eq (a b : obj) : bool :=
  match a, b with
  | OE l, OE l' => all2 node_eq l' l
  | OE [x], ON n => node_eq x n
  | OE _, ON _ => false
  | ON (NVal p _ _), OE [NVal p' _ _] => payload_eqb p p'
  | ON _, OE _ => false
  | ON n, ON n' => node_eq n n'
  end.

(** no Expr object (and no Python number) inside the tree *)
Fixpoint clean (n : node) : bool :=
  match n with
  | NRaw _ | NBox _ _ | NExpr _ => false
  | NVal _ _ _ => true
  | NUn _ _ a => forallb clean a
  | NBin _ _ l r => forallb clean l && forallb clean r
  | NTri _ f s t => forallb clean f && forallb clean s && forallb clean t
  end.

Lemma all2_refl f l : Forall (fun x => clean x = true -> f x x = true) l -> forallb clean l = true -> all2 f l l = true.
Proof.
  induction 1 as [|x t Hx Ht IH]; intro C; [reflexivity|]. cbn in *. apply andb_prop in C as [C1 C2].
  now rewrite Hx, IH.
Qed.

Theorem node_eq_refl n : clean n = true -> node_eq n n = true.
Proof.
  induction n using node_ind'; cbn [clean node_eq]; intro C; try discriminate.
  - now apply payload_eqb_eq.
  - rewrite (proj2 (unop_eqb_eq op op) eq_refl). now apply all2_refl.
  - apply andb_prop in C as [C1 C2]. rewrite (proj2 (binop_eqb_eq op op) eq_refl).
    rewrite (all2_refl node_eq l), (all2_refl node_eq r); auto. now rewrite orb_true_r.
  - apply andb_prop in C as [C C3]. apply andb_prop in C as [C1 C2].
    rewrite (all2_refl node_eq f), (all2_refl node_eq s), (all2_refl node_eq t); auto.
Qed.

Lemma all2_sym l : Forall (fun x => forall y, node_eq x y = node_eq y x) l ->
  forall l', all2 node_eq l l' = all2 node_eq l' l.
Proof.
  induction 1 as [|x t Hx Ht IH]; destruct l' as [|y t']; cbn; try reflexivity. now rewrite Hx, IH.
Qed.

Lemma unop_eqb_sym a b : unop_eqb a b = unop_eqb b a.
Proof. unfold unop_eqb. destruct (unop_dec a b), (unop_dec b a); congruence. Qed.
Lemma binop_eqb_sym a b : binop_eqb a b = binop_eqb b a.
Proof. unfold binop_eqb. destruct (binop_dec a b), (binop_dec b a); congruence. Qed.
Lemma payload_eqb_sym a b : payload_eqb a b = payload_eqb b a.
Proof.
  destruct (payload_eqb a b) eqn:E.
  - apply payload_eqb_eq in E as ->. symmetry. now apply payload_eqb_eq.
  - destruct (payload_eqb b a) eqn:E'; auto. apply payload_eqb_eq in E' as ->.
    now rewrite (proj2 (payload_eqb_eq a a) eq_refl) in E.
Qed.

Theorem node_eq_sym a : forall b, node_eq a b = node_eq b a.
Proof.
  induction a using node_ind'; destruct b; cbn [node_eq]; try reflexivity.
  - apply payload_eqb_sym.
  - now rewrite unop_eqb_sym, (all2_sym _ H).
  - rewrite binop_eqb_sym. destruct (binop_eqb op0 op) eqn:E; [|reflexivity]. cbn [andb].
    apply binop_eqb_eq in E as ->. rewrite !(all2_sym _ H), !(all2_sym _ H0).
    destruct op; try reflexivity; f_equal; apply andb_comm.
  - now rewrite (all2_sym _ H), (all2_sym _ H0), (all2_sym _ H1).
Qed.

Lemma all2_trans l : Forall (fun x => forall y z, node_eq x y = true -> node_eq y z = true -> node_eq x z = true) l ->
  forall l' l'', all2 node_eq l l' = true -> all2 node_eq l' l'' = true -> all2 node_eq l l'' = true.
Proof.
  induction 1 as [|x t Hx Ht IH]; intros [|y l'] [|z l'']; cbn; try discriminate; auto.
  intros A B. apply andb_prop in A as [A1 A2]. apply andb_prop in B as [B1 B2].
  now rewrite (Hx _ _ A1 B1), (IH _ _ A2 B2).
Qed.

(** the operations whose operands may be swapped *)
Definition comm (op : binop) : bool := match op with BMul | BAdd => true | _ => false end.
Lemma bin_eq_unfold op d l r op' d' l' r' :
  node_eq (NBin op d l r) (NBin op' d' l' r') = true <->
  op = op' /\ ((comm op = true /\ all2 node_eq l r' = true /\ all2 node_eq r l' = true) \/
               (all2 node_eq l l' = true /\ all2 node_eq r r' = true)).
Proof.
  cbn [node_eq]. rewrite andb_true_iff, binop_eqb_eq, orb_true_iff, andb_true_iff.
  split; intros [-> H]; (split; [reflexivity|]);
  (destruct H as [H|H]; [left|right; exact H]); destruct op'; cbn in *; try discriminate; try tauto;
  rewrite ?andb_true_iff in *; tauto.
Qed.

Theorem node_eq_trans a : forall b c, node_eq a b = true -> node_eq b c = true -> node_eq a c = true.
Proof.
  induction a using node_ind'; intros b c E1 E2; destruct b; try discriminate; destruct c; try discriminate.
  - cbn [node_eq] in *. apply payload_eqb_eq in E1, E2. subst. now apply payload_eqb_eq.
  - cbn [node_eq] in *. apply andb_prop in E1 as [A1 A2]. apply andb_prop in E2 as [B1 B2].
    apply unop_eqb_eq in A1, B1. subst. rewrite (proj2 (unop_eqb_eq _ _) eq_refl).
    eapply all2_trans; eauto.
  - apply bin_eq_unfold in E1 as [-> E1]. apply bin_eq_unfold in E2 as [-> E2].
    apply bin_eq_unfold. split; [reflexivity|].
    pose proof (all2_trans _ H) as Tl. pose proof (all2_trans _ H0) as Tr.
    destruct E1 as [(C & X & Y)|(X & Y)]; destruct E2 as [(C' & X' & Y')|(X' & Y')].
    + right. split; [eapply Tl; eauto|eapply Tr; eauto].
    + left. repeat split; [auto|eapply Tl; eauto|eapply Tr; eauto].
    + left. repeat split; [auto|eapply Tl; eauto|eapply Tr; eauto].
    + right. split; [eapply Tl; eauto|eapply Tr; eauto].
  - cbn [node_eq] in *. apply andb_prop in E1 as [A A3]. apply andb_prop in A as [A1 A2].
    apply andb_prop in E2 as [B B3]. apply andb_prop in B as [B1 B2].
    rewrite (all2_trans _ H _ _ A1 B1), (all2_trans _ H0 _ _ A2 B2), (all2_trans _ H1 _ _ A3 B3). reflexivity.
Qed.

(** * Equal trees have equal values *)
(** [labelled k n]: the text of every Value of n tells (by [k]) whether it is an
    identifier; string constants carry their double quotes and function names are not
    used as variables, so real instruments satisfy this for some k *)
Fixpoint labelled (k : string -> bool) (n : node) : bool :=
  match n with
  | NRaw _ => true
  | NVal (PStr s) _ o => Bool.eqb (ot_is_id o) (k s)
  | NVal (PNum _) _ o => negb (ot_is_id o)
  | NBox _ l => forallb (labelled k) l
  | NUn _ _ a => forallb (labelled k) a
  | NBin _ _ l r => forallb (labelled k) l && forallb (labelled k) r
  | NTri _ f s t => forallb (labelled k) f && forallb (labelled k) s && forallb (labelled k) t
  | NExpr l => forallb (labelled k) l
  end.

Section Respect.
  Variable IB : binop -> list val -> list val -> option val.
  Variable IU : unop -> list val -> option val.
  Variable env : string -> option val.
  Variable k : string -> bool.
  Notation den := (den IB IU env).

  Lemma all2_den l :
    Forall (fun x => forall y, labelled k x = true -> labelled k y = true -> node_eq x y = true ->
      forall m, den m x = den m y) l ->
    forall l', forallb (labelled k) l = true -> forallb (labelled k) l' = true ->
    all2 node_eq l l' = true -> forall m, catM (den m) l = catM (den m) l'.
  Proof.
    induction 1 as [|x t Hx Ht IH]; intros [|y t'] L L' E m; try discriminate; [reflexivity|].
    cbn in L, L', E. apply andb_prop in L as [L1 L2]. apply andb_prop in L' as [M1 M2].
    apply andb_prop in E as [E1 E2]. specialize (IH _ L2 M2 E2 m). specialize (Hx _ L1 M1 E1 m).
    destruct t as [|z t]; destruct t' as [|z' t']; try discriminate; [exact Hx|].
    rewrite !catM_cons2, Hx, IH. reflexivity.
  Qed.

  Lemma comm_sem op xs ys : comm op = true -> bin_sem IB op xs ys = bin_sem IB op ys xs.
  Proof.
    destruct op; try discriminate; intros _; cbn;
    destruct xs as [|[x|x] [|? ?]]; destruct ys as [|[y|y] [|? ?]]; try reflexivity;
    cbn [num_sem]; do 2 f_equal; ring.
  Qed.

  Theorem node_eq_den a : forall b, labelled k a = true -> labelled k b = true -> node_eq a b = true ->
    forall m, den m a = den m b.
  Proof.
    induction a using node_ind'; intros b La Lb E m; destruct b; try discriminate.
    - cbn [node_eq] in E. apply payload_eqb_eq in E as ->. cbn [labelled] in La, Lb. cbn [ExprSem.den].
      destruct p0.
      + apply negb_true_iff in La, Lb. now rewrite La, Lb.
      + apply eqb_prop in La, Lb. now rewrite La, Lb.
    - cbn [node_eq] in E. apply andb_prop in E as [E1 E2]. apply unop_eqb_eq in E1 as ->.
      cbn [labelled] in La, Lb. cbn [ExprSem.den]. now rewrite (all2_den _ H _ La Lb E2).
    - apply bin_eq_unfold in E as [-> E]. cbn [labelled] in La, Lb.
      apply andb_prop in La as [La1 La2]. apply andb_prop in Lb as [Lb1 Lb2].
      destruct E as [(C & E1 & E2)|(E1 & E2)].
      + pose proof (all2_den _ H _ La1 Lb2 E1) as D1. pose proof (all2_den _ H0 _ La2 Lb1 E2) as D2.
        destruct op0; try discriminate C; cbn [ExprSem.den]; destruct m; try reflexivity;
        rewrite D1, D2; destruct (catM (den false) l0), (catM (den false) r0); try reflexivity;
        rewrite comm_sem by reflexivity; reflexivity.
      + pose proof (all2_den _ H _ La1 Lb1 E1) as D1. pose proof (all2_den _ H0 _ La2 Lb2 E2) as D2.
        cbn [ExprSem.den]. rewrite !D1, !D2. reflexivity.
    - cbn [node_eq] in E. apply andb_prop in E as [E E3]. apply andb_prop in E as [E1 E2].
      cbn [labelled] in La, Lb. apply andb_prop in La as [La La3]. apply andb_prop in La as [La1 La2].
      apply andb_prop in Lb as [Lb Lb3]. apply andb_prop in Lb as [Lb1 Lb2].
      cbn [ExprSem.den].
      now rewrite (all2_den _ H _ La1 Lb1 E1), (all2_den _ H0 _ La2 Lb2 E2), (all2_den _ H1 _ La3 Lb3 E3).
  Qed.
End Respect.

(** * `name in expr` *)
(** str.strip of double quotes *)
Fixpoint lstripq (s : string) : string :=
  match s with
  | EmptyString => EmptyString
  | String c t => if Ascii.eqb c """"%char then lstripq t else s
  end.
(** proof helper: a text backwards *)
Fixpoint srev (s acc : string) : string :=
  match s with EmptyString => acc | String c t => srev t (String c acc) end.
(** str.strip of double quotes *)
Definition stripq (s : string) : string := srev (lstripq (srev (lstripq s) EmptyString)) EmptyString.
(** value[0] and value[-1] are double quotes, expression.py:772 *)
Definition quoted_both_ends (s : string) : bool :=
  match s, srev s EmptyString with
  | String a _, String b _ => Ascii.eqb a """"%char && Ascii.eqb b """"%char
  | _, _ => false
  end.
(** __contains__ with a str: Value 1004-1012, UnaryOp 629, BinaryOp 527, TrinaryOp 373,
    Expr 1040 *)
Fixpoint contains (x : string) (n : node) : bool :=
  match n with
  | NRaw _ => false
  | NVal (PNum _) _ _ => false
  | NVal (PStr s) d o =>
      if ot_is_id o then (s =? x)%string
      else if (match o with OValue => true | _ => false end) && is_strt d && negb (quoted_both_ends x)
      then (stripq s =? stripq x)%string
      else (s =? x)%string
  | NBox _ [NVal (PStr s) _ _] => (s =? x)%string
  | NBox _ _ => false
  | NUn _ _ a => existsb (contains x) a
  | NBin _ _ l r => existsb (contains x) l || existsb (contains x) r
  | NTri _ f s t => existsb (contains x) f || existsb (contains x) s || existsb (contains x) t
  | NExpr l => existsb (contains x) l
  end.

Lemma existsb_impl {A} (p q : A -> bool) l : Forall (fun x => p x = true -> q x = true) l ->
  existsb p l = true -> existsb q l = true.
Proof.
  induction 1 as [|x t Hx Ht IH]; cbn; [discriminate|]. intro E. apply orb_prop in E as [E|E].
  - now rewrite Hx.
  - now rewrite IH, orb_true_r.
Qed.

Lemma depends_contains x n : depends_on x n = true -> contains x n = true.
Proof.
  induction n using node_ind'; cbn [depends_on contains]; intro E; try discriminate.
  - destruct p; [discriminate|]. apply andb_prop in E as [E1 E2]. now rewrite E1.
  - eapply existsb_impl; eauto.
  - apply orb_prop in E as [E|E]; apply orb_true_iff; [left|right]; eapply existsb_impl; eauto.
  - apply orb_prop in E as [E|E]; [apply orb_prop in E as [E|E]|].
    + rewrite (existsb_impl _ _ _ H E). reflexivity.
    + rewrite (existsb_impl _ _ _ H0 E), orb_true_r. reflexivity.
    + rewrite (existsb_impl _ _ _ H1 E), !orb_true_r. reflexivity.
  - eapply existsb_impl; eauto.
Qed.

(** * Sums of data types *)
Definition rank (d : dtype) : nat := match d with DUndef => 0 | DInt => 1 | DFloat => 2 | DStr => 3 end%nat.
Lemma rank_inj a b : rank a = rank b -> a = b.
Proof. destruct a, b; cbn; congruence. Qed.
Lemma dt_add_rank a b : rank (dt_add a b) = Nat.max (rank a) (rank b).
Proof. destruct a, b; reflexivity. Qed.
Lemma dt_add_comm a b : dt_add a b = dt_add b a.
Proof. destruct a, b; reflexivity. Qed.
Lemma dt_add_assoc a b c : dt_add a (dt_add b c) = dt_add (dt_add a b) c.
Proof. destruct a, b, c; reflexivity. Qed.

(** a bracketed sum *)
Inductive btree := Leaf (d : dtype) | Plus (l r : btree).
(** specification: the data types in a bracketed sum *)
Fixpoint leaves (t : btree) : list dtype :=
  match t with Leaf d => [d] | Plus l r => leaves l ++ leaves r end.
(** DataType.__add__ along the brackets *)
Fixpoint sum_dt (t : btree) : dtype :=
  match t with Leaf d => d | Plus l r => dt_add (sum_dt l) (sum_dt r) end.

(** specification: the highest rank *)
Fixpoint maxr (l : list dtype) : nat :=
  match l with [] => O | d :: t => Nat.max (rank d) (maxr t) end.
Lemma maxr_app l l' : maxr (l ++ l') = Nat.max (maxr l) (maxr l').
Proof. induction l; cbn; [reflexivity|]. rewrite IHl. lia. Qed.
Lemma sum_maxr t : rank (sum_dt t) = maxr (leaves t).
Proof. induction t; cbn; [lia|]. now rewrite dt_add_rank, maxr_app, IHt1, IHt2. Qed.
Lemma maxr_perm l l' : Permutation l l' -> maxr l = maxr l'.
Proof. induction 1; cbn; lia. Qed.
