(** Signs in front of signs when an expression of an instrument file is read and written again.

    visitExpressionUnaryPM, common/visitor.py:12-16, takes - of what was read, and Python's - of an expression removes a sign that
    is already there: expression.py:574-578 (UnaryOp.__neg__), 917-918 (Value.__neg__), 1219-1220 (Expr.__neg__); + of an
    expression is the expression, expression.py:284-285, 1222-1223.  [settle] does this to a tree as it was parsed.  The lexer of
    instrument files, /repo/src/grammar/c99.g4:143-144, takes two signs that are not apart as one token, as C does. *)
From Coq Require Import List String Ascii Bool QArith Qcanon ZArith Arith Lia.
From Verif Require Import PyStr Expr ExprSem Print.
Import ListNotations.
Local Open Scope string_scope.
Local Open Scope list_scope.
Local Open Scope nat_scope.

(** expression.py:574-578, 917-918: the sign of what was read *)
Definition negate (d : dtype) (y : node) : node :=
  match y with
  | NUn UNeg _ [z] => z
  | NVal (PNum q) d' o => NVal (PNum (- q)) d' o
  | NRaw q => NRaw (- q)
  | _ => NUn UNeg d [y]
  end.
(** common/visitor.py:12-16 at every node of what was read *)
Fixpoint settle (n : node) : node :=
  match n with
  | NRaw _ | NVal _ _ _ => n
  | NBox _ [x] | NExpr [x] => settle x
  | NBox d l => NBox d (map settle l)
  | NExpr l => NExpr (map settle l)
  | NUn UPos _ [x] => settle x
  | NUn UNeg d [x] => negate d (settle x)
  | NUn op d l => NUn op d (map settle l)
  | NBin op d l r => NBin op d (map settle l) (map settle r)
  | NTri d f s t => NTri d (map settle f) (map settle s) (map settle t)
  end.

(** ** Levels *)
Fixpoint bare (n : node) : Prop := match n with NBox _ _ | NExpr _ | NUn UPos _ _ => False | NUn UNeg _ [z] => bare z | _ => True end.
Lemma mc_low s op p q : binfo mc_table s = Some (op, p, q) -> p <= 17.
Proof. intro E. apply look_In in E. cbn [In] in E. repeat (destruct E as [E|E]; [injection E as <- <- <- <-; lia|]). destruct E. Qed.
Lemma mc_neg : pinfo mc_table "-" = Some (UNeg, 18). Proof. reflexivity. Qed.
Lemma high n : 18 <= plevel mc_table n -> plevel mc_table n = top.
Proof.
  induction n using node_ind'; cbn [plevel]; intro L; try reflexivity.
  - destruct l as [|x [|y l]]; try (exfalso; lia). apply Forall_inv in H. now apply H.
  - destruct (bracketing op); [reflexivity|].
    assert (X : match binfo mc_table (sym op) with Some (_, p, _) => p | None => 0 end <= 17).
    { destruct (binfo mc_table (sym op)) as [[[o p] q]|] eqn:E; [exact (mc_low _ _ _ _ E)|lia]. }
    destruct op; try reflexivity; exfalso; lia.
  - exfalso. cbn in L. lia.
  - destruct l as [|x [|y l]]; try (exfalso; lia). apply Forall_inv in H. now apply H.
Qed.
Lemma no_sign n nm : bare n -> 18 <= plevel mc_table n -> tight mc_table nm true n ->
  match n with NUn UNeg _ _ | NVal (PNum _) _ _ | NRaw _ => False | _ => True end -> ~ starts "-" (print nm true n).
Proof.
  intros B L T X. destruct n as [q|p d o|d l|op d a|op d l r|d f s t|l]; try destruct X; try destruct B.
  - destruct p as [q|s]; [destruct X|]. cbn [print]. destruct (ot_is_id o); [exact (fun x => x)|]. destruct o; exact (fun x => x).
  - destruct op; try destruct X; try destruct B; cbn [print]; try exact (fun x => x). cbn [starts]. intros [Y|Y]; discriminate.
  - destruct op; cbn [tight] in T; try (cbn [print]; exact (fun x => x));
      try (exfalso; cbn [plevel bracketing] in L; match type of L with _ <= match ?e with _ => _ end => destruct e as [[[o p] q]|] eqn:E; [apply mc_low in E; lia|lia] end).
    + destruct r as [|? ?]; destruct l as [|[|[|] ? []| | | | |] [|? ?]]; try destruct T; cbn [print map joined ot_is_id app]; exact (fun x => x).
    + destruct l as [|[|[|g] ? o| | | | |] [|? ?]]; try (destruct T; fail). destruct r as [|[|[|h] ? o'| | | | |] [|? ?]]; try (destruct T; fail).
      destruct T as (O & _). cbn [print map joined]. rewrite O. exact (fun x => x).
    + destruct l as [|[|[|g] ? o| | | | |] [|? ?]]; try (destruct T; fail). destruct r as [|[|[|h] ? o'| | | | |] [|? ?]]; try (destruct T; fail).
      destruct T as (O & _). cbn [print map joined]. rewrite O. exact (fun x => x).
    + destruct l as [|[|[|g] ? o| | | | |] [|? ?]]; try (destruct T; fail). destruct r as [|y [|? ?]]; try (destruct T; fail).
      destruct T as (O & _). cbn [print map joined]. rewrite O. exact (fun x => x).
  - exfalso. cbn in L. lia.
Qed.

(** proof helper: the simplified tree can stand where the tree stood *)
Definition fits (nm : otype -> string -> string) (n s : node) : Prop :=
  tight mc_table nm true s /\ plevel mc_table n <= plevel mc_table s /\ plast mc_table n <= plast mc_table s /\ bare s.
Ltac fit := split; [|split; [|split]].
Lemma lit_last (q : Qc) : (if Qc_ltb q 0 then prefix_level mc_table "-" else top) >= 18.
Proof. destruct (Qc_ltb q 0); cbn; unfold top; lia. Qed.
Lemma fits_negate nm d x s : fits nm x s -> 18 <= plevel mc_table x -> fits nm (NUn UNeg d [x]) (negate d s).
Proof.
  intros (T & P & L & B) H. pose proof (high s ltac:(lia)) as Hs.
  assert (Last : plast mc_table (NUn UNeg d [x]) <= 18 /\ plast mc_table (NUn UNeg d [x]) <= plast mc_table s).
  { cbn [plast usym prefix_level]. unfold prefix_level. rewrite mc_neg. lia. }
  assert (Plain : negate d s = NUn UNeg d [s] -> match s with NUn UNeg _ _ | NVal (PNum _) _ _ | NRaw _ => False | _ => True end -> fits nm (NUn UNeg d [x]) (negate d s)).
  { intros -> X. split; [|split; [|split; [|exact B]]].
    - cbn [tight usym]. split; [exact T|]. split; [exists 18; split; [exact mc_neg|lia]|]. intros _ _. apply no_sign; auto; lia.
    - cbn [plevel]. lia.
    - cbn [plast usym]. unfold prefix_level. rewrite mc_neg. lia. }
  destruct s as [q|p d' o|d' l|op d' a|op d' l r|d' f s t|l]; try (now apply Plain); try (destruct B; fail).
  - cbn [negate]. repeat split; [cbn [plevel]; lia|]. transitivity 18; [apply Last|]. cbn [plast]. apply lit_last.
  - destruct p as [q|u]; [|now apply Plain]. cbn [negate]. cbn [tight] in T. repeat split; [exact T|cbn [plevel]; lia|]. transitivity 18; [apply Last|]. cbn [plast]. apply lit_last.
  - destruct op; try (now apply Plain); try (destruct B; fail). destruct a as [|z [|? ?]]; try (destruct T; fail). cbn [negate]. cbn [tight usym] in T. destruct T as (Tz & (pm & E & Pz) & Nz).
    rewrite mc_neg in E. injection E as <-. pose proof (high z Pz) as Hz. repeat split.
    + exact Tz.
    + rewrite Hz. cbn [plevel]. lia.
    + etransitivity; [apply Last|]. cbn [plast usym]. lia.
    + exact B.
Qed.
Lemma fits_all nm l : Forall (fun x => tight mc_table nm false x -> fits nm x (settle x)) l ->
  (fix all l := match l with [] => True | x :: t => tight mc_table nm false x /\ all t end) l ->
  (fix all l := match l with [] => True | x :: t => tight mc_table nm true x /\ all t end) (map settle l).
Proof. intro H. induction H as [|x l Hx Hl IH]; [exact (fun x => x)|]. cbn [map]. intros [Tx Tl]. split; [exact (proj1 (Hx Tx))|exact (IH Tl)]. Qed.
Lemma settle_fits nm n : tight mc_table nm false n -> fits nm n (settle n).
Proof.
  induction n using node_ind'; intro T.
  - repeat split; auto.
  - repeat split; auto.
  - destruct l as [|x [|y l]]; try (destruct T; fail). apply Forall_inv in H. exact (H T).
  - destruct a as [|x [|y l]]; try (cbn [tight] in T; destruct T; fail). apply Forall_inv in H. cbn [tight] in T. destruct T as [Tx U]. specialize (H Tx). destruct H as (T & P & L & B).
    assert (Keep : forall u, plast mc_table (NUn u d [x]) = top -> tight mc_table nm true (NUn u d [settle x]) -> plast mc_table (NUn u d [settle x]) = top -> u <> UNeg -> u <> UPos ->
              fits nm (NUn u d [x]) (NUn u d [settle x])).
    { intros u Lu Tu Lu' N1 N2. fit; [exact Tu|cbn [plevel]; lia|lia|]. destruct u; try exact I; congruence. }
    destruct op; try (destruct U; fail).
    + cbn [settle]. destruct U as [(pm & E & Pm) _]. cbn [usym] in E. rewrite mc_neg in E. injection E as <-. apply fits_negate; [repeat split; assumption|exact Pm].
    + cbn [settle]. destruct U as [(pm & E & Pm) _]. cbn in E. injection E as <-. pose proof (high _ Pm) as Hx. fit; [exact T|cbn [plevel]; lia|cbn [plast]; lia|exact B].
    + cbn [settle map]. apply Keep; try reflexivity; try discriminate. split; [exact T|exact I].
    + cbn [settle map]. destruct U as [(pm & E & Pm) _]. fit; [split; [exact T|split; [exists pm; split; [exact E|lia]|congruence]]|cbn [plevel]; lia|cbn [plast]; lia|exact I].
    + cbn [settle map]. apply Keep; try reflexivity; try discriminate. split; [exact T|exact I].
  - assert (Simple : forall x y, l = [x] -> r = [y] -> (match op with BCall | BStruct | BPtr | BItem | BNamed _ => False | _ => True end) ->
              (exists p q, binfo mc_table (sym op) = Some (op, p, q) /\ p <= plevel mc_table x /\ p < plast mc_table x /\ q <= plevel mc_table y) /\ tight mc_table nm false x /\ tight mc_table nm false y ->
              fits nm (NBin op d l r) (settle (NBin op d l r))).
    { intros x y -> -> Hop ((p & q & E & Px & Lx & Py) & Tx & Ty). apply Forall_inv in H. apply Forall_inv in H0. destruct (H Tx) as (T1 & P1 & L1 & _). destruct (H0 Ty) as (T2 & P2 & L2 & _).
      cbn [settle map]. fit; [| | |destruct op; exact I].
      - destruct op; try (destruct Hop; fail); cbn [tight]; (split; [exists p, q; repeat split; [exact E|lia|lia|lia]|split; assumption]).
      - cbn [plevel]. lia.
      - cbn [plast]. destruct (bracketing op); [lia|]. destruct op; try (destruct Hop; fail); rewrite E; lia. }
    destruct op; try (destruct l as [|x [|x2 l]]; try (destruct T; fail); destruct r as [|y [|y2 r]]; try (destruct T; fail); exact (Simple x y eq_refl eq_refl I T)).
    + destruct r as [|a r]; destruct l as [|[|[|g] ? []| | | | |] [|? ?]]; try (destruct T; fail). fit; try (cbn; lia); try exact I.
      cbn [settle map tight]. apply (fits_all nm (a :: r)); assumption.
    + destruct l as [|[|[|g] ? o| | | | |] [|? ?]]; try (destruct T; fail). destruct r as [|[|[|h] ? o'| | | | |] [|? ?]]; try (destruct T; fail). fit; try (cbn; lia); try exact I; exact T.
    + destruct l as [|[|[|g] ? o| | | | |] [|? ?]]; try (destruct T; fail). destruct r as [|[|[|h] ? o'| | | | |] [|? ?]]; try (destruct T; fail). fit; try (cbn; lia); try exact I; exact T.
    + destruct l as [|[|[|g] ? o| | | | |] [|? ?]]; try (destruct T; fail). destruct r as [|y [|? ?]]; try (destruct T; fail). cbn [tight] in T. destruct T as (O & Ty). apply Forall_inv in H0.
      fit; try (cbn; lia); try exact I. split; [exact O|exact (proj1 (H0 Ty))].
    + destruct l as [|x [|? ?]]; try (destruct T; fail). destruct r as [|y [|? ?]]; try (destruct T; fail). cbn [tight] in T. destruct T as (Tx & Ty). apply Forall_inv in H. apply Forall_inv in H0.
      fit; try (cbn; lia); try exact I. split; [exact (proj1 (H Tx))|exact (proj1 (H0 Ty))].
  - destruct f as [|x [|? ?]]; try (destruct T; fail). destruct s as [|y [|? ?]]; try (destruct T; fail). destruct t as [|z [|? ?]]; try (destruct T; fail).
    cbn [tight] in T. destruct T as (L1 & L2 & L3 & Tx & Ty & Tz). apply Forall_inv in H. apply Forall_inv in H0. apply Forall_inv in H1.
    destruct (H Tx) as (A1 & A2 & A3 & _). destruct (H0 Ty) as (B1 & _). destruct (H1 Tz) as (C1 & C2 & C3 & _).
    cbn [settle map]. fit; [cbn [tight]; repeat split; auto; lia|cbn [plevel]; lia|cbn [plast]; lia|exact I].
  - destruct l as [|x [|y l]]; try (destruct T; fail). apply Forall_inv in H. exact (H T).
Qed.

(** ** Values *)
Section Values.
  Variable IB : binop -> list val -> list val -> option val.
  Variable IU : unop -> list val -> option val.
  Variable env : string -> option val.
  Notation dn := (den IB IU env).
  Lemma catM_settle m l v : Forall (fun n => forall m v, dn m n = Some v -> dn m (settle n) = Some v) l -> catM (dn m) l = Some v -> catM (dn m) (map settle l) = Some v.
  Proof.
    intro H. revert v. induction H as [|x l Hx Hl IH]; intros v E; [exact E|]. destruct l as [|y l].
    - cbn [map]. rewrite den_single in *. auto.
    - cbn [map] in *. rewrite catM_cons2 in *. destruct (dn m x) as [vx|] eqn:Ex; [|discriminate]. rewrite (Hx _ _ Ex). destruct (catM (dn m) (y :: l)) as [vl|] eqn:El; [|discriminate].
      rewrite (IH _ eq_refl). exact E.
  Qed.
  Lemma negate_value d s q : dn false s = Some [VN q] -> dn false (negate d s) = Some [VN (- q)].
  Proof.
    intro E. assert (K : dn false (NUn UNeg d [s]) = Some [VN (- q)]) by (cbn [den]; rewrite den_single, E; reflexivity).
    destruct s as [q'|p d' o|d' l|op d' a|op d' l r|d' f s t|l]; try exact K.
    - destruct p as [q'|u]; [|exact K]. cbn [negate den] in E |- *. destruct (ot_is_id o); [discriminate|]. injection E as <-. reflexivity.
    - destruct op; try exact K. destruct a as [|z [|? ?]]; try exact K. cbn [negate]. cbn [den] in E. rewrite den_single in E. destruct (dn false z) as [[|[w|] [|? ?]]|]; try discriminate.
      injection E as <-. now rewrite Qcopp_involutive.
  Qed.
  Lemma settle_value n : forall m v, dn m n = Some v -> dn m (settle n) = Some v.
  Proof.
    induction n using node_ind'; intros m v E; try exact E.
    - destruct l as [|x [|y l]]; try exact E; [apply Forall_inv in H; now apply H|]. now apply catM_settle.
    - assert (K : forall w, dn m (NUn op d a) = Some w -> dn m (NUn op d (map settle a)) = Some w).
      { intros w. cbn [den]. destruct m; [discriminate|]. destruct (catM (dn false) a) as [xs|] eqn:C; [|discriminate]. now rewrite (catM_settle false a xs H C). }
      destruct op; try (apply K in E; exact E); destruct a as [|x [|y l]]; try (apply K in E; exact E); cbn [settle]; apply Forall_inv in H; cbn [den] in E; destruct m; try discriminate; rewrite den_single in E;
        destruct (dn false x) as [[|[w|] [|? ?]]|] eqn:C; try discriminate; cbn [un_sem] in E; injection E as <-.
      + apply negate_value. now apply H.
      + now apply H.
    - cbn [settle]. revert E. cbn [den].
      assert (P : forall m1 m2, match catM (dn m1) l, catM (dn m2) r with Some xs, Some ys => single (bin_sem IB op xs ys) | _, _ => None end = Some v ->
                   match catM (dn m1) (map settle l), catM (dn m2) (map settle r) with Some xs, Some ys => single (bin_sem IB op xs ys) | _, _ => None end = Some v).
      { intros m1 m2. destruct (catM (dn m1) l) as [xs|] eqn:C1; [|discriminate]. rewrite (catM_settle _ _ _ H C1). destruct (catM (dn m2) r) as [ys|] eqn:C2; [|discriminate]. now rewrite (catM_settle _ _ _ H0 C2). }
      destruct op; try (destruct m; [discriminate|]); apply P.
    - cbn [settle]. revert E. cbn [den]. destruct m; [discriminate|]. destruct (catM (dn false) f) as [xs|] eqn:C; [|discriminate]. rewrite (catM_settle _ _ _ H C).
      destruct xs as [|[c|] [|? ?]]; try discriminate. destruct (Qc_eq_dec c 0); now apply catM_settle.
    - destruct l as [|x [|y l]]; try exact E; [apply Forall_inv in H; now apply H|]. now apply catM_settle.
  Qed.
End Values.
