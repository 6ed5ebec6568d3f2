(** Property C56, continued: the data types of the results of evaluating assignments. *)
From Coq Require Import List String Ascii Bool QArith Qcanon Arith Lia.
From Verif Require Import PyStr Expr EvalShare.
Import ListNotations.
Local Open Scope string_scope.
Local Open Scope list_scope.
Local Open Scope nat_scope.

(** * What the statements do *)
(** The number or the name that is assigned *)
Inductive leaf := LNum (q : Qc) (d : dtype) | LName (s : string).
Fixpoint leaf_of (r : rhs) : leaf := match r with RNum q d => LNum q d | RName s => LName s | RPlus r => leaf_of r | RGroup r => leaf_of r end.
(** Where the value of a variable comes from: it is the one that a variable had at the start, or it is written in the k-th
    statement *)
Inductive origin := Start (x : string) | At (k : nat).
Definition origin_eqb (s t : origin) : bool := match s, t with Start x, Start y => x =?s y | At j, At k => j =? k | _, _ => false end.
(** The origins while the statements are executed; [None] for variables of which nothing is known *)
Fixpoint origins (k : nat) (o : string -> option origin) (p : list (string * rhs)) : string -> option origin :=
  match p with
  | [] => o
  | (x, r) :: p' =>
      let t := match leaf_of r with LNum _ _ => At k | LName y => match o y with Some t => t | None => At k end end in
      origins (S k) (fun z => if z =?s x then Some t else o z) p'
  end.
(** The values while the statements are executed *)
Fixpoint execute (st : string -> payload) (p : list (string * rhs)) : string -> payload :=
  match p with
  | [] => st
  | (x, r) :: p' => let v := match leaf_of r with LNum q _ => PNum q | LName y => st y end in execute (fun z => if z =?s x then v else st z) p'
  end.
Definition origin_at_end (known : list string) (p : list (string * rhs)) (x : string) : origin :=
  match origins 0 (fun z => if existsb (String.eqb z) known then Some (Start z) else None) p x with Some t => t | None => Start x end.
(** the type in the last pair whose name satisfies [f] *)
Fixpoint last_type (f : string -> bool) (vars : list (string * dtype)) (d : dtype) : dtype :=
  match vars with [] => d | (y, e) :: r => last_type f r (if f y then e else d) end.
(** The caller knows every variable by an object of its own, as extract_c_declared_expressions (c_listener.py:464-468) makes them *)
Definition own_objects (known : found_in) (h : heap) : Prop :=
  (forall x i, at_name known x = Some i -> simplify_item i < List.length h)
  /\ (forall x y i j, at_name known x = Some i -> at_name known y = Some j -> simplify_item i = simplify_item j -> x = y).
(** What the caller knows *)
Definition known_value (known : found_in) (h : heap) (x : string) : payload :=
  match at_name known x with Some i => match nth_error h (simplify_item i) with Some (v, _) => v | None => PStr x end | None => PStr x end.

(** * Lemmas *)
Lemma at_set f x v y : at_name (set_name f x v) y = if y =?s x then Some v else at_name f y.
Proof.
  induction f as [|[k w] f IH]; cbn [set_name at_name].
  - rewrite String.eqb_sym. now destruct (y =?s x).
  - destruct (k =?s x) eqn:E; cbn [at_name].
    + apply String.eqb_eq in E. subst k. rewrite String.eqb_sym. now destruct (y =?s x).
    + destruct (k =?s y) eqn:K; [|exact IH]. apply String.eqb_eq in K. subst k. now rewrite E.
Qed.
Lemma origin_eqb_eq s t : origin_eqb s t = true <-> s = t.
Proof.
  destruct s, t; cbn [origin_eqb]; split; intro H; try discriminate; try (apply String.eqb_eq in H; now subst); try (apply Nat.eqb_eq in H; now subst);
    injection H as <-; [apply String.eqb_refl|apply Nat.eqb_refl].
Qed.
Lemma set_type_length h : forall a d, List.length (set_type h a d) = List.length h.
Proof. induction h as [|[p e] h IH]; intros [|a] d; cbn [set_type List.length]; [easy|easy|easy|now rewrite IH]. Qed.
Lemma set_type_same h : forall a d v e, nth_error h a = Some (v, e) -> nth_error (set_type h a d) a = Some (v, d).
Proof. induction h as [|[p e'] h IH]; intros [|a] d v e H; cbn [set_type nth_error] in *; try discriminate; [now injection H as -> _|now apply (IH _ _ _ e)]. Qed.
Lemma set_type_other h : forall a b d, a <> b -> nth_error (set_type h a d) b = nth_error h b.
Proof. induction h as [|[p e'] h IH]; intros [|a] [|b] d H; cbn [set_type nth_error] in *; try easy. apply IH. congruence. Qed.
Lemma nth_new (h : heap) c : nth_error (h ++ [c]) (List.length h) = Some c.
Proof. rewrite nth_error_app2, Nat.sub_diag by lia. reflexivity. Qed.
Lemma nth_old (h : heap) c a v : nth_error h a = Some v -> nth_error (h ++ [c]) a = Some v.
Proof. intro H. rewrite nth_error_app1; [exact H|]. apply nth_error_Some. now rewrite H. Qed.

(** a right side gives the object of the variable it names, or a new one *)
Lemma visit_item_leaf f h r : exists i, (forall h', visit_item f h r = (i, h') ->
  match leaf_of r with
  | LNum q d => simplify_item i = List.length h /\ h' = h ++ [(PNum q, d)]
  | LName s => match at_name f s with Some j => simplify_item i = simplify_item j /\ h' = h | None => simplify_item i = List.length h /\ h' = h ++ [(PStr s, DUndef)] end
  end) /\ fst (visit_item f h r) = i.
Proof.
  induction r as [q d|s|r IH|r IH]; cbn [visit_item leaf_of].
  - eexists. split; [|reflexivity]. intros h' [= <-]. now split.
  - destruct (at_name f s) as [j|] eqn:E; eexists; (split; [|reflexivity]); intros h' [= <-]; now split.
  - exact IH.
  - destruct IH as (i & H & F). destruct (visit_item f h r) as [i' h'] eqn:V. cbn [fst] in F. subst i'. exists (Grp i). split; [|reflexivity].
    intros h2 [= <-]. cbn [simplify_item]. exact (H h' eq_refl).
Qed.

Record inv (k : nat) (o : string -> option origin) (st : string -> payload) (f : found_in) (h : heap) : Prop := {
  i_dom : forall x, o x = None <-> at_name f x = None;
  i_val : forall x i, at_name f x = Some i -> exists d, nth_error h (simplify_item i) = Some (st x, d);
  i_obj : forall x y i j, at_name f x = Some i -> at_name f y = Some j -> (o x = o y <-> simplify_item i = simplify_item j);
  i_new : forall x j, o x = Some (At j) -> j < k;
  i_name : forall x, o x = None -> st x = PStr x;
  i_start : forall x z, o x = Some (Start z) -> o z <> None }.

Lemma inv_lt k o st f h : inv k o st f h -> forall x i, at_name f x = Some i -> simplify_item i < List.length h.
Proof. intros I x i H. destruct (i_val _ _ _ _ _ I _ _ H) as (d & E). apply nth_error_Some. now rewrite E. Qed.

Lemma inv_step k o st f h x r i h' : inv k o st f h -> visit_item f h r = (i, h') ->
  inv (S k) (fun z => if z =?s x then Some match leaf_of r with LNum _ _ => At k | LName y => match o y with Some t => t | None => At k end end else o z)
    (fun z => if z =?s x then match leaf_of r with LNum q _ => PNum q | LName y => st y end else st z) (set_name f x i) h'.
Proof.
  intros I V. pose proof (inv_lt _ _ _ _ _ I) as L. destruct (visit_item_leaf f h r) as (i' & H & F). rewrite V in F. cbn [fst] in F. subst i'. specialize (H _ V). clear V.
  set (t := match leaf_of r with LNum _ _ => At k | LName y => match o y with Some t => t | None => At k end end) in *.
  set (v := match leaf_of r with LNum q _ => PNum q | LName y => st y end) in *.
  assert (Cases : (exists y j, at_name f y = Some j /\ o y = Some t /\ simplify_item i = simplify_item j /\ h' = h /\ v = st y)
                  \/ (t = At k /\ exists d, simplify_item i = List.length h /\ h' = h ++ [(v, d)])).
  { unfold t, v. destruct (leaf_of r) as [q d|y]; [right; split; [reflexivity|now exists d]|].
    destruct (at_name f y) as [j|] eqn:E.
    - left. exists y, j. destruct H as (S1 & S2). destruct (o y) as [t'|] eqn:O; [auto|]. apply (i_dom _ _ _ _ _ I) in O. congruence.
    - right. assert (O : o y = None) by now apply (i_dom _ _ _ _ _ I). rewrite O. split; [reflexivity|]. exists DUndef. now rewrite (i_name _ _ _ _ _ I _ O). }
  clearbody t v. clear H. constructor.
  - intro z. rewrite at_set. destruct (z =?s x); [split; discriminate|apply (i_dom _ _ _ _ _ I)].
  - intros z j Hz. rewrite at_set in Hz. destruct (z =?s x).
    + injection Hz as <-. destruct Cases as [(y & j & Ey & Oy & S1 & -> & ->)|(-> & d & S1 & ->)].
      * rewrite S1. exact (i_val _ _ _ _ _ I _ _ Ey).
      * exists d. rewrite S1. apply nth_new.
    + destruct (i_val _ _ _ _ _ I _ _ Hz) as (d & E). exists d. destruct Cases as [(y & j' & Ey & Oy & S1 & -> & ->)|(-> & d' & S1 & ->)]; [exact E|now apply nth_old].
  - assert (Other : forall z j, at_name f z = Some j -> (Some t = o z <-> simplify_item i = simplify_item j)).
    { intros z j Hz. destruct Cases as [(y & j' & Ey & Oy & S1 & -> & ->)|(-> & d' & S1 & ->)].
      - rewrite <- Oy, S1. exact (i_obj _ _ _ _ _ I _ _ _ _ Ey Hz).
      - split; intro E; [symmetry in E; pose proof (i_new _ _ _ _ _ I _ _ E); lia|]. pose proof (L _ _ Hz). lia. }
    intros a b i1 j1 Ha Hb. rewrite at_set in Ha, Hb. destruct (a =?s x), (b =?s x).
    + injection Ha as <-. injection Hb as <-. split; reflexivity.
    + injection Ha as <-. now apply Other.
    + injection Hb as <-. destruct (Other _ _ Ha) as (O1 & O2). split; intro E; symmetry; auto.
    + now apply (i_obj _ _ _ _ _ I).
  - intros z j. destruct (z =?s x).
    + intros [= ->]. destruct Cases as [(y & j' & Ey & Oy & _)|([= ->] & _)]; [apply (i_new _ _ _ _ _ I) in Oy|]; lia.
    + intro E. apply (i_new _ _ _ _ _ I) in E. lia.
  - intro z. destruct (z =?s x); [discriminate|apply (i_name _ _ _ _ _ I)].
  - intros a z. assert (K : o z <> None -> (if z =?s x then Some t else o z) <> None) by (intro N; destruct (z =?s x); [discriminate|exact N]).
    destruct (a =?s x); intro E; apply K.
    + injection E as ->. destruct Cases as [(y & j' & Ey & Oy & _)|(E & _)]; [exact (i_start _ _ _ _ _ I _ _ Oy)|discriminate].
    + exact (i_start _ _ _ _ _ I _ _ E).
Qed.
Lemma inv_all p : forall k o st f h f' h', inv k o st f h -> assign_items f h p = (f', h') -> exists k', inv k' (origins k o p) (execute st p) f' h'.
Proof.
  induction p as [|[x r] p IH]; intros k o st f h f' h' I E; cbn [assign_items origins execute] in *.
  - injection E as <- <-. now exists k.
  - destruct (visit_item f h r) as [i h1] eqn:V. exact (IH _ _ _ _ _ _ _ (inv_step _ _ _ _ _ x _ _ _ I V) E).
Qed.

(** the pass over the variables asked for *)
Lemma results_ok f : forall vars h res h', (forall x i, at_name f x = Some i -> simplify_item i < List.length h) -> results f h vars = (res, h') ->
  (forall a v e, nth_error h a = Some (v, e) ->
     nth_error h' a = Some (v, last_type (fun y => match at_name f y with Some i => simplify_item i =? a | None => false end) vars e))
  /\ (forall x d, In (x, d) vars -> match at_name f x with Some i => In (x, simplify_item i) res | None => exists a, In (x, a) res /\ nth_error h' a = Some (PStr x, d) end).
Proof.
  induction vars as [|[x d] vars IH]; intros h res h' B R; cbn [results] in R.
  - injection R as <- <-. split; [now intros|intros x d []].
  - destruct (found_object f h x d) as [a0 h1] eqn:F. destruct (results f h1 vars) as [l h2] eqn:R2. injection R as <- <-.
    unfold found_object in F. destruct (at_name f x) as [i|] eqn:E.
    + injection F as <- <-. destruct (IH (set_type h (simplify_item i) d) l h2) as (T & N); [intros; rewrite set_type_length; eauto|exact R2|]. split.
      * intros a v e H. cbn [last_type]. rewrite E. destruct (Nat.eq_dec (simplify_item i) a) as [<-|Ne].
        -- rewrite Nat.eqb_refl. apply T. now apply (set_type_same _ _ _ _ e).
        -- rewrite (proj2 (Nat.eqb_neq _ _) Ne). apply T. now rewrite set_type_other.
      * intros y e [[= <- <-]|H]; [rewrite E; now left|]. specialize (N y e H). destruct (at_name f y); [now right|]. destruct N as (a & Na & Nb). exists a. split; [now right|exact Nb].
    + unfold new in F. cbn [simplify_item] in F. injection F as <- <-. destruct (IH (set_type (h ++ [(PStr x, DUndef)]) (List.length h) d) l h2) as (T & N); [|exact R2|].
      { intros y j Hy. rewrite set_type_length, app_length. pose proof (B _ _ Hy). cbn. lia. }
      split.
      * intros a v e H. cbn [last_type]. rewrite E. apply T. assert (a < List.length h) by (apply nth_error_Some; now rewrite H). rewrite set_type_other by lia. now apply nth_old.
      * intros y e [[= <- <-]|H].
        -- rewrite E. exists (List.length h). split; [now left|]. rewrite (T (List.length h) (PStr x) d); [|apply (set_type_same _ _ _ _ DUndef), nth_new].
           f_equal. f_equal. clear - B. induction vars as [|[y e] vars IH]; [reflexivity|]. cbn [last_type]. destruct (at_name f y) as [j|] eqn:Ey; [|exact IH].
           pose proof (B _ _ Ey). rewrite (proj2 (Nat.eqb_neq (simplify_item j) (List.length h))) by lia. exact IH.
        -- specialize (N y e H). destruct (at_name f y); [now right|]. destruct N as (a & Na & Nb). exists a. split; [now right|exact Nb].
Qed.
Lemma last_type_ext f g vars : forall d, (forall y e, In (y, e) vars -> f y = g y) -> last_type f vars d = last_type g vars d.
Proof. induction vars as [|[y e] vars IH]; intros d H; [reflexivity|]. cbn [last_type]. rewrite (H y e (or_introl eq_refl)). apply IH. intros; eapply H; right; eassumption. Qed.
Lemma last_type_default f vars : forall d d' x e, In (x, e) vars -> f x = true -> last_type f vars d = last_type f vars d'.
Proof.
  induction vars as [|[y e'] vars IH]; intros d d' x e Hx F; [destruct Hx|]. destruct Hx as [[= -> ->]|H]; cbn [last_type]; [now rewrite F|]. destruct (f y); [reflexivity|]. eapply IH; eassumption.
Qed.
Lemma last_type_none f vars : forall d, (forall y e, In (y, e) vars -> f y = false) -> last_type f vars d = d.
Proof. induction vars as [|[y e] vars IH]; intros d H; [reflexivity|]. cbn [last_type]. rewrite (H y e (or_introl eq_refl)). apply IH. intros; eapply H; right; eassumption. Qed.
Lemma last_type_unique f vars : forall d x e, In (x, e) vars -> f x = true -> (forall y e', In (y, e') vars -> f y = true -> e' = e) -> last_type f vars d = e.
Proof.
  induction vars as [|[y e'] vars IH]; intros d x e Hx F U; [destruct Hx|]. destruct Hx as [[= -> ->]|H]; cbn [last_type].
  - rewrite F. destruct (existsb (fun v => f (fst v)) vars) eqn:X.
    + apply existsb_exists in X. destruct X as ((z & e2) & Hz & Fz). cbn [fst] in Fz. rewrite (IH e z e2 Hz Fz); [|intros w e3 Hw Fw; rewrite (U w e3 (or_intror Hw) Fw); symmetry; apply (U z e2 (or_intror Hz) Fz)].
      exact (U z e2 (or_intror Hz) Fz).
    + apply last_type_none. intros z e2 Hz. destruct (f z) eqn:Fz; [|reflexivity]. rewrite <- X. symmetry. apply existsb_exists. now exists (z, e2).
  - eapply IH; [exact H|exact F|]. intros; eapply U; [right|]; eassumption.
Qed.

(** * The theorems *)
(** Every result holds the value the variable has after the statements, and its data type is the one asked for the last of
    the variables whose value comes from the same place. *)
Theorem C56_type_of_last : forall vars p known h res h',
  NoDup (map fst vars) -> own_objects known h ->
  evaluate_shared vars p known h = (res, h') ->
  forall x d, In (x, d) vars -> exists a, In (x, a) res
    /\ nth_error h' a = Some (execute (known_value known h) p x,
         last_type (fun y => origin_eqb (origin_at_end (map fst known) p y) (origin_at_end (map fst known) p x)) vars d).
Proof.
  intros vars p known h res h' ND (B & Own) E x d Hx. unfold evaluate_shared in E. destruct (assign_items known h p) as [f h1] eqn:A.
  set (o0 := fun z => if existsb (String.eqb z) (map fst known) then Some (Start z) else None).
  assert (Dom : forall z, existsb (String.eqb z) (map fst known) = true <-> at_name known z <> None).
  { intro z. clear. induction known as [|[k v] known IH]; cbn [map fst existsb at_name]; [split; congruence|]. rewrite (String.eqb_sym z k). destruct (k =?s z); cbn [orb]; [split; congruence|exact IH]. }
  assert (I0 : inv 0 o0 (known_value known h) known h).
  { constructor; unfold o0.
    - intro z. specialize (Dom z). destruct (existsb (String.eqb z) (map fst known)), (at_name known z); split; intro K; try reflexivity; try discriminate; exfalso.
      + now apply (proj1 Dom eq_refl). 
      + assert (X : false = true) by (apply Dom; discriminate). discriminate.
    - intros z i Hz. unfold known_value. rewrite Hz. pose proof (B _ _ Hz) as L. apply nth_error_Some in L. destruct (nth_error h (simplify_item i)) as [[v e]|]; [now exists e|now contradiction L].
    - intros a b i j Ha Hb. assert (Xa : existsb (String.eqb a) (map fst known) = true) by (apply Dom; now rewrite Ha).
      assert (Xb : existsb (String.eqb b) (map fst known) = true) by (apply Dom; now rewrite Hb). rewrite Xa, Xb. split.
      + intros [= ->]. congruence.
      + intro S1. now rewrite (Own _ _ _ _ Ha Hb S1).
    - intros z j. now destruct (existsb _ _).
    - intros z N. unfold known_value. specialize (Dom z). destruct (existsb (String.eqb z) (map fst known)); [discriminate|]. destruct (at_name known z); [|reflexivity].
      assert (X : false = true) by (apply Dom; discriminate). discriminate.
    - intros a z. destruct (existsb (String.eqb a) (map fst known)) eqn:Xa; [|discriminate]. intros [= <-]. rewrite Xa. discriminate. }
  destruct (inv_all p _ _ _ _ _ _ _ I0 A) as (k' & I). destruct (results_ok f vars h1 res h' (inv_lt _ _ _ _ _ I) E) as (T & N).
  set (o := origins 0 o0 p) in *. assert (Or : forall z, origin_at_end (map fst known) p z = match o z with Some t => t | None => Start z end) by reflexivity.
  specialize (N x d Hx). destruct (at_name f x) as [i|] eqn:Fx.
  - exists (simplify_item i). split; [exact N|]. destruct (i_val _ _ _ _ _ I _ _ Fx) as (e & V). rewrite (T _ _ _ V). f_equal. f_equal.
    assert (Ox : o x <> None) by (intro X; apply (i_dom _ _ _ _ _ I) in X; congruence).
    rewrite (last_type_default _ vars e d x d Hx) by (rewrite Fx; apply Nat.eqb_refl). apply last_type_ext. intros y e' Hy. rewrite !Or. destruct (o x) as [tx|] eqn:Ex; [|now contradiction Ox].
    destruct (at_name f y) as [j|] eqn:Fy.
    + destruct (o y) as [ty|] eqn:Ey; [|apply (i_dom _ _ _ _ _ I) in Ey; congruence]. pose proof (i_obj _ _ _ _ _ I _ _ _ _ Fy Fx) as J. rewrite Ex, Ey in J.
      destruct (origin_eqb ty tx) eqn:Q; [apply origin_eqb_eq in Q; subst; now apply Nat.eqb_eq, J|]. apply Nat.eqb_neq. intro S1. apply J in S1. injection S1 as ->.
      rewrite (proj2 (origin_eqb_eq tx tx) eq_refl) in Q. discriminate.
    + assert (Ey : o y = None) by now apply (i_dom _ _ _ _ _ I). rewrite Ey. symmetry. destruct (origin_eqb (Start y) tx) eqn:Q; [|reflexivity]. apply origin_eqb_eq in Q. subst tx.
      now contradiction (i_start _ _ _ _ _ I _ _ Ex).
  - destruct N as (a & Na & Nb). exists a. split; [exact Na|]. rewrite Nb. assert (Ex : o x = None) by now apply (i_dom _ _ _ _ _ I). rewrite (i_name _ _ _ _ _ I _ Ex). f_equal. f_equal. symmetry.
    apply (last_type_unique _ vars d x d Hx); [now apply origin_eqb_eq|]. intros y e Hy Q. apply origin_eqb_eq in Q. rewrite !Or, Ex in Q.
    destruct (o y) as [ty|] eqn:Ey; [subst ty; now contradiction (i_start _ _ _ _ _ I _ _ Ey)|]. injection Q as ->.
    clear - ND Hx Hy. induction vars as [|[z g] vars IH]; [destruct Hx|]. cbn [map fst] in ND. apply NoDup_cons_iff in ND. destruct ND as (Nz & ND).
    destruct Hx as [Hx|Hx], Hy as [Hy|Hy]; try (now rewrite Hx in Hy; injection Hy); try (injection Hx as -> ->); try (injection Hy as -> ->); try (exfalso; apply Nz; apply in_map_iff; eexists; split; [|eassumption]; reflexivity). auto.
Qed.
Print Assumptions C56_type_of_last.
(** A variable has the type that was asked for it, whatever the statements are, if no other variable asked for takes its value
    from the same place. *)
Theorem C56_types_as_asked_partial : forall vars p known h res h',
  NoDup (map fst vars) -> own_objects known h ->
  evaluate_shared vars p known h = (res, h') ->
  forall x d, In (x, d) vars -> (forall y e, In (y, e) vars -> origin_at_end (map fst known) p y = origin_at_end (map fst known) p x -> e = d) ->
  exists a, In (x, a) res /\ nth_error h' a = Some (execute (known_value known h) p x, d).
Proof.
  intros vars p known h res h' ND Own E x d Hx U. destruct (C56_type_of_last _ _ _ _ _ _ ND Own E x d Hx) as (a & Ia & Na). exists a. split; [exact Ia|]. rewrite Na. f_equal. f_equal.
  apply (last_type_unique _ vars d x d Hx); [now apply origin_eqb_eq|]. intros y e Hy Q. apply origin_eqb_eq in Q. exact (U y e Hy Q).
Qed.
Print Assumptions C56_types_as_asked_partial.
Definition ex_p : list (string * rhs) := [("x", RNum (Q2Qc (5 # 2)) DFloat); ("y", RGroup (RName "k")); ("i", RNum (Q2Qc (3 # 1)) DInt); ("z", RPlus (RName "x"))].
Definition ex_vars : list (string * dtype) := [("x", DFloat); ("i", DInt); ("y", DInt); ("u", DFloat)].
Definition ex_known : found_in := [("k", Obj 0); ("m", Grp (Obj 1))].
Definition ex_heap : heap := [(PNum (Q2Qc (7 # 1)), DFloat); (PNum (Q2Qc (8 # 1)), DInt)].
Example C56_types_as_asked_partial_example : NoDup (map fst ex_vars) /\ own_objects ex_known ex_heap
  /\ (forall x y e d, In (x, d) ex_vars -> In (y, e) ex_vars -> origin_at_end (map fst ex_known) ex_p y = origin_at_end (map fst ex_known) ex_p x -> e = d)
  /\ map (fun v => nth_error (snd (evaluate_shared ex_vars ex_p ex_known ex_heap)) (snd v)) (fst (evaluate_shared ex_vars ex_p ex_known ex_heap))
     = [Some (PNum (Q2Qc (5 # 2)), DFloat); Some (PNum (Q2Qc (3 # 1)), DInt); Some (PNum (Q2Qc (7 # 1)), DInt); Some (PStr "u", DFloat)].
Proof.
  split; [repeat constructor; cbn; intuition discriminate|]. split.
  - split.
    + intros x i. unfold ex_known. cbn [at_name]. destruct ("k" =?s x); [intros [= <-]; vm_compute; lia|]. destruct ("m" =?s x); [intros [= <-]; vm_compute; lia|discriminate].
    + intros x y i j. unfold ex_known. cbn [at_name]. destruct ("k" =?s x) eqn:A, ("k" =?s y) eqn:B; try destruct ("m" =?s x) eqn:C; try destruct ("m" =?s y) eqn:D;
        intros [= <-] [= <-]; cbn [simplify_item]; intro; try discriminate;
        repeat match goal with H : (_ =?s _) = true |- _ => apply String.eqb_eq in H end; congruence.
  - split; [|reflexivity]. intros x y e d Hx Hy. cbn [In ex_vars] in Hx, Hy. intuition (repeat match goal with H : (_, _) = (_, _) |- _ => injection H as <- <- end; vm_compute in *; congruence).
Qed.

(** A variable that was copied from another has the type of that one too: after  x = 2.5; i = x;  asked for x as a float and
    then for i as an int, x is an int as well; asked in the other order both are floats. *)
Theorem C56_own_type_refuted : forall x i q, x <> i ->
  (exists a h', evaluate_shared [(x, DFloat); (i, DInt)] [(x, RNum q DFloat); (i, RName x)] [] [] = ([(x, a); (i, a)], h') /\ nth_error h' a = Some (PNum q, DInt))
  /\ (exists a h', evaluate_shared [(i, DInt); (x, DFloat)] [(x, RNum q DFloat); (i, RName x)] [] [] = ([(i, a); (x, a)], h') /\ nth_error h' a = Some (PNum q, DFloat)).
Proof.
  intros x i q N. assert (A : assign_items [] [] [(x, RNum q DFloat); (i, RName x)] = ([(x, Obj 0); (i, Obj 0)], [(PNum q, DFloat)])).
  { cbn [assign_items visit_item new set_name at_name app List.length]. rewrite String.eqb_refl. cbn [set_name]. now rewrite (proj2 (String.eqb_neq x i) N). }
  unfold evaluate_shared. rewrite A. cbn [results]. unfold found_object. cbn [at_name]. rewrite !String.eqb_refl, !(proj2 (String.eqb_neq x i) N). cbn [simplify_item set_type]. split; do 2 eexists; (split; [reflexivity|reflexivity]).
Qed.
Print Assumptions C56_own_type_refuted.
(** The types of the values of the caller are changed: a variable known as a float and asked for as an int, in an empty block of
    statements, is an int for the caller from then on. *)
Theorem C56_known_types_unchanged_refuted : forall x q, exists res h',
  evaluate_shared [(x, DInt)] [] [(x, Obj 0)] [(PNum q, DFloat)] = (res, h') /\ nth_error h' 0 = Some (PNum q, DInt).
Proof.
  intros x q. unfold evaluate_shared. cbn [assign_items results]. unfold found_object. cbn [at_name]. rewrite String.eqb_refl. do 2 eexists. split; reflexivity.
Qed.
Print Assumptions C56_known_types_unchanged_refuted.
