(** C78: the parameters of an instrument file read without the rest *)
From Coq Require Import List String Bool Arith Lia QArith Qcanon ZArith.
From Verif Require Import PyStr Expr ExprSem ExprTotal Visit Properties_Visit InstrParams.
Import ListNotations.
Local Open Scope string_scope.
Local Open Scope list_scope.
Local Open Scope nat_scope.

(** ** names in expressions *)
Fixpoint uses (s : string) (t : tree) : Prop :=
  match t with
  | XNum _ _ | XStr _ => False
  | XId n => n = s
  | XArrow _ e | XDot _ e | XAt _ e | XGroup e | XSign _ e | XNot e => uses s e
  | XCall _ l => (fix any l := match l with [] => False | x :: r => uses s x \/ any r end) l
  | XArith _ l r | XBin _ l r => uses s l \/ uses s r
  | XIf c a b => uses s c \/ uses s a \/ uses s b
  end.
Lemma visitR_ext i1 i2 t : (forall s, uses s t -> i1 s = i2 s) -> visitR i1 t = visitR i2 t.
Proof.
  induction t using tree_ind'; cbn [uses visitR]; intro E; auto; try (rewrite IHt by auto; reflexivity); try (rewrite IHt1, IHt2 by auto; reflexivity); try (rewrite IHt1, IHt2, IHt3 by auto; reflexivity).
  - apply (f_equal (fun x => do vs <- x; one (mk_bin BCall [NVal (PStr s) DUndef OFunc] vs))).
    induction H as [|x l Hx _ IH]; [reflexivity|]. rewrite Hx by auto. destruct (visitR i2 x) as [[|n v]| |]; cbn [rbind]; auto. rewrite IH by auto. reflexivity.

Qed.
Lemma visitR_total ident t : visitR (fun s => Ok (ident s)) t = visit ident t.
Proof.
  induction t using tree_ind'; cbn [visitR visit]; auto; try (rewrite IHt; reflexivity); try (rewrite IHt1, IHt2; reflexivity); try (rewrite IHt1, IHt2, IHt3; reflexivity).
Qed.
(** a name that raises makes the expression raise: nothing that is used is skipped *)
Ltac bi H := match type of H with rbind ?x _ = Ok _ => let a := fresh "a" in let E := fresh "E" in destruct x as [a| |] eqn:E; cbn [rbind] in H; try discriminate end.
Lemma visitR_uses ident t : forall e s, visitR ident t = Ok e -> uses s t -> exists v, ident s = Ok v.
Proof.
  induction t using tree_ind'; intros v n E U; cbn [uses visitR] in *; try contradiction.
  - subst. eauto.
  - bi E. eauto.
  - bi E. eauto.
  - bi E. eauto.
  - bi E. clear E. revert a E0. induction H as [|x l Hx _ IH]; intros ns E; [contradiction|]. bi E. destruct a as [|m a]; [discriminate|]. bi E. destruct U as [U|U]; [eauto|]. eapply IH; eauto.
  - bi E. eauto.
  - bi E. eauto.
  - bi E. bi E. destruct U; eauto.
  - bi E. bi E. destruct U; eauto.
  - bi E. eauto.
  - bi E. bi E. bi E. destruct U as [U|[U|U]]; eauto.
Qed.
Lemma rmap_ext {A B} (f g : A -> res B) l : (forall x, In x l -> f x = g x) -> rmap f l = rmap g l.
Proof. induction l as [|x l IH]; intro E; [reflexivity|]. cbn [rmap]. rewrite (E x) by now left. rewrite IH; [reflexivity|]. intros. apply E. now right. Qed.

(** ** both ways give the same parameters *)
Definition in_item (t : tree) (i : item) : Prop := match i with Comp _ es ls _ => In t es \/ exists l, In l ls /\ In t l | Incl _ _ => False end.
Definition is_comp (i : item) : Prop := match i with Comp _ _ _ _ => True | Incl _ _ => False end.
Lemma full_only ps cs s : s <> "PREVIOUS" -> full_ident ps cs s = only_ident ps s.
Proof. intro N. unfold full_ident, only_ident. apply String.eqb_neq in N. now rewrite N. Qed.
Lemma full_empty ps s : full_ident ps [] s = only_ident ps s.
Proof. unfold full_ident, only_ident. destruct (s =?s "PREVIOUS"); reflexivity. Qed.
Lemma read_decl_ext i1 i2 d : (forall s, i1 s = i2 s) -> read_decl i1 d = read_decl i2 d.
Proof.
  intro E. assert (V : forall v, opt_visit i1 v = opt_visit i2 v) by (intros [t|]; cbn; [rewrite (visitR_ext i1 i2) by auto|]; reflexivity).
  destruct d as [n u v|n u v|n u v]; cbn [read_decl]; rewrite ?V; reflexivity.
Qed.
Lemma read_decls_same l : forall ps, read_decls (fun ps => full_ident ps []) ps l = read_decls only_ident ps l.
Proof.
  induction l as [|d l IH]; intro ps; cbn [read_decls]; [reflexivity|]. rewrite (read_decl_ext (full_ident ps []) (only_ident ps)) by (intro; apply full_empty).
  destruct (read_decl _ _) as [p| |]; cbn [rbind]; auto.
Qed.
Lemma visit_exprs_ext i1 i2 es ls : (forall t s, (In t es \/ exists l, In l ls /\ In t l) -> uses s t -> i1 s = i2 s) -> visit_exprs i1 es ls = visit_exprs i2 es ls.
Proof.
  intro E. unfold visit_exprs. rewrite (rmap_ext (visitR i1) (visitR i2)) by (intros t I; apply visitR_ext; intros s U; apply (E t s); auto).
  rewrite (rmap_ext (rmap (element i1)) (rmap (element i2))); [reflexivity|]. intros l I. apply rmap_ext. intros t J. unfold element.
  rewrite (visitR_ext i1 i2); [reflexivity|]. intros s U. apply (E t s); auto. right. eauto.
Qed.
(* If the whole file can be read, has no included file and no PREVIOUS in an expression of a
   component instance, then reading only the parameters gives exactly its parameters. *)
Theorem C78_same_parameters :
  forall f ps cs, read_full f = Ok (ps, cs) -> Forall is_comp (f_trace f) ->
    (forall i t, In i (f_trace f) -> in_item t i -> ~ uses "PREVIOUS" t) -> read_only f = Ok ps.
Proof.
  intros [ds tr] ps cs H C N. unfold read_full, read_only in *. cbn [f_params f_trace] in *. rewrite read_decls_same in H.
  destruct (read_decls only_ident [] ds) as [qs| |]; try discriminate. cbn [rbind] in *.
  enough (G : forall cs0, read_items qs cs0 tr = Ok (ps, cs) -> visit_items qs tr = Ok tt /\ qs = ps) by (destruct (G _ H) as [-> ->]; reflexivity).
  clear H. induction C as [|i tr K C IH]; intros cs0 H; cbn [read_items visit_items] in *; [injection H as -> _; auto|].
  destruct i as [n es ls stops|]; [|destruct K]. bi H. destruct (stops || _); [discriminate|].
  rewrite (visit_exprs_ext (only_ident qs) (full_ident qs cs0)).
  - rewrite E. cbn [rbind]. eapply IH; [|exact H]. intros i t I J. apply (N i t); auto. now right.
  - intros t s J U. symmetry. apply full_only. intros ->. apply (N (Comp n es ls stops) t); [now left|exact J|exact U].
Qed.
Print Assumptions C78_same_parameters.

(** ** with included files *)
Lemma present_in ps n : present ps n = true <-> In n (map p_name ps).
Proof.
  unfold present. rewrite existsb_exists. split.
  - intros (p & I & E). apply String.eqb_eq in E. subst. now apply in_map.
  - intro I. apply in_map_iff in I as (p & <- & I). exists p. split; auto. apply String.eqb_refl.
Qed.
Lemma add_new_spec new : forall ps, exists more, fold_left add_new new ps = ps ++ more /\ (forall p, In p more -> In p new /\ ~ In (p_name p) (map p_name ps)) /\
  (NoDup (map p_name ps) -> NoDup (map p_name (fold_left add_new new ps))) /\ forall p, In p new -> In (p_name p) (map p_name (ps ++ more)).
Proof.
  induction new as [|a new IH]; intro ps; cbn [fold_left].
  - exists []. rewrite app_nil_r. split; [reflexivity|]. split; [intros p []|]. split; [auto|intros p []].
  - unfold add_new at 2 4. destruct (present ps (p_name a)) eqn:P.
    + destruct (IH ps) as (m & M1 & M2 & M3 & M4). exists m. split; [exact M1|]. split; [intros p I; destruct (M2 p I); split; [now right|auto]|]. split; [exact M3|].
      intros p [<-|I]; [|auto]. rewrite map_app. apply in_or_app. left. now apply present_in.
    + destruct (IH (ps ++ [a])) as (m & M1 & M2 & M3 & M4). exists (a :: m). rewrite M1, <- app_assoc. split; [reflexivity|].
      assert (NA : ~ In (p_name a) (map p_name ps)) by (intro X; apply present_in in X; congruence).
      split; [|split].
      * intros p [<-|I]; [split; [now left|exact NA]|]. destruct (M2 p I) as [X Y]. split; [now right|]. intro Z. apply Y. rewrite map_app. apply in_or_app. now left.
      * intro D. rewrite <- app_assoc in M1. cbn in M1. rewrite M1 in M3. apply M3. rewrite map_app. cbn. clear -D NA. induction ps as [|x ps IH]; cbn in *; [constructor; [intros []|constructor]|].
        inversion D; subst. constructor; [rewrite in_app_iff; cbn; intuition|]. apply IH; auto.
      * intros p I. replace (ps ++ a :: m) with ((ps ++ [a]) ++ m) by now rewrite <- app_assoc. destruct I as [<-|I]; [|now apply M4]. rewrite !map_app. apply in_or_app. left. apply in_or_app. right. now left.
Qed.
(* Where both ways succeed, the parameters of the file itself come first and are the same; the
   whole file has in addition those of the included files whose names are new, each name once. *)
Theorem C78_included_parameters :
  forall f ps cs own, read_full f = Ok (ps, cs) -> read_only f = Ok own ->
    exists more, ps = own ++ more /\
      (forall p, In p more -> (exists qs ds, In (Incl qs ds) (f_trace f) /\ In p qs) /\ ~ In (p_name p) (map p_name own)) /\
      (forall qs ds p, In (Incl qs ds) (f_trace f) -> In p qs -> In (p_name p) (map p_name ps)).
Proof.
  intros [ds tr] ps cs own H O. unfold read_full, read_only in *. cbn [f_params f_trace] in *. rewrite read_decls_same in H.
  destruct (read_decls only_ident [] ds) as [qs| |]; try discriminate. cbn [rbind] in *. bi O. injection O as <-. clear E a.
  revert H. generalize (@nil string) as cs0. revert qs. induction tr as [|i tr IH]; intros qs cs0 H; cbn [read_items] in H.
  - injection H as <- _. exists []. rewrite app_nil_r. split; [reflexivity|]. split; [intros p []|intros ? ? ? []].
  - destruct i as [n es ls stops|ps' cs'].
    + bi H. destruct (stops || _); [discriminate|]. destruct (IH _ _ H) as (m & M1 & M2 & M3). exists m. split; [exact M1|]. split.
      * intros p I. destruct (M2 p I) as ((q & d & J & K) & L). split; [exists q, d; split; [now right|exact K]|exact L].
      * intros q d p [X|X]; [discriminate|]. now apply M3 with d.
    + destruct (existsb _ cs'); [discriminate|]. destruct (add_new_spec ps' qs) as (m0 & A1 & A2 & _ & A4). rewrite A1 in H.
      destruct (IH _ _ H) as (m & M1 & M2 & M3). exists (m0 ++ m). split; [now rewrite app_assoc|]. split.
      * intros p I. apply in_app_or in I as [I|I].
        -- destruct (A2 p I) as [J K]. split; [exists ps', cs'; split; [now left|exact J]|exact K].
        -- destruct (M2 p I) as ((q & d & J & K) & L). split; [exists q, d; split; [now right|exact K]|]. intro X. apply L. rewrite map_app. apply in_or_app. now left.
      * intros q d p [X|X] I; [injection X as <- <-|now apply M3 with q d]. rewrite M1, map_app. apply in_or_app. left. now apply A4.
Qed.
Print Assumptions C78_included_parameters.

(** ** what is read for each declaration *)
Definition d_name (d : decl) : string := match d with Double n _ _ | Int n _ _ | Text n _ _ => n end.
Definition d_unit (d : decl) : option string := match d with Double _ u _ | Int _ u _ | Text _ u _ => u end.
Definition d_type (d : decl) : dtype := match d with Double _ _ _ => DFloat | Int _ _ _ => DInt | Text _ _ _ => DStr end.
(** a name in a default, known the declarations before it: a parameter with its declared type, or any other name *)
Definition env_of (before : list decl) : list (string * dtype) := map (fun d => (d_name d, d_type d)) before.
(** [p] is the parameter that [d] declares after [before]: the value of a default is that of its expression in every state *)
Definition declares (before : list decl) (d : decl) (p : par) : Prop :=
  p_name p = d_name d /\ p_unit p = d_unit d /\ p_type p = Ok (d_type d) /\
  match d with
  | Double _ _ None | Int _ _ None | Text _ _ None => exists t, p_value p = VNone t
  | Double _ _ (Some t) | Int _ _ (Some t) =>
      exists n n', visit (ident_instr (env_of before)) t = Ok [n] /\ p_value p = VExp [n'] /\ forall IB IU env m, den IB IU env m n' = den IB IU env m n
  | Text _ _ (Some None) => p_value p = VExp [NVal (PStr "NULL") DStr OValue]
  | Text _ _ (Some (Some s)) => p_value p = VExp [NVal (PStr s) DStr OValue]
  end.
Inductive declared : list decl -> list decl -> list par -> Prop :=
| DNil before : declared before [] []
| DCons before d ds p ps : declares before d p -> declared (before ++ [d]) ds ps -> declared before (d :: ds) (p :: ps).
Lemma set_dt_type d n : forall n', set_dt d n = Ok n' -> dt_of n' = Ok d.
Proof.
  induction n using node_ind'; intros n' E; cbn [set_dt] in E; try discriminate; try (injection E as <-; reflexivity).
  destruct l as [|x [|]]; try discriminate. pose proof (Forall_inv H) as Hx. cbn beta in Hx. destruct (set_dt d x) as [y| |] eqn:Y; try discriminate. injection E as <-. cbn [dt_of]. now apply Hx.
Qed.
Lemma one_single r e : one r = Ok e -> exists n, e = [n].
Proof. unfold one. intro H. bi H. injection H as <-. eauto. Qed.
Lemma visit_single ident t : (forall s, exists n, ident s = [n]) -> forall e, visit ident t = Ok e -> exists n, e = [n].
Proof.
  intro I. induction t using tree_ind'; intros e E; cbn [visit] in E; try (injection E as <-; eauto; fail); try (repeat bi E; eapply one_single, E).
  - bi E. destruct (IHt _ eq_refl) as [n ->]. destruct b; [|injection E as <-; eauto]. unfold e_neg in E. cbn [rmap] in E. bi E. injection E as <-. eauto.
  - bi E. bi E. unfold e_op in E. destruct a as [|x [|]]; try discriminate. bi E. injection E as <-. eauto.
Qed.
Lemma instr_single l s : exists n, ident_instr l s = [n].
Proof. unfold ident_instr. destruct (find _ _) as [[? ?]|]; unfold idv; eauto. Qed.
(** names of read parameters are names of declared ones *)
Definition knows (before : list decl) (ps : list par) : Prop := Forall2 (fun d p => p_name p = d_name d /\ p_type p = Ok (d_type d)) before ps.
Lemma identifier_spec before ps s : knows before ps -> identifier ps s = Ok (ident_instr (env_of before) s).
Proof.
  unfold identifier, ident_instr, env_of. induction 1 as [|d p before ps [N T] _ IH]; [reflexivity|]. cbn [find map fst]. rewrite N. rewrite (String.eqb_sym (d_name d) s).
  destruct (s =?s d_name d) eqn:E; [rewrite T; reflexivity|exact IH].
Qed.
Lemma only_visit before ps t e : knows before ps -> visitR (only_ident ps) t = Ok e -> visit (ident_instr (env_of before)) t = Ok e.
Proof.
  intros K V. rewrite <- visitR_total, <- V. apply visitR_ext. intros s U. destruct (visitR_uses _ _ _ _ V U) as [v X]. rewrite <- (identifier_spec before ps s K).
  unfold only_ident in *. destruct (s =?s "PREVIOUS"); [discriminate|]. destruct (s =?s "MYSELF"); [discriminate|]. reflexivity.
Qed.
Lemma read_decl_declares before ps d p : knows before ps -> read_decl (only_ident ps) d = Ok p -> declares before d p.
Proof.
  intros K H. assert (X : forall ty v x, (do e <- opt_visit (only_ident ps) v; typed ty e) = Ok x -> match v with None => x = VNone ty | Some t =>
    exists n n', visit (ident_instr (env_of before)) t = Ok [n] /\ x = VExp [n'] /\ dt_of n' = Ok ty /\ forall IB IU env m, den IB IU env m n' = den IB IU env m n end).
  { intros ty [t|] x E; cbn [opt_visit rbind typed] in E; [|injection E as <-; reflexivity]. bi E. bi E0. injection E0 as <-. cbn [typed] in E. bi E. injection E as <-.
    pose proof (only_visit _ _ _ _ K E1) as V. destruct (visit_single _ t (instr_single _) _ V) as [n ->]. cbn [rmap] in E0. bi E0. injection E0 as <-.
    eexists n, _. split; [exact V|]. split; [reflexivity|]. split; [eapply set_dt_type, E|]. intros. now apply set_dt_den with ty. }
  destruct d as [n u v|n u v|n u [[s|]|]]; cbn [read_decl] in H; try (injection H as <-; repeat split; cbn; eauto; fail).
  - bi H. bi H. injection H as <-. assert (Y : (do e <- opt_visit (only_ident ps) v; typed DFloat e) = Ok a0) by now rewrite E. apply X in Y.
    unfold declares. cbn. destruct v as [t|]; [|subst a0; repeat split; eauto]. destruct Y as (m & m' & V & -> & T & D). cbn. repeat split; eauto.
  - bi H. bi H. injection H as <-. assert (Y : (do e <- opt_visit (only_ident ps) v; typed DInt e) = Ok a0) by now rewrite E. apply X in Y.
    unfold declares. cbn. destruct v as [t|]; [|subst a0; repeat split; eauto]. destruct Y as (m & m' & V & -> & T & D). cbn. repeat split; eauto.
Qed.
Lemma knows_snoc before ps d p : knows before ps -> declares before d p -> knows (before ++ [d]) (ps ++ [p]).
Proof. intros K (A & _ & B & _). apply Forall2_app; auto. Qed.
Lemma read_decls_declared ds : forall before ps qs, knows before ps -> NoDup (map d_name before) -> read_decls only_ident ps ds = Ok qs ->
  exists new, qs = ps ++ new /\ declared before ds new /\ NoDup (map d_name (before ++ ds)).
Proof.
  induction ds as [|d ds IH]; intros before ps qs K N H; cbn [read_decls] in H.
  - injection H as <-. exists []. rewrite !app_nil_r. split; [reflexivity|]. split; [constructor|exact N].
  - bi H. pose proof (read_decl_declares _ _ _ _ K E) as D. unfold add_parameter in H. destruct (present ps (p_name a)) eqn:P; [discriminate|]. cbn [rbind] in H.
    assert (NM : map p_name ps = map d_name before) by (clear -K; induction K as [|x y l m [A _] _ I]; cbn; congruence).
    assert (ND : NoDup (map d_name (before ++ [d]))).
    { rewrite map_app. cbn. assert (F : ~ In (d_name d) (map d_name before)).
      { destruct D as (D & _). rewrite <- NM, <- D. intro X. apply present_in in X. congruence. }
      clear -N F. induction before as [|b l IH]; cbn in *; [constructor; [intros []|constructor]|]. inversion N; subst. constructor; [rewrite in_app_iff; cbn; intuition|]. apply IH; auto. }
    destruct (IH _ _ _ (knows_snoc _ _ _ _ K D) ND H) as (new & N1 & N2 & N3). exists (a :: new). rewrite <- app_assoc in N1, N3. split; [exact N1|]. split; [now constructor|exact N3].
Qed.
(* What is read has, for each declaration in order, its name, unit, type and the value of its
   default, in which names of earlier parameters are parameters of their type; no two
   declarations have the same name. *)
Theorem C78_parameters_are_declared :
  forall f ps, read_only f = Ok ps -> declared [] (f_params f) ps /\ NoDup (map d_name (f_params f)).
Proof.
  intros f ps H. unfold read_only in H. bi H. bi H. injection H as <-.
  destruct (read_decls_declared (f_params f) [] [] a (Forall2_nil _) (NoDup_nil _) E) as (new & N1 & N2 & N3). cbn in N1. subst a. auto.
Qed.
Print Assumptions C78_parameters_are_declared.

(** ** files that can be read *)
Fixpoint good_decls (before ds : list decl) : Prop :=
  match ds with
  | [] => True
  | d :: t => match d with
              | Double _ _ (Some e) | Int _ _ (Some e) => numeric (ident_instr (env_of before)) e /\ ~ uses "PREVIOUS" e /\ ~ uses "MYSELF" e
              | _ => True
              end /\ good_decls (before ++ [d]) t
  end.
(** an entry of a list is a number, a text or a name *)
Definition entry (t : tree) : Prop := match t with XNum _ _ | XStr _ => True | XId s => s <> "PREVIOUS" /\ s <> "MYSELF" | _ => False end.
Definition good_item (ds : list decl) (i : item) : Prop :=
  match i with
  | Comp _ es ls _ => Forall (fun e => numeric (ident_instr (env_of ds)) e /\ ~ uses "PREVIOUS" e /\ ~ uses "MYSELF" e) es /\ Forall (Forall entry) ls
  | Incl _ _ => True
  end.
Lemma only_numeric before ps t : knows before ps -> numeric (ident_instr (env_of before)) t -> ~ uses "PREVIOUS" t -> ~ uses "MYSELF" t ->
  exists n, visitR (only_ident ps) t = Ok [n] /\ arith n = true.
Proof.
  intros K N P M. rewrite (visitR_ext _ (fun s => Ok (ident_instr (env_of before) s))), visitR_total; [now apply visit_total|].
  intros s U. unfold only_ident. destruct (String.eqb_spec s "PREVIOUS") as [->|]; [contradiction|]. destruct (String.eqb_spec s "MYSELF") as [->|]; [contradiction|].
  now apply identifier_spec.
Qed.
Lemma set_dt_arith d n : arith n = true -> exists n', set_dt d n = Ok n'.
Proof. destruct n; cbn; try discriminate; eauto. Qed.
Lemma read_decl_total before ps d : knows before ps -> match d with Double _ _ (Some e) | Int _ _ (Some e) => numeric (ident_instr (env_of before)) e /\ ~ uses "PREVIOUS" e /\ ~ uses "MYSELF" e | _ => True end ->
  exists p, read_decl (only_ident ps) d = Ok p.
Proof.
  intros K G. assert (X : forall ty e, numeric (ident_instr (env_of before)) e /\ ~ uses "PREVIOUS" e /\ ~ uses "MYSELF" e -> exists v, (do x <- opt_visit (only_ident ps) (Some e); typed ty x) = Ok v).
  { intros ty e (A & B & C). destruct (only_numeric _ _ _ K A B C) as (n & V & R). cbn [opt_visit]. rewrite V. cbn [rbind typed]. destruct (set_dt_arith ty n R) as [n' E]. cbn [rmap]. rewrite E. cbn. eauto. }
  destruct d as [n u [e|]|n u [e|]|n u [[s|]|]]; cbn [read_decl]; try (cbn; eauto; fail).
  - destruct (X DFloat e G) as [v V]. bi V. cbn [rbind]. rewrite V. cbn. eauto.
  - destruct (X DInt e G) as [v V]. bi V. cbn [rbind]. rewrite V. cbn. eauto.
Qed.
Lemma knows_names before ps : knows before ps -> map p_name ps = map d_name before.
Proof. induction 1 as [|x y l m [A _] _ I]; cbn; congruence. Qed.
Lemma read_decls_total ds : forall before ps, knows before ps -> NoDup (map d_name (before ++ ds)) -> good_decls before ds ->
  exists qs, read_decls only_ident ps ds = Ok qs /\ knows (before ++ ds) qs.
Proof.
  induction ds as [|d ds IH]; intros before ps K N G; cbn [read_decls good_decls] in *; [exists ps; rewrite app_nil_r; auto|].
  destruct G as [G1 G2]. destruct (read_decl_total before ps d K G1) as [p E]. rewrite E. cbn [rbind]. pose proof (read_decl_declares _ _ _ _ K E) as D.
  unfold add_parameter. destruct (present ps (p_name p)) eqn:P.
  - exfalso. apply present_in in P. rewrite (knows_names _ _ K) in P. destruct D as (D & _). rewrite D in P. rewrite map_app in N. cbn in N. apply NoDup_remove_2 in N. apply N, in_or_app. now left.
  - cbn [rbind]. replace (before ++ d :: ds) with ((before ++ [d]) ++ ds) in * by now rewrite <- app_assoc. apply IH; auto. now apply knows_snoc.
Qed.
Lemma rmap_ok {A B} (f : A -> res B) l : Forall (fun x => exists y, f x = Ok y) l -> exists r, rmap f l = Ok r.
Proof. induction 1 as [|x l [y E] _ [r R]]; cbn [rmap]; [eauto|]. rewrite E, R. cbn. eauto. Qed.
(* Reading only the parameters succeeds for every file with distinct names whose expressions are
   of numbers and numeric names without PREVIOUS and MYSELF, whatever else stands in the file and
   whether or not its components and included files can be found. *)
Theorem C78_parameters_are_read :
  forall f, NoDup (map d_name (f_params f)) -> good_decls [] (f_params f) -> Forall (good_item (f_params f)) (f_trace f) ->
    exists ps, read_only f = Ok ps /\ declared [] (f_params f) ps.
Proof.
  intros f N G T. destruct (read_decls_total (f_params f) [] [] (Forall2_nil _) N G) as (ps & E & K). cbn [app] in K.
  assert (V : visit_items ps (f_trace f) = Ok tt).
  { clear -K T. induction T as [|i l I _ IH]; [reflexivity|]. cbn [visit_items]. destruct i as [n es ls stops|]; [|exact IH]. destruct I as [I1 I2].
    assert (X : visit_exprs (only_ident ps) es ls = Ok tt); [|rewrite X; exact IH]. unfold visit_exprs.
    destruct (rmap_ok (visitR (only_ident ps)) es) as [r1 ->].
    { eapply Forall_impl; [|exact I1]. cbn. intros e (A & B & C). destruct (only_numeric _ _ _ K A B C) as (m & V & _). eauto. }
    destruct (rmap_ok (rmap (element (only_ident ps))) ls) as [r2 ->]; [|reflexivity].
    eapply Forall_impl; [|exact I2]. cbn. intros l0 L. apply rmap_ok. eapply Forall_impl; [|exact L]. cbn. intros t A. unfold element.
    destruct t; try contradiction; cbn [visitR rbind]; eauto. cbn [entry] in A. destruct A as [A B]. unfold only_ident. apply String.eqb_neq in A, B. rewrite A, B.
    rewrite (identifier_spec _ _ _ K). cbn [rbind]. unfold ident_instr. destruct (find _ _) as [[? ?]|]; cbn; eauto. }
  exists ps. unfold read_only. rewrite E. cbn [rbind]. rewrite V. cbn [rbind]. split; [reflexivity|].
  destruct (read_decls_declared (f_params f) [] [] ps (Forall2_nil _) (NoDup_nil _) E) as (new & N1 & N2 & _). cbn in N1. subst ps. exact N2.
Qed.
Print Assumptions C78_parameters_are_read.

(** DEFINE INSTRUMENT x(E0, double Ef = E0 / 2, int n / [m] = 3, string file = 0), a component with E0 - Ef and a list *)
Definition example_file : file :=
  mkFile [Double "E0" None None; Double "Ef" None (Some (XArith ADiv (XId "E0") (XNum (Z2Qc 2) DInt))); Int "n" (Some """m""") (Some (XNum (Z2Qc 3) DInt)); Text "file" None (Some None)]
         [Comp "a" [XNum 0 DInt; XArith ASub (XId "E0") (XId "Ef")] [[XNum 1 DInt; XId "L"]] false; Comp "b" [XNum 0 DInt] [] false].
Example C78_same_parameters_example :
  exists ps, read_full example_file = Ok (ps, ["a"; "b"]) /\ map p_name ps = ["E0"; "Ef"; "n"; "file"] /\ Forall is_comp (f_trace example_file) /\
    (forall i t, In i (f_trace example_file) -> in_item t i -> ~ uses "PREVIOUS" t).
Proof.
  eexists. split; [vm_compute; reflexivity|]. split; [reflexivity|]. split; [repeat constructor|].
  intros i t I J U. cbn in I. repeat (destruct I as [<-|I]); [..|destruct I]; cbn in J;
    repeat match goal with H : _ \/ _ |- _ => destruct H | H : exists _, _ |- _ => destruct H | H : _ /\ _ |- _ => destruct H | H : False |- _ => destruct H end;
    subst; cbn in *;
    repeat match goal with H : _ \/ _ |- _ => destruct H | H : False |- _ => destruct H end; subst; cbn in *; intuition discriminate.
Qed.
Example C78_parameters_are_read_example :
  NoDup (map d_name (f_params example_file)) /\ good_decls [] (f_params example_file) /\ Forall (good_item (f_params example_file)) (f_trace example_file).
Proof.
  split; [repeat constructor; cbn; intuition discriminate|]. split.
  - cbn. repeat split; auto; try (intro X; intuition discriminate); try (eexists; split; reflexivity); try (intros n H; injection H as <-; reflexivity).
  - repeat constructor; cbn; auto; try (eexists; split; reflexivity); intro X; repeat destruct X as [X|X]; discriminate X || exact X.
Qed.
Example C78_included_parameters_example :
  let f := mkFile [Double "E0" None None] [Incl [mkPar "E0" None (VNone DFloat); mkPar "phi" None (VNone DFloat)] ["src"]; Comp "a" [XId "phi"] [] false] in
  exists ps own, read_full f = Ok (ps, ["src"; "a"]) /\ read_only f = Ok own /\ map p_name ps = ["E0"; "phi"] /\ map p_name own = ["E0"].
Proof. cbn zeta. eexists _, _. repeat split; vm_compute; reflexivity. Qed.

(** ** what does not hold *)
(** PREVIOUS in an expression of a component instance: the whole file is read (PREVIOUS is the name of the
    last component), but the parameters alone are not: InstrParametersVisitor has no attribute destination. *)
Theorem C78_previous_refuted :
  ~ forall f ps cs, read_full f = Ok (ps, cs) -> Forall is_comp (f_trace f) -> exists own, read_only f = Ok own.
Proof.
  intro H. destruct (H (mkFile [Double "E0" None None] [Comp "a" [] [] false; Comp "b" [XId "PREVIOUS"] [] false]) _ _ eq_refl) as [own X]; [repeat constructor|]. discriminate.
Qed.
Print Assumptions C78_previous_refuted.
(** The parameters of included instrument files are parameters of the instrument; reading only the
    parameters leaves them out without notice. *)
Theorem C78_all_parameters_refuted :
  ~ forall f ps cs own, read_full f = Ok (ps, cs) -> read_only f = Ok own -> map p_name own = map p_name ps.
Proof.
  intro H. specialize (H (mkFile [] [Incl [mkPar "phi" None (VNone DFloat)] ["src"]]) _ _ _ eq_refl eq_refl). discriminate.
Qed.
Print Assumptions C78_all_parameters_refuted.
(** The default of an int parameter is only marked as an integer: int n = 2.5 keeps 2.5. *)
Theorem C78_int_default_refuted :
  ~ forall f ps p q o, read_only f = Ok ps -> In p ps -> p_value p = VExp [NVal (PNum q) DInt o] -> Qc_is_int q = true.
Proof.
  intro H. specialize (H (mkFile [Int "n" None (Some (XNum (Q2Qc (5 # 2)) DFloat))] []) _ _ (Q2Qc (5 # 2)) OValue eq_refl (or_introl eq_refl) eq_refl). vm_compute in H. discriminate.
Qed.
Print Assumptions C78_int_default_refuted.
(** MYSELF in an expression of a component instance stops both ways of reading, though the grammar has it:
    both visitors ask for an attribute that is set nowhere. *)
Theorem C78_myself_refuted :
  ~ exists f i t, In i (f_trace f) /\ in_item t i /\ uses "MYSELF" t /\ ((exists r, read_full f = Ok r) \/ exists ps, read_only f = Ok ps).
Proof.
  intros (f & i & t & I & J & U & H).
  assert (X : forall ident es ls u, ident "MYSELF" = Raise -> visit_exprs ident es ls = Ok u -> (In t es \/ exists l, In l ls /\ In t l) -> False).
  { intros ident es ls u R V D. assert (W : exists e, visitR ident t = Ok e).
    { unfold visit_exprs in V. bi V. bi V. destruct D as [D|(l & D & F)].
      - destruct (rmap_in _ _ _ E t D) as (y & Y & _). eauto.
      - destruct (rmap_in _ _ _ E0 l D) as (y & Y & _). destruct (rmap_in _ _ _ Y t F) as (z & Z & _). unfold element in Z. bi Z. eauto. }
    destruct W as [e W]. destruct (visitR_uses _ _ _ _ W U) as [v Y]. congruence. }
  destruct H as [[[ps cs] H]|[ps H]].
  - unfold read_full in H. bi H. clear E. revert a H. generalize (@nil string). induction (f_trace f) as [|x l IH]; [destruct I|]. intros cs0 a H. cbn [read_items] in H. destruct x as [n es ls stops|qs ds].
    + bi H. destruct (stops || _); [discriminate|]. destruct I as [<-|I]; [|eapply IH; eauto]. eapply X; [|exact E|exact J]. reflexivity.
    + destruct (existsb _ ds); [discriminate|]. destruct I as [<-|I]; [destruct J|]. eapply IH; eauto.
  - unfold read_only in H. bi H. bi H. clear H. revert E0. induction (f_trace f) as [|x l IH]; [destruct I|]. intro H. cbn [visit_items] in H. destruct x as [n es ls stops|qs ds].
    + bi H. destruct I as [<-|I]; [|eapply IH; eauto]. eapply X; [|exact E0|exact J]. reflexivity.
    + destruct I as [<-|I]; [destruct J|]. eapply IH; eauto.
Qed.
Print Assumptions C78_myself_refuted.
Example C78_parameters_are_declared_example :
  exists ps, read_only example_file = Ok ps /\ map (fun p => (p_name p, p_unit p, p_type p)) ps =
    [("E0", None, Ok DFloat); ("Ef", None, Ok DFloat); ("n", Some """m""", Ok DInt); ("file", None, Ok DStr)].
Proof. eexists. split; [vm_compute; reflexivity|reflexivity]. Qed.
