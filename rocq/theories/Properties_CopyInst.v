(** C74: what a component instance made with COPY has, and where its jumps go. *)
From Coq Require Import List String Ascii Bool Arith ZArith Lia.
From Verif Require Import PyStr Expr InstrModel Refs JumpTargets CopyInst.
From Verif Require InstanceText UserVars.
Import InstanceText (blank).
Import ListNotations.
Local Open Scope string_scope.
Local Open Scope list_scope.
Local Open Scope nat_scope.

(** * Specification *)
(** the value an instance has for a parameter: the first of its own, or the definition's *)
Definition first_named (n : string) (ps : list cpar) : option node :=
  option_map cp_value (find (fun p => cp_name p =?s n) ps).
Definition definition_of (c : ctype) (n : string) : option cpar := find (fun p => cp_name p =?s n) (ct_define c ++ ct_setting c).
Definition value (x : cinst) (n : string) : option node :=
  match first_named n (c_params x) with Some v => Some v | None => option_map cp_value (definition_of (c_type x) n) end.
(** the values stated for a name, in the order of the text *)
Definition stated {A} (n : string) (l : list (string * A)) : list A := map snd (filter (fun p : string * A => fst p =?s n) l).
Definition last_one {A} (l : list A) : option A := match rev l with x :: _ => Some x | [] => None end.
(** a jump object that says what is written, with no target computed yet *)
Inductive written : wjump -> obj -> Prop :=
| w_prev it c : written (mkWj (JPrev None) it c) (mkObj (mkPj "PREVIOUS" (-1) it (-1)) c)
| w_next it c : written (mkWj (JNext None) it c) (mkObj (mkPj "NEXT" 1 it (-1)) c)
| w_myself it c : written (mkWj JMyself it c) (mkObj (mkPj "MYSELF" 0 it (-1)) c)
| w_named s it c : written (mkWj (JId s) it c) (mkObj (mkPj s 0 it (-1)) c).
(** the metadata of a name *)
Definition meta_named (k : string) (l : list meta) : option meta := find (fun m => m_name m =?s k) l.
Definition meta_key (m : string * string * string) : string * (string * string) := let '(mime, k, v) := m in (k, (mime, v)).

(** * Facts *)
Lemma find_app {A} (f : A -> bool) l1 l2 : find f (l1 ++ l2) = match find f l1 with Some x => Some x | None => find f l2 end.
Proof. induction l1 as [|x t IH]; cbn; auto. destruct (f x); auto. Qed.
Lemma definition_ct_get c n : definition_of c n = ct_get c n.
Proof. unfold definition_of, ct_get. apply find_app. Qed.

Section Facts.
  Variable compatible : cpar -> node -> bool.
  Variable convert : cpar -> node -> res node.
  Notation setp := (set_parameter node compatible convert).

  (** what is stored for a stated value *)
  Definition stored (c : ctype) (n : string) (v : node) : option node :=
    match definition_of c n with
    | Some p => if compatible p v then match convert p v with Ok e => Some e | _ => None end else None
    | None => None
    end.

  Lemma present_first ps n : cpar_present ps n = match first_named n ps with Some _ => true | None => false end.
  Proof. unfold cpar_present, first_named. induction ps as [|p t IH]; cbn; auto. rewrite String.eqb_sym. destruct (_ =?s n); auto. Qed.
  Lemma first_app n l1 l2 : first_named n (l1 ++ l2) = match first_named n l1 with Some v => Some v | None => first_named n l2 end.
  Proof. unfold first_named. rewrite find_app. destruct (find _ l1); auto. Qed.
  Lemma first_filter ps n k : first_named n (filter (fun x => negb (k =?s cp_name x)) ps) = if k =?s n then None else first_named n ps.
  Proof.
    unfold first_named. induction ps as [|p t IH]; cbn; [destruct (k =?s n); auto|].
    destruct (String.eqb_spec k (cp_name p)) as [E|E]; cbn.
    - rewrite IH. destruct (String.eqb_spec k n) as [E2|E2]; auto. destruct (String.eqb_spec (cp_name p) n); [congruence|reflexivity].
    - destruct (String.eqb_spec (cp_name p) n) as [E2|E2]; cbn; auto. destruct (String.eqb_spec k n); [congruence|reflexivity].
  Qed.
  Lemma set_ok c ps n v over ps' : setp c ps n v over true = (ps', true) -> exists e, stored c n v = Some e /\
    forall m, first_named m ps' =
      if n =?s m then (if over then Some e else match first_named m ps with Some w => Some w | None => Some e end) else first_named m ps.
  Proof.
    unfold set_parameter, stored. rewrite definition_ct_get. destruct (_ && _)%bool; [discriminate|].
    rewrite andb_false_r. destruct (ct_get c n) as [p|] eqn:G; [|discriminate].
    assert (En : cp_name p = n).
    { rewrite <- definition_ct_get in G. apply find_some in G as [_ G]. now apply String.eqb_eq. }
    destruct (compatible p v); [|discriminate]. cbn [negb]. destruct (convert p v) as [e| |]; try discriminate.
    intros [= <-]. exists e. split; auto. intro m. rewrite first_app. unfold first_named at 2. cbn [find cp_name]. rewrite En.
    rewrite present_first. destruct (String.eqb_spec n m) as [->|N]; cbn [option_map cp_value].
    - destruct over.
      + rewrite andb_true_r. destruct (first_named m ps) eqn:F; [rewrite first_filter, String.eqb_refl; auto|rewrite F; auto].
      + rewrite andb_false_r. destruct (first_named m ps); auto.
    - destruct (_ && over)%bool; [rewrite first_filter; apply String.eqb_neq in N; rewrite N|]; destruct (first_named m ps); auto.
  Qed.
  Lemma last_one_cons {A} (x : A) l : last_one (x :: l) = match last_one l with Some y => Some y | None => Some x end.
  Proof. unfold last_one. cbn. destruct (rev l) eqn:E; cbn; auto. Qed.
  Lemma set_all_copy c l : forall ps ps', set_all compatible convert c true ps l = Ok ps' ->
    Forall (fun p => stored c (fst p) (snd p) <> None) l /\
    forall n, first_named n ps' = match last_one (stated n l) with Some v => stored c n v | None => first_named n ps end.
  Proof.
    induction l as [|[k v] t IH]; intros ps ps' H; cbn [set_all] in H.
    - injection H as <-. split; auto.
    - destruct (setp c ps k v true true) as [p1 ok] eqn:E. destruct ok; [|discriminate].
      destruct (set_ok _ _ _ _ _ _ E) as (e & S & F). destruct (IH _ _ H) as [A B]. split.
      { constructor; auto. cbn. congruence. }
      intro n. rewrite B. unfold stated. cbn [filter fst]. destruct (String.eqb_spec k n) as [->|N].
      + cbn [map snd]. rewrite last_one_cons. destruct (last_one _); auto. rewrite F, String.eqb_refl. auto.
      + destruct (last_one _); auto. rewrite F. apply String.eqb_neq in N. now rewrite N.
  Qed.
  Lemma set_all_plain c l : forall ps ps', set_all compatible convert c false ps l = Ok ps' ->
    Forall (fun p => stored c (fst p) (snd p) <> None) l /\
    forall n, first_named n ps' = match first_named n ps with Some w => Some w | None =>
      match stated n l with v :: _ => stored c n v | [] => None end end.
  Proof.
    induction l as [|[k v] t IH]; intros ps ps' H; cbn [set_all] in H.
    - injection H as <-. split; auto. intro n. destruct (first_named n ps); auto.
    - destruct (setp c ps k v false true) as [p1 ok] eqn:E. destruct ok; [|discriminate].
      destruct (set_ok _ _ _ _ _ _ E) as (e & S & F). destruct (IH _ _ H) as [A B]. split.
      { constructor; auto. cbn. congruence. }
      intro n. rewrite B, F. unfold stated. cbn [filter fst]. destruct (String.eqb_spec k n) as [->|N].
      + cbn [map snd]. destruct (first_named n ps); auto.
      + destruct (first_named n ps); auto.
  Qed.
End Facts.

Lemma jumps_written l : forall os, jumps_of l = Ok os -> Forall2 written l os.
Proof.
  induction l as [|[n it c] t IH]; intros os H; cbn in H; [injection H as <-; constructor|].
  destruct n as [[i|]| |[i|]|s]; cbn in H; try discriminate; destruct (jumps_of t) as [ot| |]; try discriminate; cbn in H; injection H as <-;
    constructor; auto; constructor.
Qed.
Lemma nth_seq_new (h os : list obj) : map (nth_error (h ++ os)) (seq (List.length h) (List.length os)) = map Some os.
Proof.
  revert h. induction os as [|o t IH]; intro h; cbn; auto. rewrite nth_error_app2, Nat.sub_diag by lia. cbn. f_equal.
  specialize (IH (h ++ [o])). rewrite <- app_assoc in IH. cbn in IH. rewrite app_length in IH. cbn in IH.
  replace (S (List.length h)) with (List.length h + 1) by lia. exact IH.
Qed.
Lemma add_meta_named ms m k : meta_named k (add_metadata ms m) = if m_name m =?s k then Some m else meta_named k ms.
Proof.
  unfold add_metadata, meta_named. rewrite find_app. cbn [find].
  assert (F : forall l, find (fun x => m_name x =?s k) (filter (fun x => negb (m_name x =?s m_name m)) l) =
              if m_name m =?s k then None else find (fun x => m_name x =?s k) l).
  { induction l as [|y t IH]; cbn; [destruct (_ =?s k); auto|]. destruct (String.eqb_spec (m_name y) (m_name m)) as [E|E]; cbn.
    - rewrite IH, E. destruct (m_name m =?s k); auto.
    - rewrite IH. destruct (String.eqb_spec (m_name y) k); auto. subst. destruct (String.eqb_spec (m_name m) (m_name y)); congruence. }
  destruct (existsb _ ms) eqn:X.
  - rewrite F. destruct (m_name m =?s k); auto. destruct (find _ ms); auto.
  - destruct (String.eqb_spec (m_name m) k) as [E|N]; [|destruct (find _ ms); auto].
    destruct (find _ ms) as [y|] eqn:Y; auto. apply find_some in Y as [Y1 Y2]. exfalso.
    assert (existsb (fun x => m_name x =?s m_name m) ms = true) by (rewrite E; apply existsb_exists; eauto). congruence.
Qed.
Lemma set_meta_named n l k : forall old, meta_named k (set_meta n old l) =
  match last_one (stated k (map meta_key l)) with
  | Some (mime, v) => Some (mkMeta n k mime v)
  | None => meta_named k old
  end.
Proof.
  induction l as [|[[mime k'] v] t IH]; intro old; auto. cbn [set_meta fold_left]. unfold set_meta in IH. rewrite IH, add_meta_named. cbn [m_name].
  unfold stated. cbn [map meta_key filter fst]. destruct (String.eqb_spec k' k) as [->|N].
  - cbn [map snd]. rewrite last_one_cons. destruct (last_one _); auto.
  - destruct (last_one _); auto.
Qed.

(** * Copies *)
(** the statement adds an instance: it is not a REMOVABLE one of an included file *)
Definition adds {A} (dest : option A) (d : stmt) : Prop := dest = None \/ s_removable d = false.

Section Statement.
  Variable compatible : cpar -> node -> bool.
  Variable convert : cpar -> node -> res node.

  Record result (h h' : list obj) (d : stmt) (x : cinst) (old_when : option node) (old_group : option string)
      (old_extend : list string) (old_jump : list nat) (old_meta : list meta) : Prop := {
    rs_when : c_when x = match s_when d with Some w => Some w | None => old_when end;
    rs_runtime : forall w, s_when d = Some w -> is_constant w = false;
    rs_group : c_group x = match s_group d with Some g => Some g | None => old_group end;
    rs_extend : c_extend x = match s_extend d with Some t => if blank t then [] else [t] | None => old_extend end;
    rs_jump : s_jumps d = [] -> h' = h /\ c_jump x = old_jump;
    rs_new_jump : s_jumps d <> [] -> exists os, Forall2 written (s_jumps d) os /\ h' = h ++ os /\ map (nth_error h') (c_jump x) = map Some os /\
                    Forall (fun r => List.length h <= r) (c_jump x);
    rs_meta : forall k, meta_named k (c_meta x) = match last_one (stated k (map meta_key (s_meta d))) with
                | Some (mime, v) => Some (mkMeta (c_name x) k mime v) | None => meta_named k old_meta end;
    rs_own : c_removable x = s_removable d /\ c_cpu x = negb (ct_acc (c_type x)) || s_cpu d /\
             c_split x = match s_split d with None => None | Some None => Some int10 | Some (Some e) => Some e end }.

  Lemma component_result dest h st d h' st' : component compatible convert dest (h, st) d = Ok (h', st') -> adds dest d ->
    let n := instance_name st (s_name d) in
    exists b over ps x, (match s_type d with SName c => b = fresh n c /\ over = false
                         | SCopy r => exists o, original dest st r = Ok o /\ b = from_instance n o /\ over = true end) /\
      set_all compatible convert (c_type b) over (c_params b) (s_pars d) = Ok ps /\
      st' = st ++ [x] /\ c_name x = n /\ c_type x = c_type b /\ c_params x = ps /\ ~ In n (map c_name st) /\
      result h h' d x (c_when b) (c_group b) (c_extend b) (c_jump b) (c_meta b).
  Proof.
    intros H K n. unfold component in H. fold n in H.
    set (B := match s_type d with SName c => Ok (fresh n c, false) | SCopy r => do o <- original dest st r; Ok (from_instance n o, true) end) in H.
    destruct B as [[b over]| |] eqn:EB; try discriminate. cbn [rbind] in H.
    destruct (set_all compatible convert (c_type b) over (c_params b) (s_pars d)) as [ps| |] eqn:EP; try discriminate. cbn [rbind] in H.
    destruct (set_when (c_when b) (s_when d)) as [w| |] eqn:EW; try discriminate. cbn [rbind] in H.
    destruct (set_jumps h (c_jump b) (s_jumps d)) as [[h1 js]| |] eqn:EJ; try discriminate. cbn [rbind] in H.
    assert (CB : c_cpu b = negb (ct_acc (c_type b)) /\ c_removable b = false /\ c_split b = None).
    { unfold B in EB. destruct (s_type d); [injection EB as <- <-; auto|]. destruct (original dest st r); try discriminate. injection EB as <- <-; auto. }
    destruct CB as (CB & CR & CS). cbn [c_removable] in H. rewrite CR, CS in H. cbn [orb] in H.
    assert (KK : match dest with None => true | Some _ => negb (s_removable d) end = true) by (destruct K as [->| ->]; [auto|destruct dest; auto]).
    rewrite KK in H. destruct (existsb _ st) eqn:EX; [discriminate|]. injection H as <- <-.
    exists b, over, ps. eexists. split.
    { unfold B in EB. destruct (s_type d); [injection EB as <- <-; auto|]. destruct (original dest st r) as [o| |]; try discriminate. injection EB as <- <-. eauto. }
    split; [exact EP|]. split; [reflexivity|]. cbn [c_name c_type c_params]. repeat split; auto.
    - intro I. apply in_map_iff in I as (z & Z & I). assert (existsb (fun z => c_name z =?s n) st = true); [|congruence].
      apply existsb_exists. exists z. split; auto. now apply String.eqb_eq.
    - cbn. unfold set_when in EW. destruct (s_when d) as [e|]; [destruct (is_constant e)|]; congruence.
    - intros e E. unfold set_when in EW. rewrite E in EW. destruct (is_constant e); congruence.
    - unfold set_jumps in EJ. rewrite H in EJ. congruence.
    - unfold set_jumps in EJ. rewrite H in EJ. cbn. congruence.
    - intro NE. unfold set_jumps in EJ. destruct (s_jumps d) as [|w0 t] eqn:EJs; [congruence|]. destruct (jumps_of (w0 :: t)) as [os| |] eqn:EO; try discriminate.
      cbn [rbind] in EJ. injection EJ as <- <-. exists os. cbn [c_jump]. split; [now apply jumps_written|]. split; auto. split; [apply nth_seq_new|].
      apply Forall_forall. intros r I. apply in_seq in I. lia.
    - intro k. cbn [c_meta c_name]. apply set_meta_named.
    - cbn [c_cpu c_type]. now rewrite CB.
  Qed.
End Statement.

(* A copy has the type of the original; each parameter has the last value stated for it, or
   the one the original has; WHEN, GROUP, EXTEND, the jumps and each metadata entry are the
   stated ones, or the original's; REMOVABLE, CPU and SPLIT are only the stated ones.
   Every other instance and every existing jump stays as it is. *)
Theorem C74_copy :
  forall compatible convert dest h st d h' st' r o,
    component compatible convert dest (h, st) d = Ok (h', st') -> adds dest d ->
    s_type d = SCopy r -> original dest st r = Ok o ->
    exists x, st' = st ++ [x] /\ c_type x = c_type o /\ ~ In (c_name x) (map c_name st) /\
      (forall n, value x n = match last_one (stated n (s_pars d)) with
                             | Some v => stored compatible convert (c_type o) n v | None => value o n end) /\
      Forall (fun p => stored compatible convert (c_type o) (fst p) (snd p) <> None) (s_pars d) /\
      result h h' d x (c_when o) (c_group o) (c_extend o) (c_jump o) (c_meta o).
Proof.
  intros compatible convert dest h st d h' st' r o H K T O.
  destruct (component_result _ _ _ _ _ _ _ _ H K) as (b & over & ps & x & B & P & S & N & Ty & Ps & Fr & R).
  rewrite T in B. destruct B as (o' & O' & -> & ->). rewrite O in O'. injection O' as <-.
  exists x. cbn [from_instance c_type c_params c_when c_group c_extend c_jump c_meta] in *.
  destruct (set_all_copy _ _ _ _ _ _ P) as [A V]. repeat (split; [congruence|]). split.
  - intro n. unfold value. rewrite Ps, V, Ty. destruct (last_one (stated n (s_pars d))) as [v|] eqn:L; auto.
    destruct (stored compatible convert (c_type o) n v) eqn:E; auto. exfalso.
    assert (I : In (n, v) (s_pars d)).
    { unfold last_one in L. destruct (rev (stated n (s_pars d))) as [|y t] eqn:RV; [discriminate|]. injection L as ->.
      assert (I : In v (stated n (s_pars d))) by (apply in_rev; rewrite RV; now left).
      unfold stated in I. apply in_map_iff in I as ([k u] & E1 & I). cbn in E1. subst u. apply filter_In in I as [I E1]. apply String.eqb_eq in E1. cbn in E1. now subst. }
    rewrite Forall_forall in A. apply (A _ I). exact E.
  - split; auto.
Qed.
Print Assumptions C74_copy.

(* An instance that starts from a definition: the first value stated for a parameter counts,
   and what is not stated is the definition's. *)
Theorem C74_plain :
  forall compatible convert dest h st d h' st' c,
    component compatible convert dest (h, st) d = Ok (h', st') -> adds dest d -> s_type d = SName c ->
    exists x, st' = st ++ [x] /\ c_type x = c /\ ~ In (c_name x) (map c_name st) /\
      (forall n, value x n = match stated n (s_pars d) with
                             | v :: _ => stored compatible convert c n v | [] => option_map cp_value (definition_of c n) end) /\
      Forall (fun p => stored compatible convert c (fst p) (snd p) <> None) (s_pars d) /\
      result h h' d x None None [] [] [].
Proof.
  intros compatible convert dest h st d h' st' c H K T.
  destruct (component_result _ _ _ _ _ _ _ _ H K) as (b & over & ps & x & B & P & S & N & Ty & Ps & Fr & R).
  rewrite T in B. destruct B as [-> ->]. exists x. cbn [fresh c_type c_params c_when c_group c_extend c_jump c_meta] in *.
  destruct (set_all_plain _ _ _ _ _ _ P) as [A V]. repeat (split; [congruence|]). split.
  - intro n. unfold value. rewrite Ps, V, Ty. cbn [first_named find option_map]. destruct (stated n (s_pars d)) as [|v t] eqn:L; auto.
    destruct (stored compatible convert c n v) eqn:E; auto. exfalso.
    assert (I : In (n, v) (s_pars d)).
    { assert (I : In v (stated n (s_pars d))) by (rewrite L; now left).
      unfold stated in I. apply in_map_iff in I as ([k u] & E1 & I). cbn in E1. subst u. apply filter_In in I as [I E1]. apply String.eqb_eq in E1. cbn in E1. now subst. }
    rewrite Forall_forall in A. apply (A _ I). exact E.
  - split; auto.
Qed.
Print Assumptions C74_plain.

(** ** chains *)
(** COPY(PREVIOUS) and nothing else but a placement *)
Definition bare_copy (d : stmt) : Prop :=
  s_type d = SCopy (CPrev None) /\ s_pars d = [] /\ s_when d = None /\ s_group d = None /\ s_extend d = None /\ s_jumps d = [] /\ s_meta d = [].
Definition alike (x y : cinst) : Prop :=
  c_type x = c_type y /\ (forall n, value x n = value y n) /\ c_when x = c_when y /\ c_group x = c_group y /\ c_extend x = c_extend y /\
  c_jump x = c_jump y /\ (forall k, meta_named k (c_meta x) = meta_named k (c_meta y)).
Lemma original_previous dest st x : original dest (st ++ [x]) (CPrev None) = Ok x.
Proof.
  cbn [original]. rewrite app_length. cbn [List.length]. replace (1 <=? List.length st + 1) with true by (symmetry; apply Nat.leb_le; lia).
  unfold last_. rewrite app_length. cbn [List.length]. replace (List.length st + 1 <? 1) with false by (symmetry; apply Nat.ltb_ge; lia).
  unfold py_neg_index. cbn [Nat.eqb Nat.sub]. rewrite rev_app_distr. reflexivity.
Qed.

(* Any number of bare copies, each of the one before, are all like the first instance. *)
Theorem C74_chain :
  forall compatible convert l h st x h' st',
    Forall bare_copy l -> read compatible convert None (h, st ++ [x]) l = Ok (h', st') ->
    h' = h /\ exists ys, st' = st ++ x :: ys /\ List.length ys = List.length l /\ Forall (fun y => alike y x) ys.
Proof.
  intros compatible convert. induction l as [|d t IH]; intros h st x h' st' F H; cbn [read] in H.
  - injection H as <- <-. split; auto. exists []. repeat split; auto.
  - inversion F as [|? ? Fd Ft]; subst. destruct Fd as (T & Ep & Ew & Eg & Ee & Ej & Em).
    destruct (component compatible convert None (h, st ++ [x]) d) as [[h1 st1]| |] eqn:E; try discriminate. cbn [rbind] in H.
    destruct (C74_copy _ _ _ _ _ _ _ _ _ _ E (or_introl eq_refl) T (original_previous _ _ _)) as (y & -> & Ty & _ & V & _ & R).
    destruct R as [R1 _ R2 R3 R4 _ R5 _]. rewrite Ew in R1. rewrite Eg in R2. rewrite Ee in R3. destruct (R4 Ej) as [-> R6].
    assert (A : alike y x).
    { repeat split; auto.
      - intro n. rewrite V, Ep. reflexivity.
      - intro k. rewrite R5, Em. reflexivity. }
    destruct (IH _ _ _ _ _ Ft H) as (-> & ys & -> & L & FA). split; auto. exists (y :: ys). rewrite <- app_assoc. cbn.
    split; auto. split; auto. constructor; auto. eapply Forall_impl; [|exact FA]. intros z (Z1 & Z2 & Z3 & Z4 & Z5 & Z6 & Z7). destruct A as (A1 & A2 & A3 & A4 & A5 & A6 & A7).
    repeat split; try congruence; intro n; rewrite ?Z2, ?Z7; auto.
Qed.
Print Assumptions C74_chain.

(** * Where jumps go *)
Lemma nth_put h r j r' : nth_error (put h r j) r' = if r =? r' then option_map (fun o => mkObj j (o_cond o)) (nth_error h r') else nth_error h r'.
Proof.
  revert r r'. induction h as [|o t IH]; intros [|r] [|r']; cbn [put nth_error Nat.eqb option_map]; auto. destruct (r =? r'); auto.
Qed.
Lemma resolve_keeps names l : forall h h' r o, resolve names l h = Some h' -> nth_error h r = Some o -> (-1 < pj_abs (o_jump o))%Z ->
  goes_to h' r = Some (pj_abs (o_jump o)).
Proof.
  induction l as [|[i q] t IH]; intros h h' r o H O A; cbn [resolve] in H.
  - injection H as <-. unfold goes_to. now rewrite O.
  - destruct (nth_error h q) as [p|] eqn:Q; [|discriminate]. destruct (set_target names i (o_jump p)) as [j|] eqn:T; [|discriminate].
    destruct (Nat.eq_dec q r) as [->|N].
    + rewrite O in Q. injection Q as <-. unfold set_target in T. replace (-1 <? pj_abs (o_jump o))%Z with true in T by (symmetry; now apply Z.ltb_lt). injection T as <-.
      eapply (IH _ _ r (mkObj (o_jump o) (o_cond o))); eauto. rewrite nth_put, Nat.eqb_refl, O. reflexivity.
    + eapply IH; eauto. rewrite nth_put. apply Nat.eqb_neq in N. now rewrite N.
Qed.
Lemma resolve_first names l1 : forall h h' r o i l2, resolve names (l1 ++ (i, r) :: l2) h = Some h' -> ~ In r (map snd l1) -> nth_error h r = Some o ->
  exists j, set_target names i (o_jump o) = Some j /\ ((-1 < pj_abs j)%Z -> goes_to h' r = Some (pj_abs j)).
Proof.
  induction l1 as [|[i' q] t IH]; intros h h' r o i l2 H N O; cbn [resolve app] in H.
  - rewrite O in H. destruct (set_target names i (o_jump o)) as [j|] eqn:T; [|discriminate]. exists j. split; auto. intro A.
    apply (resolve_keeps _ _ _ _ r (mkObj j (o_cond o)) H); auto. rewrite nth_put, Nat.eqb_refl, O. reflexivity.
  - destruct (nth_error h q) as [p|] eqn:Q; [|discriminate]. destruct (set_target names i' (o_jump p)) as [j|]; [|discriminate].
    cbn [map snd In] in N. eapply IH; [exact H|tauto|]. rewrite nth_put. destruct (Nat.eqb_spec q r); [tauto|auto].
Qed.
Lemma in_first (r : nat) l : In r l -> exists l1 l2, l = l1 ++ r :: l2 /\ ~ In r l1.
Proof.
  induction l as [|x t IH]; [intros []|]. destruct (Nat.eq_dec x r) as [->|N]; [exists [], t; auto|].
  intros [E|I]; [congruence|]. destruct (IH I) as (l1 & l2 & -> & H). exists (x :: l1), l2. split; auto. cbn. tauto.
Qed.
Lemma pairs_app a b : forall i, pairs i (a ++ b) = pairs i a ++ pairs (i + List.length a) b.
Proof.
  induction a as [|x t IH]; intro i; cbn.
  - now rewrite Nat.add_0_r.
  - rewrite IH, app_assoc. do 2 f_equal. lia.
Qed.
Lemma pairs_in st : forall i r, In r (map snd (pairs i st)) <-> exists x, In x st /\ In r (c_jump x).
Proof.
  induction st as [|x t IH]; intros i r; cbn.
  - split; [tauto|]. intros (x & [] & _).
  - rewrite map_app, in_app_iff, IH, map_map. cbn. rewrite map_id. split.
    + intros [H|(y & Y & H)]; eauto.
    + intros (y & [->|Y] & H); eauto.
Qed.
(** the first component with an object decides *)
Lemma first_decides h a x b h' r o : set_absolute (h, a ++ x :: b) = Some h' -> In r (c_jump x) -> (forall y, In y a -> ~ In r (c_jump y)) -> nth_error h r = Some o ->
  exists j, set_target (map c_name (a ++ x :: b)) (List.length a) (o_jump o) = Some j /\ ((-1 < pj_abs j)%Z -> goes_to h' r = Some (pj_abs j)).
Proof.
  intros H I N O. unfold set_absolute in H. cbn [fst snd] in H. rewrite pairs_app in H. cbn [pairs Nat.add] in H.
  destruct (in_first _ _ I) as (l1 & l2 & E & N1). set (nm := map c_name (a ++ x :: b)) in *. rewrite E, map_app in H. cbn [map] in H. rewrite <- !app_assoc in H. cbn [app] in H. rewrite app_assoc in H.
  eapply resolve_first; [exact H| |exact O]. rewrite map_app, in_app_iff, pairs_in, map_map. cbn. rewrite map_id. intros [(y & Y & R)|R]; [eapply N; eauto|auto].
Qed.

Section File.
  Variable compatible : cpar -> node -> bool.
  Variable convert : cpar -> node -> res node.
  Notation read := (read compatible convert None).

  Definition inv (s : list obj * list cinst) : Prop :=
    (forall x, In x (snd s) -> Forall (fun r => r < List.length (fst s)) (c_jump x)) /\ Forall (fun o => pj_abs (o_jump o) = (-1)%Z) (fst s).
  Lemma original_in st r o : original None st r = Ok o -> In o st.
  Proof.
    assert (G : forall n, get_ st n = Ok o -> In o st).
    { intros n. unfold get_. destruct (n =?s "PREVIOUS").
      - destruct (rev st) as [|y t] eqn:E; [discriminate|]. intros [= <-]. apply in_rev. rewrite E. now left.
      - destruct (find _ st) as [y|] eqn:E; [|discriminate]. intros [= <-]. now apply find_some in E. }
    assert (B : forall n, named None st n = Ok o -> In o st) by (intro n; unfold named; destruct (existsb _ st); [apply G|discriminate]).
    destruct r as [n|n]; cbn [original]; [|apply B]. destruct (_ <=? _); [|apply B]. unfold last_. destruct (_ <? _); [discriminate|]. apply py_neg_in.
  Qed.
  Lemma written_abs w o : written w o -> pj_abs (o_jump o) = (-1)%Z.
  Proof. now destruct 1. Qed.
  (** one statement: what it appends and that the invariant stays *)
  Lemma component_step h st d h' st' : component compatible convert None (h, st) d = Ok (h', st') -> inv (h, st) ->
    inv (h', st') /\ exists x os, st' = st ++ [x] /\ h' = h ++ os /\ c_name x = instance_name st (s_name d) /\
      (s_jumps d = [] -> os = []) /\
      (s_jumps d <> [] -> Forall2 written (s_jumps d) os /\ map (nth_error h') (c_jump x) = map Some os /\ Forall (fun r => List.length h <= r) (c_jump x)).
  Proof.
    intros H [I1 I2]. cbn [fst snd] in *. destruct (component_result _ _ _ _ _ _ _ _ H (or_introl eq_refl)) as (b & over & ps & x & B & P & -> & N & Ty & Ps & Fr & R).
    assert (JB : Forall (fun r => r < List.length h) (c_jump b)).
    { destruct (s_type d); [destruct B as [-> _]; constructor|]. destruct B as (o & O & -> & _). cbn. apply I1. eapply original_in; eauto. }
    destruct R as [_ _ _ _ R4 R5 _ _]. destruct (s_jumps d) as [|w0 t] eqn:EJ.
    - destruct (R4 eq_refl) as [-> J]. split.
      + split; cbn [fst snd]; auto. intros y Y. apply in_app_or in Y as [Y|[<-|[]]]; auto. now rewrite J.
      + exists x, []. rewrite app_nil_r. repeat split; auto; try congruence; intro X; congruence.
    - destruct (R5 ltac:(discriminate)) as (os & W & -> & M & L). split.
      + split; cbn [fst snd].
        * intros y Y. rewrite app_length. apply in_app_or in Y as [Y|[<-|[]]].
          -- eapply Forall_impl; [|apply I1, Y]. cbn. intros. lia.
          -- apply Forall_forall. intros r Hr. rewrite <- app_length. apply nth_error_Some.
             assert (Q : In (nth_error (h ++ os) r) (map (nth_error (h ++ os)) (c_jump x))) by now apply in_map. rewrite M in Q. apply in_map_iff in Q as (o & <- & _). discriminate.
        * apply Forall_app. split; auto. clear - W. induction W; constructor; auto. eapply written_abs; eauto.
      + exists x, os. repeat split; auto; intro; discriminate.
  Qed.
  Lemma read_inv l : forall s s', read s l = Ok s' -> inv s -> inv s' /\ exists ys os, snd s' = snd s ++ ys /\ fst s' = fst s ++ os /\ List.length ys = List.length l.
  Proof.
    induction l as [|d t IH]; intros [h st] s' H I; cbn [CopyInst.read] in H.
    - injection H as <-. split; auto. exists [], []. cbn. rewrite !app_nil_r. auto.
    - destruct (component compatible convert None (h, st) d) as [[h1 st1]| |] eqn:E; try discriminate. cbn [rbind] in H.
      destruct (component_step _ _ _ _ _ E I) as (I1 & x & os & -> & -> & _). destruct (IH _ _ H I1) as (I2 & ys & os' & A & B & L). split; auto.
      exists (x :: ys), (os ++ os'). cbn [fst snd] in *. rewrite A, B, <- !app_assoc. cbn. auto.
  Qed.
  (** the instance of a statement, between those of the statements before and after it *)
  Lemma read_at l1 d l2 h st : read ([], []) (l1 ++ d :: l2) = Ok (h, st) ->
    exists h0 a x b os os', st = a ++ x :: b /\ List.length a = List.length l1 /\ h = (h0 ++ os) ++ os' /\
      (forall y, In y a -> Forall (fun r => r < List.length h0) (c_jump y)) /\ inv (h, st) /\ c_name x = instance_name a (s_name d) /\
      read ([], []) l1 = Ok (h0, a) /\
      (s_jumps d <> [] -> Forall2 written (s_jumps d) os /\ map (nth_error (h0 ++ os)) (c_jump x) = map Some os /\ Forall (fun r => List.length h0 <= r) (c_jump x)).
  Proof.
    intro H. assert (S : forall l s, read s (l ++ d :: l2) = do s' <- read s l ; read s' (d :: l2)).
    { induction l as [|e t IH]; intro s; cbn; auto. destruct (component compatible convert None s e); cbn; auto. }
    rewrite S in H. destruct (read ([], []) l1) as [[h0 a]| |] eqn:E1; try discriminate. cbn [rbind CopyInst.read] in H.
    assert (I0 : inv ([], [])) by (split; cbn; [intros x []|constructor]).
    destruct (read_inv _ _ _ E1 I0) as (Ia & ys & os0 & A & B & L). cbn [fst snd app] in A, B. subst ys os0.
    destruct (component compatible convert None (h0, a) d) as [[h1 st1]| |] eqn:E2; try discriminate. cbn [rbind] in H.
    destruct (component_step _ _ _ _ _ E2 Ia) as (I1 & x & os & -> & -> & N & _ & J).
    destruct (read_inv _ _ _ H I1) as (I2 & b & os' & A & B & _). cbn [fst snd] in A, B.
    exists h0, a, x, b, os, os'. rewrite A, B in *. split; [now rewrite <- app_assoc|]. split; [exact L|]. split; [reflexivity|]. split; [exact (proj1 Ia)|]. repeat (split; [assumption||reflexivity|]). exact J.
  Qed.
End File.

Lemma nth_Forall2 {A B} (P : A -> B -> Prop) l m k x : Forall2 P l m -> nth_error l k = Some x -> exists y, nth_error m k = Some y /\ P x y.
Proof. intro F. revert k. induction F as [|a b l m R F IH]; intros [|k] E; try discriminate; cbn in *; [injection E as <-; eauto|auto]. Qed.
Lemma find_name_sound n names : forall i t, find_name i n names = Some t -> i <= t /\ nth_error names (t - i) = Some n.
Proof.
  induction names as [|x l IH]; intros i t H; cbn in H; [discriminate|]. destruct (String.eqb_spec n x) as [->|N].
  - injection H as <-. rewrite Nat.sub_diag. auto.
  - apply IH in H as [L E]. split; [lia|]. replace (t - i) with (S (t - S i)) by lia. exact E.
Qed.

(* A jump that a component states itself goes to the place the text says: the component, the
   one before it, the one after it, or the named one. *)
Theorem C74_stated_jump_target :
  forall compatible convert l h st h' i d x k w r,
    read compatible convert None ([], []) l = Ok (h, st) -> set_absolute (h, st) = Some h' ->
    nth_error l i = Some d -> nth_error st i = Some x -> nth_error (s_jumps d) k = Some w -> nth_error (c_jump x) k = Some r ->
    match w_name w with
    | JMyself => goes_to h' r = Some (Z.of_nat i)
    | JPrev None => 1 <= i -> goes_to h' r = Some (Z.of_nat (i - 1))
    | JNext None => goes_to h' r = Some (Z.of_nat (i + 1))
    | JId s => lower s <> "myself" -> exists t y, nth_error st t = Some y /\ c_name y = s /\ goes_to h' r = Some (Z.of_nat t)
    | JPrev (Some _) | JNext (Some _) => False
    end.
Proof.
  intros compatible convert l h st h' i d x k w r H A D X W R.
  destruct (nth_error_split _ _ D) as (l1 & l2 & -> & <-).
  destruct (read_at _ _ _ _ _ _ _ H) as (h0 & a & x' & b & os & os' & -> & L & -> & Fa & _ & _ & _ & J).
  rewrite <- L, nth_error_app2, Nat.sub_diag in X by lia. cbn in X. injection X as ->.
  assert (NE : s_jumps d <> []) by (intro Z; rewrite Z in W; destruct k; discriminate).
  destruct (J NE) as (Wr & M & Ge). destruct (nth_Forall2 _ _ _ _ _ Wr W) as (o & O & Wo).
  assert (Or : nth_error (h0 ++ os) r = Some o).
  { pose proof (map_nth_error (nth_error (h0 ++ os)) _ _ R) as Q. rewrite M in Q. rewrite (map_nth_error Some _ _ O) in Q. congruence. }
  assert (Or' : nth_error ((h0 ++ os) ++ os') r = Some o) by (rewrite nth_error_app1; auto; apply nth_error_Some; congruence).
  assert (Ir : In r (c_jump x)) by (eapply nth_error_In; eauto).
  destruct (first_decides _ _ _ _ _ r o A Ir) as (j & T & G); auto.
  { intros y Y C. specialize (Fa y Y). rewrite Forall_forall in Fa, Ge. specialize (Fa r C). specialize (Ge r Ir). lia. }
  rewrite L in T. destruct Wo; cbn [w_name o_jump] in *.
  - intro P. unfold set_target in T. cbn [pj_abs pj_rel pj_target Z.ltb Z.compare Z.eqb andb] in T. injection T as <-. cbn [pj_abs] in G. rewrite G by lia. f_equal. lia.
  - unfold set_target in T. cbn [pj_abs pj_rel pj_target Z.ltb Z.compare Z.eqb andb] in T. injection T as <-. cbn [pj_abs] in G. rewrite G by lia. f_equal. lia.
  - unfold set_target in T. change (lower "MYSELF" =?s "myself") with true in T. cbn [pj_abs pj_rel pj_target Z.ltb Z.compare Z.eqb andb negb] in T.
    change (lower "MYSELF" =?s "myself") with true in T. cbn [negb] in T. injection T as <-. cbn [pj_abs] in G. rewrite G by lia. f_equal. lia.
  - intro N. unfold set_target in T. cbn [pj_abs pj_rel pj_target Z.ltb Z.compare Z.eqb andb] in T. apply String.eqb_neq in N. rewrite N in T. cbn [negb] in T.
    destruct (find_name 0 s _) as [t|] eqn:F; [|discriminate]. injection T as <-. apply find_name_sound in F as [_ F]. rewrite Nat.sub_0_r in F.
    cbn [pj_abs] in G. rewrite nth_error_map in F. destruct (nth_error (a ++ x :: b) t) as [y|] eqn:Y; [|discriminate]. injection F as F. exists t, y. repeat split; auto. apply G. lia.
Qed.
Print Assumptions C74_stated_jump_target.

Lemma first_component r (st : list cinst) : (exists x, In x st /\ In r (c_jump x)) ->
  exists a x b, st = a ++ x :: b /\ In r (c_jump x) /\ forall y, In y a -> ~ In r (c_jump y).
Proof.
  induction st as [|x t IH]; intros (y & Y & R); [destruct Y|].
  destruct (in_dec Nat.eq_dec r (c_jump x)) as [I|N]; [exists [], x, t; repeat split; auto|].
  destruct Y as [->|Y]; [contradiction|]. destruct IH as (a & z & b & -> & Z1 & Z2); [eauto|]. exists (x :: a), z, b. split; auto. split; auto.
  intros u [<-|U]; auto.
Qed.

(* A jump to a named component goes to that component from every instance that has it, stated
   or copied. *)
Theorem C74_named_jump_target :
  forall compatible convert l h st h' x r o,
    read compatible convert None ([], []) l = Ok (h, st) -> set_absolute (h, st) = Some h' ->
    In x st -> In r (c_jump x) -> nth_error h r = Some o -> pj_rel (o_jump o) = 0%Z -> lower (pj_target (o_jump o)) <> "myself" ->
    exists t y, nth_error st t = Some y /\ c_name y = pj_target (o_jump o) /\ goes_to h' r = Some (Z.of_nat t).
Proof.
  intros compatible convert l h st h' x r o H A X R O Z N.
  assert (I0 : inv ([], [])) by (split; cbn; [intros y []|constructor]).
  destruct (read_inv _ _ _ _ _ H I0) as ([_ I2] & _). cbn [fst] in I2. rewrite Forall_forall in I2. specialize (I2 o ltac:(eapply nth_error_In; eauto)).
  destruct (first_component r st) as (a & z & b & -> & Rz & Fz); [eauto|].
  destruct (first_decides _ _ _ _ _ _ _ A Rz Fz O) as (j & T & G). unfold set_target in T. rewrite I2, Z in T. cbn [Z.ltb Z.compare Z.eqb andb] in T.
  apply String.eqb_neq in N. rewrite N in T. cbn [negb] in T. destruct (find_name 0 _ _) as [t|] eqn:F; [|discriminate]. injection T as <-.
  apply find_name_sound in F as [_ F]. rewrite Nat.sub_0_r in F. cbn [pj_abs] in G. rewrite nth_error_map in F. destruct (nth_error (a ++ z :: b) t) as [y|] eqn:Y; [|discriminate].
  injection F as F. exists t, y. repeat split; auto. apply G. lia.
Qed.
Print Assumptions C74_named_jump_target.

(** * Made names *)
Definition made (n : dname) : Prop := match n with NId _ => False | _ => True end.
Lemma made_name st n : made n -> exists p, instance_name st n = (p ++ "_" ++ str_nat (List.length st + 1))%string.
Proof. destruct n as [s|s|]; [intros []|intros _; now exists s|intros _; now exists "Comp"]. Qed.

(* A name made for COPY or COPY(name) is new, unless a name written out ends in an underscore
   and the number of the instance. *)
Theorem C74_made_name_is_new :
  forall compatible convert l h st n,
    read compatible convert None ([], []) l = Ok (h, st) -> made n ->
    (forall e s p, In e l -> s_name e = NId s -> s <> (p ++ "_" ++ str_nat (List.length l + 1))%string) ->
    ~ In (instance_name st n) (map c_name st).
Proof.
  intros compatible convert l h st n H M W I.
  assert (I0 : inv ([], [])) by (split; cbn; [intros y []|constructor]).
  destruct (read_inv _ _ _ _ _ H I0) as (_ & ys & os & A & _ & L). cbn [snd app] in A. subst ys.
  apply in_map_iff in I as (y & E & Y). apply In_nth_error in Y as (i & Y).
  destruct (nth_error l i) as [e|] eqn:Le.
  2:{ apply nth_error_None in Le. assert (i < List.length st) by (apply nth_error_Some; congruence). lia. }
  destruct (made_name st n M) as (p & P). rewrite P, L in E.
  pose proof (nth_error_In _ _ Le) as Ie. assert (Li : i < List.length l) by (apply nth_error_Some; congruence).
  destruct (nth_error_split _ _ Le) as (l1 & l2 & -> & <-).
  destruct (read_at _ _ _ _ _ _ _ H) as (h0 & a & x & b & os1 & os2 & -> & La & _ & _ & _ & N & _ & _).
  rewrite <- La, nth_error_app2, Nat.sub_diag in Y by lia. cbn in Y. injection Y as ->.
  destruct (s_name e) as [s|s|] eqn:Se.
  - cbn in N. apply (W e s p Ie Se). rewrite <- N. exact E.
  - destruct (made_name a (NCopyId s) Logic.I) as (q & Q). rewrite N, Q in E. apply UserVars.instance_name_inj in E as [_ E]. lia.
  - destruct (made_name a NCopy Logic.I) as (q & Q). rewrite N, Q in E. apply UserVars.instance_name_inj in E as [_ E]. lia.
Qed.
Print Assumptions C74_made_name_is_new.

(** * Examples and findings *)
Definition yes (_ : cpar) (_ : node) : bool := true.
Definition keep (_ : cpar) (v : node) : res node := Ok v.
Notation int0 := InstanceText.int0.
Definition slit : ctype := mkCtype "Slit" [] [mkCpar "w" int0; mkCpar "h" int0] [] true.
Definition on : node := NExpr [NVal (PStr "flag") DFloat OId].
Definition plain (n : string) (ps : list (string * node)) (js : list wjump) : stmt := mkSt (NId n) (SName slit) ps false false None None None None js [].
Definition again (n : dname) (ps : list (string * node)) : stmt := mkSt n (SCopy (CPrev None)) ps false false None None None None [] [].

(* COPY(PREVIOUS) of a slit with WHEN, GROUP, EXTEND, a jump and metadata, with one parameter
   stated anew and EXTEND cleared *)
Definition ex_first : stmt := mkSt (NId "a") (SName slit) [("w", int10)] true true (Some None) (Some on) (Some "g") (Some "x = 1;") [mkWj (JId "a") true int10] [("text/plain", "k", "v")].
Definition ex_second : stmt := mkSt NCopy (SCopy (CName "a")) [("h", int10)] false false None None None (Some " ") [] [("text/plain", "k2", "v2")].
Example C74_copy_example :
  exists h x y, read yes keep None ([], []) [ex_first; ex_second] = Ok (h, [x; y]) /\ c_name y = "Comp_2" /\
    value x "h" = Some int0 /\ value y "w" = Some int10 /\ value y "h" = Some int10 /\ c_when y = Some on /\ c_group y = Some "g" /\ c_extend x = ["x = 1;"] /\ c_extend y = [] /\
    c_jump y = c_jump x /\ meta_named "k" (c_meta y) = Some (mkMeta "a" "k" "text/plain" "v") /\ meta_named "k2" (c_meta y) = Some (mkMeta "Comp_2" "k2" "text/plain" "v2") /\
    c_removable x = true /\ c_cpu x = true /\ c_split x = Some int10 /\ c_removable y = false /\ c_cpu y = false /\ c_split y = None /\
    option_map (fun h' => goes_to h' 0) (set_absolute (h, [x; y])) = Some (Some 0%Z).
Proof. do 3 eexists. repeat split; vm_compute; reflexivity. Qed.
Example C74_chain_example :
  exists h st h' st', read yes keep None ([], []) [ex_first] = Ok (h, st) /\ List.length st = 1 /\
    Forall bare_copy [again NCopy []; again (NCopyId "a") []; again (NId "z") []] /\
    read yes keep None (h, st) [again NCopy []; again (NCopyId "a") []; again (NId "z") []] = Ok (h', st') /\ map c_name st' = ["a"; "Comp_2"; "a_3"; "z"].
Proof. do 4 eexists. repeat split; try (vm_compute; reflexivity). repeat constructor. Qed.
Example C74_stated_jump_target_example :
  exists h st h' r, read yes keep None ([], []) [plain "a" [] []; plain "b" [] [mkWj (JPrev None) false on; mkWj (JId "c") false on]; plain "c" [] []] = Ok (h, st) /\
    set_absolute (h, st) = Some h' /\ (exists x, nth_error st 1 = Some x /\ nth_error (c_jump x) 1 = Some r) /\ goes_to h' r = Some 2%Z.
Proof. do 4 eexists. split; [vm_compute; reflexivity|]. split; [vm_compute; reflexivity|]. split; [eexists; split; vm_compute; reflexivity|]. reflexivity. Qed.
Example C74_made_name_example :
  exists h st, read yes keep None ([], []) [plain "a" [] []; again (NCopyId "a") []] = Ok (h, st) /\ instance_name st (NCopyId "a") = "a_3" /\
    forall e s p, In e [plain "a" [] []; again (NCopyId "a") []] -> s_name e = NId s -> s <> (p ++ "_" ++ str_nat 3)%string.
Proof.
  do 2 eexists. split; [vm_compute; reflexivity|]. split; [vm_compute; reflexivity|]. intros e s p [<-|[<-|[]]] E; [|discriminate]. injection E as <-. intro X.
  assert (Hc : has_char "_" "a" = true) by (rewrite X, has_char_app; cbn; apply orb_true_r). discriminate.
Qed.

(* A copied jump to PREVIOUS, NEXT or MYSELF does not count from the copy: the two instances
   share the jump, whose target is computed for the first and then kept.  The copy of a
   component with JUMP MYSELF jumps to the original. *)
Theorem C74_copied_relative_jump_refuted :
  exists l h st h' i x r,
    read yes keep None ([], []) l = Ok (h, st) /\ set_absolute (h, st) = Some h' /\ nth_error st i = Some x /\ c_jump x = [r] /\
    option_map (fun o => pj_target (o_jump o)) (nth_error h r) = Some "MYSELF" /\ goes_to h' r <> Some (Z.of_nat i).
Proof.
  exists [plain "a" [] [mkWj JMyself true int10]; plain "b" [] []; mkSt (NId "c") (SCopy (CName "a")) [] false false None None None None [] []].
  do 3 eexists. exists 2. do 2 eexists. split; [vm_compute; reflexivity|]. split; [vm_compute; reflexivity|]. split; [reflexivity|]. split; [reflexivity|]. split; [reflexivity|].
  vm_compute. discriminate.
Qed.
Print Assumptions C74_copied_relative_jump_refuted.
(* The same list of stated parameters counts differently: of two values for one parameter the
   first counts for an instance of a definition, the last for a copy. *)
Theorem C74_repeated_parameter_refuted :
  exists ps h x y, read yes keep None ([], []) [plain "a" ps []; again (NId "b") ps] = Ok (h, [x; y]) /\ value x "w" = Some int0 /\ value y "w" = Some int10.
Proof. exists [("w", int0); ("w", int10)]. do 3 eexists. repeat split; vm_compute; reflexivity. Qed.
Print Assumptions C74_repeated_parameter_refuted.
(* The metadata a copy has from its original names the original as its source. *)
Theorem C74_metadata_source_refuted :
  exists l h x y m, read yes keep None ([], []) l = Ok (h, [x; y]) /\ In m (c_meta y) /\ m_source m <> c_name y /\ m_source m = c_name x.
Proof.
  exists [ex_first; ex_second]. do 4 eexists. split; [vm_compute; reflexivity|]. split; [left; reflexivity|]. split; [vm_compute; discriminate|reflexivity].
Qed.
Print Assumptions C74_metadata_source_refuted.
(* The name made for a copy may be one that is already written out: the file is refused. *)
Theorem C74_made_name_refuted :
  exists l d h st, read yes keep None ([], []) l = Ok (h, st) /\ made (s_name d) /\
    read yes keep None ([], []) (l ++ [d]) = Raise /\ exists e, read yes keep None ([], []) (l ++ [mkSt (NId "other") (s_type d) [] false false None None None None [] []]) = Ok e.
Proof.
  exists [plain "a_2" [] []], (again (NCopyId "a") []). do 2 eexists. repeat split; try (vm_compute; reflexivity). eexists. vm_compute. reflexivity.
Qed.
Print Assumptions C74_made_name_refuted.
