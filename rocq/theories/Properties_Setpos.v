(** Property C55: the generated function that sets up a component instance stores the value of every SETTING parameter. *)
From Coq Require Import List String Ascii Bool QArith Qcanon Qround ZArith Arith Lia.
From Verif Require Import PyStr Expr ExprSem Properties_Expr Print Properties_Print Setpos.
Import ListNotations.
Local Open Scope string_scope.
Local Open Scope list_scope.
Local Open Scope nat_scope.

(** * What is to be stored *)
(** The value of a parameter of an instance: the first one given, else the default of the component type. *)
Definition given (ps : list param) (n : string) (v : pv) : Prop :=
  exists l r, ps = l ++ mkPar n v :: r /\ forall x, In x l -> p_name x <> n.
Definition effective (ps : list param) (x : param) (v : pv) : Prop :=
  given ps (p_name x) v \/ (forall y, In y ps -> p_name y <> p_name x) /\ v = p_value x.

Section Spec.
  Variable IB : binop -> list val -> list val -> option val.
  Variable IU : unop -> list val -> option val.
  (** the meaning of names in the instrument and in the generated program *)
  Variables env env' : string -> option val.
  Variable lit : string -> option string.
  Definition has (n : node) (v : val) : Prop := den IB IU env false n = Some [v].
  Definition elem_is (e : elem) (q : Qc) : Prop := match e with ENum x => q = x | EName s => env s = Some (VN q) end.
  Definition no_text (s : string) : Prop := s = "0" \/ s = "NULL" \/ s = """""".
  Definition simple (n : node) : Prop := match n with NVal _ _ _ | NUn _ _ _ | NBin _ _ _ _ | NTri _ _ _ _ => True | _ => False end.
  (** [holds t v c]: a member of type [t] with contents [c] holds the value [v] *)
  Inductive holds : ftype -> pv -> cval -> Prop :=
  | h_text_none d sh : holds FText (Absent d sh) (CText "")
  | h_text_null s d sh : no_text s -> holds FText (Exp (NVal (PStr s) d OValue) sh) (CText "")
  | h_text_literal s d sh x : lit s = Some x -> ~ no_text s -> holds FText (Exp (NVal (PStr s) d OValue) sh) (CText x)
  | h_text n sh s : has n (VS s) -> (forall p d, n <> NVal p d OValue) -> holds FText (Exp n sh) (CText s)
  | h_text_nullptr n sh : has n (VN 0%Qc) -> holds FText (Exp n sh) (CText "")
  | h_num_none d d' sh : holds (FNum d) (Absent d' sh) (convert d 0%Qc)
  | h_num d n sh q : has n (VN q) -> holds (FNum d) (Exp n sh) (convert d q)
  | h_vec_none d d' sh : holds (FVec d) (Absent d' sh) (CPtr Null)
  | h_vec_null d n sh : has n (VN 0%Qc) -> holds (FVec d) (Exp n sh) (CPtr Null)
  | h_vec d n sh v : has n v -> v <> VN 0%Qc -> holds (FVec d) (Exp n sh) (CPtr (Points v))
  | h_vec_items d d' l qs : Forall2 elem_is l qs -> holds (FVec d) (Items d' l) (CPtr (Fresh (map (convert_elem d) qs))).

  (** expressions whose printed form C reads correctly (C07) and whose names mean in the program what they mean in the instrument *)
  Definition usable (n : node) : Prop :=
    simple n /\ tight c_table (prefixed "_instrument_var._parameters.") true n
    /\ forall o s, In (o, s) (names n) -> env' (prefixed "_instrument_var._parameters." o s) = env s.
  Definition named (n : node) : Prop := match n with NVal (PStr _) _ o => ot_is_id o = true | _ => False end.
  Definition computed (n : node) : Prop := named n \/ match n with NUn _ _ _ | NBin _ _ _ _ | NTri _ _ _ _ => True | _ => False end.
  (** values of the kind their member is made for; what is outside of this is the subject of the refutations below *)
  Definition regular (t : ftype) (v : pv) : Prop :=
    match t, v with
    | FText, Absent _ _ => True
    | FText, Exp (NVal (PStr s) DStr OValue) _ => no_text s \/ exists x, lit s = Some x /\ String.length x + 2 <= String.length s /\ room (String.length x)
    | FText, Exp n _ => computed n /\ usable n /\ ((exists s, has n (VS s) /\ room (String.length s)) \/ has n (VN 0%Qc))
    | FNum _, Absent d sh => d <> DStr /\ sh <> Vec
    | FNum _, Exp n sh => is_str v = false /\ is_vector v = false /\ usable n /\ exists q, has n (VN q)
    | FVec _, Absent d _ => d <> DStr
    | FVec _, Exp n _ => named n /\ usable n /\ exists x, has n x
    | FVec _, Items _ l => Forall (fun e => match e with ENum _ => True | EName s => env' s = env s /\ exists q, env s = Some (VN q) end) l
    | _, _ => False
    end.
  Definition typed (t : ftype) (c : cval) : Prop :=
    match t, c with FText, CText _ | FNum _, _ | FVec _, CPtr _ => True | _, _ => False end.
  (** statements on one member *)
  Inductive steps (t : ftype) : list stmt -> cval -> cval -> Prop :=
  | s_nil c : steps t [] c c
  | s_cons x r c c1 c2 : step IB IU env' lit t x c c1 -> steps t r c1 c2 -> steps t (x :: r) c c2.

  Hypothesis Hcalls : calls IB IU.
  Hypothesis Hnull : env' "NULL" = Some (VN 0%Qc).

  Lemma reads_fun tb ts n n' : reads tb ts n -> reads tb ts n' -> n = n'.
  Proof. intros [k K] [k' K']. specialize (K (k + k') ltac:(lia)). specialize (K' (k + k') ltac:(lia)). congruence. Qed.
  Lemma value_fun ts v v' : value IB IU env' ts v -> value IB IU env' ts v' -> v = v'.
  Proof. intros (n & R & D) (n' & R' & D'). rewrite (reads_fun _ _ _ _ R R') in D. congruence. Qed.
  Lemma usable_value n v : usable n -> has n v -> value IB IU env' (print (prefixed pfx) true n) v.
  Proof.
    intros (_ & T & N) D. destruct (C07_c_reads_the_value_partial (prefixed pfx) n T IB IU env env' Hcalls N) as (n' & R & D').
    exists n'. split; [exact R|]. rewrite D'. exact D.
  Qed.
  Lemma number_value q : value IB IU env' (num_toks q) (VN q).
  Proof.
    destruct (C07_c_reads_the_value_partial (prefixed pfx) (NVal (PNum q) DInt OValue) eq_refl IB IU env env' Hcalls) as (n' & R & D').
    - intros o s [].
    - exists n'. split; [exact R|]. rewrite D'. reflexivity.
  Qed.
  Lemma name_value s v : env' s = Some v -> value IB IU env' [TId s] v.
  Proof.
    intro E. destruct (C07_c_reads_the_value_partial plain (NVal (PStr s) DUndef OId) (or_introl eq_refl) IB IU env' env' Hcalls) as (n' & R & D').
    - intros o x [H|[]]. injection H as <- <-. reflexivity.
    - exists n'. split; [exact R|]. rewrite D'. cbn. now rewrite E.
  Qed.
  Lemma step_fun t x c c1 c2 : step IB IU env' lit t x c c1 -> step IB IU env' lit t x c c2 -> c1 = c2.
  Proof.
    intros H1 H2. inversion H1; subst; inversion H2; subst; try reflexivity;
      repeat match goal with A : value IB IU env' ?ts ?v, B : value IB IU env' ?ts ?w |- _ =>
        let E := fresh in pose proof (value_fun _ _ _ A B) as E; clear B; try (injection E as E); try subst end;
      try congruence; try (match goal with A : _ \/ _ |- _ => destruct A; subst end; congruence);
      try (assert (s = s0) by congruence; subst; first [reflexivity | lia]).
  Qed.
  Lemma steps_fun t l : forall c c1 c2, steps t l c c1 -> steps t l c c2 -> c1 = c2.
  Proof.
    induction l as [|x l IH]; intros c c1 c2 H1 H2; inversion H1; subst; inversion H2; subst; [reflexivity|].
    match goal with A : step _ _ _ _ t x c ?a, B : step _ _ _ _ t x c ?b |- _ => pose proof (step_fun _ _ _ _ _ A B); subst end. eauto.
  Qed.

  Lemma update_at {A} (pre : list A) x y r : update (List.length pre) y (pre ++ x :: r) = pre ++ y :: r.
  Proof. induction pre as [|a pre IH]; cbn; [reflexivity|now rewrite IH]. Qed.
  Lemma elements_run d l : forall pre qs, Forall2 (fun ts q => value IB IU env' ts (VN q)) l qs ->
    steps (FVec d) (elements (List.length pre) l) (CPtr (Fresh (pre ++ repeat 0%Qc (List.length l)))) (CPtr (Fresh (pre ++ map (convert_elem d) qs))).
  Proof.
    induction l as [|ts l IH]; intros pre qs H; inversion H as [|? q ? qs' V R]; subst; cbn [elements List.length repeat map]; [constructor|].
    econstructor.
    - apply st_element with (q := q); [exact V|]. rewrite app_length. cbn. lia.
    - rewrite update_at. specialize (IH (pre ++ [convert_elem d q]) qs' R). rewrite app_length in IH. cbn [List.length] in IH.
      replace (List.length pre + 1) with (S (List.length pre)) in IH by lia. rewrite <- !app_assoc in IH. exact IH.
  Qed.
  Lemma items_values l : Forall (fun e => match e with ENum _ => True | EName s => env' s = env s /\ exists q, env s = Some (VN q) end) l ->
    exists qs, Forall2 elem_is l qs /\ Forall2 (fun ts q => value IB IU env' ts (VN q)) (map elem_text l) qs.
  Proof.
    induction 1 as [|e l He _ (qs & A & B)]; [exists []; split; constructor|].
    destruct e as [q|s].
    - exists (q :: qs). split; cbn [map]; constructor; try assumption; [reflexivity|apply number_value].
    - destruct He as (Es & q & Eq). exists (q :: qs). split; cbn [map]; constructor; try assumption. cbn [elem_text]. apply name_value. now rewrite Es.
  Qed.

  Lemma member_text d : member d = Ok FText -> is_str d = true.
  Proof. unfold member, c_type. destruct (is_op d), (data d), (is_str d), (is_vec (shape_of d)); congruence. Qed.
  Lemma not_str_unless_text d t : member d = Ok t -> t <> FText -> is_str d = false.
  Proof. unfold member. destruct (c_type d), (is_str d); congruence. Qed.
  Lemma vector_shape d : is_op d = false -> c_type d <> Raise -> is_vector d = is_vec (shape_of d).
  Proof. unfold c_type. destruct d as [| [| | | | | |] |]; cbn; congruence. Qed.
  Lemma member_vec d e : member d = Ok (FVec e) -> is_str d = false /\ is_vector d = true /\ c_type d = Ok (FVec e).
  Proof.
    intro H. assert (S1 : is_str d = false) by (apply (not_str_unless_text d (FVec e)); [exact H|discriminate]).
    unfold member in H. rewrite S1 in H. destruct (c_type d) as [t| |] eqn:C; [|discriminate|discriminate]. injection H as ->. split; [exact S1|split; [|reflexivity]].
    rewrite vector_shape; unfold c_type in C; destruct (is_op d) eqn:O; try discriminate; [destruct (data d), (is_vec (shape_of d)); congruence|reflexivity|].
    unfold c_type. rewrite O. destruct (data d), (is_vec (shape_of d)); discriminate.
  Qed.
  Lemma member_num d e : member d = Ok (FNum e) -> is_str d = false /\ is_vector d = false.
  Proof.
    intro H. assert (S1 : is_str d = false) by (apply (not_str_unless_text d (FNum e)); [exact H|discriminate]).
    unfold member in H. rewrite S1 in H. destruct (c_type d) as [t| |] eqn:C; [|discriminate|discriminate]. injection H as ->. split; [exact S1|].
    rewrite vector_shape; unfold c_type in C; destruct (is_op d) eqn:O; try discriminate; [destruct (data d), (is_vec (shape_of d)); congruence|reflexivity|].
    unfold c_type. rewrite O. destruct (data d), (is_vec (shape_of d)); discriminate.
  Qed.
  Lemma one t x c c' : step IB IU env' lit t x c c' -> steps t [x] c c'.
  Proof. intro H. econstructor; [exact H|constructor]. Qed.

  Lemma line_stores default v t o : member default = Ok t -> regular t v -> typed t o ->
    exists ss c, parameter_line default v = Ok ss /\ steps t ss o c /\ holds t v c /\ typed t c.
  Proof.
    intros M R T. destruct t as [|d|d|sh]; [| | |now destruct R].
    - (* text *)
      pose proof (member_text _ M) as S1. destruct o as [| |o|]; try now destruct T.
      assert (P : forall n sh, computed n -> usable n -> ((exists s, has n (VS s) /\ room (String.length s)) \/ has n (VN 0%Qc)) ->
        exists ss c, parameter_line default (Exp n sh) = Ok ss /\ steps FText ss (CText o) c /\ holds FText (Exp n sh) c /\ typed FText c).
      { intros n sh C U V.
        assert (L : parameter_line default (Exp n sh) = Ok [CopyIf (print (prefixed pfx) true n)]).
        { unfold parameter_line. rewrite S1. cbn [orb]. destruct C as [C|C].
          - destruct n as [|[|s] d0 o0| | | | |]; try now destruct C. cbn [is_id]. cbn in C. now rewrite C.
          - destruct n; try now destruct C; rewrite orb_true_r; reflexivity. all: now destruct C. }
        destruct V as [(s & D & Rm)|D].
        - exists [CopyIf (print (prefixed pfx) true n)]. destruct (string_dec s "") as [->|Ns].
          + exists (CText ""). split; [exact L|]. split; [apply one; eapply st_copy_if_empty; [apply usable_value; eassumption|now left]|]. split; [|exact I].
            apply h_text; [exact D|]. intros p d0 ->. destruct C as [C|C]; [|exact C]. destruct p; cbn in C; [exact C|discriminate].
          + exists (CText s). split; [exact L|]. split; [apply one; apply st_copy_if; [apply usable_value; eassumption|exact Ns|exact Rm]|]. split; [|exact I].
            apply h_text; [exact D|]. intros p d0 ->. destruct C as [C|C]; [|exact C]. destruct p; cbn in C; [exact C|discriminate].
        - exists [CopyIf (print (prefixed pfx) true n)], (CText ""). split; [exact L|].
          split; [apply one; eapply st_copy_if_empty; [apply usable_value; eassumption|now right]|]. split; [now apply h_text_nullptr|exact I]. }
      destruct v as [d sh|n sh|d l]; [|destruct n as [q|p d ot|d l|op d l|op d l r|d l1 l2 l3|l]|now destruct R].
      + exists [Terminate], (CText ""). unfold parameter_line. rewrite S1. cbn. repeat split; [apply one; constructor|constructor].
      + destruct R as (C & U & V). now apply P.
      + destruct p as [q|s]; [destruct d, ot; destruct R as (C & U & V); now apply P|].
        destruct d; try (destruct ot; destruct R as (C & U & V); now apply P). destruct ot; try (destruct R as (C & U & V); now apply P).
        unfold parameter_line. rewrite S1. cbn [orb is_id is_op ot_is_id].
        destruct ((s =?s "0") || (s =?s "NULL") || (s =?s """""")) eqn:E.
        * exists [Terminate], (CText ""). split; [reflexivity|]. split; [apply one; constructor|]. split; [|exact I]. apply h_text_null.
          apply orb_true_iff in E as [E|E]; [apply orb_true_iff in E as [E|E]|]; apply String.eqb_eq in E; subst; unfold no_text; auto.
        * assert (N : ~ no_text s). { intros [->|[->| ->]]; discriminate E. }
          destruct R as [R|(x & Lx & Ln & Rm)]; [contradiction|].
          exists [Copy s (String.length s - 1)], (CText x). split; [reflexivity|]. split; [apply one; apply st_copy; [exact Lx|lia|exact Rm]|]. split; [now apply h_text_literal|exact I].
      + destruct R as (C & U & V). now apply P.
      + destruct R as (C & U & V). now apply P.
      + destruct R as (C & U & V). now apply P.
      + destruct R as (C & U & V). now apply P.
      + destruct R as (C & U & V). now apply P.
    - (* numbers *)
      destruct (member_num _ _ M) as (S1 & S2). destruct v as [d' sh|n sh|d' l]; [| |now destruct R].
      + destruct R as (Nd & Ns). exists [Assign [TNum 0%Qc]], (convert d 0%Qc). split.
        * unfold parameter_line. rewrite S1, S2. cbn [orb is_str is_vector]. destruct d'; try contradiction; destruct sh; try contradiction; reflexivity.
        * split; [apply one; apply st_assign; exact (number_value 0%Qc)|]. split; [constructor|exact I].
      + destruct R as (S3 & S4 & U & q & D). exists [Assign (print (prefixed pfx) true n)], (convert d q). split.
        * unfold parameter_line. rewrite S1, S2, S3, S4. cbn [orb]. destruct n as [x|p d0 o0| | | | |]; try (now destruct U as [[] _]); try (rewrite orb_true_r; reflexivity).
          cbn [is_id is_op orb has_value]. destruct (ot_is_id o0) eqn:O; [reflexivity|]. cbn [negb]. cbn [text print]. rewrite O.
          destruct p as [x|x]; [reflexivity|]. destruct o0; try discriminate O; reflexivity.
        * split; [apply one; apply st_assign; now apply usable_value|]. split; [now constructor|exact I].
    - (* vectors *)
      destruct (member_vec _ _ M) as (S1 & S2 & S3). destruct o as [| | |o]; try now destruct T. destruct v as [d' sh|n sh|d' l].
      + exists [Assign [TId "NULL"]], (CPtr Null). split.
        * unfold parameter_line. rewrite S1, S2. cbn [orb is_str is_id has_value]. destruct d'; try reflexivity. now destruct R.
        * split; [apply one; apply st_assign_null; now apply name_value|]. split; [constructor|exact I].
      + destruct R as (N & U & x & D). destruct n as [|[|s] d0 o0| | | | |]; try now destruct N. cbn in N.
        assert (L : parameter_line default (Exp (NVal (PStr s) d0 o0) sh) = Ok [Assign (print (prefixed pfx) true (NVal (PStr s) d0 o0))]).
        { unfold parameter_line. rewrite S1, S2. cbn [orb is_str is_id]. rewrite N. destruct o0; try discriminate N; reflexivity. }
        assert (Dec : x = VN 0%Qc \/ x <> VN 0%Qc). { destruct x as [q|y]; [|right; discriminate]. destruct (Qc_eq_dec q 0) as [->|]; [now left|right; congruence]. }
        destruct Dec as [->|Nx].
        * eexists. exists (CPtr Null). split; [exact L|]. split; [apply one; apply st_assign_null; now apply usable_value|]. split; [now constructor|exact I].
        * eexists. exists (CPtr (Points x)). split; [exact L|]. split; [apply one; apply st_assign_ptr; [now apply usable_value|exact Nx]|]. split; [now constructor|exact I].
      + destruct (items_values l R) as (qs & A & B). exists (Calloc (FVec d) (List.length l) :: elements 0 (map elem_text l)), (CPtr (Fresh (map (convert_elem d) qs))). split.
        * unfold parameter_line. rewrite S1, S2, S3. reflexivity.
        * split; [|split; [now constructor|exact I]]. econstructor; [constructor|].
          pose proof (elements_run d (map elem_text l) [] qs B) as E. rewrite map_length in E. exact E.
  Qed.
End Spec.

(** * One instance *)
Lemma find_given ps n : match find (fun x => p_name x =?s n) ps with Some x => given ps n (p_value x) | None => forall y, In y ps -> p_name y <> n end.
Proof.
  induction ps as [|x ps IH]; cbn [find]; [intros y []|]. destruct (p_name x =?s n) eqn:E.
  - apply String.eqb_eq in E. subst. exists [], ps. split; [now destruct x|intros ? []].
  - apply String.eqb_neq in E. destruct (find (fun x => p_name x =?s n) ps) as [y|].
    + destruct IH as (l & r & -> & H). exists (x :: l), r. split; [reflexivity|]. intros z [<-|Hz]; [exact E|now apply H].
    + intros z [<-|Hz]; [exact E|now apply IH].
Qed.
Lemma given_fun ps n v w : given ps n v -> given ps n w -> v = w.
Proof.
  intros (l & r & -> & H) (l' & r' & E & H'). revert l' r' E H'. induction l as [|x l IH]; intros [|y l'] r' E H'; cbn [app] in E; injection E as E1 E2.
  - congruence.
  - subst y. now destruct (H' _ (or_introl eq_refl)).
  - subst x. now destruct (H _ (or_introl eq_refl)).
  - subst y. apply (IH (fun z Hz => H z (or_intror Hz)) l' r' E2). intros z Hz. apply H'. now right.
Qed.
Lemma effective_fun ps x v w : effective ps x v -> effective ps x w -> v = w.
Proof.
  assert (A : forall v, given ps (p_name x) v -> (forall y, In y ps -> p_name y <> p_name x) -> False).
  { intros u (l & r & -> & _) H. apply (H (mkPar (p_name x) u)); [apply in_elt|reflexivity]. }
  intros [G|[N ->]] [G'|[N' ->]]; [eapply given_fun; eassumption|now destruct (A _ G N')|now destruct (A _ G' N)|reflexivity].
Qed.
Lemma get_effective c ps x : In x (t_setting c) -> NoDup (map p_name (t_setting c)) -> (forall y, In y (t_define c) -> p_name y <> p_name x) ->
  exists v, get_parameter c ps (p_name x) = Some v /\ effective ps x v.
Proof.
  intros Hx Nd Hd. unfold get_parameter, lookup. pose proof (find_given ps (p_name x)) as F. destruct (find _ ps) as [y|].
  - exists (p_value y). split; [reflexivity|now left].
  - pose proof (find_given (t_define c) (p_name x)) as D. destruct (find _ (t_define c)) as [y|].
    + destruct D as (l & r & E & _). destruct (Hd (mkPar (p_name x) (p_value y))); [rewrite E; apply in_elt|reflexivity].
    + exists (p_value x). split; [|right; auto]. cbn [option_map]. clear - Hx Nd. induction (t_setting c) as [|y l IH]; [destruct Hx|]. cbn [find]. destruct (p_name y =?s p_name x) eqn:E.
      * cbn. f_equal. apply String.eqb_eq in E. destruct Hx as [->|Hx]; [reflexivity|]. inversion Nd as [|? ? N _]; subst. destruct N. rewrite E. now apply in_map.
      * destruct Hx as [->|Hx]; [now rewrite String.eqb_refl in E|]. apply IH; [exact Hx|]. now inversion Nd.
Qed.

Section Instance.
  Variable IB : binop -> list val -> list val -> option val.
  Variable IU : unop -> list val -> option val.
  Variables env env' : string -> option val.
  Variable lit : string -> option string.
  Notation runs := (runs IB IU env' lit).
  Definition same (s s' : state) : Prop := forall f, s f = s' f.
  Lemma set_other s f c g : g <> f -> set_ s f c g = s g.
  Proof. intro N. unfold set_. apply String.eqb_neq in N. now rewrite N. Qed.
  Lemma set_this s f c : set_ s f c f = Some c.
  Proof. unfold set_. now rewrite String.eqb_refl. Qed.
  Lemma runs_app tys a b s s1 s2 : runs tys a s s1 -> runs tys b s1 s2 -> runs tys (a ++ b) s s2.
  Proof. induction 1; intro K; [exact K|]. cbn [app]. econstructor; eauto. Qed.
  Lemma steps_runs tys f t ss : In (f, t) tys -> forall c c' s, s f = Some c -> steps IB IU env' lit t ss c c' ->
    exists s', runs tys (map (fun x => (f, x)) ss) s s' /\ s' f = Some c' /\ forall g, g <> f -> s' g = s g.
  Proof.
    intro Hf. induction ss as [|x ss IH]; intros c c' s Hs H; inversion H; subst; cbn [map].
    - exists s. split; [constructor|]. auto.
    - match goal with A : step _ _ _ _ t x c ?c1, B : steps _ _ _ _ t ss ?c1 c' |- _ =>
        destruct (IH c1 c' (set_ s f c1) (set_this _ _ _) B) as (s' & R & E & O); exists s'; split; [econstructor; eassumption|] end.
      split; [exact E|]. intros g N. rewrite (O g N). now apply set_other.
  Qed.
  Lemma runs_fun tys : (forall f t t', In (f, t) tys -> In (f, t') tys -> t = t') ->
    forall l s1 s2 s1' s2', same s1 s2 -> runs tys l s1 s1' -> runs tys l s2 s2' -> same s1' s2'.
  Proof.
    intros Hd. induction l as [|[f x] l IH]; intros s1 s2 s1' s2' E H1 H2; inversion H1; subst; inversion H2; subst; [exact E|].
    match goal with A : In (f, ?t) tys, B : In (f, ?t') tys |- _ => assert (t = t') by (eapply Hd; eassumption); subst end.
    match goal with A : s1 f = Some ?a, B : s2 f = Some ?b |- _ => assert (a = b) by (specialize (E f); congruence); subst end.
    match goal with A : step _ _ _ _ _ x ?c ?a, B : step _ _ _ _ _ x ?c ?b |- _ => pose proof (step_fun IB IU env' lit _ _ _ _ _ A B); subst end.
    eapply IH; [|eassumption|eassumption]. intro g. unfold set_. now destruct (g =?s f).
  Qed.
  Lemma members_in l tys : members l = Ok tys -> map fst tys = map p_name l /\ (forall x, In x l -> exists t, member (p_value x) = Ok t /\ In (p_name x, t) tys).
  Proof.
    revert tys. induction l as [|x l IH]; intros tys H; cbn [members] in H; [injection H as <-; split; [reflexivity|intros ? []]|].
    destruct (member (p_value x)) as [t| |] eqn:M; try discriminate. destruct (members l) as [rest| |]; try discriminate. injection H as <-.
    destruct (IH rest eq_refl) as (A & B). split; [cbn; now rewrite A|]. intros y [<-|Hy]; [exists t; split; [exact M|now left]|].
    destruct (B y Hy) as (t' & M' & I'). exists t'. split; [exact M'|now right].
  Qed.
End Instance.

(** The parameters of an instance are stored.  The SETTING parameters have distinct names that are not also DEFINITION parameters (C48),
    every value is of a kind its member is made for, and the members start with any contents.  Then the lines are generated; they
    can be executed; however they are executed, every member holds the value of its parameter afterwards and nothing else has
    changed. *)
Theorem C55_parameters_are_stored_partial : forall IB IU env env' lit c ps tys s0,
  calls IB IU -> env' "NULL" = Some (VN 0%Qc) ->
  NoDup (map p_name (t_setting c)) -> (forall x y, In x (t_setting c) -> In y (t_define c) -> p_name y <> p_name x) ->
  members (t_setting c) = Ok tys ->
  (forall x v t, In x (t_setting c) -> effective ps x v -> In (p_name x, t) tys -> regular IB IU env env' lit t v) ->
  (forall f t, In (f, t) tys -> exists o, s0 f = Some o /\ typed t o) ->
  exists lines, setting_lines c ps (t_setting c) = Ok lines
    /\ (exists s, runs IB IU env' lit tys lines s0 s)
    /\ forall s, runs IB IU env' lit tys lines s0 s ->
         (forall x v t, In x (t_setting c) -> effective ps x v -> In (p_name x, t) tys -> exists o, s (p_name x) = Some o /\ holds IB IU env lit t v o)
         /\ (forall f, ~ In f (map p_name (t_setting c)) -> s f = s0 f).
Proof.
  intros IB IU env env' lit c ps tys s0 Hc Hn Nd Hd M R T0. destruct (members_in _ _ M) as (Mn & Mi).
  assert (Ft : forall f t t', In (f, t) tys -> In (f, t') tys -> t = t').
  { rewrite <- Mn in Nd. clear - Nd. induction tys as [|[g u] tys IH]; [intros ? ? ? []|]. intros f t t' [A|A] [B|B].
    - congruence.
    - injection A as -> ->. inversion Nd; subst. destruct H1. change f with (fst (f, t')). now apply in_map.
    - injection B as -> ->. inversion Nd; subst. destruct H1. change f with (fst (f, t)). now apply in_map.
    - inversion Nd; subst. eapply IH; eassumption. }
  assert (G : forall l, incl l (t_setting c) -> NoDup (map p_name l) -> forall s0, (forall f t, In (f, t) tys -> In f (map p_name l) -> exists o, s0 f = Some o /\ typed t o) ->
    exists lines s, setting_lines c ps l = Ok lines /\ runs IB IU env' lit tys lines s0 s
      /\ (forall x v t, In x l -> effective ps x v -> In (p_name x, t) tys -> exists o, s (p_name x) = Some o /\ holds IB IU env lit t v o)
      /\ (forall f, ~ In f (map p_name l) -> s f = s0 f)).
  { clear s0 T0. induction l as [|x l IH]; intros Hl Nl s0 T0.
    - exists [], s0. split; [reflexivity|]. split; [constructor|]. split; [intros ? ? ? []|reflexivity].
    - assert (Hx : In x (t_setting c)) by (apply Hl; now left). destruct (Mi x Hx) as (t & Mt & It).
      destruct (T0 _ _ It (or_introl eq_refl)) as (o & So & To).
      destruct (get_effective c ps x Hx Nd (fun y => Hd x y Hx)) as (v & Gv & Ev).
      destruct (line_stores IB IU env env' lit Hc Hn (p_value x) v t o Mt (R _ _ _ Hx Ev It) To) as (ss & o' & Ls & St & Ho & _).
      destruct (steps_runs IB IU env' lit tys (p_name x) t ss It o o' s0 So St) as (s1 & R1 & E1 & O1).
      cbn [map] in Nl. inversion Nl as [|? ? Nx Nl']; subst.
      destruct (IH (fun y Hy => Hl y (or_intror Hy)) Nl' s1) as (lines & s & L & Rr & A & B).
      { intros f u Hu Hf. rewrite O1; [apply T0; [exact Hu|now right]|]. intro E. subst f. contradiction. }
      exists (map (fun y => (p_name x, y)) ss ++ lines), s. split; [|split; [|split]].
      + cbn [setting_lines]. rewrite Gv, Ls, L. reflexivity.
      + eapply runs_app; eassumption.
      + intros y w u [<-|Hy] Ew Iu.
        * rewrite (effective_fun _ _ _ _ Ew Ev), (Ft _ _ _ Iu It). exists o'. split; [|exact Ho]. rewrite B by exact Nx. exact E1.
        * exact (A y w u Hy Ew Iu).
      + intros f Hf. rewrite B by (intro; apply Hf; now right). apply O1. intro E. apply Hf. left. now symmetry. }
  destruct (G (t_setting c) (incl_refl _) Nd s0) as (lines & s & L & Rr & A & B); [intros f t Hf _; now apply T0|].
  exists lines. split; [exact L|]. split; [now exists s|]. intros s' R'. pose proof (runs_fun IB IU env' lit tys Ft lines s0 s0 s' s (fun _ => eq_refl) R' Rr) as E.
  split; [intros x v t Hx Ev It; rewrite (E (p_name x)); exact (A x v t Hx Ev It)|]. intros f Hf. rewrite (E f). now apply B.
Qed.
Print Assumptions C55_parameters_are_stored_partial.

(** A component with a number set by an expression of an instrument parameter, a text, a list and an integer without value. *)
Definition ex_type : ctype := mkType [mkPar "mode" (Exp (cint 1) Scalar)]
  [mkPar "width" (Exp (cflt 1) Scalar); mkPar "file" (Exp (NVal (PStr "NULL") DStr OValue) Scalar); mkPar "edges" (Absent DFloat Vec); mkPar "count" (Absent DInt Scalar)].
Definition ex_given : list param :=
  [mkPar "width" (Exp (NBin BMul DFloat [cint 2] [NVal (PStr "a") DFloat OParam]) Scalar); mkPar "file" (Exp (NVal (PStr """x.dat""") DStr OValue) Scalar);
   mkPar "edges" (Items DFloat [ENum (Z2Qc (-1)); EName "PI"])].
Definition ex_env (s : string) : option val := if s =?s "a" then Some (VN (Z2Qc 7)) else if s =?s "PI" then Some (VN (Z2Qc 3)) else if s =?s "NULL" then Some (VN 0%Qc) else None.
Definition ex_env' (s : string) : option val := if s =?s "_instrument_var._parameters.a" then Some (VN (Z2Qc 7)) else if s =?s "PI" then Some (VN (Z2Qc 3)) else if s =?s "NULL" then Some (VN 0%Qc) else None.
Definition ex_lit (s : string) : option string := Some (String.substring 1 (String.length s - 2) s).
Definition ex_tys : list (string * ftype) := [("width", FNum DFloat); ("file", FText); ("edges", FVec DFloat); ("count", FNum DInt)].
Definition ex_start (f : string) : option cval :=
  if f =?s "width" then Some (CDouble 0%Qc) else if f =?s "file" then Some (CText "") else if f =?s "edges" then Some (CPtr Null) else if f =?s "count" then Some (CInt 0) else None.
Definition ex_IB (o : binop) (a b : list val) : option val := None.
Definition ex_IU (o : unop) (a : list val) : option val := None.
Example C55_nonvacuous :
  members (t_setting ex_type) = Ok ex_tys /\ exists lines s, setting_lines ex_type ex_given (t_setting ex_type) = Ok lines
    /\ runs ex_IB ex_IU ex_env' ex_lit ex_tys lines ex_start s
    /\ s "width" = Some (CDouble (Z2Qc 14)) /\ s "file" = Some (CText "x.dat") /\ s "edges" = Some (CPtr (Fresh [Z2Qc (-1); Z2Qc 3])) /\ s "count" = Some (CInt 0).
Proof.
  split; [reflexivity|].
  assert (E : forall n v, In n ["width"; "file"; "edges"; "count"] -> forall x, In x (t_setting ex_type) -> p_name x = n -> effective ex_given x v ->
    (n = "width" /\ v = p_value (nth 0 ex_given (mkPar "" (Absent DInt Scalar)))) \/ (n = "file" /\ v = p_value (nth 1 ex_given (mkPar "" (Absent DInt Scalar))))
    \/ (n = "edges" /\ v = p_value (nth 2 ex_given (mkPar "" (Absent DInt Scalar)))) \/ (n = "count" /\ v = Absent DInt Scalar)).
  { intros n v _ x Hx <- Ev. cbn in Hx. destruct Hx as [<-|[<-|[<-|[<-|[]]]]]; cbn [p_name].
    - left. split; [reflexivity|]. eapply effective_fun; [exact Ev|]. left. exists [], (tl ex_given). split; [reflexivity|intros ? []].
    - right. left. split; [reflexivity|]. eapply effective_fun; [exact Ev|]. left. exists [nth 0 ex_given (mkPar "" (Absent DInt Scalar))], (tl (tl ex_given)). split; [reflexivity|]. intros ? [<-|[]]. discriminate.
    - right. right. left. split; [reflexivity|]. eapply effective_fun; [exact Ev|]. left. exists [nth 0 ex_given (mkPar "" (Absent DInt Scalar)); nth 1 ex_given (mkPar "" (Absent DInt Scalar))], []. split; [reflexivity|]. intros ? [<-|[<-|[]]]; discriminate.
    - right. right. right. split; [reflexivity|]. eapply effective_fun; [exact Ev|]. right. split; [|reflexivity]. intros ? [<-|[<-|[<-|[]]]]; discriminate. }
  destruct (C55_parameters_are_stored_partial ex_IB ex_IU ex_env ex_env' ex_lit ex_type ex_given ex_tys ex_start) as (lines & L & (s & Rs) & H).
  - split; reflexivity.
  - reflexivity.
  - cbn. repeat constructor; cbn; intuition discriminate.
  - intros x y Hx Hy. cbn in Hx, Hy. destruct Hy as [<-|[]]. destruct Hx as [<-|[<-|[<-|[<-|[]]]]]; discriminate.
  - reflexivity.
  - intros x v t Hx Ev It. destruct (E (p_name x) v) with (x := x) as [(N & ->)|[(N & ->)|[(N & ->)|(N & ->)]]]; auto.
    + cbn in Hx. destruct Hx as [<-|[<-|[<-|[<-|[]]]]]; cbn; auto.
    + rewrite N in It. cbn in It. destruct It as [I|[I|[I|[I|[]]]]]; try discriminate I. injection I as <-. cbn. repeat split.
      * do 2 eexists. split; [reflexivity|]. repeat split; apply Nat.leb_le; vm_compute; reflexivity.
      * now left.
      * intros o u [<-|[]] || (intros o u [A|[]]; injection A as <- <-; reflexivity).
      * exists (Z2Qc 14). reflexivity.
    + rewrite N in It. cbn in It. destruct It as [I|[I|[I|[I|[]]]]]; try discriminate I. injection I as <-. cbn. right. exists "x.dat". repeat split; cbn; lia.
    + rewrite N in It. cbn in It. destruct It as [I|[I|[I|[I|[]]]]]; try discriminate I. injection I as <-. cbn. repeat constructor. exists (Z2Qc 3). reflexivity.
    + rewrite N in It. cbn in It. destruct It as [I|[I|[I|[I|[]]]]]; try discriminate I. injection I as <-. cbn. split; discriminate.
  - intros f t [I|[I|[I|[I|[]]]]]; injection I as <- <-; eexists; split; reflexivity || exact I.
  - exists lines, s. split; [exact L|]. split; [exact Rs|]. destruct (H s Rs) as (St & _).
    assert (P1 := St (nth 0 (t_setting ex_type) (mkPar "" (Absent DInt Scalar)))). assert (P2 := St (nth 1 (t_setting ex_type) (mkPar "" (Absent DInt Scalar)))).
    assert (P3 := St (nth 2 (t_setting ex_type) (mkPar "" (Absent DInt Scalar)))). assert (P4 := St (nth 3 (t_setting ex_type) (mkPar "" (Absent DInt Scalar)))).
    cbn [nth ex_type t_setting p_name] in P1, P2, P3, P4.
    destruct (P1 (p_value (nth 0 ex_given (mkPar "" (Absent DInt Scalar)))) (FNum DFloat)) as (o1 & S1 & H1); [now left|left; exists [], (tl ex_given); split; [reflexivity|intros ? []]|now left|].
    destruct (P2 (p_value (nth 1 ex_given (mkPar "" (Absent DInt Scalar)))) FText) as (o2 & S2 & H2); [right; now left|left; exists [nth 0 ex_given (mkPar "" (Absent DInt Scalar))], (tl (tl ex_given)); split; [reflexivity|intros ? [<-|[]]; discriminate]|right; now left|].
    destruct (P3 (p_value (nth 2 ex_given (mkPar "" (Absent DInt Scalar)))) (FVec DFloat)) as (o3 & S3 & H3); [right; right; now left|left; exists [nth 0 ex_given (mkPar "" (Absent DInt Scalar)); nth 1 ex_given (mkPar "" (Absent DInt Scalar))], []; split; [reflexivity|intros ? [<-|[<-|[]]]; discriminate]|right; right; now left|].
    destruct (P4 (Absent DInt Scalar) (FNum DInt)) as (o4 & S4 & H4); [right; right; right; now left|right; split; [intros ? [<-|[<-|[<-|[]]]]; discriminate|reflexivity]|right; right; right; now left|].
    rewrite S1, S2, S3, S4. repeat split; f_equal.
    + inversion H1; subst. unfold has in *. assert (D : den ex_IB ex_IU ex_env false (NBin BMul DFloat [cint 2] [NVal (PStr "a") DFloat OParam]) = Some [VN (Z2Qc 14)]) by reflexivity.
      match goal with A : den _ _ _ _ _ = Some [VN ?q] |- _ => assert (q = Z2Qc 14) as -> by congruence end. reflexivity.
    + inversion H2; subst; unfold has in *; cbn in *; try congruence. all: try (match goal with A : no_text _ |- _ => destruct A as [A|[A|A]]; discriminate A end). all: try (match goal with A : forall _ _, _ <> _ |- _ => now destruct (A _ _ eq_refl) end). match goal with A : ex_lit _ = Some _ |- _ => cbv in A; injection A as <- end. reflexivity.
    + inversion H3; subst. cbn in *. repeat match goal with A : Forall2 _ _ _ |- _ => inversion A; clear A; subst end. cbn in *. subst. match goal with A : Some _ = Some _ |- _ => injection A as <- end. reflexivity.
    + inversion H4; subst. reflexivity.
Qed.

(** * What is not stored *)
Section Negative.
  Variable IB : binop -> list val -> list val -> option val.
  Variable IU : unop -> list val -> option val.
  Variable env' : string -> option val.
  Variable lit : string -> option string.
  Lemma reads_name s : reads c_table [TId s] (NVal (PStr s) DUndef OId).
  Proof. exists 5. intros f Hf. do 5 (destruct f as [|f]; [lia|]). reflexivity. Qed.
  Lemma value_name s v : value IB IU env' [TId s] v -> env' s = Some v.
  Proof. intros (n & R & D). rewrite <- (reads_fun _ _ _ _ (reads_name s) R) in D. cbn in D. destruct (env' s); [now injection D as ->|discriminate]. Qed.
  Lemma elements_stuck t s : env' s = None -> forall l i c c', In (EName s) l -> ~ steps IB IU env' lit t (elements i (map elem_text l)) c c'.
  Proof.
    intro E. induction l as [|e l IH]; intros i c c' H; [destruct H|]. cbn [map elements]. intro K. inversion K; subst. destruct H as [->|H]; [|eapply IH; eassumption].
    match goal with A : step _ _ _ _ _ (Element _ _) _ _ |- _ => inversion A; subst end.
    match goal with A : value _ _ _ _ _ |- _ => apply value_name in A; congruence end.
  Qed.
End Negative.

(** A text or NULL given for a number or a vector is accepted, but the statement made from it is one for a text: it has no meaning
    for a number, and for a vector it writes through the null pointer. *)
Theorem C55_text_or_null_for_a_number_refuted : forall default t s sh, member default = Ok t -> t <> FText ->
  let v := Exp (NVal (PStr s) DStr OValue) sh in
  compatible default v = Ok true /\ exists ss, parameter_line default v = Ok ss /\ forall IB IU env' lit c c', ~ steps IB IU env' lit t ss c c'.
Proof.
  intros default t s sh M N v. pose proof (not_str_unless_text _ _ M N) as S1. split.
  - unfold compatible. assert (O : is_op default = false) by (unfold member, c_type in M; destruct (is_op default); [discriminate|reflexivity]). rewrite O. reflexivity.
  - unfold parameter_line, v. rewrite S1. cbn [orb is_str is_strt dtype_eqb is_id is_op ot_is_id].
    destruct ((s =?s "0") || (s =?s "NULL") || (s =?s """""")); eexists; (split; [reflexivity|]); intros IB IU env' lit c c' K;
      inversion K; subst; match goal with A : step _ _ _ _ _ _ _ _ |- _ => inversion A; subst end; contradiction.
Qed.
Print Assumptions C55_text_or_null_for_a_number_refuted.
Example C55_text_or_null_example : member (Absent DFloat Vec) = Ok (FVec DFloat) /\ member (Exp (cflt 1) Scalar) = Ok (FNum DFloat).
Proof. split; reflexivity. Qed.

(** A vector given by an operation, such as a member of a structure or a function call, is accepted and replaced by NULL. *)
Theorem C55_computed_vector_refuted : forall default d n sh,
  member default = Ok (FVec d) -> match n with NUn _ e _ | NBin _ e _ _ => e <> DStr | _ => False end ->
  compatible default (Exp n sh) = Ok true /\ exists ss, parameter_line default (Exp n sh) = Ok ss
    /\ forall IB IU env env' lit c c' v, env' "NULL" = Some (VN 0%Qc) -> steps IB IU env' lit (FVec d) ss c c' -> has IB IU env n v -> v <> VN 0%Qc ->
         c' = CPtr Null /\ ~ holds IB IU env lit (FVec d) (Exp n sh) c'.
Proof.
  intros default d n sh M Hn. destruct (member_vec _ _ M) as (S1 & S2 & S3).
  assert (O : is_op default = false) by (unfold c_type in S3; destruct (is_op default); [discriminate|reflexivity]).
  split; [unfold compatible; rewrite O; destruct n; first [contradiction | reflexivity]|]. exists [Assign [TId "NULL"]]. split.
  { unfold parameter_line. rewrite S1, S2. destruct n as [| | |op e l|op e l r| |]; try contradiction; destruct e; first [contradiction | reflexivity]. }
  intros IB IU env env' lit c c' v E K Hv Nv. inversion K; subst. match goal with A : steps _ _ _ _ _ [] _ _ |- _ => inversion A; subst end.
  match goal with A : step _ _ _ _ _ _ _ _ |- _ => inversion A; subst end.
  - split; [reflexivity|]. intro H. inversion H; subst. unfold has in *. congruence.
  - match goal with A : value _ _ _ _ _ |- _ => apply value_name in A; congruence end.
Qed.
Print Assumptions C55_computed_vector_refuted.
Example C55_computed_vector_example :
  let n := NBin BStruct DFloat [NVal (PStr "s") DFloat OId] [NVal (PStr "v") DFloat OId] in
  member (Absent DFloat Vec) = Ok (FVec DFloat) /\ exists env, has (fun _ _ _ => Some (VS "data")) ex_IU env n (VS "data").
Proof. split; [reflexivity|]. exists (fun _ => Some (VS "structure")). reflexivity. Qed.

(** An instrument parameter used inside of an initialiser list is written without its prefix; the bare name does not exist in the
    generated program. *)
Theorem C55_parameter_in_list_refuted : forall default d d' s l, member default = Ok (FVec d) -> In (EName s) l ->
  exists ss, parameter_line default (Items d' l) = Ok ss /\ forall IB IU env' lit c c', env' s = None -> ~ steps IB IU env' lit (FVec d) ss c c'.
Proof.
  intros default d d' s l M Hs. destruct (member_vec _ _ M) as (S1 & S2 & S3). unfold parameter_line. rewrite S1, S2, S3. cbn [orb is_str].
  eexists. split; [reflexivity|]. intros IB IU env' lit c c' E K. inversion K; subst. eapply elements_stuck; eassumption.
Qed.
Print Assumptions C55_parameter_in_list_refuted.
Example C55_parameter_in_list_example : member (Items DFloat [ENum 1; ENum 0]) = Ok (FVec DFloat) /\ In (EName "width") [ENum 1; EName "width"].
Proof. split; [reflexivity|cbn; auto]. Qed.

(** A text that does not fit into the 16384 characters of the member is copied nevertheless. *)
Theorem C55_long_text_refuted : forall default s x sh, member default = Ok FText -> s <> "0" -> s <> "NULL" -> s <> """""" ->
  String.length x + 2 = String.length s -> ~ room (String.length x) ->
  exists ss, parameter_line default (Exp (NVal (PStr s) DStr OValue) sh) = Ok ss
    /\ forall IB IU env' lit c c', lit s = Some x -> ~ steps IB IU env' lit FText ss c c'.
Proof.
  intros default s x sh M N1 N2 N3 L R. pose proof (member_text _ M) as S1. unfold parameter_line. rewrite S1. cbn [orb is_id is_op ot_is_id].
  apply String.eqb_neq in N1, N2, N3. rewrite N1, N2, N3. cbn [orb]. eexists. split; [reflexivity|]. intros IB IU env' lit c c' E K.
  inversion K; subst. match goal with A : step _ _ _ _ _ _ _ _ |- _ => inversion A; subst end.
  - match goal with A : lit s = Some ?y |- _ => assert (y = x) by congruence; subst end. contradiction.
  - match goal with A : lit s = Some ?y |- _ => assert (y = x) by congruence; subst end. lia.
Qed.
Print Assumptions C55_long_text_refuted.
Fixpoint many (c : ascii) (n : nat) : string := match n with 0 => "" | S k => String c (many c k) end.
Lemma many_length c n : String.length (many c n) = n.
Proof. induction n as [|n IH]; cbn; [reflexivity|now rewrite IH]. Qed.
Lemma app_length_s a b : String.length (a ++ b) = String.length a + String.length b.
Proof. induction a as [|c a IH]; cbn; [reflexivity|now rewrite IH]. Qed.
Example C55_long_text_example : exists s x, String.length x + 2 = String.length s /\ ~ room (String.length x) /\ s <> "0" /\ s <> "NULL" /\ s <> """""" /\ member (Exp (NVal (PStr s) DStr OValue) Scalar) = Ok FText.
Proof.
  exists ("""" ++ many "x" (Z.to_nat 16384) ++ """")%string, (many "x" (Z.to_nat 16384)). rewrite !app_length_s, !many_length. split; [cbn [String.length]; lia|].
  split; [unfold room; rewrite Z2Nat.id by lia; lia|]. assert (H : forall t, String.length t < 4 -> ("""" ++ many "x" (Z.to_nat 16384) ++ """")%string <> t).
  { intros t Ht E. apply (f_equal String.length) in E. rewrite !app_length_s, many_length in E. lia. }
  split; [apply H; cbn; lia|]. split; [|split; [apply H; cbn; lia|reflexivity]]. intro E. discriminate E.
Qed.

(** A conditional expression without brackets is refused for a text, although the same in brackets is accepted. *)
Theorem C55_conditional_text_refuted : forall default d f s t sh, member default = Ok FText ->
  compatible default (Exp (NTri d f s t) sh) = Ok false /\ compatible default (Exp (NUn UGroup d [NTri d f s t]) sh) = Ok true.
Proof.
  intros default d f s t sh M. assert (O : is_op default = false) by (unfold member, c_type in M; destruct (is_op default); [discriminate|reflexivity]).
  unfold compatible. rewrite O. split; [|reflexivity]. pose proof (member_text _ M) as S1. assert (D : data default = DStr).
  { destruct default as [e|n|]; [|destruct n as [|p e o| | | | |]|]; try discriminate O; cbn in S1 |- *; try discriminate; [destruct e; try discriminate; reflexivity|]. destruct o; try discriminate; destruct e; try discriminate; reflexivity. }
  rewrite D. reflexivity.
Qed.
Print Assumptions C55_conditional_text_refuted.
Example C55_conditional_text_example : member (Exp (NVal (PStr "name") DStr OValue) Scalar) = Ok FText.
Proof. reflexivity. Qed.

(** A DEFINITION parameter is neither a member of the structure nor stored (its macro still refers to the member). *)
Theorem C55_definition_parameter_refuted : forall c ps n lines tys, ~ In n (map p_name (t_setting c)) ->
  members (t_setting c) = Ok tys -> setting_lines c ps (t_setting c) = Ok lines -> ~ In n (map fst tys) /\ ~ In n (map fst lines).
Proof.
  intros c ps n lines tys N M L. split; [now rewrite (proj1 (members_in _ _ M))|]. clear M tys. revert lines L N. generalize (t_setting c) as l.
  induction l as [|x l IH]; intros lines L N; cbn [setting_lines] in L; [injection L as <-; exact N|].
  destruct (match get_parameter c ps (p_name x) with None => Ok [] | Some v => parameter_line (p_value x) v end) as [ss| |]; try discriminate.
  destruct (setting_lines c ps l) as [rest| |]; try discriminate. injection L as <-. rewrite map_app, map_map. cbn [fst]. intro H. apply in_app_or in H as [H|H].
  - apply in_map_iff in H as (y & E & _). apply N. now left.
  - apply (IH rest eq_refl); [|exact H]. intro. apply N. now right.
Qed.
Print Assumptions C55_definition_parameter_refuted.
Example C55_definition_parameter_example : In "mode" (map p_name (t_define ex_type)) /\ ~ In "mode" (map p_name (t_setting ex_type)).
Proof. split; [now left|]. cbn. intuition discriminate. Qed.

(** A default that is an operation, such as (1) or 2*k, stops the translation of the whole component type. *)
Theorem C55_computed_default_refuted : forall l x, In x l -> is_op (p_value x) = true -> members l = Raise.
Proof.
  induction l as [|y l IH]; intros x H O; [destruct H|]. cbn [members]. unfold member at 1, c_type. destruct H as [->|H]; [now rewrite O|].
  rewrite (IH x H O). destruct (is_op (p_value y)); [reflexivity|]. now destruct (data (p_value y)).
Qed.
Print Assumptions C55_computed_default_refuted.
Example C55_computed_default_example : is_op (Exp (NUn UGroup DFloat [cflt 1]) Scalar) = true.
Proof. reflexivity. Qed.

(** * DECLARE variables *)
(** the text of an initialiser: brackets around items separated by commas, each surrounded by blanks *)
Record item := mkItem { i_before : list ascii; i_text : list ascii; i_after : list ascii }.
Definition written (i : item) : list ascii := i_before i ++ i_text i ++ i_after i.
Fixpoint separated (l : list item) : list ascii := match l with [] => [] | [i] => written i | i :: r => written i ++ ","%char :: separated r end.
Definition initialiser (l : list item) : list ascii := "{"%char :: separated l ++ ["}"%char].
Definition blank (c : ascii) : Prop := In c blanks.
Definition plain_item (i : item) : Prop :=
  Forall blank (i_before i) /\ Forall blank (i_after i) /\ (forall c, In c (i_text i) -> c <> ","%char /\ c <> "{"%char /\ c <> "}"%char)
  /\ (exists c r, i_text i = c :: r /\ ~ blank c) /\ (exists r c, i_text i = r ++ [c] /\ ~ blank c).

Lemma eqb_in c cs : existsb (Ascii.eqb c) cs = true <-> In c cs.
Proof.
  rewrite existsb_exists. split; [intros (x & Hx & E); apply Ascii.eqb_eq in E; now subst|]. intro H. exists c. split; [exact H|apply Ascii.eqb_refl].
Qed.
Lemma lstrip_app cs a l : Forall (fun c => In c cs) a -> lstrip cs (a ++ l) = lstrip cs l.
Proof. induction 1 as [|c a Hc _ IH]; cbn [app lstrip]; [reflexivity|]. apply eqb_in in Hc. now rewrite Hc. Qed.
Lemma lstrip_stop cs c l : ~ In c cs -> lstrip cs (c :: l) = c :: l.
Proof. intro N. cbn [lstrip]. destruct (existsb (Ascii.eqb c) cs) eqn:E; [now apply eqb_in in E|reflexivity]. Qed.
Lemma strip_between cs a b m c r c' r' : Forall (fun c => In c cs) a -> Forall (fun c => In c cs) b -> m = c :: r -> ~ In c cs -> m = r' ++ [c'] -> ~ In c' cs -> strip cs (a ++ m ++ b) = m.
Proof.
  intros A B E N E' N'. unfold strip. rewrite lstrip_app by exact A. rewrite E at 1. cbn [app]. rewrite lstrip_stop by exact N. change (c :: r ++ b) with ((c :: r) ++ b). rewrite <- E.
  rewrite rev_app_distr, lstrip_app by (apply Forall_forall; intros x Hx; apply in_rev in Hx; revert x Hx; now apply Forall_forall).
  rewrite E' at 1. rewrite rev_app_distr. cbn [rev app]. rewrite lstrip_stop by exact N'. cbn [rev]. rewrite rev_involutive. now symmetry.
Qed.
Lemma split_on_none c l : ~ In c l -> forall cur, split_on c cur l = [rev cur ++ l].
Proof.
  induction l as [|x l IH]; intros N cur; cbn [split_on]; [now rewrite app_nil_r|]. destruct (Ascii.eqb x c) eqn:E; [apply Ascii.eqb_eq in E; destruct N; now left|].
  rewrite IH by (intro; apply N; now right). cbn [rev]. now rewrite <- app_assoc.
Qed.
Lemma split_on_sep c l : ~ In c l -> forall cur r, split_on c cur (l ++ c :: r) = (rev cur ++ l) :: split_on c [] r.
Proof.
  induction l as [|x l IH]; intros N cur r; cbn [app split_on]; [rewrite Ascii.eqb_refl; now rewrite app_nil_r|].
  destruct (Ascii.eqb x c) eqn:E; [apply Ascii.eqb_eq in E; destruct N; now left|]. rewrite IH by (intro; apply N; now right). cbn [rev]. now rewrite <- app_assoc.
Qed.
Lemma written_chars i c : plain_item i -> In c (written i) -> c <> ","%char /\ c <> "{"%char /\ c <> "}"%char.
Proof.
  intros (A & B & T & _) H. unfold written in H. assert (Bl : forall c, blank c -> c <> ","%char /\ c <> "{"%char /\ c <> "}"%char).
  { intros x Hx. unfold blank, blanks in Hx. cbn in Hx. repeat (destruct Hx as [<-|Hx]; [repeat split; discriminate|]). destruct Hx. }
  apply in_app_or in H as [H|H]; [apply Bl; revert c H; now apply Forall_forall|]. apply in_app_or in H as [H|H]; [now apply T|]. apply Bl. revert c H. now apply Forall_forall.
Qed.
Lemma split_separated l : Forall plain_item l -> l <> [] -> split_on ","%char [] (separated l) = map written l.
Proof.
  induction 1 as [|i l Hi Hl IH]; intro N; [contradiction|]. destruct l as [|j l].
  - cbn [separated map]. rewrite split_on_none; [reflexivity|]. intro H. now destruct (written_chars i _ Hi H) as (A & _).
  - change (separated (i :: j :: l)) with (written i ++ ","%char :: separated (j :: l)). rewrite split_on_sep; [|intro H; now destruct (written_chars i _ Hi H) as (A & _)].
    rewrite IH by discriminate. reflexivity.
Qed.
Lemma strip_written i : plain_item i -> strip blanks (written i) = i_text i.
Proof. intros (A & B & _ & (c & r & E & N) & (r' & c' & E' & N')). unfold written. eapply strip_between; eassumption. Qed.
Lemma separated_ends l : Forall plain_item l -> l <> [] -> (exists c r, separated l = c :: r /\ c <> "{"%char /\ c <> "}"%char) /\ (exists r c, separated l = r ++ [c] /\ c <> "{"%char /\ c <> "}"%char).
Proof.
  assert (W : forall i, plain_item i -> (exists c r, written i = c :: r) /\ (exists r c, written i = r ++ [c])).
  { intros i (_ & _ & _ & (c & r & E & _) & _). assert (N : written i <> []) by (unfold written; rewrite E; destruct (i_before i); discriminate). split.
    - destruct (written i); [contradiction|eauto].
    - destruct (exists_last N) as (r' & x & Ex). eauto. }
  induction 1 as [|i l Hi Hl IH]; intro N; [contradiction|]. destruct (W i Hi) as ((c & r & E) & (r' & c' & E')).
  assert (C1 : c <> "{"%char /\ c <> "}"%char) by (destruct (written_chars i c Hi) as (_ & X); [rewrite E; now left|exact X]).
  assert (C2 : c' <> "{"%char /\ c' <> "}"%char) by (destruct (written_chars i c' Hi) as (_ & X); [rewrite E'; apply in_elt|exact X]).
  destruct l as [|j l]; [cbn [separated]; split; eauto|]. change (separated (i :: j :: l)) with (written i ++ ","%char :: separated (j :: l)).
  destruct (IH ltac:(discriminate)) as (_ & r2 & c2 & E2 & C3). split.
  - exists c, (r ++ ","%char :: separated (j :: l)). rewrite E. auto.
  - exists (written i ++ ","%char :: r2), c2. rewrite E2, <- app_assoc. auto.
Qed.

(** The items of the initialiser of an array become the elements of the member, in order; a variable that is no array is given the
    text of its initialiser; a pointer without initialiser is set to NULL, everything else without initialiser is left alone.
    Missing: items that contain commas or braces. *)
Theorem C55_declared_variables_are_initialised_partial : forall d,
  match dv_init d with
  | Some t => (dv_array d = false -> declared_lines d = [DAssign t])
              /\ (forall l, dv_array d = true -> t = initialiser l -> l <> [] -> Forall plain_item l ->
                    forall k x, In (DElem k x) (declared_lines d) <-> nth_error (map i_text l) k = Some x)
  | None => dv_array d = false -> declared_lines d = if dv_pointer d then [DAssign (list_ascii_of_string "NULL")] else []
  end.
Proof.
  intro d. unfold declared_lines. destruct (dv_init d) as [t|]; [split|].
  - intros ->. reflexivity.
  - intros l -> -> Nl Hl k x. unfold initialiser. destruct (separated_ends l Hl Nl) as ((c & r & E & C1 & C2) & (r' & c' & E' & C3 & C4)).
    change ("{"%char :: separated l ++ ["}"%char]) with (["{"%char] ++ separated l ++ ["}"%char]).
    rewrite (strip_between ["{"%char; "}"%char] ["{"%char] ["}"%char] (separated l) c r c' r'); [|constructor; [cbn; auto|constructor]|constructor; [cbn; auto|constructor]|exact E|cbn; intuition congruence|exact E'|cbn; intuition congruence].
    rewrite split_separated by assumption. rewrite map_map.
    assert (Em : map (fun i => strip blanks (written i)) l = map i_text l) by (apply map_ext_in; intros i Hi; apply strip_written; revert i Hi; now apply Forall_forall). rewrite Em.
    assert (G : forall m b, In (DElem k x) (delems b m) <-> b <= k /\ nth_error m (k - b) = Some x).
    { induction m as [|y m IH]; intro b; cbn [delems]; [split; [intros []|intros [_ H]; destruct (k - b); discriminate H]|]. cbn [In]. rewrite IH. split.
      - intros [H|[H1 H2]]; [injection H as <- <-; rewrite Nat.sub_diag; cbn; auto|]. split; [lia|]. replace (k - b) with (S (k - S b)) by lia. exact H2.
      - intros [H1 H2]. destruct (Nat.eq_dec b k) as [->|Nb]; [rewrite Nat.sub_diag in H2; injection H2 as ->; now left|]. right. split; [lia|]. replace (k - b) with (S (k - S b)) in H2 by lia. exact H2. }
    rewrite G, Nat.sub_0_r. split; [tauto|]. intro; split; [lia|assumption].
  - intros ->. destruct (dv_pointer d); reflexivity.
Qed.
Print Assumptions C55_declared_variables_are_initialised_partial.
Example C55_declared_example : let l := [mkItem [] (list_ascii_of_string "1") []; mkItem [" "%char] (list_ascii_of_string "a + 2") [" "%char]] in
  Forall plain_item l /\ initialiser l = list_ascii_of_string "{1, a + 2 }" /\
  declared_lines (mkDecl "v" false true (Some (initialiser l))) = [DElem 0 (list_ascii_of_string "1"); DElem 1 (list_ascii_of_string "a + 2")].
Proof.
  cbv zeta. split; [|split; reflexivity]. assert (NB : forall c, existsb (Ascii.eqb c) blanks = false -> ~ blank c) by (intros c E H; apply eqb_in in H; congruence).
  assert (PI : forall i c r r' c', Forall blank (i_before i) -> Forall blank (i_after i) -> i_text i = c :: r -> i_text i = r' ++ [c'] -> existsb (Ascii.eqb c) blanks = false ->
    existsb (Ascii.eqb c') blanks = false -> forallb (fun c => negb (existsb (Ascii.eqb c) [","%char; "{"%char; "}"%char])) (i_text i) = true -> plain_item i).
  { intros i c r r' c' A B E E' N N' F. repeat split; [exact A|exact B| | | |exists c, r; auto|exists r', c'; auto];
      intros ->; rewrite forallb_forall in F; match goal with X : In _ _ |- _ => apply F in X; discriminate X end. }
  constructor; [|constructor; [|constructor]].
  - apply (PI _ "1"%char [] [] "1"%char); first [reflexivity|constructor].
  - apply (PI _ "a"%char (list_ascii_of_string " + 2") (list_ascii_of_string "a + ") "2"%char); try reflexivity; (constructor; [now left|constructor]).
Qed.

(** Commas inside of a call or of nested brackets split an item. *)
Theorem C55_declared_call_refuted :
  declared_lines (mkDecl "v" false true (Some (list_ascii_of_string "{max(1,2), 3}")))
    = [DElem 0 (list_ascii_of_string "max(1"); DElem 1 (list_ascii_of_string "2)"); DElem 2 (list_ascii_of_string "3")]
  /\ declared_lines (mkDecl "m" false true (Some (list_ascii_of_string "{{1,2},{3,4}}")))
    = [DElem 0 (list_ascii_of_string "1"); DElem 1 (list_ascii_of_string "2}"); DElem 2 (list_ascii_of_string "{3"); DElem 3 (list_ascii_of_string "4")].
Proof. split; reflexivity. Qed.
Print Assumptions C55_declared_call_refuted.
