(* Property C72: the declared parameters of a component type. *)
From Coq Require Import List String Ascii Bool QArith Qcanon ZArith Arith Lia.
From Verif Require Import PyStr Expr ExprSem Properties_Expr Print Properties_Print Setpos Properties_Setpos CompParam.
Import ListNotations.
Local Open Scope string_scope.
Local Open Scope list_scope.
Local Open Scope nat_scope.

(* ** Specification: the C type that a declaration names, and the C value of its default *)
Definition declared_type (d : decl) : ftype :=
  match d with
  | Double _ _ => FNum DFloat
  | Int _ _ => FNum DInt
  | Text _ _ => FText
  | Vector _ _ | DoubleArray _ _ => FVec DFloat
  | IntArray _ _ => FVec DInt
  | Symbol _ _ => FText
  end.
Fixpoint numbers (l : list raw) : option (list Qc) :=
  match l with [] => Some [] | RNum _ q :: t => match numbers t with Some qs => Some (q :: qs) | None => None end | _ => None end.
Section Spec.
  Variable lit : string -> option string.
  (* the conversion of C: a fraction is dropped for an integer; no default counts as 0, as an empty text, as no vector *)
  Inductive declared_default : decl -> cval -> Prop :=
  | dd_double n d q : declared_default (Double n (Some (RNum d q))) (CDouble q)
  | dd_double_none n : declared_default (Double n None) (CDouble 0%Qc)
  | dd_int n d q : declared_default (Int n (Some (RNum d q))) (CInt (Z.quot (Qnum (this q)) (Z.pos (Qden (this q)))))
  | dd_int_none n : declared_default (Int n None) (CInt 0)
  | dd_text n s x : lit s = Some x -> String.length x + 2 <= String.length s -> (Z.of_nat (String.length x) < 16384)%Z -> s <> "0" -> s <> "NULL" -> s <> """""" -> declared_default (Text n (Some (Some s))) (CText x)
  | dd_text_null n : declared_default (Text n (Some None)) (CText "")
  | dd_text_empty n : declared_default (Text n (Some (Some """"""))) (CText "")
  | dd_text_none n : declared_default (Text n None) (CText "")
  | dd_vector n l qs : numbers l = Some qs -> declared_default (Vector n (Some (VList l))) (CPtr (Fresh qs))
  | dd_vector_null n : declared_default (Vector n (Some VNull)) (CPtr Null)
  | dd_vector_none n : declared_default (Vector n None) (CPtr Null)
  | dd_array n l qs : numbers l = Some qs -> declared_default (DoubleArray n (Some (VList l))) (CPtr (Fresh qs))
  | dd_array_null n : declared_default (DoubleArray n (Some VNull)) (CPtr Null)
  | dd_array_none n : declared_default (DoubleArray n None) (CPtr Null).
End Spec.
(* a default that is not computed *)
Definition not_computed (d : decl) : Prop :=
  match d with Double _ (Some (ROp _)) | Int _ (Some (ROp _)) => False | _ => True end.

(* ** Proofs *)
Lemma read_name c d p : read c d = Ok p -> p_name p = decl_name d.
Proof. destruct d; cbn; try discriminate; try (now intros [= <-]); destruct (vector _ _ _); try discriminate; now intros [= <-]. Qed.
Lemma read_type c d p : not_computed d -> read c d = Ok p -> member (p_value p) = Ok (declared_type d).
Proof.
  intros N. assert (V : forall v x, vector DFloat c v = Ok x -> member x = Ok (FVec DFloat)).
  { intros [[|s|l]|] x; cbn; [now intros [= <-]|now intros [= <-]| |now intros [= <-]]. destruct (elements c l); [|discriminate|discriminate]. now intros [= <-]. }
  destruct d as [n [[]|]|n [[]|]|n [[]|]|n v| |n v|]; cbn [read]; try discriminate; try contradiction N; try (now intros [= <-]).
  - intros [= <-]. cbn. unfold visit_name. destruct (get_parameter c [] s); reflexivity.
  - intros [= <-]. cbn. unfold visit_name. destruct (get_parameter c [] s); reflexivity.
  - destruct (vector DFloat c v) eqn:E; try discriminate. intros [= <-]. exact (V _ _ E).
  - destruct (vector DFloat c v) eqn:E; try discriminate. intros [= <-]. exact (V _ _ E).
Qed.
Lemma read_all_spec c l ps : read_all c l = Ok ps <-> Forall2 (fun d p => read c d = Ok p) l ps.
Proof.
  split.
  - revert ps. induction l as [|d l IH]; cbn; intros ps; [intros [= <-]; constructor|]. destruct (read c d) eqn:E; try discriminate. destruct (read_all c l) eqn:R; try discriminate. intros [= <-]. constructor; auto.
  - induction 1 as [|d p l ps E H IH]; [reflexivity|]. cbn. now rewrite E, IH.
Qed.
Lemma add_setting_spec ps : forall c c', add_setting c ps = Ok c' -> t_define c' = t_define c /\ t_setting c' = t_setting c ++ ps.
Proof.
  induction ps as [|p ps IH]; cbn; intros c c'; [intros [= <-]; now rewrite app_nil_r|]. destruct (used c (p_name p)); [discriminate|]. intro H. apply IH in H as [A B]. cbn in *. split; auto. now rewrite B, <- app_assoc.
Qed.
Lemma add_define_spec ps : forall c c', add_define c ps = Ok c' -> t_define c' = t_define c ++ ps /\ t_setting c' = t_setting c.
Proof.
  induction ps as [|p ps IH]; cbn; intros c c'; [intros [= <-]; now rewrite app_nil_r|]. destruct (used c (p_name p)); [discriminate|]. intro H. apply IH in H as [A B]. cbn in *. split; auto. now rewrite A, <- app_assoc.
Qed.
Definition distinct (c : ctype) : Prop := NoDup (map p_name (t_define c ++ t_setting c)).
Lemma used_false c n : used c n = false <-> ~ In n (map p_name (t_define c ++ t_setting c)).
Proof.
  unfold used. rewrite <- existsb_app. split.
  - intros H I. apply in_map_iff in I as (x & <- & I). assert (existsb (fun y => p_name y =?s p_name x) (t_define c ++ t_setting c) = true); [|congruence]. apply existsb_exists. exists x. split; auto. apply String.eqb_refl.
  - intro H. destruct (existsb _ _) eqn:E; auto. exfalso. apply H. apply existsb_exists in E as (x & I & E). apply String.eqb_eq in E. subst n. now apply in_map.
Qed.
Lemma add_setting_distinct ps : forall c c', distinct c -> add_setting c ps = Ok c' -> distinct c'.
Proof.
  induction ps as [|p ps IH]; cbn; intros c c' D; [now intros [= <-]|]. destruct (used c (p_name p)) eqn:U; [discriminate|]. apply IH. unfold distinct in *. cbn.
  rewrite app_assoc, map_app. apply used_false in U. cbn. apply NoDup_Add with (a := p_name p) (l := map p_name (t_define c ++ t_setting c)).
  - rewrite <- (app_nil_r (map p_name (t_define c ++ t_setting c))) at 1. apply Add_app.
  - split; auto.
Qed.
Lemma add_define_distinct ps : forall c c', distinct c -> add_define c ps = Ok c' -> distinct c'.
Proof.
  induction ps as [|p ps IH]; cbn; intros c c' D; [now intros [= <-]|]. destruct (used c (p_name p)) eqn:U; [discriminate|]. apply IH. unfold distinct in *. cbn.
  apply used_false in U. rewrite <- app_assoc, map_app. cbn. apply NoDup_Add with (a := p_name p) (l := map p_name (t_define c) ++ map p_name (t_setting c)).
  - apply Add_app.
  - rewrite <- map_app. split; auto.
Qed.
Lemma members_of : forall l ts, Forall2 (fun p t => member (p_value p) = Ok t) l ts -> members l = Ok (combine (map p_name l) ts).
Proof. induction 1 as [|p t l ts E H IH]; [reflexivity|]. cbn. now rewrite E, IH. Qed.

(* The structure of a component type has, for each SETTING parameter in turn, a member of the declared type. *)
Theorem C72_types : forall c defs sets c', read_parameters c defs sets = Ok c' -> Forall not_computed sets ->
  exists new, t_setting c' = t_setting c ++ new /\ members new = Ok (map (fun d => (decl_name d, declared_type d)) sets) /\ map p_name (skipn (List.length (t_define c)) (t_define c')) = map decl_name defs.
Proof.
  intros c defs sets c' R N. unfold read_parameters in R. destruct (read_all c defs) as [ds| |] eqn:E1; try discriminate. destruct (add_define c ds) as [c1| |] eqn:E2; try discriminate.
  destruct (read_all c1 sets) as [ss| |] eqn:E3; try discriminate. apply add_define_spec in E2 as [A B]. apply add_setting_spec in R as [C D]. exists ss. split; [now rewrite D, B|]. split.
  - apply read_all_spec in E3. clear - E3 N. induction E3 as [|d p l ps E H IH]; [reflexivity|]. inversion N as [|? ? N1 N2]; subst. cbn. rewrite (read_type _ _ _ N1 E), (IH N2), (read_name _ _ _ E). reflexivity.
  - rewrite C, A, skipn_app, skipn_all, Nat.sub_diag. cbn. apply read_all_spec in E1. clear - E1. induction E1 as [|d p l ps E H IH]; [reflexivity|]. cbn. now rewrite IH, (read_name _ _ _ E).
Qed.
Print Assumptions C72_types.

Lemma numbers_elements c l qs : numbers l = Some qs -> elements c l = Ok (map ENum qs).
Proof.
  revert qs. induction l as [|r l IH]; cbn; intros qs; [now intros [= <-]|]. destruct r; try discriminate. destruct (numbers l); [|discriminate]. intros [= <-]. cbn. now rewrite (IH _ eq_refl).
Qed.
Lemma usable_num env env' q d : usable env env' (NVal (PNum q) d OValue).
Proof. split; [exact Logic.I|]. split; [reflexivity|]. intros o s []. Qed.
Lemma default_regular IB IU env env' lit c d v : env "NULL" = Some (VN 0%Qc) -> env' "NULL" = Some (VN 0%Qc) -> declared_default lit d v ->
  exists p, read c d = Ok p /\ regular IB IU env env' lit (declared_type d) (p_value p) /\ forall o, holds IB IU env lit (declared_type d) (p_value p) o -> o = v.
Proof.
  intros E E' D.
  assert (Nl : forall n, exists p, Ok (mkPar n (Exp (NVal (PStr "NULL") DFloat OId) Vec)) = Ok p /\ regular IB IU env env' lit (FVec DFloat) (p_value p) /\ forall o, holds IB IU env lit (FVec DFloat) (p_value p) o -> o = CPtr Null).
  { intro n. eexists. split; [reflexivity|]. split.
    - cbn. split; [reflexivity|]. split; [|exists (VN 0%Qc); unfold has; cbn; now rewrite E]. split; [exact Logic.I|]. split; [now left|]. intros o s [[= <- <-]|[]]. cbn. congruence.
    - intros o H. inversion H as [| | | | | | | |? ? ? Hh|? ? ? w Hh Hn|]; subst; [reflexivity|]. unfold has in Hh. cbn in Hh. rewrite E in Hh. cbn in Hh. congruence. }
  assert (Ab : forall n, exists p, Ok (mkPar n (Absent DFloat Vec)) = Ok p /\ regular IB IU env env' lit (FVec DFloat) (p_value p) /\ forall o, holds IB IU env lit (FVec DFloat) (p_value p) o -> o = CPtr Null).
  { intro n. eexists. split; [reflexivity|]. split; [discriminate|]. intros o H. inversion H; subst; reflexivity. }
  assert (Li : forall n l qs, numbers l = Some qs -> exists p, match vector DFloat c (Some (VList l)) with Ok x => Ok (mkPar n x) | Raise => Raise | Fuel => Fuel end = Ok p /\ regular IB IU env env' lit (FVec DFloat) (p_value p) /\ forall o, holds IB IU env lit (FVec DFloat) (p_value p) o -> o = CPtr (Fresh qs)).
  { intros n l qs H. cbn [vector]. rewrite (numbers_elements c l qs H). eexists. split; [reflexivity|]. split.
    - cbn. clear. induction qs; constructor; auto.
    - intros o Ho. inversion Ho as [| | | | | | | | | |? ? ? qs' F]; subst. do 2 f_equal. transitivity qs'; [apply map_id|].
      clear - F. revert qs' F. induction qs as [|q qs IH]; intros qs' F; inversion F as [|? ? ? ? A B]; subst; [reflexivity|]. cbn in A. subst. f_equal. auto. }
  destruct D; cbn [declared_type read number]; auto.
  - eexists. split; [reflexivity|]. cbn [p_value visit retag]. split; [repeat split; try (intros ? ? []); exists q; reflexivity|]. intros o H. inversion H as [| | | | | |? ? ? q' Hh| | | |]; subst. unfold has in Hh. cbn in Hh. injection Hh as ->. reflexivity.
  - eexists. split; [reflexivity|]. split; [split; discriminate|]. intros o H. inversion H; subst. reflexivity.
  - eexists. split; [reflexivity|]. cbn [p_value visit retag]. split; [repeat split; try (intros ? ? []); exists q; reflexivity|]. intros o H. inversion H as [| | | | | |? ? ? q' Hh| | | |]; subst. unfold has in Hh. cbn in Hh. injection Hh as ->. reflexivity.
  - eexists. split; [reflexivity|]. split; [split; discriminate|]. intros o H. inversion H; subst. reflexivity.
  - eexists. split; [reflexivity|]. assert (NT : ~ no_text s) by (unfold no_text; intuition congruence). split; [right; exists x; auto|]. intros o Ho. inversion Ho as [|? ? ? T| ? ? ? y L T|? ? y Hh Nv|? ? Hh| | | | | |]; subst; try contradiction.
    + congruence.
    + exfalso. eapply Nv. reflexivity.
    + unfold has in Hh. cbn in Hh. discriminate.
  - eexists. split; [reflexivity|]. split; [left; right; left; reflexivity|]. intros o Ho. inversion Ho as [|? ? ? T| ? ? ? y L T|? ? y Hh Nv|? ? Hh| | | | | |]; subst; try reflexivity.
    + exfalso. apply T. right. now left.
    + exfalso. eapply Nv. reflexivity.
  - eexists. split; [reflexivity|]. split; [left; right; right; reflexivity|]. intros o Ho. inversion Ho as [|? ? ? T| ? ? ? y L T|? ? y Hh Nv|? ? Hh| | | | | |]; subst; try reflexivity.
    + exfalso. apply T. right. now right.
    + exfalso. eapply Nv. reflexivity.
  - eexists. split; [reflexivity|]. split; [exact Logic.I|]. intros o Ho. inversion Ho; subst; reflexivity.
  - apply Nl.
  - apply Ab.
  - apply Nl.
  - apply Ab.
Qed.
(* An instance that gives no parameters has, in the running program, the declared defaults: whatever the members were, the lines that
   set it up can be executed, and afterwards every member has the C value of its default, for as long as the defaults are numbers, texts,
   lists of numbers, NULL or not there. *)
Theorem C72_defaults : forall IB IU env env' lit defs sets c', calls IB IU -> env "NULL" = Some (VN 0%Qc) -> env' "NULL" = Some (VN 0%Qc) ->
  read_parameters (mkType [] []) defs sets = Ok c' -> (forall d, In d sets -> exists v, declared_default lit d v) ->
  forall s0, (forall d, In d sets -> exists o, s0 (decl_name d) = Some o /\ typed (declared_type d) o) ->
  exists lines, setting_lines c' [] (t_setting c') = Ok lines /\
    (exists s, runs IB IU env' lit (map (fun d => (decl_name d, declared_type d)) sets) lines s0 s) /\
    forall s, runs IB IU env' lit (map (fun d => (decl_name d, declared_type d)) sets) lines s0 s ->
      forall d v, In d sets -> declared_default lit d v -> s (decl_name d) = Some v.
Proof.
  intros IB IU env env' lit defs sets c' Hc E E' R D s0 T0.
  assert (N : Forall not_computed sets). { apply Forall_forall. intros d I. destruct (D d I) as (v & H). destruct H; exact Logic.I. }
  destruct (C72_types _ _ _ _ R N) as (new & S' & M & _). cbn in S'.
  assert (Dc : distinct c' /\ exists c1, t_define c' = t_define c1 /\ read_all c1 sets = Ok new).
  { unfold read_parameters in R. destruct (read_all (mkType [] []) defs) as [ds| |] eqn:E1; try discriminate. destruct (add_define _ ds) as [c1| |] eqn:E2; try discriminate.
    destruct (read_all c1 sets) as [ss| |] eqn:E3; try discriminate. split.
    - eapply add_setting_distinct; [|exact R]. eapply add_define_distinct; [|exact E2]. constructor.
    - apply add_define_spec in E2 as [A B]. apply add_setting_spec in R as [C F]. exists c1. split; auto. rewrite F, B in S'. cbn in S'. now subst. }
  destruct Dc as [Dc (c1 & Dd & Ra)]. unfold distinct in Dc. rewrite map_app in Dc. apply read_all_spec in Ra.
  assert (In' : forall x, In x new -> exists d, In d sets /\ read c1 d = Ok x).
  { clear - Ra. induction Ra as [|d p l ps E H IH]; intros x []; [subst; eauto using in_eq|]. destruct (IH x H0) as (d' & I & E'). eauto using in_cons. }
  assert (In2 : forall d, In d sets -> exists x, In x new /\ read c1 d = Ok x).
  { clear - Ra. induction Ra as [|d p l ps E H IH]; intros x []; [subst; eauto using in_eq|]. destruct (IH x H0) as (d' & I & E'). eauto using in_cons. }
  assert (Nd : NoDup (map p_name (t_setting c'))). { clear - Dc. induction (map p_name (t_define c')) as [|a l IH]; auto. cbn in Dc. inversion Dc; auto. }
  assert (Ty : forall d t, In d sets -> In (decl_name d, t) (map (fun d => (decl_name d, declared_type d)) sets) -> t = declared_type d).
  { assert (Nn : NoDup (map decl_name sets)).
    { replace (map decl_name sets) with (map p_name (t_setting c')); auto. rewrite S'. clear - Ra. induction Ra as [|d p l ps E H IH]; [reflexivity|]. cbn. now rewrite IH, (read_name _ _ _ E). }
    clear - Nn. induction sets as [|a l IH]; intros d t Id H; [contradiction|]; cbn in *; inversion Nn as [|? ? N1 N2]; subst; destruct Id as [Id|Id]; [subst a|].
    - destruct H as [[= <-]|H]; auto. exfalso. apply N1. apply in_map_iff in H as (y & [= Q _] & I). rewrite <- Q. now apply in_map.
    - destruct H as [[= Q <-]|H]; [|auto]. exfalso. apply N1. rewrite Q. now apply in_map. }
  destruct (C55_parameters_are_stored_partial IB IU env env' lit c' [] (map (fun d => (decl_name d, declared_type d)) sets) s0 Hc E' Nd) as (lines & L & Ru & Al).
  - intros x y Ix Iy Q. clear - Dc Ix Iy Q. apply (in_map p_name) in Ix, Iy. rewrite Q in Iy. clear Q y. revert Dc Ix Iy. generalize (map p_name (t_setting c')) (p_name x). intros m n. induction (map p_name (t_define c')) as [|a l IH]; [contradiction|].
    cbn. intros Nd I [->|J]; inversion Nd as [|? ? N1 N2]; subst; [apply N1, in_or_app; now right|auto].
  - rewrite S'. exact M.
  - intros x v t Ix Ev It. rewrite S' in Ix. destruct (In' x Ix) as (d & Id & Rd). destruct Ev as [(l & r & Q & _)|[_ ->]]; [destruct l; discriminate|].
    rewrite (read_name _ _ _ Rd) in It. rewrite (Ty d t Id It). destruct (D d Id) as (v & Dv). destruct (default_regular IB IU env env' lit c1 d v E E' Dv) as (p & Rp & Rg & _). rewrite Rd in Rp. injection Rp as <-. exact Rg.
  - intros f t I. apply in_map_iff in I as (d & [= <- <-] & I). auto.
  - exists lines. split; [exact L|]. split; [exact Ru|]. intros s Rs d v Id Dv. destruct (Al s Rs) as [Al1 _]. destruct (In2 d Id) as (x & Ix & Rx).
    destruct (Al1 x (p_value x) (declared_type d)) as (o & So & Ho).
    + now rewrite S'.
    + right. split; [intros y []|reflexivity].
    + rewrite (read_name _ _ _ Rx). apply in_map_iff. exists d. auto.
    + rewrite (read_name _ _ _ Rx) in So. destruct (default_regular IB IU env env' lit c1 d v E E' Dv) as (p & Rp & _ & U). rewrite Rx in Rp. injection Rp as <-. rewrite So. f_equal. now apply U.
Qed.
Print Assumptions C72_defaults.
Definition half : Qc := Q2Qc (3 # 2).
Example C72_defaults_example : let sets := [Double "x" (Some (RNum DInt 1%Qc)); Int "n" (Some (RNum DFloat half)); Text "f" (Some (Some """a""")); Vector "v" (Some (VList [RNum DInt 1%Qc; RNum DFloat half])); DoubleArray "w" (Some VNull); Text "g" None] in
  let lit := fun s => if s =?s """a""" then Some "a" else None in
  exists c', read_parameters (mkType [] []) [Double "a" None] sets = Ok c' /\ List.length (t_setting c') = 6 /\
    declared_default lit (nth 0 sets (Int "" None)) (CDouble 1%Qc) /\ declared_default lit (nth 1 sets (Int "" None)) (CInt 1) /\ declared_default lit (nth 2 sets (Int "" None)) (CText "a") /\
    declared_default lit (nth 3 sets (Int "" None)) (CPtr (Fresh [1%Qc; half])) /\ declared_default lit (nth 4 sets (Int "" None)) (CPtr Null) /\ declared_default lit (nth 5 sets (Int "" None)) (CText "").
Proof.
  cbv zeta. eexists. split; [reflexivity|]. split; [reflexivity|]. cbn [nth]. split; [constructor|]. split; [exact (dd_int _ "n" DFloat half)|]. split; [constructor; try discriminate; cbn; lia || reflexivity|].
  split; [constructor; reflexivity|]. split; constructor.
Qed.

(* No component with an array of integers can be read. *)
Theorem C72_integer_array_refuted : forall c defs sets n d, In (IntArray n d) (defs ++ sets) -> read_parameters c defs sets = Raise \/ read_parameters c defs sets = Fuel.
Proof.
  intros c defs sets n d I. assert (G : forall c l, In (IntArray n d) l -> forall ps, read_all c l <> Ok ps).
  { intros c0 l J ps H. apply read_all_spec in H. induction H as [|x p l ps E H IH]; [contradiction|]. destruct J as [->|J]; [discriminate|auto]. }
  unfold read_parameters. apply in_app_or in I as [I|I].
  - destruct (read_all c defs) as [ds| |] eqn:E; auto. now apply G in E.
  - destruct (read_all c defs) as [ds| |]; auto. destruct (add_define c ds) as [c1| |]; auto. destruct (read_all c1 sets) as [ss| |] eqn:E; auto. now apply G in E.
Qed.
Print Assumptions C72_integer_array_refuted.
Example C72_integer_array_refuted_example : read_parameters (mkType [] []) [] [Double "x" None; IntArray "k" (Some (VList [RNum DInt 1%Qc]))] = Raise. Proof. reflexivity. Qed.
(* A list with an element that is computed cannot be read either. *)
Theorem C72_computed_element_refuted : forall c n l op d a, In (ROp (NUn op d a)) l -> read c (Vector n (Some (VList l))) = Raise.
Proof.
  intros c n l op d a I. assert (G : forall es, elements c l <> Ok es).
  { induction l as [|r l IH]; [contradiction|]. intro es. cbn. destruct I as [->|I]; [discriminate|]. destruct (element c r); try discriminate. destruct (elements c l) as [x| |]; try discriminate. exfalso. exact (IH I x eq_refl). }
  assert (F : elements c l <> Fuel). { clear. induction l as [|r l IH]; [discriminate|]. cbn. assert (element c r <> Fuel) by (unfold element; destruct (visit c r) as [|[]| | | | |]; discriminate). destruct (element c r); congruence || (destruct (elements c l); congruence). }
  cbn. destruct (elements c l) as [x| |] eqn:E; [exfalso; exact (G x eq_refl)|reflexivity|congruence].
Qed.
Print Assumptions C72_computed_element_refuted.
Example C72_computed_element_refuted_example : let r := ROp (NUn (UNamed "sqrt") DFloat [NVal (PNum 1%Qc) DInt OValue]) in read (mkType [] []) (Vector "v" (Some (VList [RNum DInt 1%Qc; r]))) = Raise. Proof. reflexivity. Qed.
(* A default that is the name of a DEFINITION parameter of the type, or of a parameter of the type that is copied, is taken for a
   parameter of the instrument: the member gets the value of that one. *)
Theorem C72_definition_name_refuted : forall c defs sets c' a b v, read_parameters c defs sets = Ok c' -> In (Double b (Some (RName a))) sets -> lookup (t_define c') a = Some v ->
  exists x, In x (t_setting c') /\ p_name x = b /\ parameter_line (p_value x) (p_value x) = Ok [Assign [TId ("_instrument_var._parameters." ++ a)]].
Proof.
  intros c defs sets c' a b v R I K. unfold read_parameters in R. destruct (read_all c defs) as [ds| |]; try discriminate. destruct (add_define c ds) as [c1| |] eqn:E2; try discriminate.
  destruct (read_all c1 sets) as [ss| |] eqn:E3; try discriminate. apply add_setting_spec in R as [A B]. apply read_all_spec in E3.
  assert (J : exists x, In x ss /\ read c1 (Double b (Some (RName a))) = Ok x).
  { clear - E3 I. induction E3 as [|d p l ps E H IH]; [contradiction|]. destruct I as [->|I]; [eauto using in_eq|]. destruct (IH I) as (x & X & Y). eauto using in_cons. }
  destruct J as (x & Ix & Rx). exists x. rewrite B. split; [apply in_or_app; now right|]. cbn in Rx. injection Rx as <-. split; [reflexivity|].
  unfold visit_name, get_parameter. rewrite A in K. cbn [lookup find option_map]. change (lookup [] a) with (@None pv). rewrite K. reflexivity.
Qed.
Print Assumptions C72_definition_name_refuted.
Example C72_definition_name_refuted_example : exists c', read_parameters (mkType [] []) [Double "a" (Some (RNum DInt 1%Qc))] [Double "b" (Some (RName "a"))] = Ok c' /\ exists v, lookup (t_define c') "a" = Some v.
Proof. eexists. split; [reflexivity|]. eexists. reflexivity. Qed.
(* likewise a component whose category is a name, although the grammar has it *)
Example C72_category_example : forall unquote s, read_category unquote (CatText s) = Ok (unquote s) /\ read_category unquote (CatName s) = Raise.
Proof. intros. split; reflexivity. Qed.
