(** Property C68: the names declared in the generated C source. *)
From Coq Require Import List String Ascii Bool Arith Lia FinFun.
From Verif Require Import PyStr TextLines DeclNames.
Import ListNotations.
Local Open Scope string_scope.
Local Open Scope list_scope.

(** * Specification: the names of types and instances that make two declarations of one name *)
Definition type_names (s : source) : list string := map t_name (types s).
Definition instance_names (s : source) : list string := map fst (instances s).
(** names that the program itself uses, a type called like the parameters of another *)
Definition types_free (s : source) : Prop :=
  (forall t, In t (type_names s) -> ~ In t ["particle"; "instrument"; "instrument_parameters"]) /\ (forall t u, In t (type_names s) -> In u (type_names s) -> u <> t +++ "_parameters").
(** an instance called instrument; an instance and a type that share the name of the variable or of the function of the instance *)
Definition instances_free (s : source) : Prop :=
  ~ In "instrument" (instance_names s) /\
  (forall i t e, In i (instance_names s) -> In t (type_names s) -> In e ["var"; "setpos"] -> ~ (i = "class" /\ t = e) /\ forall u, ~ (i = "class_" +++ u /\ t = u +++ "_" +++ e)).

(** * Lemmas *)
Lemma app_two (a b c d : string) : a +++ b = c +++ d -> exists k, (a = c +++ k /\ d = k +++ b) \/ (c = a +++ k /\ b = k +++ d).
Proof.
  revert c. induction a as [|x a IH]; intros c H; cbn in H; [exists c; now right|]. destruct c as [|y c]; cbn in H; [exists (String x a); left; now split|].
  injection H as -> H. destruct (IH c H) as (k & [[-> ->]|[-> ->]]); exists k; [left|right]; now split.
Qed.
Lemma suffixes (a b p q : string) : endswith p q = false -> endswith q p = false -> a +++ p <> b +++ q.
Proof.
  intros P Q H. apply app_two in H as (k & [[_ E]|[_ E]]).
  - assert (X : endswith p q = true) by (apply endswith_spec; now exists k). congruence.
  - assert (X : endswith q p = true) by (apply endswith_spec; now exists k). congruence.
Qed.
Lemma app_same (a b p : string) : a +++ p = b +++ p -> a = b.
Proof.
  intro H. apply app_two in H as (k & [[-> E]|[-> E]]); (assert (k = "") as ->; [|now rewrite ?string_app_nil_r]);
    (apply (f_equal String.length) in E; rewrite string_app_length in E; destruct k; [reflexivity|cbn in E; lia]).
Qed.
Inductive bad : ident -> ident -> Prop :=
| bad_particle : bad (TypeClass "particle") (Fixed "_class_particle")
| bad_parameters : bad (TypeClass "instrument_parameters") (Fixed "_class_instrument_parameters")
| bad_instrument : bad (TypeParameters "instrument") (Fixed "_class_instrument_parameters")
| bad_variable : bad (Variable_of "instrument") (Fixed "_instrument_var")
| bad_types t : bad (TypeClass (t +++ "_parameters")) (TypeParameters t)
| bad_var : bad (Variable_of "class") (TypeClass "var")
| bad_vars u : bad (Variable_of ("class_" +++ u)) (TypeClass (u +++ "_var"))
| bad_pos : bad (Setpos "class") (TypeClass "setpos")
| bad_poss u : bad (Setpos ("class_" +++ u)) (TypeClass (u +++ "_setpos")).
Lemma bad_same x y : bad x y -> c_name x = c_name y.
Proof. destruct 1; cbn; rewrite <- ?string_app_assoc; reflexivity. Qed.
Lemma type_fixed t f : In f fixed_names -> "_class_" +++ t = f -> bad (TypeClass t) (Fixed f).
Proof. cbn [In fixed_names]. intros H E. repeat (destruct H as [<-|H]; [cbn in E; try discriminate E; injection E as ->; constructor|]). destruct H. Qed.
Lemma pars_fixed t f : In f fixed_names -> "_class_" +++ t +++ "_parameters" = f -> bad (TypeParameters t) (Fixed f).
Proof.
  cbn [In fixed_names]. intros H E. repeat (destruct H as [<-|H]; [cbn in E; try discriminate E; injection E as E|]); [..|destruct H].
  - exfalso. exact (suffixes t "" "_parameters" "particle" eq_refl eq_refl E).
  - apply (app_same t "instrument" "_parameters") in E as ->. constructor.
Qed.
Lemma var_fixed i f : In f fixed_names -> "_" +++ i +++ "_var" = f -> bad (Variable_of i) (Fixed f).
Proof.
  cbn [In fixed_names]. intros H E. repeat (destruct H as [<-|H]; [cbn in E; try discriminate E; injection E as E|]); [..|destruct H].
  - exfalso. exact (suffixes i "" "_var" "class_particle" eq_refl eq_refl E).
  - exfalso. exact (suffixes i "" "_var" "class_instrument_parameters" eq_refl eq_refl E).
  - apply (app_same i "instrument" "_var") in E as ->. constructor.
Qed.
Lemma pos_fixed i f : In f fixed_names -> "_" +++ i +++ "_setpos" <> f.
Proof.
  cbn [In fixed_names]. intros H E. repeat (destruct H as [<-|H]; [cbn in E; try discriminate E; injection E as E|]); [..|destruct H].
  - exact (suffixes i "" "_setpos" "class_particle" eq_refl eq_refl E).
  - exact (suffixes i "" "_setpos" "class_instrument_parameters" eq_refl eq_refl E).
  - exact (suffixes i "" "_setpos" "instrument_var" eq_refl eq_refl E).
Qed.
Lemma fun_fixed s t f : In f fixed_names -> c_name (Function s t) <> f.
Proof. cbn [In fixed_names c_name]. intros H E. repeat (destruct H as [<-|H]; [discriminate E|]). destruct H. Qed.
Lemma pars_class t u : "_class_" +++ t +++ "_parameters" = "_class_" +++ u -> bad (TypeClass u) (TypeParameters t).
Proof. intro E. injection E as <-. constructor. Qed.
Lemma inst_class i t e : endswith ("_" +++ e) "class_" = false -> "_" +++ i +++ "_" +++ e = "_class_" +++ t -> (i = "class" /\ t = e) \/ exists u, i = "class_" +++ u /\ t = u +++ "_" +++ e.
Proof.
  intros N E. cbn in E. injection E as E. change (String "c" (String "l" (String "a" (String "s" (String "s" (String "_" t)))))) with ("class_" +++ t) in E. change (String "_" e) with ("_" +++ e) in E.
  apply app_two in E as (k & [[-> ->]|[E1 E2]]); [right; now exists k|].
  (* the end of class_ *)
  assert (K : i = "class_" /\ k = "" \/ i = "class" /\ k = "_" \/ exists x k', k = String x k' /\ x <> "_"%char).
  { destruct i as [|c1 i]; [right; right; cbn in E1; subst k; now exists "c"%char, "lass_"|]. injection E1 as <- E1.
    destruct i as [|c2 i]; [right; right; cbn in E1; subst k; now exists "l"%char, "ass_"|]. injection E1 as <- E1.
    destruct i as [|c3 i]; [right; right; cbn in E1; subst k; now exists "a"%char, "ss_"|]. injection E1 as <- E1.
    destruct i as [|c4 i]; [right; right; cbn in E1; subst k; now exists "s"%char, "s_"|]. injection E1 as <- E1.
    destruct i as [|c5 i]; [right; right; cbn in E1; subst k; now exists "s"%char, "_"|]. injection E1 as <- E1.
    destruct i as [|c6 i]; [right; left; cbn in E1; now subst k|]. injection E1 as <- E1. left. destruct i; [|discriminate E1]. cbn in E1. now subst k. }
  destruct K as [[-> ->]|[[-> ->]|(x & k' & -> & X)]].
  - right. exists "". split; [reflexivity|]. cbn in E2 |- *. now symmetry.
  - left. cbn in E2. injection E2 as ->. auto.
  - cbn in E2. injection E2 as E2 _. congruence.
Qed.
Lemma sect_suffix t u f g : t +++ "_" +++ sect_name f = u +++ "_" +++ sect_name g -> t = u /\ f = g.
Proof.
  intro E. assert (f = g) as <-; [|split; [now apply app_same in E|reflexivity]].
  destruct f, g; try reflexivity; exfalso; revert E; apply suffixes; reflexivity.
Qed.
Lemma clash x y : (forall f, x = Fixed f -> In f fixed_names) -> (forall f, y = Fixed f -> In f fixed_names) -> c_name x = c_name y -> x = y \/ bad x y \/ bad y x.
Proof.
  intros X Y E. destruct x as [f|t|t|i|i|s t], y as [g|u|u|j|j|s' u]; cbn [c_name] in E.
  - left. now subst.
  - right; right. apply pars_fixed; [now apply X|now symmetry].
  - right; right. apply type_fixed; [now apply X|now symmetry].
  - right; right. apply var_fixed; [now apply X|now symmetry].
  - exfalso. exact (pos_fixed j f (X f eq_refl) (eq_sym E)).
  - exfalso. exact (fun_fixed s' u f (X f eq_refl) (eq_sym E)).
  - right; left. apply pars_fixed; [now apply Y|exact E].
  - left. injection E as E. apply app_same in E. now subst.
  - right; right. now apply pars_class.
  - exfalso. injection E as E. exact (suffixes ("class_" +++ t) j "_parameters" "_var" eq_refl eq_refl E).
  - exfalso. injection E as E. exact (suffixes ("class_" +++ t) j "_parameters" "_setpos" eq_refl eq_refl E).
  - discriminate E.
  - right; left. apply type_fixed; [now apply Y|exact E].
  - right; left. symmetry in E. now apply pars_class.
  - left. injection E as ->. reflexivity.
  - right; right. symmetry in E. apply (inst_class j t "var" eq_refl) in E as [[-> ->]|(v & -> & ->)]; constructor.
  - right; right. symmetry in E. apply (inst_class j t "setpos" eq_refl) in E as [[-> ->]|(v & -> & ->)]; constructor.
  - discriminate E.
  - right; left. apply var_fixed; [now apply Y|exact E].
  - exfalso. injection E as E. exact (suffixes i ("class_" +++ u) "_var" "_parameters" eq_refl eq_refl E).
  - right; left. apply (inst_class i u "var" eq_refl) in E as [[-> ->]|(v & -> & ->)]; constructor.
  - left. injection E as E. apply app_same in E. now subst.
  - exfalso. injection E as E. exact (suffixes i j "_var" "_setpos" eq_refl eq_refl E).
  - discriminate E.
  - exfalso. exact (pos_fixed i g (Y g eq_refl) E).
  - exfalso. injection E as E. exact (suffixes i ("class_" +++ u) "_setpos" "_parameters" eq_refl eq_refl E).
  - right; left. apply (inst_class i u "setpos" eq_refl) in E as [[-> ->]|(v & -> & ->)]; constructor.
  - exfalso. injection E as E. exact (suffixes i j "_setpos" "_var" eq_refl eq_refl E).
  - left. injection E as E. apply app_same in E. now subst.
  - discriminate E.
  - exfalso. exact (fun_fixed s t g (Y g eq_refl) E).
  - discriminate E.
  - discriminate E.
  - discriminate E.
  - discriminate E.
  - left. injection E as E. apply sect_suffix in E as [-> ->]. reflexivity.
Qed.
Lemma in_declared s x : In x (declared s) <->
  match x with
  | Fixed f => In f fixed_names
  | TypeParameters t | TypeClass t => In t (type_names s)
  | Variable_of i | Setpos i => In i (instance_names s)
  | Function f t => exists c, In c (types s) /\ t_name c = t /\ In f (t_sections c)
  end.
Proof.
  unfold declared, type_names, instance_names. rewrite !in_app_iff, !in_flat_map, !in_map_iff. split.
  - intros [(f & <- & F)|[(c & C & [<-|[<-|[]]])|[(i & I & [<-|[<-|[]]])|(c & C & M)]]]; try (now (apply in_map)); [exact F|].
    apply in_map_iff in M as (f & <- & F). now exists c.
  - destruct x as [f|t|t|i|i|f t]; intro H.
    + left. now exists f.
    + right; left. apply in_map_iff in H as (c & <- & C). exists c. cbn. auto.
    + right; left. apply in_map_iff in H as (c & <- & C). exists c. cbn. auto.
    + right; right; left. apply in_map_iff in H as (c & <- & C). exists c. cbn. auto.
    + right; right; left. apply in_map_iff in H as (c & <- & C). exists c. cbn. auto.
    + right; right; right. destruct H as (c & C & <- & F). exists c. split; [exact C|]. now apply (in_map (fun f => Function f (t_name c))).
Qed.
Lemma nodup_join {A} (a b : list A) : NoDup a -> NoDup b -> (forall x, In x a -> ~ In x b) -> NoDup (a ++ b).
Proof.
  induction 1 as [|x a X Na IH]; intros Nb D; [exact Nb|]. cbn. constructor; [|apply IH; auto; intros y Y; apply D; now right].
  rewrite in_app_iff. intros [H|H]; [now apply X|exact (D x (or_introl eq_refl) H)].
Qed.
Lemma nodup_parts {A B} (key : A -> string) (f : A -> list B) (owner : B -> string) (l : list A) : NoDup (map key l) -> (forall a, In a l -> NoDup (f a)) -> (forall a b, In b (f a) -> owner b = key a) -> NoDup (flat_map f l).
Proof.
  intros N F O. induction l as [|a l IH]; [constructor|]. cbn [map flat_map] in *. inversion_clear N as [|? ? X N']. apply nodup_join; [apply F; now left|apply IH; auto; intros; apply F; now right|].
  intros b B1 B2. apply in_flat_map in B2 as (a' & A' & B2). apply X. rewrite <- (O a b B1), (O a' b B2). now apply in_map.
Qed.
Lemma nodup_map {A} (f : A -> string) (l : list A) : NoDup l -> (forall x y, In x l -> In y l -> f x = f y -> x = y) -> NoDup (map f l).
Proof.
  induction 1 as [|x l X N IH]; intro H; [constructor|]. cbn. constructor; [|apply IH; intros; apply H; auto; now right].
  intro I. apply in_map_iff in I as (y & E & Y). apply X. rewrite (H x y (or_introl eq_refl) (or_intror Y) (eq_sym E)). exact Y.
Qed.
Lemma map_nodup {A} (f : A -> string) (l : list A) : NoDup (map f l) -> forall x y, In x l -> In y l -> f x = f y -> x = y.
Proof.
  induction l as [|a l IH]; intros N x y X Y E; [destruct X|]. inversion_clear N as [|? ? Na N']. destruct X as [<-|X], Y as [<-|Y]; auto.
  - exfalso. apply Na. rewrite E. now apply in_map.
  - exfalso. apply Na. rewrite <- E. now apply in_map.
Qed.
Definition of_type (x : ident) : string := match x with TypeParameters t | TypeClass t | Function _ t => t | Variable_of i | Setpos i => i | Fixed f => f end.
Lemma declared_nodup s : NoDup (type_names s) -> NoDup (instance_names s) -> (forall c, In c (types s) -> NoDup (t_sections c)) -> NoDup (declared s).
Proof.
  intros T I S'. unfold declared. apply nodup_join; [|apply nodup_join; [|apply nodup_join|]|].
  - apply FinFun.Injective_map_NoDup; [intros a b E; now injection E|]. unfold fixed_names. repeat (constructor; [cbn; intuition discriminate|]). constructor.
  - apply (nodup_parts t_name _ of_type); [exact T| |intros a b [<-|[<-|[]]]; reflexivity]. intros a _. repeat constructor; cbn; intuition discriminate.
  - apply (nodup_parts fst _ of_type); [exact I| |intros a b [<-|[<-|[]]]; reflexivity]. intros a _. repeat constructor; cbn; intuition discriminate.
  - apply (nodup_parts t_name _ of_type); [exact T| |]. { intros a A. apply FinFun.Injective_map_NoDup; [intros f g E; now injection E|now apply S']. } intros a b B. apply in_map_iff in B as (f & <- & _). reflexivity.
  - intros x X Y. apply in_flat_map in X as (i & _ & [<-|[<-|[]]]); apply in_flat_map in Y as (c & _ & Y); apply in_map_iff in Y as (f & E & _); discriminate E.
  - intros x X Y. apply in_flat_map in X as (i & _ & [<-|[<-|[]]]); apply in_app_iff in Y as [Y|Y]; apply in_flat_map in Y as (c & _ & Y); try (destruct Y as [Y|[Y|[]]]; discriminate Y); apply in_map_iff in Y as (f & E & _); discriminate E.
  - intros x X Y. apply in_map_iff in X as (f & <- & _). rewrite !in_app_iff, !in_flat_map in Y. destruct Y as [(c & _ & [Y|[Y|[]]])|[(c & _ & [Y|[Y|[]]])|(c & _ & Y)]]; try discriminate Y. apply in_map_iff in Y as (g & E & _); discriminate E.
Qed.

(** * C68 *)
(** The typedef names, variables and functions of the program are distinct exactly when no type is called like one of the program or like the parameters of another type, no instance is called
    instrument, and no instance and type share a name of the forms class_x and x_var or x_setpos. *)
Theorem C68_names : forall s, NoDup (type_names s) -> NoDup (instance_names s) -> (forall c, In c (types s) -> NoDup (t_sections c)) ->
  (NoDup (c_names s) <-> types_free s /\ instances_free s).
Proof.
  intros s T I S'. pose proof (declared_nodup s T I S') as D. unfold c_names. split.
  - intro N. pose proof (map_nodup _ _ N) as Inj.
    assert (B : forall x y, bad x y -> In x (declared s) -> In y (declared s) -> False) by (intros x y B X Y; pose proof (Inj x y X Y (bad_same x y B)); destruct B; discriminate).
    assert (Fx : forall f, In f fixed_names -> In (Fixed f) (declared s)) by (intros; now apply in_declared).
    repeat split.
    + intros t Ht [<-|[<-|[<-|[]]]].
      * apply (B _ _ bad_particle); [now apply in_declared|apply Fx; cbn; auto].
      * apply (B _ _ bad_instrument); [now apply in_declared|apply Fx; cbn; auto].
      * apply (B _ _ bad_parameters); [now apply in_declared|apply Fx; cbn; auto].
    + intros t u Ht Hu ->. apply (B _ _ (bad_types t)); now apply in_declared.
    + intro H. apply (B _ _ bad_variable); [now apply in_declared|apply Fx; cbn; auto].
    + intros [-> ->]. destruct H1 as [<-|[<-|[]]]; [apply (B _ _ bad_var)|apply (B _ _ bad_pos)]; now apply in_declared.
    + intros u [-> ->]. destruct H1 as [<-|[<-|[]]]; [apply (B _ _ (bad_vars u))|apply (B _ _ (bad_poss u))]; now apply in_declared.
  - intros [[A1 A2] [A3 A4]]. apply nodup_map; [exact D|]. intros x y X Y E.
    assert (B : forall x y, bad x y -> In x (declared s) -> In y (declared s) -> False).
    { clear x y X Y E. intros x y B X Y. apply in_declared in X, Y. destruct B.
      - apply (A1 _ X). cbn; auto.
      - apply (A1 _ X). cbn; auto.
      - apply (A1 _ X). cbn; auto.
      - now apply A3.
      - exact (A2 t _ Y X eq_refl).
      - apply (A4 _ _ "var" X Y ltac:(cbn; auto)). auto.
      - apply (A4 _ _ "var" X Y ltac:(cbn; auto)) with (u := u). auto.
      - apply (A4 _ _ "setpos" X Y ltac:(cbn; auto)). auto.
      - apply (A4 _ _ "setpos" X Y ltac:(cbn; auto)) with (u := u). auto. }
    destruct (clash x y) as [->|[H|H]]; auto.
    + intros f ->. now apply in_declared in X.
    + intros f ->. now apply in_declared in Y.
    + destruct (B _ _ H X Y).
    + destruct (B _ _ H Y X).
Qed.
Print Assumptions C68_names.
Fixpoint nodupb (l : list string) : bool := match l with [] => true | a :: t => negb (existsb (String.eqb a) t) && nodupb t end.
Lemma nodupb_ok l : nodupb l = true -> NoDup l.
Proof.
  induction l as [|a l IH]; intro H; [constructor|]. cbn in H. apply andb_prop in H as [A B]. constructor; [|now apply IH]. intro I. apply negb_true_iff in A.
  assert (X : existsb (String.eqb a) l = true) by (apply existsb_exists; exists a; split; [exact I|apply String.eqb_refl]). congruence.
Qed.
Definition usual : source := mkSource [mkType "Arm" [Trace; Display]; mkType "PSD_monitor" [Initialize; Trace; Save; Finally; Display]] [("arm", false); ("psd", true); ("arm2", false)] [].
Example C68_names_nonvacuous : NoDup (type_names usual) /\ NoDup (instance_names usual) /\ (forall c, In c (types usual) -> NoDup (t_sections c)) /\ types_free usual /\ instances_free usual /\ In "_class_PSD_monitor_parameters" (c_names usual).
Proof.
  assert (T : NoDup (type_names usual)) by (apply nodupb_ok; reflexivity). assert (I : NoDup (instance_names usual)) by (apply nodupb_ok; reflexivity).
  assert (S' : forall c, In c (types usual) -> NoDup (t_sections c)) by (intros c [<-|[<-|[]]]; cbn; repeat constructor; cbn; intuition discriminate).
  assert (F : types_free usual /\ instances_free usual) by (apply (C68_names usual T I S'), nodupb_ok; reflexivity). destruct F as [F1 F2]. do 5 (split; [assumption|]).
  apply (in_map c_name _ (TypeParameters "PSD_monitor")), in_declared. cbn. auto.
Qed.

Lemma not_nodup {A} (a b c : list A) x : ~ NoDup (a ++ x :: b ++ x :: c).
Proof. intro N. apply NoDup_remove_2 in N. apply N. rewrite !in_app_iff. cbn. auto. Qed.
(** A component type particle or instrument makes a second type of a name that the program uses. *)
Theorem C68_type_of_the_program_refuted : forall s t, In t ["particle"; "instrument"] -> In t (type_names s) -> ~ NoDup (c_names s).
Proof.
  intros s t Ht H N. pose proof (map_nodup _ _ N) as Inj. destruct Ht as [<-|[<-|[]]].
  - assert (E : TypeClass "particle" = Fixed "_class_particle"); [|discriminate E]. apply Inj; [now apply in_declared|apply in_declared; cbn; auto|reflexivity].
  - assert (E : TypeParameters "instrument" = Fixed "_class_instrument_parameters"); [|discriminate E]. apply Inj; [now apply in_declared|apply in_declared; cbn; auto|reflexivity].
Qed.
Print Assumptions C68_type_of_the_program_refuted.
Example C68_type_of_the_program_nonvacuous : In "particle" (type_names (mkSource [mkType "particle" [Trace]] [("p", false)] [])).
Proof. cbn. auto. Qed.
(** An instance called instrument: its variable is the one of the instrument. *)
Theorem C68_instance_instrument_refuted : forall s, In "instrument" (instance_names s) -> ~ NoDup (c_names s).
Proof.
  intros s H N. pose proof (map_nodup _ _ N) as Inj. assert (E : Variable_of "instrument" = Fixed "_instrument_var"); [|discriminate E]. apply Inj; [now apply in_declared|apply in_declared; cbn; auto|reflexivity].
Qed.
Print Assumptions C68_instance_instrument_refuted.
Example C68_instance_instrument_nonvacuous : In "instrument" (instance_names (mkSource [mkType "Arm" []] [("instrument", false)] [])).
Proof. cbn. auto. Qed.
(** Two types of which one is called like the parameters of the other. *)
Theorem C68_type_and_parameters_refuted : forall s t, In t (type_names s) -> In (t +++ "_parameters") (type_names s) -> ~ NoDup (c_names s) /\ ~ NoDup (struct_names s).
Proof.
  intros s t H K. split.
  - intro N. pose proof (map_nodup _ _ N) as Inj. assert (E : TypeClass (t +++ "_parameters") = TypeParameters t); [|discriminate E]. apply Inj; [now apply in_declared|now apply in_declared|reflexivity].
  - intro N. unfold struct_names in N. assert (N' : NoDup (flat_map (fun c => ["_struct_" +++ t_name c +++ "_parameters"; "_struct_" +++ t_name c]) (types s))).
    { clear - N. repeat (match type of N with NoDup (?h :: ?r) => apply NoDup_cons_iff in N as [_ N] end). do 5 (cbn [app] in N; apply NoDup_cons_iff in N as [_ N]). exact N. }
    clear N. unfold type_names in *. apply in_map_iff in H as (c & Ct & C), K as (d & Dt & Dd). destruct (in_split _ _ C) as (l1 & l2 & E). rewrite E in *. rewrite flat_map_app in N'. cbn [flat_map app] in N'.
    assert (X : t_name d <> t_name c). { rewrite Ct, Dt. intro X. apply (f_equal String.length) in X. rewrite string_app_length in X. cbn in X. lia. }
    apply NoDup_remove_2 in N'. apply N'. rewrite in_app_iff. apply in_app_iff in Dd as [Dd|[->|Dd]]; [left| |right; right]; try congruence; apply in_flat_map; exists d; (split; [exact Dd|]); right; left; now rewrite Ct, Dt.
Qed.
Print Assumptions C68_type_and_parameters_refuted.
Example C68_type_and_parameters_nonvacuous : let s := mkSource [mkType "Guide" [Trace]; mkType "Guide_parameters" [Trace]] [("a", false); ("b", false)] [] in In "Guide" (type_names s) /\ In ("Guide" +++ "_parameters") (type_names s).
Proof. cbn. auto. Qed.

Lemma struct_types l : NoDup (map t_name l) -> (forall t u, In t (map t_name l) -> In u (map t_name l) -> u <> t +++ "_parameters") -> NoDup (flat_map (fun c => ["_struct_" +++ t_name c +++ "_parameters"; "_struct_" +++ t_name c]) l).
Proof.
  induction l as [|c l IH]; intros T A2; [constructor|]. cbn [map] in T. inversion_clear T as [|? ? X T']. specialize (IH T' ltac:(intros t u Ht Hu; apply A2; now right)).
  assert (Ml : forall d, In d l -> In (t_name d) (map t_name (c :: l))) by (intros d D; right; now apply in_map). assert (Mc : In (t_name c) (map t_name (c :: l))) by now left.
  cbn [flat_map app]. constructor; [|constructor; [|exact IH]].
  - intros [E|H].
    + injection E as E. apply (f_equal String.length) in E. rewrite string_app_length in E. cbn in E. lia.
    + apply in_flat_map in H as (d & D & [E|[E|[]]]); injection E as E.
      * apply app_same in E. apply X. rewrite <- E. now apply in_map.
      * exact (A2 (t_name c) (t_name d) Mc (Ml d D) E).
  - intro H. apply in_flat_map in H as (d & D & [E|[E|[]]]); injection E as E.
    + exact (A2 (t_name d) (t_name c) (Ml d D) Mc (eq_sym E)).
    + apply X. rewrite <- E. now apply in_map.
Qed.
(** The names of structures are distinct when the types are free. *)
Theorem C68_structures : forall s, NoDup (type_names s) -> types_free s -> NoDup (struct_names s).
Proof.
  intros s T [A1 A2]. unfold struct_names. apply nodup_join.
  - repeat constructor; cbn; intuition discriminate.
  - now apply struct_types.
  - intros x X Y. apply in_flat_map in Y as (c & C & Y). assert (M : In (t_name c) (type_names s)) by (now apply in_map). specialize (A1 _ M).
    destruct X as [<-|[<-|[<-|[<-|[<-|[]]]]]]; destruct Y as [Y|[Y|[]]]; try discriminate Y; injection Y as Y.
    + exact (suffixes (t_name c) "" "_parameters" "particle" eq_refl eq_refl Y).
    + apply A1. rewrite Y. cbn; auto.
    + apply (app_same (t_name c) "instrument" "_parameters") in Y. apply A1. rewrite Y. cbn; auto.
    + apply A1. rewrite Y. cbn; auto.
Qed.
Print Assumptions C68_structures.
Example C68_structures_nonvacuous : NoDup (struct_names usual).
Proof. apply C68_structures; apply C68_names_nonvacuous. Qed.

Lemma split_names l : NoDup l -> (forall a b, In a l -> In b l -> b <> a +++ "_particle") -> NoDup (flat_map (fun a => ["Split_" +++ a; "Split_" +++ a +++ "_particle"]) l).
Proof.
  induction l as [|a l IH]; intros Sp H; [constructor|]. inversion_clear Sp as [|? ? X Sp']. specialize (IH Sp' ltac:(intros t u Ht Hu; apply H; now right)). cbn [flat_map app]. constructor; [|constructor; [|exact IH]].
  - intros [E|K].
    + injection E as E. apply (f_equal String.length) in E. rewrite string_app_length in E. cbn in E. lia.
    + apply in_flat_map in K as (b & B & [E|[E|[]]]); injection E as E; [subst; now apply X|]. exact (H b a (or_intror B) (or_introl eq_refl) (eq_sym E)).
  - intro K. apply in_flat_map in K as (b & B & [E|[E|[]]]); injection E as E; [exact (H a b (or_introl eq_refl) (or_intror B) E)|]. apply app_same in E. subst. now apply X.
Qed.
(** The members that control GROUP and SPLIT are distinct exactly when no instance with SPLIT is called like the copy of the particle of another. *)
Definition splits (s : source) : list string := map fst (filter snd (instances s)).
Theorem C68_control_members : forall s, NoDup (instance_names s) -> NoDup (groups s) -> (NoDup (logic_members s) <-> forall a b, In a (splits s) -> In b (splits s) -> b <> a +++ "_particle").
Proof.
  intros s I G. unfold logic_members, splits, instance_names in *.
  assert (L : flat_map (fun i : string * bool => if snd i then ["Split_" +++ fst i; "Split_" +++ fst i +++ "_particle"] else []) (instances s) = flat_map (fun a => ["Split_" +++ a; "Split_" +++ a +++ "_particle"]) (map fst (filter snd (instances s)))).
  { induction (instances s) as [|[a b] l IH]; [reflexivity|]. inversion_clear I as [|? ? _ I']. cbn [flat_map snd fst filter]. destruct b; cbn [map fst flat_map]; now rewrite (IH I'). }
  rewrite L. clear L. assert (Sp : NoDup (map fst (filter snd (instances s)))).
  { induction (instances s) as [|[a b] l IH]; [constructor|]. inversion_clear I as [|? ? X I']. cbn [filter snd]. destruct b; [|now apply IH]. cbn [map fst]. constructor; [|now apply IH]. intro H. apply X. apply in_map_iff in H as (p & <- & P). apply filter_In in P as [P _]. now apply in_map. }
  set (l := map fst (filter snd (instances s))) in *. split.
  - intros N a b A B ->. clear Sp. assert (N' : NoDup (flat_map (fun a => ["Split_" +++ a; "Split_" +++ a +++ "_particle"]) l)). { clear - N. induction (map (fun g => "Group_" +++ g) (groups s)) as [|x m IH]; [exact N|]. inversion_clear N. auto. }
    clear N G. destruct (in_split _ _ A) as (l1 & l2 & E). rewrite E in *. rewrite flat_map_app in N'. cbn [flat_map app] in N'.
    change (flat_map ?f l1 ++ ?x :: ?y :: ?r) with (flat_map f l1 ++ [x] ++ y :: r) in N'. rewrite app_assoc in N'. apply NoDup_remove_2 in N'. apply N'. rewrite !in_app_iff.
    assert (X : a +++ "_particle" <> a). { intro X. apply (f_equal String.length) in X. rewrite string_app_length in X. cbn in X. lia. }
    apply in_app_iff in B as [B|[B|B]]; [left; left|symmetry in B; contradiction|right]; apply in_flat_map; exists (a +++ "_particle"); (split; [exact B|left; reflexivity]).
  - intro H. apply nodup_join.
    + apply Injective_map_NoDup; [|exact G]. intros a b E. now injection E.
    + now apply split_names.
    + intros x X Y. apply in_map_iff in X as (g & <- & _). apply in_flat_map in Y as (a & _ & [E|[E|[]]]); discriminate E.
Qed.
Print Assumptions C68_control_members.
Example C68_control_members_nonvacuous : (forall a b, In a (splits usual) -> In b (splits usual) -> b <> a +++ "_particle") /\ logic_members usual = ["Split_psd"; "Split_psd_particle"].
Proof. split; [intros a b [<-|[]] [<-|[]]; discriminate|reflexivity]. Qed.
(** SPLIT on an instance a and on one called a_particle: the structure has two members of one name. *)
Theorem C68_split_copy_refuted : forall s a, NoDup (instance_names s) -> NoDup (groups s) -> In a (splits s) -> In (a +++ "_particle") (splits s) -> ~ NoDup (logic_members s).
Proof. intros s a I G A B N. exact (proj1 (C68_control_members s I G) N a _ A B eq_refl). Qed.
Print Assumptions C68_split_copy_refuted.
Example C68_split_copy_nonvacuous : logic_members (mkSource [] [("a", true); ("a_particle", true)] []) = ["Split_a"; "Split_a_particle"; "Split_a_particle"; "Split_a_particle_particle"].
Proof. reflexivity. Qed.
