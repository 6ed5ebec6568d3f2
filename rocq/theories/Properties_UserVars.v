(** C49: user particle variables are merged without clashes. *)
From Coq Require Import List String Ascii Bool NArith ZArith Arith Lia.
From Verif Require Import PyStr UserVars.
Import ListNotations.
Local Open Scope string_scope.
Local Open Scope list_scope.
Local Open Scope nat_scope.

(** the declarations that the particle structure must serve: those of the instrument as written, and those of the type of each
    component with the position of the component (from one) appended *)
Definition wanted_name (blocks : list (list decl)) (types : list (string * list (list decl))) (instances : list string) (n : string) : Prop :=
  (exists b d, In b blocks /\ In d b /\ n = d_name d) \/
  (exists k t bs b d, nth_error instances k = Some t /\ In (t, bs) types /\ In b bs /\ In d b /\ n = (d_name d ++ "_" ++ str_nat (k + 1))%string).

Theorem C49_members_have_distinct_names : forall h blocks types instances r,
  determine h blocks types instances = Some r -> NoDup (map d_name (all_uservars h r)).
Proof. intros. eapply all_distinct; eauto. Qed.
Print Assumptions C49_members_have_distinct_names.

Theorem C49_members_are_the_wanted_ones : forall h blocks types instances r, NoDup (map fst types) ->
  determine h blocks types instances = Some r -> forall n, In n (map d_name (all_uservars h r)) <-> wanted_name blocks types instances n.
Proof.
  intros h blocks types instances r T E n. rewrite (all_eq _ _ _ _ _ E). pose proof E as E'. apply determine_facts in E' as (cd & C & F & G & _ & _).
  destruct (comp_declares_facts h _ _ _ C ltac:(constructor) ltac:(intros ? [])) as (K & Q & S & W & _). split.
  - intro I. apply in_map_iff in I as (m & <- & I). apply add_sound in I as [I|I].
    + left. apply merge_sound in I as (b & B & D). eauto.
    + right. apply in_flat_map in I as ([t ds] & I & D). rewrite G in I. apply in_map_iff in I as ([t' bs'] & J & I). cbn in J, D. injection J as -> <-.
      apply of_instances_in in D as (k & d & Kn & D & ->). apply S in I as [[]|(bs & I & ->)]. apply merge_sound in D as (b & B & D). rewrite copy_name. exists k, t, bs, b, d. auto.
  - intros [(b & d & B & D & ->)|(k & t & bs & b & d & Kn & I & B & D & ->)].
    + destruct (merge_complete h blocks b d B D) as (e & Ie & Se). rewrite (same_name _ _ _ Se). apply in_map. now apply add_incl.
    + destruct (merge_complete h bs b d B D) as (e & Ie & Se). rewrite (same_name _ _ _ Se), <- copy_name.
      destruct (add_complete h (flat_map snd (snd r)) (merge h blocks) (copy (str_nat (k + 1)) e)) as (y & Y & Sy).
      * apply in_flat_map. rewrite G. exists (t, of_instances instances t (merge h bs)). split.
        -- apply in_map_iff. exists (t, merge h bs). split; auto.
        -- cbn. apply of_instances_in. eauto.
      * rewrite (same_name _ _ _ Sy). now apply in_map.
Qed.
Print Assumptions C49_members_are_the_wanted_ones.

(** every member is a declaration somebody wrote, unchanged but for the number *)
Theorem C49_members_are_as_declared : forall h blocks types instances r,
  determine h blocks types instances = Some r -> forall m, In m (all_uservars h r) ->
  (exists b, In b blocks /\ In m b) \/
  (exists k t bs b d, nth_error instances k = Some t /\ In (t, bs) types /\ In b bs /\ In d b /\ m = copy (str_nat (k + 1)) d).
Proof.
  intros h blocks types instances r E m. rewrite (all_eq _ _ _ _ _ E). apply determine_facts in E as (cd & C & F & G & _ & _).
  destruct (comp_declares_facts h _ _ _ C ltac:(constructor) ltac:(intros ? [])) as (_ & _ & S & _). intro I. apply add_sound in I as [I|I].
  - left. now apply merge_sound in I.
  - right. apply in_flat_map in I as ([t ds] & I & D). rewrite G in I. apply in_map_iff in I as ([t' bs'] & J & I). cbn in J, D. injection J as -> <-.
    apply of_instances_in in D as (k & d & Kn & D & ->). apply S in I as [[]|(bs & I & ->)]. apply merge_sound in D as (b & B & D). exists k, t, bs, b, d. auto.
Qed.
Print Assumptions C49_members_are_as_declared.

(** the numbers by which instrument variables are found at run time (particle_getuservar_byid) do not depend on the components *)
Theorem C49_numbers_of_instrument_variables : forall h blocks types instances types' instances' r r',
  determine h blocks types instances = Some r -> determine h blocks types' instances' = Some r' ->
  fst r = fst r' /\ forall i d, nth_error (fst r) i = Some d -> nth_error (all_uservars h r) i = Some d /\ nth_error (all_uservars h r') i = Some d.
Proof.
  intros h blocks types instances types' instances' r r' E E'. rewrite (all_eq _ _ _ _ _ E), (all_eq _ _ _ _ _ E').
  apply determine_facts in E as (cd & _ & F & _). apply determine_facts in E' as (cd' & _ & F' & _). rewrite F, F'. split; [reflexivity|]. intros i d N.
  assert (P : forall l acc, exists rest, fold_left (add h) l acc = acc ++ rest).
  { induction l as [|x l IH]; cbn; intros acc; [exists []; now rewrite app_nil_r|]. destruct (IH (add h acc x)) as (rest & ->). unfold add. destruct existsb; eauto. rewrite <- app_assoc. eauto. }
  destruct (P (flat_map snd (snd r)) (merge h blocks)) as (x & ->). destruct (P (flat_map snd (snd r')) (merge h blocks)) as (y & ->).
  assert (L : i < List.length (merge h blocks)) by (apply nth_error_Some; congruence). now rewrite !nth_error_app1.
Qed.
Print Assumptions C49_numbers_of_instrument_variables.

(** ** Disagreement. [no_collision]: different texts among the declarations have different hashes. *)
Definition no_collision (h : string -> N) (l : list decl) : Prop := forall a b, In a l -> In b l -> h (d_str a) = h (d_str b) -> d_str a = d_str b.
Lemma same_text h l : no_collision h l -> forall a b, In a l -> In b l -> same h a b = true -> d_str a = d_str b.
Proof. intros N a b A B S. unfold same in S. apply andb_true_iff in S as [S _]. apply N; auto. now apply N.eqb_eq. Qed.
Lemma merge_agree h bs a b : no_collision h (List.concat bs) -> NoDup (map d_name (merge h bs)) -> In a (List.concat bs) -> In b (List.concat bs) -> d_name a = d_name b -> d_str a = d_str b.
Proof.
  intros N D A B E. pose proof A as A'. pose proof B as B'. apply in_concat in A as (ba & Ia & A). apply in_concat in B as (bb & Ib & B).
  destruct (merge_complete h bs ba a Ia A) as (x & X & Sx). destruct (merge_complete h bs bb b Ib B) as (y & Y & Sy).
  assert (x = y). { apply (name_in_split (merge h bs)); auto. rewrite <- (same_name _ _ _ Sx), <- (same_name _ _ _ Sy). exact E. } subst y.
  assert (Cx : In x (List.concat bs)) by (apply merge_sound in X as (b0 & ? & ?); apply in_concat; eauto).
  transitivity (d_str x); [now apply (same_text h (List.concat bs)) | symmetry; now apply (same_text h (List.concat bs))].
Qed.

(** what is written into the structure (type, stars, name, attributes) is the same for declarations of one name: in the instrument,
    in a component type, and between the instrument and a component *)
Theorem C49_disagreement_in_text_is_reported_partial : forall h blocks types instances r, NoDup (map fst types) ->
  determine h blocks types instances = Some r ->
  (no_collision h (List.concat blocks) -> forall a b, In a (List.concat blocks) -> In b (List.concat blocks) -> d_name a = d_name b -> d_str a = d_str b) /\
  (forall t bs, In (t, bs) types -> no_collision h (List.concat bs) -> forall a b, In a (List.concat bs) -> In b (List.concat bs) -> d_name a = d_name b -> d_str a = d_str b) /\
  (no_collision h (List.concat blocks ++ flat_map snd (snd r)) -> forall a m, In a (List.concat blocks) -> In m (flat_map snd (snd r)) -> d_name a = d_name m -> d_str a = d_str m).
Proof.
  intros h blocks types instances r T E. pose proof (all_distinct _ _ _ _ _ E) as U. rewrite (all_eq _ _ _ _ _ E) in U. pose proof E as E'.
  apply determine_facts in E as (cd & C & F & G & A & B). destruct (comp_declares_facts h _ _ _ C ltac:(constructor) ltac:(intros ? [])) as (K & Q & S & W & _). split; [|split].
  - intros N a b Ia Ib. now apply (merge_agree h blocks).
  - intros t bs I N a b Ia Ib. apply (merge_agree h bs); auto. exact (Q _ (W T t bs I)).
  - intros N a m Ia Im En. set (l := List.concat blocks ++ flat_map snd (snd r)) in *.
    assert (Ia' := Ia). apply in_concat in Ia' as (b & Ib & Ia'). destruct (merge_complete h blocks b a Ib Ia') as (x & X & Sx).
    destruct (add_complete h (flat_map snd (snd r)) (merge h blocks) m Im) as (y & Y & Sy).
    assert (x = y). { apply (name_in_split _ x y U); [now apply add_incl | exact Y |]. rewrite <- (same_name _ _ _ Sx), <- (same_name _ _ _ Sy). exact En. } subst y.
    assert (Lx : In x l). { apply merge_sound in X as (b' & Ib' & X). apply in_or_app. left. apply in_concat. eauto. }
    transitivity (d_str x); [apply (same_text h l N); auto; apply in_or_app; auto | symmetry; apply (same_text h l N); auto; apply in_or_app; auto].
Qed.
Print Assumptions C49_disagreement_in_text_is_reported_partial.

(** nothing else is reported: declarations that are repeated word for word are accepted *)
Theorem C49_repetition_is_accepted : forall h blocks types instances, NoDup (map fst types) ->
  (forall a b, In a (List.concat blocks) -> In b (List.concat blocks) -> d_name a = d_name b -> a = b) ->
  (forall t bs, In (t, bs) types -> forall a b, In a (List.concat bs) -> In b (List.concat bs) -> d_name a = d_name b -> a = b) ->
  (forall k t bs a d, nth_error instances k = Some t -> In (t, bs) types -> In a (List.concat blocks) -> In d (List.concat bs) ->
     d_name a = (d_name d ++ "_" ++ str_nat (k + 1))%string -> a = copy (str_nat (k + 1)) d) ->
  exists r, determine h blocks types instances = Some r.
Proof.
  intros h blocks types instances T A B C.
  assert (M : forall bs, (forall a b, In a (List.concat bs) -> In b (List.concat bs) -> d_name a = d_name b -> a = b) -> NoDup (map d_name (merge h bs))).
  { intros bs H. rewrite merge_eq. unfold fromkeys. assert (Z : forall l acc, (forall a b, In a (acc ++ l) -> In b (acc ++ l) -> d_name a = d_name b -> a = b) -> NoDup (map d_name acc) -> NoDup (map d_name (fold_left (add h) l acc))).
    { induction l as [|d l IH]; cbn; intros acc Q N; auto. apply IH.
      - intros a b Ia Ib. apply Q; unfold add in *; destruct existsb; rewrite in_app_iff in *; cbn; try tauto; rewrite in_app_iff in *; cbn in *; tauto.
      - unfold add. destruct existsb eqn:X; auto. rewrite map_app. apply nodup_app; auto; [repeat constructor; auto|]. intros n I [<-|[]]. apply in_map_iff in I as (y & Ey & I).
        assert (y = d) by (apply Q; auto; apply in_or_app; cbn; auto). subst y. rewrite <- not_true_iff_false in X. apply X. apply existsb_exists. exists d. split; auto. apply same_refl. }
    apply (Z _ []); auto. constructor. }
  unfold determine. cbv zeta. rewrite (proj2 (distinct_nodup _) (M blocks A)).
  assert (D : forall ts acc, (forall t bs, In (t, bs) ts -> NoDup (map d_name (merge h bs))) -> exists cd, comp_declares h ts acc = Some cd).
  { induction ts as [|[t bs] ts IH]; cbn; intros acc H; [eauto|]. rewrite (proj2 (distinct_nodup _) (H t bs (or_introl eq_refl))). apply IH. eauto. }
  destruct (D types []) as (cd & Cd). { intros t bs I. apply M. eauto. } rewrite Cd.
  destruct (comp_declares_facts h _ _ _ Cd ltac:(constructor) ltac:(intros ? [])) as (K & Q & S & W & _).
  match goal with |- context [if distinct ?l then _ else _] => assert (N : distinct l = true) end; [|rewrite N; eauto].
  apply distinct_nodup. set (id := map _ cd).
  assert (N : NoDup (map d_name (flat_map snd id))).
  { subst id. clear - K Q. induction cd as [|[n ds] cd IH]; [constructor|]. cbn. rewrite map_app. inversion_clear K. apply nodup_app.
    - apply of_instances_nodup. exact (Q _ (or_introl eq_refl)).
    - apply IH; auto. intros p I. apply Q. cbn. auto.
    - intros x X Y. apply in_map_iff in X as (d & <- & X). apply in_map_iff in Y as (e & E & Y). apply in_flat_map in Y as ([m es] & Z & Y).
      apply in_map_iff in Z as ([m' ds'] & J & Z). cbn in J. injection J as -> <-. cbn in Y.
      apply of_instances_in in X as (k & d0 & Kn & D0 & ->). apply of_instances_in in Y as (k' & e0 & Km & E0 & ->).
      rewrite !copy_name in E. apply instance_name_inj in E as [_ E]. assert (k' = k) by lia. subst k'. rewrite Kn in Km. injection Km as ->.
      apply H. apply in_map_iff. exists (m, ds'). auto. }
  replace (fromkeys h (flat_map snd id)) with (flat_map snd id) by (symmetry; apply (add_sparse h _ []); apply distinct_names_sparse; exact N).
  apply nodup_names_filter; auto. intros x y X Y E. apply in_flat_map in Y as ([t ds] & Y & Yd). subst id. apply in_map_iff in Y as ([t' bs'] & J & Y). cbn in J, Yd. injection J as -> <-.
  apply of_instances_in in Yd as (k & d & Kn & Dd & ->). apply S in Y as [[]|(bs & Y & ->)]. apply merge_sound in X as (b & Ib & X). apply merge_sound in Dd as (b' & Ib' & Dd).
  rewrite copy_name in E. assert (x = copy (str_nat (k + 1)) d) as ->; [|apply same_refl]. apply (C k t bs); auto; apply in_concat; eauto.
Qed.
Print Assumptions C49_repetition_is_accepted.

Definition pq (t : string) : quals := mkQ None [] None (Some t) None.
(** an instrument with two USERVARS blocks and three components of two types *)
Fixpoint poly (s : string) : N := match s with "" => 1%N | String c t => (N_of_ascii c + 256 * poly t)%N end.
Example C49_nonvacuous :
  let h := poly in
  let blocks := [[Plain "flag" (pq "int"); Plain "w" (mkQ (Some "*") [] None (Some "double") None)]; [Plain "flag" (pq "int")]] in
  let types := [("Arm", []); ("Sample", [[Plain "flag" (pq "int")]; [Fun (Plain "cb" (mkQ (Some "*") [] None None None)) None (Some "int") (pq "void")]])] in
  NoDup (map fst types) /\ exists r, determine h blocks types ["Arm"; "Sample"; "Sample"] = Some r /\
  no_collision h (List.concat blocks ++ flat_map snd (snd r)) /\
  member_lines (all_uservars h r) = ["  int flag;"; "  double * w;"; "  int flag_2;"; "  void (* cb_2)(int);"; "  int flag_3;"; "  void (* cb_3)(int);"].
Proof.
  intros h blocks types. split; [repeat constructor; cbn; intuition discriminate|]. eexists. split; [vm_compute; reflexivity|]. split; [|vm_compute; reflexivity].
  intros a b A B. vm_compute in A, B. repeat (destruct A as [<-|A]; [repeat (destruct B as [<-|B]; [vm_compute; congruence|]); destruct B|]). destruct A.
Qed.

(** ** What is wrong *)
(** the size of an array is not written into the structure: its member is the scalar *)
Theorem C49_array_is_declared_as_scalar_refuted : forall h n t e, exists r,
  determine h [[Plain n (mkQ None [] (Some e) (Some t) None)]] [] [] = Some r /\
  member_lines (all_uservars h r) = member_lines [Plain n (pq t)].
Proof.
  intros h n t e. eexists. split; [reflexivity|]. reflexivity.
Qed.
Print Assumptions C49_array_is_declared_as_scalar_refuted.

(** [int x;] then [int x[3];] or [int x = 3;]: not reported, the later one vanishes *)
Theorem C49_array_and_scalar_refuted : forall h n t e,
  let a := Plain n (pq t) in let b := Plain n (mkQ None [] (Some e) (Some t) None) in
  a <> b /\ (exists r, determine h [[a; b]] [] [] = Some r /\ all_uservars h r = [a]) /\ (exists r, determine h [[b; a]] [] [] = Some r /\ all_uservars h r = [b]).
Proof.
  intros h n t e a b. split; [intro H; injection H as H; discriminate|].
  assert (S : same h b a = true). { unfold same, a, b, d_str, decl_eqb. cbn [d_string q_ext q_pointer q_dtype]. rewrite N.eqb_refl. unfold quals_eqb. cbn. now rewrite !String.eqb_refl. }
  assert (S' := S). rewrite same_sym in S'.
  assert (D : forall x, distinct [x] = true) by (intro x; apply distinct_nodup; repeat constructor; auto).
  split.
  - assert (M : merge h [[a; b]] = [a]) by (unfold merge, fromkeys, add; cbn [fold_left app existsb]; rewrite S; reflexivity).
    eexists. split; [unfold determine; cbv zeta; rewrite M, D; cbn [comp_declares map flat_map]; unfold fromkeys; cbn [fold_left]; unfold add; cbn [existsb app]; rewrite D; reflexivity|]. reflexivity.
  - assert (M : merge h [[b; a]] = [b]) by (unfold merge, fromkeys, add; cbn [fold_left app existsb]; rewrite S'; reflexivity).
    eexists. split; [unfold determine; cbv zeta; rewrite M, D; cbn [comp_declares map flat_map]; unfold fromkeys; cbn [fold_left]; unfold add; cbn [existsb app]; rewrite D; reflexivity|]. reflexivity.
Qed.
Print Assumptions C49_array_and_scalar_refuted.

(** equality is not transitive: contradictory initial values pass when a declaration without one comes first, and are reported otherwise *)
Theorem C49_contradictory_initial_values_refuted : forall h n t u v, u <> v ->
  let x := Plain n (pq t) in let xu := Plain n (mkQ None [] None (Some t) (Some u)) in let xv := Plain n (mkQ None [] None (Some t) (Some v)) in
  (exists r, determine h [[x; xu; xv]] [] [] = Some r /\ all_uservars h r = [x]) /\ determine h [[xu; x; xv]] [] [] = None.
Proof.
  intros h n t u v N x xu xv.
  assert (Q : forall i j, quals_eqb (mkQ None [] None (Some t) i) (mkQ None [] None (Some t) j) = agree String.eqb i j) by (intros; unfold quals_eqb; cbn; now rewrite String.eqb_refl).
  assert (S : forall i j, same h (Plain n (mkQ None [] None (Some t) i)) (Plain n (mkQ None [] None (Some t) j)) = agree String.eqb i j).
  { intros. unfold same, d_str, decl_eqb. cbn [d_string q_ext q_pointer q_dtype]. rewrite N.eqb_refl, Q, String.eqb_refl. now rewrite andb_true_r. }
  assert (E : (v =?s u) = false) by (apply String.eqb_neq; auto).
  unfold x, xu, xv, pq in *. split.
  - assert (D : forall y, distinct [y] = true) by (intro y; apply distinct_nodup; repeat constructor; auto).
    assert (M : merge h [[Plain n (mkQ None [] None (Some t) None); Plain n (mkQ None [] None (Some t) (Some u)); Plain n (mkQ None [] None (Some t) (Some v))]] = [Plain n (mkQ None [] None (Some t) None)])
      by (unfold merge, fromkeys, add; cbn [fold_left app existsb]; rewrite !S; cbn [agree orb existsb]; rewrite !S; reflexivity).
    eexists. split; [unfold determine; cbv zeta; rewrite M, D; cbn [comp_declares map flat_map]; unfold fromkeys; cbn [fold_left]; unfold add; cbn [existsb app]; rewrite D; reflexivity|]. reflexivity.
  - unfold determine, merge, fromkeys. unfold add. cbn [fold_left existsb app]. rewrite !S. cbn [agree orb]. cbn [fold_left existsb app]. rewrite !S. cbn [agree orb]. rewrite E. cbn [orb app].
    unfold distinct. cbn [map d_name nodup]. destruct (in_dec string_dec n [n]) as [_|X]; [|destruct X; cbn; auto]. reflexivity.
Qed.
Print Assumptions C49_contradictory_initial_values_refuted.

(** The line of a member in the order of a declaration of C: type, pointer, name, further words, with a space between them and a
    semicolon at the end; the name of a function pointer is in brackets with what modifies it, its arguments follow in brackets. *)
Definition given (o : option string) : list string := match o with Some s => if s =?s "" then [] else [s] | None => [] end.
Fixpoint declaration (d : decl) : string :=
  match d with
  | Plain n q => join " " (given (q_dtype q) ++ given (q_pointer q) ++ [n] ++ q_ext q)
  | Fun f m a q => join " " (given (q_dtype q) ++ given (q_pointer q) ++ [("(" ++ join " " (given m ++ [declaration f]) ++ ")(" ++ join "" (given a) ++ ")")%string] ++ q_ext q)
  end.
Fixpoint proper (d : decl) : Prop :=
  match d with Plain _ q => Forall (fun w => w <> "") (q_ext q) | Fun f _ _ q => proper f /\ Forall (fun w => w <> "") (q_ext q) end.
Lemma join_cons sep x l : l <> [] -> join sep (x :: l) = (x ++ sep ++ join sep l)%string.
Proof. destruct l; [congruence|reflexivity]. Qed.
Lemma d_string_join q s : Forall (fun w => w <> "") (q_ext q) -> d_string q s = join " " (given (q_dtype q) ++ given (q_pointer q) ++ [s] ++ q_ext q).
Proof.
  intro F. unfold d_string.
  assert (E : (if join " " (q_ext q) =?s "" then s else (s ++ " " ++ join " " (q_ext q))%string) = join " " (s :: q_ext q)).
  { destruct F as [|x l Hx Hl]; [reflexivity|]. rewrite (join_cons " " s (x :: l)) by discriminate. destruct (String.eqb_spec (join " " (x :: l)) "") as [E|]; [|reflexivity].
    exfalso. destruct x as [|c x]; [congruence|]. destruct l; discriminate. }
  rewrite E. cbn [app].
  assert (P : forall o l, l <> [] -> (if nonempty o then (opt o ++ " " ++ join " " l)%string else join " " l) = join " " (given o ++ l)).
  { intros [[|c o]|] l L; try reflexivity. cbn [nonempty opt given String.eqb app]. now rewrite join_cons. }
  rewrite P by discriminate. rewrite P; [reflexivity|]. destruct (given (q_pointer q)); discriminate.
Qed.
Lemma d_str_declaration d : proper d -> d_str d = declaration d.
Proof.
  induction d as [n q|f IH m a q]; cbn [proper d_str declaration]; intro W; [now apply d_string_join|]. destruct W as [Wf W]. rewrite d_string_join by exact W.
  rewrite IH by exact Wf. f_equal. f_equal. f_equal. f_equal. unfold f_string. destruct m as [[|c m]|], a as [[|c' a]|]; cbn [nonempty opt given String.eqb app join]; rewrite ?string_app_assoc; cbn [append]; rewrite ?string_app_assoc; reflexivity.
Qed.
Theorem C49_member_lines : forall l, Forall proper l -> member_lines l = map (fun d => ("  " ++ declaration d ++ ";")%string) l.
Proof. intros l F. unfold member_lines. apply map_ext_in. intros d I. rewrite Forall_forall in F. now rewrite d_str_declaration by auto. Qed.
Print Assumptions C49_member_lines.
Example C49_member_lines_example : let d := Fun (Plain "f" (mkQ None [] None None None)) (Some "*") (Some "int, double") (mkQ None [] None (Some "double") None) in
  proper d /\ member_lines [d; Plain "p" (mkQ (Some "*") [] None (Some "const char") None)] = ["  double (* f)(int, double);"; "  const char * p;"].
Proof. split; [repeat constructor|reflexivity]. Qed.

(** translators/c_particle.py:22-51 struct_members, names only, for McStas *)
Definition builtin_members : list string :=
  ["x"; "y"; "z"; "vx"; "vy"; "vz"; "mcgravitation"; "mcMagnet"; "allow_backprop"; "sx"; "sy"; "sz"; "_mctmp_a"; "_mctmp_b"; "_mctmp_c"; "randstate"; "t"; "p"; "_uid"; "_index"; "_absorbed"; "_scattered"; "_restore"; "flag_nocoordschange"; "_logic"].
(** a variable named like a member of the structure itself is accepted, whatever its type *)
Theorem C49_builtin_member_refuted : forall h n q, In n builtin_members -> exists r,
  determine h [[Plain n q]] [] [] = Some r /\ ~ NoDup (builtin_members ++ map d_name (all_uservars h r)).
Proof.
  intros h n q I. eexists. split; [reflexivity|]. intro D.
  assert (X : forall l, In n l -> ~ NoDup (l ++ [n])).
  { intros l L N. apply NoDup_remove_2 in N. apply N. rewrite app_nil_r. exact L. }
  exact (X builtin_members I D).
Qed.
Print Assumptions C49_builtin_member_refuted.

(** two component types of one name: the variables of the first are lost, even for its own instances *)
Theorem C49_types_of_one_name_refuted : forall h, exists r,
  determine h [] [("Sample", [[Plain "a" (pq "int")]]); ("Sample", [[Plain "b" (pq "int")]])] ["Sample"; "Sample"] = Some r /\
  map d_name (all_uservars h r) = ["b_1"; "b_2"].
Proof.
  intro h. assert (S : same h (Plain "b_2" (pq "int")) (Plain "b_1" (pq "int")) = false) by (unfold same; cbn [decl_eqb]; now rewrite andb_false_r).
  unfold determine, all_uservars. cbn. unfold add. cbn [existsb]. rewrite S. cbn. eexists. split; [reflexivity|]. cbn. unfold add. cbn [existsb]. rewrite S. reflexivity.
Qed.
Print Assumptions C49_types_of_one_name_refuted.
