(* Properties C16-C18, C20-C24: instruments as data. *)
From Coq Require Import List String Ascii Bool Arith ZArith QArith Qcanon Lia Permutation Sorted.
From Verif Require Import PyStr Expr ExprEq InstrModel.
Import ListNotations.
Local Open Scope string_scope.
Local Open Scope list_scope.
Local Open Scope nat_scope.

Lemma existsb_name (l : list inst) n : existsb (fun x => i_name x =? n)%string l = true <-> In n (map i_name l).
Proof.
  rewrite existsb_exists, in_map_iff. split.
  - intros (x & Hx & E). apply String.eqb_eq in E. eauto.
  - intros (x & E & Hx). exists x. split; auto. now apply String.eqb_eq.
Qed.
Lemma existsb_name_false (l : list inst) n : existsb (fun x => i_name x =? n)%string l = false <-> ~ In n (map i_name l).
Proof. rewrite <- existsb_name. destruct (existsb _ l); split; congruence. Qed.
Lemma NoDup_snoc {A} (l : list A) x : NoDup l -> ~ In x l -> NoDup (l ++ [x]).
Proof.
  intros N H. induction N as [|y t Hy N IH]; cbn; [repeat constructor; auto|].
  constructor.
  - rewrite in_app_iff. cbn in *. intuition.
  - apply IH. cbn in H. tauto.
Qed.

(* ---------------- C16 ---------------- *)
(* a call that adds a component: add_component of a ready instance, or make_instance *)
Inductive addition :=
| Add (a : inst)
| Make (n : string) (c : ctype) (at_ : triple) (ar : option string) (rot : triple) (rr : option string)
       (o : option (list node)) (ps : list cpar) (g : option string) (rm : bool).
Definition added_name (op : addition) : string := match op with Add a => i_name a | Make n _ _ _ _ _ _ _ _ _ => n end.
Section C16.
  Variable place : triple -> option string -> triple -> option string -> list node.
  Definition call (s : instr) (op : addition) : res instr :=
    match op with
    | Add a => add_component s a
    | Make n c at_ ar rot rr o ps g rm => make_instance place s n c at_ ar rot rr o ps g rm
    end.
  (* a raising call leaves the object as it is *)
  Definition after (s : instr) (op : addition) : instr := match call s op with Ok s' => s' | _ => s end.

  Lemma call_cases s op :
    (call s op = Raise /\ In (added_name op) (map i_name (s_comps s))) \/
    (~ In (added_name op) (map i_name (s_comps s)) /\
     exists a, i_name a = added_name op /\ call s op = Ok (with_comps s (s_comps s ++ [a]))).
  Proof.
    destruct op; cbn [call added_name].
    - unfold add_component. destruct (existsb _ _) eqn:E.
      + left. split; auto. now apply existsb_name.
      + right. apply existsb_name_false in E. split; auto. exists a. auto.
    - unfold make_instance. destruct (existsb _ _) eqn:E.
      + left. split; auto. now apply existsb_name.
      + right. apply existsb_name_false in E. split; auto. eexists. split; [|reflexivity]. reflexivity.
  Qed.
End C16.

Theorem C16_names_stay_unique :
  forall place s ops, NoDup (map i_name (s_comps s)) ->
    NoDup (map i_name (s_comps (fold_left (after place) ops s))).
Proof.
  intros place s ops. revert s. induction ops as [|op t IH]; intros s N; cbn; auto.
  apply IH. unfold after. destruct (call_cases place s op) as [[-> _]|(H & a & E & ->)]; auto.
  cbn. rewrite map_app. cbn. rewrite E. now apply NoDup_snoc.
Qed.
Print Assumptions C16_names_stay_unique.

Theorem C16_addition_effect :
  forall place s op,
    (In (added_name op) (map i_name (s_comps s)) -> call place s op = Raise /\ after place s op = s) /\
    (~ In (added_name op) (map i_name (s_comps s)) ->
       exists a, i_name a = added_name op /\ call place s op = Ok (after place s op) /\
         s_comps (after place s op) = s_comps s ++ [a] /\
         s_params (after place s op) = s_params s /\ s_meta (after place s op) = s_meta s /\
         s_groups (after place s op) = s_groups s).
Proof.
  intros place s op. unfold after. destruct (call_cases place s op) as [[-> H]|(H & a & E & ->)]; split; intro; try tauto.
  exists a. auto 10.
Qed.
Print Assumptions C16_addition_effect.

(* looking a component up by its name finds the one that has the name *)
Theorem C16_lookup_by_name :
  forall l n x, NoDup (map i_name l) -> n <> "PREVIOUS" ->
    (get_component l n = Ok x <-> In x l /\ i_name x = n).
Proof.
  intros l n x N Hn. unfold get_component. destruct (String.eqb_spec n "PREVIOUS") as [E|_]; [congruence|].
  induction l as [|y t IH]; cbn.
  - split; [discriminate|tauto].
  - inversion N as [|? ? Hy Nt]; subst. destruct (String.eqb_spec (i_name y) n) as [E|E].
    + split.
      * intros [= <-]. auto.
      * intros [[->|Hx] Ex]; auto. exfalso. apply Hy. rewrite E, <- Ex. now apply in_map.
    + rewrite (IH Nt). split; intuition (subst; tauto || auto).
Qed.
Print Assumptions C16_lookup_by_name.

(* the only component of that name *)
Theorem C16_missing_name_raises :
  forall l n, n <> "PREVIOUS" -> ~ In n (map i_name l) -> get_component l n = Raise.
Proof.
  intros l n Hn H. unfold get_component. destruct (String.eqb_spec n "PREVIOUS") as [E|_]; [congruence|].
  destruct (find _ l) as [x|] eqn:E; auto. apply find_some in E as [Hx E]. apply String.eqb_eq in E.
  exfalso. apply H. rewrite <- E. now apply in_map.
Qed.
Print Assumptions C16_missing_name_raises.

Definition zero : node := NVal (PNum 0%Qc) DFloat OValue.
Definition o3 : triple := (zero, zero, zero).
Definition arm : ctype := mkCtype "Arm" [] [] [] true.
Definition simple (n : string) (g : option string) : inst :=
  mkInst n arm o3 None o3 None [] [] false false None None g [] [] [].
Definition noplace : triple -> option string -> triple -> option string -> list node := fun _ _ _ _ => [].
Example C16_names_stay_unique_example :
  let s := fold_left (after noplace) [Add (simple "a" None); Make "b" arm o3 None o3 None None [] None false; Add (simple "a" None)]
             (empty_instr "i") in
  map i_name (s_comps s) = ["a"; "b"] /\ get_component (s_comps s) "b" <> Raise.
Proof. split; [reflexivity|discriminate]. Qed.

(* ---------------- C17 ---------------- *)
Definition after_param (s : instr) (op : ipar * bool) : instr :=
  match add_parameter s (fst op) (snd op) with Ok s' => s' | _ => s end.
Lemma ipar_present_in l n : ipar_present l n = true <-> In n (map ip_name l).
Proof.
  unfold ipar_present. rewrite existsb_exists, in_map_iff. split.
  - intros (x & Hx & E). apply String.eqb_eq in E. eauto.
  - intros (x & E & Hx). exists x. split; auto. now apply String.eqb_eq.
Qed.
Lemma after_param_cases s op :
  (In (ip_name (fst op)) (map ip_name (s_params s)) /\ after_param s op = s) \/
  (~ In (ip_name (fst op)) (map ip_name (s_params s)) /\ after_param s op = with_params s (s_params s ++ [fst op])).
Proof.
  unfold after_param, add_parameter. destruct (ipar_present _ _) eqn:E; cbn.
  - left. apply ipar_present_in in E. destruct (snd op); auto.
  - right. split; auto. rewrite <- ipar_present_in. congruence.
Qed.

Theorem C17_parameters_stay_unique :
  forall s ops, NoDup (map ip_name (s_params s)) -> NoDup (map ip_name (s_params (fold_left after_param ops s))).
Proof.
  intros s ops. revert s. induction ops as [|op t IH]; intros s N; cbn; auto.
  apply IH. destruct (after_param_cases s op) as [[_ ->]|[H ->]]; auto.
  cbn. rewrite map_app. now apply NoDup_snoc.
Qed.
Print Assumptions C17_parameters_stay_unique.

(* the first parameter of a name, in the order they were offered *)
Definition first_named (n : string) (l : list ipar) : option ipar := find (fun p => ip_name p =? n)%string l.
Lemma find_flip n (l : list ipar) : find (fun p => n =? ip_name p)%string l = first_named n l.
Proof. unfold first_named. induction l as [|p t IH]; cbn; auto. rewrite String.eqb_sym, IH. reflexivity. Qed.
Lemma get_parameter_find s n : get_parameter s n = first_named n (s_params s).
Proof.
  unfold get_parameter. rewrite find_flip. destruct (ipar_present _ _) eqn:E; auto.
  unfold first_named. destruct (find _ _) as [p|] eqn:F; auto.
  apply find_some in F as [Hp F]. apply String.eqb_eq in F.
  assert (In n (map ip_name (s_params s))) by (rewrite <- F; now apply in_map).
  apply ipar_present_in in H. congruence.
Qed.
Lemma find_app {A} (f : A -> bool) a b : find f (a ++ b) = match find f a with Some x => Some x | None => find f b end.
Proof. induction a as [|x t IH]; cbn; auto. destruct (f x); auto. Qed.
Lemma first_named_none n l : ~ In n (map ip_name l) -> first_named n l = None.
Proof.
  intro H. unfold first_named. destruct (find _ l) as [p|] eqn:F; auto. apply find_some in F as [Hp F].
  apply String.eqb_eq in F. exfalso. apply H. rewrite <- F. now apply in_map.
Qed.
Lemma first_named_in n l : In n (map ip_name l) -> first_named n l <> None.
Proof.
  intros H E. apply in_map_iff in H as (p & Ep & Hp). unfold first_named in E.
  apply (find_none _ _ E) in Hp. apply String.eqb_neq in Hp. congruence.
Qed.

Theorem C17_first_definition_wins :
  forall s ops n, get_parameter (fold_left after_param ops s) n = first_named n (s_params s ++ map fst ops).
Proof.
  intros s ops n. rewrite get_parameter_find. revert s. induction ops as [|op t IH]; intro s; cbn.
  - now rewrite app_nil_r.
  - rewrite IH. unfold first_named. rewrite !find_app. cbn.
    fold (first_named n (s_params (after_param s op))). fold (first_named n (s_params s)).
    destruct (after_param_cases s op) as [[H ->]|[H ->]].
    + destruct (first_named n (s_params s)) eqn:F; auto.
      destruct (String.eqb_spec (ip_name (fst op)) n) as [E|E]; auto. exfalso. subst n. now apply first_named_in in H.
    + cbn. unfold first_named. rewrite find_app. cbn. fold (first_named n (s_params s)).
      destruct (first_named n (s_params s)); auto. destruct (_ =? n)%string; auto.
Qed.
Print Assumptions C17_first_definition_wins.

(* a repeated name is an error exactly when repeats are not ignored *)
Theorem C17_repeat_is_an_error : forall s a ig,
  (add_parameter s a ig = Raise <-> In (ip_name a) (map ip_name (s_params s)) /\ ig = false).
Proof.
  intros s a ig. unfold add_parameter. destruct (ipar_present _ _) eqn:E; cbn.
  - apply ipar_present_in in E. destruct ig; cbn; split; try discriminate; intuition discriminate.
  - split; [discriminate|]. intros [H _]. apply ipar_present_in in H. congruence.
Qed.
Print Assumptions C17_repeat_is_an_error.

Example C17_first_definition_wins_example :
  let p k := mkIpar "e" None (NVal (PNum k) DFloat OValue) in
  get_parameter (fold_left after_param [(p 1%Qc, false); (p 0%Qc, true); (p 0%Qc, false)] (empty_instr "i")) "e" = Some (p 1%Qc).
Proof. reflexivity. Qed.

(* ---------------- C18 ---------------- *)
(* entries of a given name, and the last one of that name in a list of calls *)
Definition entries (n : string) (l : list meta) : list meta := filter (fun m => m_name m =? n)%string l.
Definition latest (n : string) (l : list meta) : option meta := find (fun m => m_name m =? n)%string (rev l).
Definition opt_list {A} (o : option A) : list A := match o with Some x => [x] | None => [] end.

Lemma entries_app n a b : entries n (a ++ b) = entries n a ++ entries n b.
Proof. unfold entries. induction a; cbn; auto. destruct (_ =? n)%string; cbn; congruence. Qed.
Lemma filter_other n k l : n <> k ->
  entries n (filter (fun x => negb (m_name x =? k)%string) l) = entries n l.
Proof.
  intro H. unfold entries. induction l as [|m t IH]; cbn; auto.
  destruct (String.eqb_spec (m_name m) k) as [E|E]; cbn.
  - rewrite IH. destruct (String.eqb_spec (m_name m) n); [congruence|reflexivity].
  - rewrite IH. reflexivity.
Qed.
Lemma filter_same k l : entries k (filter (fun x => negb (m_name x =? k)%string) l) = [].
Proof.
  unfold entries. induction l as [|m t IH]; cbn; auto.
  destruct (m_name m =? k)%string eqn:E; cbn; auto. now rewrite E.
Qed.
Lemma add_metadata_entries l m n :
  entries n (add_metadata l m) = if (m_name m =? n)%string then [m] else entries n l.
Proof.
  unfold add_metadata. rewrite entries_app. cbn.
  destruct (String.eqb_spec (m_name m) n) as [E|E].
  - subst n. destruct (existsb _ l) eqn:X; [now rewrite filter_same|].
    assert (Z : entries (m_name m) l = []).
    { unfold entries. induction l as [|y t IH]; cbn in *; auto. apply orb_false_iff in X as [-> X]. auto. }
    now rewrite Z.
  - rewrite app_nil_r. destruct (existsb _ l); auto. apply filter_other. congruence.
Qed.

Theorem C18_one_entry_last_writer :
  forall ms n, entries n (fold_left add_metadata ms []) = opt_list (latest n ms).
Proof.
  intros ms n. induction ms as [|m t IH] using rev_ind; [reflexivity|].
  rewrite fold_left_app. cbn [fold_left]. rewrite add_metadata_entries. unfold latest. rewrite rev_app_distr. cbn [rev app find].
  destruct (_ =? n)%string; auto.
Qed.
Print Assumptions C18_one_entry_last_writer.

Lemma latest_none n ms : latest n ms = None <-> ~ In n (map m_name ms).
Proof.
  unfold latest. split.
  - intros E H. apply in_map_iff in H as (m & Em & Hm). apply in_rev in Hm.
    apply (find_none _ _ E) in Hm. apply String.eqb_neq in Hm. congruence.
  - intro H. destruct (find _ (rev ms)) as [m|] eqn:F; auto. apply find_some in F as [Hm F].
    apply in_rev in Hm. apply String.eqb_eq in F. exfalso. apply H. rewrite <- F. now apply in_map.
Qed.
(* exactly one entry for every name ever added, none for others *)
Theorem C18_entry_count :
  forall ms n, List.length (entries n (fold_left add_metadata ms [])) = if in_dec string_dec n (map m_name ms) then 1 else 0.
Proof.
  intros ms n. rewrite C18_one_entry_last_writer. destruct (in_dec string_dec n (map m_name ms)) as [H|H].
  - destruct (latest n ms) eqn:E; auto. exfalso. now apply latest_none in E.
  - apply latest_none in H. now rewrite H.
Qed.
Print Assumptions C18_entry_count.

(* dictionaries *)
Lemma dict_set_get {A} (d : list (string * A)) k v n :
  dict_get (dict_set d k v) n = if (k =? n)%string then Some v else dict_get d n.
Proof.
  induction d as [|[k' v'] t IH]; cbn.
  - reflexivity.
  - destruct (String.eqb_spec k' k) as [E|E]; cbn.
    + subst. destruct (k =? n)%string; auto.
    + rewrite IH. destruct (String.eqb_spec k' n), (String.eqb_spec k n); congruence || auto.
Qed.
Lemma dict_set_keys {A} (d : list (string * A)) k v : NoDup (map fst d) -> NoDup (map fst (dict_set d k v)) /\
  forall x, In x (map fst (dict_set d k v)) <-> x = k \/ In x (map fst d).
Proof.
  induction d as [|[k' v'] t IH]; cbn; intro N.
  - split; [repeat constructor; auto|]. intuition.
  - inversion N as [|? ? Hk Nt]; subst. destruct (IH Nt) as [N' I]. destruct (String.eqb_spec k' k) as [E|E]; cbn.
    + subst. split; auto. intuition.
    + split.
      * constructor; auto. rewrite I. intuition.
      * intro x. rewrite I. intuition.
Qed.
Lemma dict_of_keys {A} (l : list (string * A)) : forall d, NoDup (map fst d) -> NoDup (map fst (dict_of l d)).
Proof. induction l as [|p t IH]; intros d N; cbn; auto. apply IH. now apply dict_set_keys. Qed.
Definition named_keys (d : list (string * meta)) : Prop := Forall (fun p => fst p = m_name (snd p)) d.
Lemma dict_set_named d m : named_keys d -> named_keys (dict_set d (m_name m) m).
Proof.
  induction 1 as [|[k v] t Hp Ht IH]; cbn; [repeat constructor|].
  destruct (String.eqb_spec k (m_name m)) as [E|E]; constructor; auto.
Qed.
Lemma dict_of_named l : forall d, named_keys d -> named_keys (dict_of (keyed l) d).
Proof. induction l as [|m t IH]; intros d N; cbn; auto. apply IH. now apply dict_set_named. Qed.
Lemma entries_values d n : named_keys d -> NoDup (map fst d) -> entries n (map snd d) = opt_list (dict_get d n).
Proof.
  induction 1 as [|[k v] t Hp Ht IH]; cbn; intro N; auto. inversion N as [|? ? Hk Nt]; subst. cbn in Hp. subst k.
  specialize (IH Nt). fold (entries n (map snd t)). destruct (String.eqb_spec (m_name v) n) as [E|E]; auto.
  rewrite IH. destruct (dict_get t n) eqn:G; auto. exfalso. apply Hk. rewrite E. clear - G.
  induction t as [|[k w] t IH]; cbn in *; [discriminate|]. destruct (String.eqb_spec k n); auto.
Qed.
Lemma dict_of_get l : forall d n, dict_get (dict_of (keyed l) d) n = match latest n l with Some m => Some m | None => dict_get d n end.
Proof.
  induction l as [|m t IH]; intros d n; cbn; auto. unfold dict_of in IH. rewrite IH, dict_set_get. unfold latest. cbn.
  rewrite find_app. destruct (find _ (rev t)); cbn; auto. destruct (m_name m =? n)%string; auto.
Qed.

(* an instance's collected metadata: for every name one entry, the instance's own if it
   has one, else the component's *)
Theorem C18_instance_overrides_component :
  forall i n, entries n (inst_collect i) =
    opt_list (match latest n (i_meta i) with Some m => Some m | None => latest n (ct_meta (i_type i)) end).
Proof.
  intros i n. unfold inst_collect.
  assert (K : named_keys (dict_of (keyed (ct_meta (i_type i))) [])) by (apply dict_of_named; constructor).
  assert (N : NoDup (map fst (dict_of (keyed (ct_meta (i_type i))) []))) by (apply dict_of_keys; constructor).
  rewrite entries_values by (try apply dict_of_named; try apply dict_of_keys; auto).
  rewrite !dict_of_get. cbn. destruct (latest n (i_meta i)); auto. destruct (latest n _); auto.
Qed.
Print Assumptions C18_instance_overrides_component.

(* what the instrument collects: every instance's entries in order, then its own *)
Theorem C18_instrument_collects_all :
  forall s m, In m (collect_metadata s) <->
    In m (s_meta s) \/ exists i, In i (s_comps s) /\
      (latest (m_name m) (i_meta i) = Some m \/
       (latest (m_name m) (i_meta i) = None /\ latest (m_name m) (ct_meta (i_type i)) = Some m)).
Proof.
  intros s m. unfold collect_metadata. rewrite in_app_iff, in_flat_map.
  assert (G : forall i, In m (inst_collect i) <-> In m (entries (m_name m) (inst_collect i))).
  { intro i. unfold entries. rewrite filter_In, String.eqb_refl. tauto. }
  split.
  - intros [(i & Hi & H)|H]; auto. right. exists i. split; auto. apply G in H.
    rewrite C18_instance_overrides_component in H. destruct (latest _ (i_meta i)); cbn in H.
    + left. destruct H as [->|[]]. auto.
    + right. split; auto. destruct (latest _ (ct_meta _)); cbn in H; [destruct H as [->|[]]; auto|tauto].
  - intros [H|(i & Hi & H)]; auto. left. exists i. split; auto. apply G.
    rewrite C18_instance_overrides_component. destruct H as [->|[-> ->]]; cbn; auto.
Qed.
Print Assumptions C18_instrument_collects_all.

Example C18_instance_overrides_component_example :
  let m s v := mkMeta s "geometry" "text" v in
  let i := mkInst "a" (mkCtype "C" [] [] [m "C" "1"; mkMeta "C" "other" "text" "2"] true) o3 None o3 None [] [] false false None None None [] []
             [m "a" "3"] in
  map m_value (inst_collect i) = ["3"; "2"].
Proof. reflexivity. Qed.

(* ---------------- C20 ---------------- *)
(* the positions, from [k] on, of the components naming group [n] *)
Fixpoint where_named (n : string) (k : nat) (l : list (option string)) : list nat :=
  match l with
  | [] => []
  | g :: t => (if (match g with Some m => (m =? n)%string | None => false end) then [k] else []) ++ where_named n (S k) t
  end.

Lemma group_step_get gs k g n : n <> "" ->
  dict_get (group_step gs k g) n =
    (if (match g with Some m => (m =? n)%string | None => false end)
     then Some (match dict_get gs n with
                | Some gr => mkGroup (g_index gr) (g_ids gr ++ [k])
                | None => mkGroup (List.length gs) [k]
                end)
     else dict_get gs n).
Proof.
  intro Hn. destruct g as [m|]; cbn [group_step]; auto.
  destruct m as [|c m]; [destruct (String.eqb_spec "" n); [congruence|reflexivity]|].
  set (w := String c m). destruct (dict_get gs w) as [gr|] eqn:E; cbn [dict_get].
  - rewrite E, dict_set_get. destruct (String.eqb_spec w n) as [<-|]; auto. now rewrite E.
  - rewrite dict_set_get, String.eqb_refl, dict_set_get. cbn [g_index g_ids app].
    destruct (String.eqb_spec w n) as [<-|]; [now rewrite E|].
    rewrite dict_set_get. destruct (String.eqb_spec w n); [congruence|reflexivity].
Qed.

Lemma groups_from_ids l : forall gs k n, n <> "" ->
  option_map g_ids (dict_get (groups_from gs k l) n) =
    match dict_get gs n with
    | Some gr => Some (g_ids gr ++ where_named n k l)
    | None => match where_named n k l with [] => None | w => Some w end
    end.
Proof.
  induction l as [|g t IH]; intros gs k n Hn; cbn [groups_from where_named].
  - destruct (dict_get gs n); cbn; rewrite ?app_nil_r; auto.
  - rewrite IH by auto. rewrite group_step_get by auto.
    destruct (match g with Some m => (m =? n)%string | None => false end); cbn [app].
    + destruct (dict_get gs n); cbn [g_ids]; rewrite <- ?app_assoc; reflexivity.
    + reflexivity.
Qed.

Lemma where_named_in n l : forall k i, In i (where_named n k l) <-> k <= i /\ nth_error l (i - k) = Some (Some n).
Proof.
  induction l as [|g t IH]; intros k i; cbn [where_named].
  - split; [intros []|]. intros [_ H]. destruct (i - k); discriminate.
  - rewrite in_app_iff, IH.
    assert (A : In i (if match g with Some m => (m =? n)%string | None => false end then [k] else []) <-> i = k /\ g = Some n).
    { destruct g as [m|]; [destruct (String.eqb_spec m n)|]; cbn; subst; intuition congruence. }
    rewrite A. split.
    + intros [[-> ->]|[L H]].
      * rewrite Nat.sub_diag. auto.
      * split; [lia|]. replace (i - k) with (S (i - S k)) by lia. exact H.
    + intros [L H]. destruct (Nat.eq_dec i k) as [->|Ne].
      * left. rewrite Nat.sub_diag in H. cbn in H. split; congruence.
      * right. split; [lia|]. replace (i - k) with (S (i - S k)) in H by lia. exact H.
Qed.
Lemma where_named_sorted n l : forall k, Sorted lt (where_named n k l) /\ Forall (le k) (where_named n k l).
Proof.
  induction l as [|g t IH]; intro k; cbn [where_named]; [repeat constructor|]. destruct (IH (S k)) as [S1 F1].
  assert (F2 : Forall (le k) (where_named n (S k) t)) by (eapply Forall_impl; [|exact F1]; cbn; lia).
  destruct (match g with Some m => (m =? n)%string | None => false end); cbn [app]; auto. split.
  - constructor; auto. destruct (where_named n (S k) t); constructor. inversion F1; subst; lia.
  - constructor; auto.
Qed.

(* A name is a group exactly when some component has it, and then the group lists
   exactly those components' positions in increasing order. *)
Theorem C20_groups_match_components :
  forall s n, n <> "" -> s_groups s = [] ->
    match dict_get (s_groups (determine_groups s)) n with
    | Some g => (forall i, In i (g_ids g) <-> exists c, nth_error (s_comps s) i = Some c /\ i_group c = Some n) /\
                Sorted lt (g_ids g) /\ g_ids g <> []
    | None => forall c, In c (s_comps s) -> i_group c <> Some n
    end.
Proof.
  intros s n Hn H0. unfold determine_groups, with_groups. cbn [s_groups]. rewrite H0.
  pose proof (groups_from_ids (map i_group (s_comps s)) [] 0 n Hn) as G. cbn [dict_get] in G.
  set (w := where_named n 0 (map i_group (s_comps s))) in *.
  assert (W : forall i, In i w <-> exists c, nth_error (s_comps s) i = Some c /\ i_group c = Some n).
  { intro i. unfold w. rewrite where_named_in, Nat.sub_0_r, nth_error_map. split.
    - intros [_ H]. destruct (nth_error (s_comps s) i) as [c|]; cbn in H; [|discriminate]. exists c. split; congruence.
    - intros (c & -> & E). split; [lia|]. cbn. congruence. }
  assert (Sw : Sorted lt w) by apply where_named_sorted. clearbody w.
  destruct (dict_get _ n) as [g|]; cbn in G.
  - destruct w as [|x w']; [discriminate|]. injection G as Eg. rewrite Eg. split; [exact W|]. split; [exact Sw|discriminate].
  - destruct w; [|discriminate]. intros c Hc E. apply In_nth_error in Hc as [i Hi].
    apply (proj2 (W i)). eauto.
Qed.
Print Assumptions C20_groups_match_components.

Lemma fold_min_sorted t : forall x, Sorted lt (x :: t) -> fold_left Nat.min t x = x.
Proof.
  induction t as [|y t IH]; intros x S; cbn; auto. inversion S as [|? ? S1 H1]; subst. inversion H1; subst.
  rewrite Nat.min_l by lia. apply IH. inversion S1 as [|? ? S2 H2]; subst. constructor; auto.
  destruct t; constructor. inversion H2; subst. lia.
Qed.
Lemma last_default {A} (t : list A) : forall y d d', last (y :: t) d = last (y :: t) d'.
Proof. induction t as [|z t IH]; intros y d d'; [reflexivity|]. exact (IH z d d'). Qed.
Lemma fold_max_sorted t : forall x, Sorted lt (x :: t) -> fold_left Nat.max t x = last (x :: t) x.
Proof.
  induction t as [|y t IH]; intros x S; [reflexivity|]. inversion S as [|? ? S1 H1]; subst. inversion H1; subst.
  cbn [fold_left]. rewrite Nat.max_r by lia. rewrite IH by auto. exact (last_default t y y x).
Qed.

(* leader, first and last *)
Theorem C20_leader_first_last :
  forall s n g, n <> "" -> s_groups s = [] -> dict_get (s_groups (determine_groups s)) n = Some g ->
    exists f l, first_id g = Ok f /\ last_id g = Ok l /\ is_leader g f = true /\
      (forall i, is_leader g i = true -> i = f) /\
      (forall i c, nth_error (s_comps s) i = Some c -> i_group c = Some n -> f <= i <= l) /\
      (exists c, nth_error (s_comps s) f = Some c /\ i_group c = Some n) /\
      (exists c, nth_error (s_comps s) l = Some c /\ i_group c = Some n).
Proof.
  intros s n g Hn H0 Hg. pose proof (C20_groups_match_components s n Hn H0) as C. rewrite Hg in C.
  destruct C as (In_ & Srt & Ne). unfold first_id, last_id, is_leader. destruct (g_ids g) as [|x t]; [congruence|].
  exists x, (last (x :: t) x). rewrite fold_min_sorted, fold_max_sorted by auto.
  split; auto. split; auto. split; [apply Nat.eqb_refl|]. split; [intros i E; apply Nat.eqb_eq in E; auto|].
  assert (Bd : forall i, In i (x :: t) -> x <= i <= last (x :: t) x).
  { clear - Srt. revert x Srt. induction t as [|y t IH]; intros x Srt i Hi.
    - destruct Hi as [->|[]]. cbn. lia.
    - inversion Srt as [|? ? S1 H1]; subst. inversion H1; subst. specialize (IH y S1).
      assert (L : last (x :: y :: t) x = last (y :: t) y).
      { exact (last_default t y x y). }
      rewrite L. destruct Hi as [->|Hi].
      + specialize (IH y (or_introl eq_refl)). lia.
      + specialize (IH i Hi). lia. }
  repeat split.
  - apply Bd, In_. eauto.
  - apply Bd, In_. eauto.
  - apply In_. now left.
  - apply In_. destruct (exists_last (l := x :: t)) as (t' & z & E); [discriminate|]. rewrite E, last_last.
    apply in_or_app. right. now left.
Qed.
Print Assumptions C20_leader_first_last.

Definition grouped : instr :=
  with_comps (empty_instr "i") [simple "a" (Some "g"); simple "b" None; simple "c" (Some "h"); simple "d" (Some "g")].
Example C20_groups_match_components_example :
  s_groups (determine_groups grouped) = [("g", mkGroup 0 [0; 3]); ("h", mkGroup 1 [2])].
Proof. reflexivity. Qed.

(* Determining the groups a second time doubles every membership. *)
Theorem C20_second_call_refuted :
  exists s, s_groups s = [] /\ s_groups (determine_groups (determine_groups s)) <> s_groups (determine_groups s).
Proof. exists grouped. split; [reflexivity|discriminate]. Qed.
Print Assumptions C20_second_call_refuted.

(* ---------------- C21, the parts that do not concern geometry ---------------- *)
Lemma positions_gen l n k : map fst (filter (fun p => i_name (snd p) =? n)%string (combine (seq k (List.length l)) l)) =
  where_named n k (map (fun i => Some (i_name i)) l).
Proof.
  revert k. induction l as [|x t IH]; intro k; cbn; auto. destruct (i_name x =? n)%string; cbn; now rewrite IH.
Qed.
Lemma where_unique n l : forall k, NoDup (map i_name l) -> In n (map i_name l) ->
  exists i, where_named n k (map (fun i => Some (i_name i)) l) = [i] /\ k <= i.
Proof.
  induction l as [|x t IH]; intros k N H; [destruct H|]. inversion N as [|? ? Hx Nt]; subst. cbn [map where_named].
  destruct (String.eqb_spec (i_name x) n) as [E|E].
  - subst n. exists k. split; [|lia]. cbn [app]. f_equal.
    destruct (where_named _ (S k) _) as [|j w] eqn:W; auto. exfalso.
    assert (J : In j (where_named (i_name x) (S k) (map (fun i => Some (i_name i)) t))) by (rewrite W; now left).
    apply where_named_in in J as [_ J]. rewrite nth_error_map in J.
    destruct (nth_error t (j - S k)) as [y|] eqn:Y; [|discriminate]. apply nth_error_In in Y.
    cbn in J. injection J as J. apply Hx. rewrite <- J. now apply in_map.
  - destruct H as [H|H]; [congruence|]. destruct (IH (S k) Nt H) as (i & W & L). exists i. cbn [app]. split; auto. lia.
Qed.

(* everything of a component but its two placement clauses *)
Definition same_but_placement (a b : inst) : Prop :=
  i_name a = i_name b /\ i_type a = i_type b /\ i_orient a = i_orient b /\ i_params a = i_params b /\
  i_removable a = i_removable b /\ i_cpu a = i_cpu b /\ i_split a = i_split b /\ i_when a = i_when b /\
  i_group a = i_group b /\ i_extend a = i_extend b /\ i_jump a = i_jump b /\ i_meta a = i_meta b.

Lemma rereference_same p q l i : same_but_placement (rereference p q l i) i.
Proof.
  unfold rereference. destruct (i_at_rel i) as [r|]; [destruct (has_named l r)|]; (destruct (i_rot_rel i) as [r'|]; [destruct (has_named l r')|]);
  repeat split.
Qed.
Lemma check_parameters_comps s r : s_comps (fst (check_parameters s r)) = s_comps s /\
  s_groups (fst (check_parameters s r)) = s_groups s.
Proof. unfold check_parameters. cbn. destruct (negb _ && r); auto. Qed.

Lemma split_shape p q s n r : NoDup (map i_name (s_comps s)) -> In n (map i_name (s_comps s)) ->
  exists index first second, split_instr p q s n r = Ok (first, second) /\
    (exists c, nth_error (s_comps s) index = Some c /\ i_name c = n) /\
    s_comps first = firstn (index + 1) (s_comps s) /\
    s_comps second = map (rereference p q (skipn index (s_comps s))) (skipn index (s_comps s)).
Proof.
  intros N H. unfold split_instr, positions. rewrite positions_gen.
  destruct (where_unique n (s_comps s) 0 N H) as (i & E & _). rewrite E.
  assert (J : In i (where_named n 0 (map (fun i => Some (i_name i)) (s_comps s)))) by (rewrite E; now left).
  apply where_named_in in J as [_ J]. rewrite Nat.sub_0_r, nth_error_map in J.
  eexists i, _, _. split; [reflexivity|]. split; [|split].
  - destruct (nth_error (s_comps s) i) as [c|]; [|discriminate]. exists c. split; auto. cbn in J. congruence.
  - rewrite (proj1 (check_parameters_comps _ _)). reflexivity.
  - rewrite (proj1 (check_parameters_comps _ _)). cbn. unfold py_slice. now rewrite firstn_all.
Qed.

Lemma split_second p q s n r f g : split_instr p q s n r = Ok (f, g) ->
  exists ix, s_comps g = map (rereference p q (skipn ix (s_comps s))) (skipn ix (s_comps s)).
Proof.
  unfold split_instr. destruct (positions _ _) as [|ix [|]]; try discriminate. intro E.
  apply (f_equal (fun r => match r with Ok (_, g) => s_comps g | _ => [] end)) in E. cbv beta iota zeta in E.
  rewrite (proj1 (check_parameters_comps _ _)) in E. exists ix. rewrite <- E. cbn [s_comps with_comps with_name copy_instr].
  unfold py_slice. now rewrite firstn_all.
Qed.

Theorem C21_split_keeps_components :
  forall pos angles s n remove, NoDup (map i_name (s_comps s)) -> In n (map i_name (s_comps s)) ->
    exists before c after first second,
      s_comps s = before ++ c :: after /\ i_name c = n /\
      split_instr pos angles s n remove = Ok (first, second) /\
      s_comps first = before ++ [c] /\
      Forall2 same_but_placement (s_comps second) (c :: after).
Proof.
  intros p q s n r N H. destruct (split_shape p q s n r N H) as (i & f & g & E & (c & Hc & Hn) & F & G).
  apply nth_error_split in Hc as (b & a & Hs & L). exists b, c, a, f, g. repeat split; auto.
  - rewrite F, Hs. replace (i + 1) with (List.length (b ++ [c])) by (rewrite app_length; cbn; lia).
    change (c :: a) with ([c] ++ a). rewrite app_assoc, firstn_app, firstn_all, Nat.sub_diag. cbn. now rewrite app_nil_r.
  - rewrite G, Hs. rewrite <- L, skipn_app, skipn_all, Nat.sub_diag. cbn [app skipn].
    assert (M : forall k l, Forall2 same_but_placement (map (rereference p q k) l) l).
    { intros k l. induction l; constructor; auto. apply rereference_same. }
    apply M.
Qed.
Print Assumptions C21_split_keeps_components.

(* the second instrument refers only to components it has *)
Theorem C21_second_part_closed :
  forall pos angles s n remove first second,
    split_instr pos angles s n remove = Ok (first, second) ->
    forall i r, In i (s_comps second) -> i_at_rel i = Some r \/ i_rot_rel i = Some r ->
      In r (map i_name (s_comps second)).
Proof.
  intros p q s n rm f g E i r Hi Hr. destruct (split_second _ _ _ _ _ _ _ E) as (ix & Eg). rewrite Eg in *. clear E Eg.
  set (l := skipn ix (s_comps s)) in *.
  assert (M : map i_name (map (rereference p q l) l) = map i_name l).
  { rewrite map_map. apply map_ext. intro x. apply rereference_same. }
  rewrite M. apply in_map_iff in Hi as (x & <- & Hx).
  assert (R : forall w, relink l w = Some r -> In r (map i_name l)).
  { intros w. unfold relink, get_component. destruct (w =? "PREVIOUS")%string.
    - destruct (rev l) as [|y t] eqn:Er; [discriminate|]. intros [= <-]. apply in_map. apply in_rev. rewrite Er. now left.
    - destruct (find _ l) as [y|] eqn:Ef; [|discriminate]. intros [= <-]. apply in_map. now apply find_some in Ef. }
  unfold rereference in Hr.
  destruct (i_at_rel x) as [a|]; [destruct (has_named l a)|]; (destruct (i_rot_rel x) as [b|]; [destruct (has_named l b)|]);
  cbn in Hr; destruct Hr as [Hr|Hr]; try discriminate; eauto.
Qed.
Print Assumptions C21_second_part_closed.

(* a reference that survives is the same reference *)
Theorem C21_kept_references :
  forall pos angles s n remove first second,
    split_instr pos angles s n remove = Ok (first, second) -> NoDup (map i_name (s_comps s)) ->
    ~ In "PREVIOUS" (map i_name (s_comps s)) ->
    forall i, In i (s_comps second) -> exists o, In o (s_comps s) /\ i_name o = i_name i /\
      (i_at_rel i = i_at_rel o /\ i_at i = i_at o \/ i_at_rel i = None /\ i_at i = pos o) /\
      (i_rot_rel i = i_rot_rel o /\ i_rot i = i_rot o \/ i_rot_rel i = None /\ i_rot i = angles o).
Proof.
  intros p q s n rm f g E N NP i Hi. destruct (split_second _ _ _ _ _ _ _ E) as (ix & Eg). rewrite Eg in *. clear E Eg.
  set (l := skipn ix (s_comps s)) in *.
  apply in_map_iff in Hi as (x & <- & Hx).
  assert (Sub : forall y, In y l -> In y (s_comps s)).
  { intros y Hy. unfold l in Hy. rewrite <- (firstn_skipn ix (s_comps s)).
    apply in_or_app. now right. }
  exists x. split; auto. split; [symmetry; apply rereference_same|].
  assert (R : forall w, has_named l w = true -> relink l w = Some w).
  { intros w Hw. unfold relink. apply existsb_name in Hw. pose proof Hw as Hw'. apply in_map_iff in Hw as (y & Ey & Hy).
    unfold get_component. destruct (String.eqb_spec w "PREVIOUS") as [->|].
    - exfalso. apply NP. rewrite <- Ey. apply in_map. auto.
    - destruct (find _ l) as [z|] eqn:Ef; [apply find_some in Ef as [_ Ez]; apply String.eqb_eq in Ez; congruence|].
      apply (find_none _ _ Ef) in Hy. apply String.eqb_neq in Hy. congruence. }
  unfold rereference.
  destruct (i_at_rel x) as [a|]; [destruct (has_named l a) eqn:Ha|]; (destruct (i_rot_rel x) as [b|]; [destruct (has_named l b) eqn:Hb|]);
  cbn; rewrite ?(R _ Ha), ?(R _ Hb); auto.
Qed.
Print Assumptions C21_kept_references.

Example C21_split_keeps_components_example :
  NoDup (map i_name (s_comps grouped)) /\ In "c" (map i_name (s_comps grouped)) /\
  exists f g, split_instr (fun _ => o3) (fun _ => o3) grouped "c" false = Ok (f, g) /\
    map i_name (s_comps f) = ["a"; "b"; "c"] /\ map i_name (s_comps g) = ["c"; "d"].
Proof.
  split; [|split]; [repeat constructor; cbn; intuition discriminate|cbn; auto|].
  eexists _, _. split; [reflexivity|]. split; reflexivity.
Qed.

(* The group bookkeeping is copied, not recomputed: in the second part it points at
   positions that are not there. *)
Theorem C21_groups_stale_refuted :
  exists s n first second g i,
    s = determine_groups grouped /\
    split_instr (fun _ => o3) (fun _ => o3) s n false = Ok (first, second) /\
    dict_get (s_groups second) "g" = Some g /\ In i (g_ids g) /\ nth_error (s_comps second) i = None.
Proof.
  eexists _, "c", _, _, _, 3. split; [reflexivity|]. split; [reflexivity|]. split; [reflexivity|].
  split; [cbn; auto|reflexivity].
Qed.
Print Assumptions C21_groups_stale_refuted.

(* ---------------- C22 ---------------- *)
(* where an instrument can mention a name: as an identifier of an expression, or inside
   a piece of C text *)
Definition text_mentions (n t : string) : Prop := exists a b, t = (a ++ n ++ b)%string.
Definition mentioned_in_component (n : string) (i : inst) : Prop :=
  (exists p, In p (i_params i) /\ depends_on n (cp_value p) = true) \/
  (exists e, (let '(x, y, z) := i_at i in In e [x; y; z]) /\ depends_on n e = true) \/
  (exists e, (let '(x, y, z) := i_rot i in In e [x; y; z]) /\ depends_on n e = true) \/
  (exists e, (i_split i = Some e \/ i_when i = Some e) /\ depends_on n e = true) \/
  (exists t, In t (i_extend i) /\ text_mentions n t) \/
  (exists j, In j (i_jump i) /\ depends_on n (j_cond j) = true).
Definition mentioned (n : string) (s : instr) : Prop :=
  (exists i, In i (s_comps s) /\ mentioned_in_component n i) \/
  (exists t, (In t (s_declare s) \/ In t (s_init s) \/ In t (s_save s) \/ In t (s_final s)) /\ text_mentions n t).

Lemma mentioned_used n s : mentioned n s -> param_used s n = true.
Proof.
  unfold param_used. intros [(i & Hi & H)|(t & Ht & H)]; apply orb_true_iff.
  - left. apply existsb_exists. exists i. split; auto. unfold inst_uses.
    repeat rewrite orb_true_iff. unfold triple_has, opt_has, block_has.
    destruct H as [(p & Hp & D)|[(e & He & D)|[(e & He & D)|[(e & He & D)|[(t & Ht & D)|(j & Hj & D)]]]]].
    + do 4 left. apply existsb_exists. exists p. split; auto. now apply depends_contains.
    + do 3 left. right. do 2 left. apply depends_contains in D. destruct (i_at i) as [[x y] z]. cbn in He.
      repeat rewrite orb_true_iff. intuition (subst; auto).
    + do 3 left. right. left. right. apply depends_contains in D. destruct (i_rot i) as [[x y] z]. cbn in He.
      repeat rewrite orb_true_iff. intuition (subst; auto).
    + do 2 left. right. apply depends_contains in D. destruct He as [->| ->]; auto.
    + left. right. apply existsb_exists. exists t. split; auto. now apply PyStr.contains_spec.
    + right. apply existsb_exists. exists j. split; auto. now apply depends_contains.
  - right. apply existsb_exists. exists t. split; [rewrite !in_app_iff; tauto|]. now apply PyStr.contains_spec.
Qed.
Lemma combine_filter {A} (f : A -> bool) l : map fst (filter snd (combine l (map f l))) = filter f l.
Proof. induction l as [|x t IH]; cbn; auto. destruct (f x); cbn; congruence. Qed.
Lemma filter_all_true {A} (f : A -> bool) l : forallb (fun b => b) (map f l) = true -> filter f l = l.
Proof. induction l as [|x t IH]; cbn; auto. intro H. apply andb_prop in H as [-> H]. f_equal. auto. Qed.
Lemma check_remove_params s : s_params (fst (check_parameters s true)) = filter (fun p => param_used s (ip_name p)) (s_params s).
Proof.
  unfold check_parameters. cbn. destruct (forallb _ _) eqn:E; cbn.
  - symmetry. now apply filter_all_true.
  - apply combine_filter.
Qed.

Theorem C22_mentioned_parameters_survive :
  forall s p, In p (s_params s) -> mentioned (ip_name p) s -> In p (s_params (fst (check_parameters s true))).
Proof. intros s p H M. rewrite check_remove_params. apply filter_In. split; auto. now apply mentioned_used. Qed.
Print Assumptions C22_mentioned_parameters_survive.

(* nothing else changes, nothing is invented, order is kept; without remove nothing at all *)
Theorem C22_only_removes :
  forall s remove, let s' := fst (check_parameters s remove) in
    s_comps s' = s_comps s /\ s_meta s' = s_meta s /\ s_declare s' = s_declare s /\ s_init s' = s_init s /\
    s_user s' = s_user s /\ s_save s' = s_save s /\ s_final s' = s_final s /\
    (forall p, In p (s_params s') -> In p (s_params s)) /\ (remove = false -> s' = s).
Proof.
  intros s remove. cbn zeta. unfold check_parameters. cbn [fst].
  destruct remove; [rewrite andb_true_r|rewrite andb_false_r; cbn; tauto].
  destruct (negb _) eqn:E; cbn; repeat split; auto; try discriminate.
  intro p. rewrite combine_filter, filter_In. tauto.
Qed.
Print Assumptions C22_only_removes.

(* the number reported is the number removed *)
Theorem C22_reported_count :
  forall s, snd (check_parameters s true) = List.length (s_params s) - List.length (s_params (fst (check_parameters s true))) /\
    snd (check_parameters s false) = snd (check_parameters s true).
Proof.
  intro s. rewrite check_remove_params. split; [|reflexivity]. unfold check_parameters. cbn [snd].
  rewrite map_length. f_equal. induction (s_params s) as [|p t IH]; cbn; auto. destruct (param_used s (ip_name p)); cbn; auto.
Qed.
Print Assumptions C22_reported_count.

Definition id_node (x : string) : node := NVal (PStr x) DUndef OId.
Definition uses_e : instr :=
  with_comps (with_params (empty_instr "i") [mkIpar "e" None zero; mkIpar "f" None zero])
    [mkInst "a" arm (zero, id_node "e", zero) None o3 None [] [] false false None None None [] [] []].
Example C22_mentioned_parameters_survive_example :
  mentioned "e" uses_e /\ map ip_name (s_params (fst (check_parameters uses_e true))) = ["e"] /\ snd (check_parameters uses_e true) = 1.
Proof.
  split; [|split; reflexivity]. left. eexists. split; [now left|]. right. left. exists (id_node "e"). cbn. auto.
Qed.

(* USERVARS text is not looked at. *)
Theorem C22_uservars_refuted :
  exists s p t, In p (s_params s) /\ In t (s_user s) /\ text_mentions (ip_name p) t /\
    ~ In p (s_params (fst (check_parameters s true))).
Proof.
  exists (mkInstr "i" [mkIpar "n" None zero] [] [] ["double a[n];"] [] [] [] [] [] []), (mkIpar "n" None zero), "double a[n];".
  repeat split; cbn; auto. exists "double a[", "];". reflexivity.
Qed.
Print Assumptions C22_uservars_refuted.

(* ---------------- C23 ---------------- *)
Section C23.
  Variable V : Type.
  Variable compatible : cpar -> V -> bool.
  Variable convert : cpar -> V -> res node.
  Variable c : ctype.
  Record setcall := mkCall { k_name : string; k_value : V; k_over : bool; k_allow : bool }.
  Definition apply_call (ps : list cpar) (k : setcall) : list cpar :=
    fst (set_parameter V compatible convert c ps (k_name k) (k_value k) (k_over k) (k_allow k)).
  (* the expression a call would store, if it is acceptable for the component type *)
  Definition acceptable (k : setcall) : option node :=
    match ct_get c (k_name k) with
    | Some p => if compatible p (k_value k) then match convert p (k_value k) with Ok e => Some e | _ => None end else None
    | None => None
    end.
  (* what the value of [n] should be after a call, given what it was *)
  Definition should_be (n : string) (old : option node) (k : setcall) : option node :=
    if (k_name k =? n)%string
    then match old, acceptable k with
         | None, Some e => Some e
         | Some v, Some e => if k_over k then Some e else Some v
         | o, None => o
         end
    else old.
  Definition value_of (ps : list cpar) (n : string) : option node :=
    option_map cp_value (find (fun p => cp_name p =? n)%string ps).

  Lemma cpar_present_find ps n : cpar_present ps n = match find (fun p => cp_name p =? n)%string ps with Some _ => true | None => false end.
  Proof.
    unfold cpar_present. induction ps as [|p t IH]; cbn; auto. rewrite String.eqb_sym. destruct (_ =? n)%string; auto.
  Qed.
  Lemma ct_get_present n : ct_get c n = None -> cpar_present (ct_define c) n = false /\ cpar_present (ct_setting c) n = false.
  Proof. unfold ct_get. rewrite !cpar_present_find. destruct (find _ (ct_define c)); [discriminate|]. intros ->. auto. Qed.
  Lemma ct_get_name n p : ct_get c n = Some p -> cp_name p = n /\
    negb (cpar_present (ct_define c) n) && negb (cpar_present (ct_setting c) n) = false.
  Proof.
    unfold ct_get. rewrite !cpar_present_find. destruct (find _ (ct_define c)) as [d|] eqn:E.
    - intros [= <-]. apply find_some in E as [_ E]. apply String.eqb_eq in E. auto.
    - intro H. rewrite H. apply find_some in H as [_ H]. apply String.eqb_eq in H. auto.
  Qed.
  Lemma value_of_app ps p n : value_of (ps ++ [p]) n =
    match value_of ps n with Some v => Some v | None => if (cp_name p =? n)%string then Some (cp_value p) else None end.
  Proof.
    unfold value_of. rewrite find_app. destruct (find _ ps); cbn; auto. destruct (_ =? n)%string; auto.
  Qed.
  Lemma value_of_filter ps n k : value_of (filter (fun x => negb (k =? cp_name x)%string) ps) n =
    if (k =? n)%string then None else value_of ps n.
  Proof.
    unfold value_of. induction ps as [|p t IH]; cbn; [destruct (k =? n)%string; auto|].
    destruct (String.eqb_spec k (cp_name p)) as [E|E]; cbn.
    - rewrite IH. destruct (String.eqb_spec k n) as [E2|E2]; auto.
      destruct (String.eqb_spec (cp_name p) n); [congruence|reflexivity].
    - destruct (String.eqb_spec (cp_name p) n) as [E2|E2]; cbn; auto.
      destruct (String.eqb_spec k n); [congruence|reflexivity].
  Qed.

  (* a call that overwrites with a value that is then refused *)
  Definition bad_overwrite (k : setcall) : Prop := k_over k = true /\ acceptable k = None.

  Lemma apply_call_value ps k n : ~ bad_overwrite k -> value_of (apply_call ps k) n = should_be n (value_of ps n) k.
  Proof.
    intro NB. unfold apply_call, set_parameter, should_be, acceptable, bad_overwrite in *.
    destruct (ct_get c (k_name k)) as [p|] eqn:G.
    2:{ destruct (ct_get_present _ G) as [-> ->]. cbn. destruct (_ =? n)%string; auto. destruct (value_of ps n); auto. }
    destruct (ct_get_name _ _ G) as [En ->].
    assert (P : cpar_present ps (k_name k) = match value_of ps (k_name k) with Some _ => true | None => false end).
    { rewrite cpar_present_find. unfold value_of. destruct (find _ ps); auto. }
    rewrite P. unfold acceptable in NB. rewrite G in NB.
    destruct (compatible p (k_value k)) eqn:C; cbn [negb].
    - destruct (convert p (k_value k)) as [e| |] eqn:Cv.
      + destruct (value_of ps (k_name k)) as [v|] eqn:Vk; cbn [andb].
        * destruct (k_over k) eqn:O; cbn [andb negb fst].
          -- rewrite value_of_app, value_of_filter. cbn. rewrite En. destruct (String.eqb_spec (k_name k) n) as [<-|]; auto.
             ++ now rewrite Vk.
             ++ destruct (value_of ps n); auto.
          -- destruct (k_allow k); cbn [negb andb fst].
             ++ rewrite value_of_app. cbn. rewrite En. destruct (String.eqb_spec (k_name k) n) as [<-|]; [now rewrite Vk|].
                destruct (value_of ps n); auto.
             ++ destruct (String.eqb_spec (k_name k) n) as [<-|]; auto. now rewrite Vk.
        * cbn [fst]. rewrite value_of_app. cbn. rewrite En. destruct (String.eqb_spec (k_name k) n) as [<-|].
          -- now rewrite Vk.
          -- destruct (value_of ps n); auto.
      + destruct (k_over k); [exfalso; apply NB; auto|]. rewrite andb_false_r. cbn [negb].
        destruct (_ && _ && _); cbn [fst]; (destruct (_ =? n)%string; auto; destruct (value_of ps n); auto).
      + destruct (k_over k); [exfalso; apply NB; auto|]. rewrite andb_false_r. cbn [negb].
        destruct (_ && _ && _); cbn [fst]; (destruct (_ =? n)%string; auto; destruct (value_of ps n); auto).
    - destruct (k_over k); [exfalso; apply NB; auto|]. rewrite andb_false_r. cbn [negb].
      destruct (_ && _ && _); cbn [fst]; (destruct (_ =? n)%string; auto; destruct (value_of ps n); auto).
  Qed.
End C23.

(* The reported value is the one the history prescribes, for histories without a refused
   overwrite. *)
Theorem C23_history_determines_value_partial :
  forall V compatible convert c (calls : list (setcall V)) n,
    (forall k, In k calls -> ~ bad_overwrite V compatible convert c k) ->
    option_map cp_value (inst_get c (fold_left (apply_call V compatible convert c) calls []) n) =
      match fold_left (should_be V compatible convert c n) calls None with
      | Some v => Some v
      | None => option_map cp_value (ct_get c n)
      end.
Proof.
  intros V cmp cv c calls n H.
  assert (G : forall ps, value_of (fold_left (apply_call V cmp cv c) calls ps) n =
                         fold_left (should_be V cmp cv c n) calls (value_of ps n)).
  { induction calls as [|k t IH]; intro ps; cbn; auto. rewrite IH by (intros; apply H; now right).
    rewrite apply_call_value by (apply H; now left). reflexivity. }
  specialize (G []). unfold value_of in G at 2. cbn in G. rewrite <- G. unfold inst_get, value_of.
  destruct (find _ _); auto.
Qed.
Print Assumptions C23_history_determines_value_partial.

(* unknown names are refused and change nothing; a repeat that is neither overwriting nor
   allowed likewise *)
Theorem C23_refusals :
  forall V compatible convert c ps n v over allow,
    (ct_get c n = None -> set_parameter V compatible convert c ps n v over allow = (ps, false)) /\
    (In n (map cp_name ps) -> over = false -> allow = false ->
       set_parameter V compatible convert c ps n v over allow = (ps, false)).
Proof.
  intros V cmp cv c ps n v o a. split.
  - intro G. unfold set_parameter. destruct (ct_get_present _ _ G) as [-> ->]. reflexivity.
  - intros H -> ->. unfold set_parameter.
    assert (P : cpar_present ps n = true).
    { unfold cpar_present. apply existsb_exists. apply in_map_iff in H as (p & E & Hp). exists p. split; auto. now apply String.eqb_eq. }
    rewrite P. cbn. destruct (negb _ && _); auto.
Qed.
Print Assumptions C23_refusals.

Definition slit : ctype := mkCtype "Slit" [] [mkCpar "w" (NVal (PNum 0%Qc) DFloat OValue)] [] true.
Definition take_num : cpar -> node -> res node := fun _ e => Ok e.
Definition is_num : cpar -> node -> bool := fun _ e => match e with NVal (PNum _) _ _ => true | _ => false end.
Definition num_node (q : Qc) : node := NVal (PNum q) DFloat OValue.
Example C23_history_determines_value_partial_example :
  let calls := [mkCall node "w" (num_node 1%Qc) false true; mkCall node "w" (num_node 0%Qc) false true] in
  (forall k, In k calls -> ~ bad_overwrite node is_num take_num slit k) /\
  inst_get slit (fold_left (apply_call node is_num take_num slit) calls []) "w" = Some (mkCpar "w" (num_node 1%Qc)).
Proof.
  split; [|reflexivity]. intros k [<-|[<-|[]]] [H _]; discriminate.
Qed.

(* A refused overwrite loses the value that was there. *)
Theorem C23_refused_overwrite_refuted :
  exists V compatible convert c ps n v v' over allow,
    inst_get c ps n = Some v /\ set_parameter V compatible convert c ps n v' over allow = ([], false) /\
    inst_get c [] n <> Some v.
Proof.
  exists node, is_num, take_num, slit, [mkCpar "w" (num_node 1%Qc)], "w", (mkCpar "w" (num_node 1%Qc)), (id_node "x"), true, true.
  repeat split. discriminate.
Qed.
Print Assumptions C23_refused_overwrite_refuted.

(* An allowed repeat is stored as well: the parameter is then there twice, although only
   the first is ever reported. *)
Theorem C23_repeat_stored_refuted :
  exists ps, set_parameter node is_num take_num slit [mkCpar "w" (num_node 1%Qc)] "w" (num_node 0%Qc) false true = (ps, true) /\
    ~ NoDup (map cp_name ps).
Proof.
  eexists. split; [reflexivity|]. cbn. intro N. inversion N; subst. apply H1. now left.
Qed.
Print Assumptions C23_repeat_stored_refuted.

(* ---------------- C24 ---------------- *)
Theorem C24_make_instance_partial :
  forall place s n c at_ ar rot rr o ps g rm s',
    make_instance place s n c at_ ar rot rr o ps g rm = Ok s' ->
    exists i, s_comps s' = s_comps s ++ [i] /\ i_name i = n /\ i_type i = c /\ i_at i = at_ /\ i_at_rel i = ar /\
      i_rot i = rot /\ i_rot_rel i = rr /\ i_params i = ps /\
      i_orient i = (match o with Some o => o | None => place at_ ar rot rr end).
Proof.
  intros place s n c at_ ar rot rr o ps g rm s' E. unfold make_instance in E. destruct (existsb _ _); [discriminate|].
  injection E as <-. eexists. cbn. repeat split.
Qed.
Print Assumptions C24_make_instance_partial.

Theorem C24_group_and_removable_refuted :
  exists place s n c at_ ar rot rr o ps g rm s' i,
    make_instance place s n c at_ ar rot rr o ps g rm = Ok s' /\ s_comps s' = [i] /\
    (i_group i <> g /\ i_removable i <> rm).
Proof.
  exists noplace, (empty_instr "i"), "a", arm, o3, None, o3, None, None, [], (Some "g"), false.
  eexists _, _. split; [reflexivity|]. split; [reflexivity|]. split; discriminate.
Qed.
Print Assumptions C24_group_and_removable_refuted.
Example C24_make_instance_partial_example :
  exists s', make_instance noplace (empty_instr "i") "a" arm o3 None o3 None None [] None false = Ok s'.
Proof. eexists. reflexivity. Qed.
