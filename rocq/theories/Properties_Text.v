(* Property C26: writing and re-reading component instances. *)
From Coq Require Import List String Ascii Bool Arith ZArith QArith Qcanon Lia.
From Verif Require Import PyStr Expr InstrModel InstanceText.
Import ListNotations.
Local Open Scope string_scope.
Local Open Scope list_scope.
Local Open Scope nat_scope.

(* jumps as the reader makes them, to a component whose name survives *)
Definition good_jump (j : jump) : Prop :=
  (j_target j = "PREVIOUS" /\ j_rel j = (-1)%Z) \/
  (j_target j = "NEXT" /\ j_rel j = 1%Z) \/
  (j_target j = "MYSELF" /\ j_rel j = 0%Z) \/
  (j_rel j = 0%Z /\ j_target j <> "PREVIOUS" /\ j_target j <> "NEXT" /\ j_target j <> "MYSELF" /\
   (has_char "_" (j_target j) = true -> startswith "PREVIOUS" (j_target j) = false /\ startswith "NEXT" (j_target j) = false)).
(* metadata named by an identifier, or by a quoted text with a space *)
Definition good_meta (m : string * string * string) : Prop :=
  let '(_, n, _) := m in
  unquote n = None \/ exists s, unquote n = Some s /\ has_char " " s = true /\ n = ("""" ++ s ++ """")%string.
(* what the text can express *)
Definition writable (c : ci) : Prop :=
  c_removable c = false /\ c_split c = None /\
  (is_null (c_rot c) = true -> c_rot_rel c = None -> c_at_rel c = None) /\
  Forall (fun b => blank b = false) (c_extend c) /\ Forall good_jump (c_jump c) /\ Forall good_meta (c_meta c) /\ NoDup (map m_name (c_meta c)).

(* the instance up to line breaks around blocks and to how zero angles are written *)
Definition padded (c : ci) : ci :=
  mkCi (c_name c) (c_type c) (c_params c) (c_removable c) (c_cpu c) (c_split c) (c_when c) (c_at c) (c_at_rel c)
    (if is_null (c_rot c) && match c_rot_rel c with None => true | _ => false end then (int0, int0, int0) else c_rot c) (c_rot_rel c)
    (c_group c)
    (match c_extend c with [] => [] | l => [(newline ++ newline ++ join newline l ++ newline)%string] end)
    (c_jump c) (map (fun m => let '(t, n, v) := m in (t, n, (newline ++ v ++ newline)%string)) (c_meta c)).

Definition after_inst : list string := ["COMPONENT"; "REMOVABLE"; "CPU"; "SPLIT"; "SEARCH"; "%include"; "SAVE"; "FINALLY"; "END"].
Definition heads (ks : list string) (l : list tok) : Prop := l = [] \/ exists k t, l = K k :: t /\ In k ks.

Lemma p_kw_none ks k l : heads ks l -> ~ In k ks -> p_kw k l = None.
Proof.
  intros [->|(k' & t & -> & H)] N; [reflexivity|]. cbn. destruct (String.eqb_spec k' k); [congruence|reflexivity].
Qed.
Lemma p_kw_hit k t : p_kw k (K k :: t) = Some t.
Proof. cbn. now rewrite String.eqb_refl. Qed.
Lemma heads_weaken ks ks' l : heads ks l -> incl ks ks' -> heads ks' l.
Proof. intros [->|(k & t & -> & H)] I; [now left|right; eauto]. Qed.

Lemma p_params_ok l : forall rest, p_params (w_params l ++ P ")" :: rest) = Some (l, rest).
Proof.
  induction l as [|[n e] t IH]; intro rest; [reflexivity|]. destruct t as [|[m f] t]; [reflexivity|].
  change (w_params ((n, e) :: (m, f) :: t)) with ([I n; P "="; E e; P ","] ++ w_params ((m, f) :: t)).
  cbn [app p_params]. rewrite IH. reflexivity.
Qed.
Lemma p_triple_ok t rest : p_triple (w_triple t ++ rest) = Some (t, rest).
Proof. destruct t as [[x y] z]. reflexivity. Qed.
Lemma p_clause_ok k t r rest : k <> "" ->
  p_clause k (K k :: w_triple t ++ match r with None => [K "ABSOLUTE"] | Some n => [K "RELATIVE"; I n] end ++ rest) = Some (t, r, rest).
Proof.
  intros _. unfold p_clause. rewrite p_kw_hit, p_triple_ok. destruct r; reflexivity.
Qed.

Lemma p_jump_ok j rest : good_jump j -> p_jump (w_jump j ++ rest) = Some (j, rest).
Proof.
  intro G. destruct j as [tg rel it cond]. unfold good_jump in G. cbn [j_target j_rel] in G.
  assert (KK : forall t r l, p_jumpname l = Some (t, r, K (if it then "ITERATE" else "WHEN") :: E cond :: rest) ->
             p_jump (K "JUMP" :: l) = Some (mkJump t r it cond, rest)).
  { intros t r l H. unfold p_jump. rewrite p_kw_hit, H. destruct it; reflexivity. }
  unfold w_jump. cbn [j_target j_rel j_iter j_cond].
  destruct G as [[-> ->]|[[-> ->]|[[-> ->]|(-> & N1 & N2 & N3 & N4)]]].
  - destruct it; reflexivity.
  - destruct it; reflexivity.
  - destruct it; reflexivity.
  - assert (X : has_char "_" tg && (startswith "PREVIOUS" tg || startswith "NEXT" tg) = false).
    { destruct (has_char "_" tg); auto. destruct (N4 eq_refl) as [-> ->]. reflexivity. }
    rewrite X. unfold word. destruct (String.eqb_spec tg "PREVIOUS"); [congruence|]. destruct (String.eqb_spec tg "NEXT"); [congruence|].
    destruct (String.eqb_spec tg "MYSELF"); [congruence|]. destruct it; reflexivity.
Qed.
Lemma w_jump_len j : 4 <= List.length (w_jump j).
Proof. unfold w_jump. cbn. rewrite app_length. cbn. lia. Qed.
Lemma p_jumps_ok js : forall fuel rest ks, Forall good_jump js -> heads ks rest -> ~ In "JUMP" ks ->
  List.length (flat_map w_jump js ++ rest) < fuel ->
  p_jumps fuel (flat_map w_jump js ++ rest) = Some (js, rest).
Proof.
  induction js as [|j t IH]; intros fuel rest ks F H NJ L; (destruct fuel as [|fuel]; [lia|]); cbn [flat_map p_jumps].
  - cbn [app]. now rewrite (p_kw_none ks).
  - inversion F; subst. rewrite <- app_assoc. rewrite p_jump_ok by auto.
    assert (X : p_kw "JUMP" (w_jump j ++ flat_map w_jump t ++ rest) <> None) by (unfold w_jump; cbn; discriminate).
    destruct (p_kw _ _); [|congruence]. rewrite (IH fuel rest ks); auto.
    cbn [flat_map] in L. rewrite !app_length in *. pose proof (w_jump_len j). lia.
Qed.

Lemma p_metas_ok ms : forall fuel rest ks, Forall good_meta ms -> heads ks rest -> ~ In "METADATA" ks ->
  List.length (flat_map w_meta ms ++ rest) < fuel ->
  p_metas fuel (flat_map w_meta ms ++ rest) =
    Some (map (fun m => let '(t, n, v) := m in (t, n, (newline ++ v ++ newline)%string)) ms, rest).
Proof.
  induction ms as [|[[mime n] v] t IH]; intros fuel rest ks F H NM L; (destruct fuel as [|fuel]; [lia|]).
  - destruct H as [->|(k & r & -> & Hk)]; [reflexivity|]. cbn [flat_map app map].
    assert (k <> "METADATA") by congruence. cbn [p_metas].
    destruct k as [|c k]; [reflexivity|].
    repeat match goal with |- context [match ?x with _ => _ end] => is_var x; destruct x; try reflexivity end; congruence.
  - inversion F as [|? ? G F']; subst. cbn [flat_map w_meta app].
    assert (Lt : List.length (flat_map w_meta t ++ rest) < fuel).
    { cbn [flat_map w_meta app List.length] in L. rewrite app_length in *. lia. }
    cbn in G. destruct G as [G|(s & G & Hs & En)]; rewrite G; cbn [p_metas]; rewrite (IH fuel rest ks) by auto; cbn [map]; auto.
    unfold requote. rewrite Hs, En. reflexivity.
Qed.

Lemma fold_add_meta ms : forall acc, NoDup (map m_name (acc ++ ms)) -> fold_left add_meta ms acc = acc ++ ms.
Proof.
  induction ms as [|m t IH]; intros acc H; cbn [fold_left]; [now rewrite app_nil_r|].
  assert (F : filter (fun x => negb (m_name x =? m_name m)%string) acc = acc).
  { rewrite map_app in H. cbn [map] in H. apply NoDup_remove_2 in H.
    assert (X : ~ In (m_name m) (map m_name acc)) by (intro I; apply H, in_or_app; now left). clear -X.
    induction acc as [|x l IH]; [reflexivity|]. cbn [filter]. destruct (String.eqb_spec (m_name x) (m_name m)) as [E|_]; [destruct X; left; exact E|].
    cbn [negb]. now rewrite IH by (intro I; apply X; now right). }
  unfold add_meta at 2. rewrite F, IH; rewrite <- app_assoc; [reflexivity|exact H].
Qed.
Definition pad_meta (m : string * string * string) : string * string * string := let '(t, n, v) := m in (t, n, (newline ++ v ++ newline)%string).
Lemma pad_names ms : map m_name (map pad_meta ms) = map m_name ms.
Proof. induction ms as [|[[? ?] ?] t IH]; cbn; [reflexivity|]. now rewrite IH. Qed.
Lemma blank_app a b : blank (a ++ b)%string = blank a && blank b.
Proof. induction a; cbn; auto. now rewrite IHa, andb_assoc. Qed.
Lemma blank_join l : l <> [] -> Forall (fun b => blank b = false) l -> blank (join newline l) = false.
Proof.
  intros N F. destruct l as [|x [|y t]]; [congruence| |]; inversion F; subst; auto.
  change (join newline (x :: y :: t)) with (x ++ newline ++ join newline (y :: t))%string. rewrite blank_app, H1. reflexivity.
Qed.

Ltac not_in := cbn; intuition discriminate.

Theorem C26_instance_round_trip_partial :
  forall c rest, writable c -> heads after_inst rest -> p_inst (w_inst c ++ rest) = Some (padded c, rest).
Proof.
  intros c rest (Hrm & Hsp & Hrot & Hext & Hj & Hm & Hd) Hr.
  destruct c as [name type ps rm cpu sp wh at_ ar rot rr g ex js ms].
  cbn [c_removable c_split c_rot c_rot_rel c_at_rel c_extend c_jump c_meta] in *. subst rm sp.
  unfold w_inst, padded. cbn [c_name c_type c_params c_removable c_cpu c_split c_when c_at c_at_rel c_rot c_rot_rel c_group c_extend c_jump c_meta].
  rewrite <- !app_assoc.
  set (Sm := flat_map w_meta ms ++ rest).
  assert (Hm0 : heads ("METADATA" :: after_inst) Sm).
  { unfold Sm. destruct ms as [|[[mi n] v] t]; [eapply heads_weaken; [exact Hr|now right]|]. right. eexists _, _. split; [reflexivity|now left]. }
  set (Sj := flat_map w_jump js ++ Sm).
  assert (Hj0 : heads ("JUMP" :: "METADATA" :: after_inst) Sj).
  { unfold Sj. destruct js as [|j t]; [eapply heads_weaken; [exact Hm0|now right]|]. right. eexists _, _. split; [reflexivity|now left]. }
  set (Se := match ex with [] => [] | s :: l0 => [K "EXTEND"; B (newline ++ newline ++ join newline (s :: l0) ++ newline)%string] end ++ Sj).
  assert (He0 : heads ("EXTEND" :: "JUMP" :: "METADATA" :: after_inst) Se).
  { unfold Se. destruct ex; [eapply heads_weaken; [exact Hj0|now right]|]. right. eexists _, _. split; [reflexivity|now left]. }
  set (Sg := match g with Some g => [K "GROUP"; I g] | None => [] end ++ Se).
  assert (Hg0 : heads ("GROUP" :: "EXTEND" :: "JUMP" :: "METADATA" :: after_inst) Sg).
  { unfold Sg. destruct g; [|eapply heads_weaken; [exact He0|now right]]. right. eexists _, _. split; [reflexivity|now left]. }
  unfold p_inst.
  assert (R0 : forall l, opt_kw "REMOVABLE" ((if cpu then [K "CPU"] else []) ++ [K "COMPONENT"; I name; P "="; I type; P "("] ++ l) =
                 (false, (if cpu then [K "CPU"] else []) ++ [K "COMPONENT"; I name; P "="; I type; P "("] ++ l)) by (intro; destruct cpu; reflexivity).
  rewrite R0.
  assert (C0 : forall l, opt_kw "CPU" ((if cpu then [K "CPU"] else []) ++ [K "COMPONENT"; I name; P "="; I type; P "("] ++ l) =
                 (cpu, [K "COMPONENT"; I name; P "="; I type; P "("] ++ l)) by (intro; destruct cpu; reflexivity).
  rewrite C0.
  assert (S0 : forall l, p_split ([K "COMPONENT"; I name; P "="; I type; P "("] ++ l) =
                 (None, [K "COMPONENT"; I name; P "="; I type; P "("] ++ l)) by reflexivity.
  rewrite S0.
  assert (N0 : forall l, p_head ([K "COMPONENT"; I name; P "="; I type; P "("] ++ l) = Some (name, type, l)) by reflexivity.
  rewrite N0.
  change ([P ")"] ++ ?l) with (P ")" :: l).
  rewrite p_params_ok.
  set (Sr := w_clause "ROTATED" rot rr false ++ Sg).
  assert (Aw : w_clause "AT" at_ ar true = K "AT" :: w_triple at_ ++ match ar with None => [K "ABSOLUTE"] | Some n => [K "RELATIVE"; I n] end).
  { unfold w_clause. cbn [negb]. rewrite andb_false_r. reflexivity. }
  assert (W0 : p_when (match wh with Some e => [K "WHEN"; E e] | None => [] end ++ w_clause "AT" at_ ar true ++ Sr) =
               Some (wh, w_clause "AT" at_ ar true ++ Sr)) by (rewrite Aw; destruct wh; reflexivity).
  match goal with |- context [p_when ?x] =>
    change x with (match wh with Some e => [K "WHEN"; E e] | None => [] end ++ w_clause "AT" at_ ar true ++ Sr) end.
  rewrite W0, Aw, <- app_comm_cons, <- app_assoc. rewrite p_clause_ok by discriminate.
  assert (Rt : p_rotated ar Sr =
    Some ((if is_null rot && match rr with None => true | _ => false end then (int0, int0, int0) else rot), rr, Sg)).
  { unfold p_rotated, Sr, w_clause. cbn [negb]. rewrite andb_true_r.
    destruct (is_null rot && match rr with None => true | _ => false end) eqn:X.
    - apply andb_prop in X as [X1 X2]. destruct rr; [discriminate|]. cbn [app].
      rewrite (p_kw_none _ _ _ Hg0) by not_in. now rewrite (Hrot X1 eq_refl).
    - rewrite <- app_comm_cons, <- app_assoc, p_kw_hit. now rewrite p_clause_ok by discriminate. }
  rewrite Rt.
  assert (G0 : p_group Sg = Some (g, Se)).
  { unfold p_group, Sg. destruct g; [reflexivity|]. cbn [app]. now rewrite (p_kw_none _ _ _ He0) by not_in. }
  rewrite G0.
  assert (E0 : p_extend Se = Some (match ex with [] => [] | s :: l0 => [(newline ++ newline ++ join newline (s :: l0) ++ newline)%string] end, Sj)).
  { unfold p_extend, Se. destruct ex as [|x ex].
    - cbn [app]. now rewrite (p_kw_none _ _ _ Hj0) by not_in.
    - cbn [app]. rewrite p_kw_hit. rewrite !blank_app, (blank_join (x :: ex)) by (auto; discriminate). reflexivity. }
  rewrite E0. unfold Sj. rewrite (p_jumps_ok js _ _ _ Hj Hm0) by (not_in || lia).
  unfold Sm. rewrite (p_metas_ok ms _ _ _ Hm Hr) by (not_in || lia).
  change (fun m : string * string * string => let '(t, n, v) := m in (t, n, (newline ++ v ++ newline)%string)) with pad_meta.
  rewrite fold_add_meta by (cbn [app]; rewrite pad_names; exact Hd). reflexivity.
Qed.
Print Assumptions C26_instance_round_trip_partial.

(* and the whole TRACE section *)
Lemma w_inst_head c rest : heads ["COMPONENT"; "CPU"] (w_inst c ++ rest).
Proof. right. unfold w_inst. destruct (c_cpu c); eexists _, _; split; try reflexivity; cbn; auto. Qed.
Theorem C26_trace_round_trip_partial :
  forall cs rest, Forall writable cs -> heads ["SAVE"; "FINALLY"; "END"] rest ->
    p_trace (S (List.length cs)) (flat_map w_inst cs ++ rest) = Some (map padded cs, rest).
Proof.
  intros cs rest F H. induction cs as [|c t IH]; cbn [flat_map map List.length].
  - destruct H as [->|(k & r & -> & Hk)]; [reflexivity|]. cbn in Hk. intuition (subst; reflexivity).
  - inversion F; subst. rewrite <- app_assoc.
    assert (Hn : heads after_inst (flat_map w_inst t ++ rest)).
    { destruct t as [|c' t]; cbn [flat_map app].
      - eapply heads_weaken; [exact H|]. intros x. cbn. tauto.
      - rewrite <- app_assoc. eapply heads_weaken; [apply w_inst_head|]. intros x. cbn. tauto. }
    pose proof (C26_instance_round_trip_partial c _ H2 Hn) as Pi.
    destruct (w_inst_head c (flat_map w_inst t ++ rest)) as [Em|(k & r & Em & Hk)].
    + unfold w_inst in Em. destruct (c_cpu c); discriminate.
    + remember (w_inst c ++ flat_map w_inst t ++ rest) as l eqn:El. rewrite Em. specialize (IH H3). remember (S (List.length t)) as f. cbn [p_trace].
      assert (X : ((k =? "COMPONENT") || (k =? "REMOVABLE") || (k =? "CPU") || (k =? "SPLIT"))%string = true).
      { cbn in Hk. intuition (subst; reflexivity). }
      rewrite X, <- Em, Pi, IH. reflexivity.
Qed.
Print Assumptions C26_trace_round_trip_partial.

Definition z3 : triple := (int0, int0, int0).
Definition vx (x : string) : node := NExpr [NVal (PStr x) DFloat OId].
Definition plain : ci :=
  mkCi "mono" "Monochromator" [("zwidth", vx "w"); ("yheight", int0)] false true None (Some (vx "flag")) (int0, int0, vx "d") (Some "arm")
    (int0, vx "th", int0) (Some "arm") (Some "g") ["x = 1;"; "y = 2;"]
    [mkJump "PREVIOUS" (-1)%Z true (vx "n"); mkJump "detector" 0%Z false (vx "c")] [("text", "geometry", "{}")].
Example C26_instance_round_trip_partial_example : writable plain /\ heads after_inst [K "END"].
Proof.
  split; [|right; eexists _, _; split; [reflexivity|cbn; tauto]]. split; [reflexivity|]. split; [reflexivity|].
  split; [discriminate|]. split; [repeat constructor|].
  split; [|split; [repeat constructor|constructor; [intros []|constructor]]].
  constructor; [|constructor; [|constructor]].
  - left. repeat split.
  - do 3 right. repeat split; discriminate.
Qed.

(* SPLIT and REMOVABLE are not written. *)
Theorem C26_split_lost_refuted :
  exists c c', p_inst (w_inst c ++ [K "END"]) = Some (c', [K "END"]) /\ c_split c <> c_split c'.
Proof.
  exists (mkCi "a" "Arm" [] false false (Some (vx "n")) None z3 None z3 None None [] [] []). eexists. split; [reflexivity|discriminate].
Qed.
Print Assumptions C26_split_lost_refuted.
Theorem C26_removable_lost_refuted :
  exists c c', p_inst (w_inst c ++ [K "END"]) = Some (c', [K "END"]) /\ c_removable c <> c_removable c'.
Proof.
  exists (mkCi "a" "Arm" [] true false None None z3 None z3 None None [] [] []). eexists. split; [reflexivity|discriminate].
Qed.
Print Assumptions C26_removable_lost_refuted.
(* ROTATED (0, 0, 0) ABSOLUTE is left out, and its absence means something else after AT
   ... RELATIVE. *)
Theorem C26_absolute_rotation_lost_refuted :
  exists c c', p_inst (w_inst c ++ [K "END"]) = Some (c', [K "END"]) /\ c_rot_rel c = None /\ c_rot_rel c' = Some "b".
Proof.
  exists (mkCi "a" "Arm" [] false false None None z3 (Some "b") z3 None None [] [] []). eexists. split; [reflexivity|]. split; reflexivity.
Qed.
Print Assumptions C26_absolute_rotation_lost_refuted.
(* A jump over several components, such as PREVIOUS(2), is written with its count and cannot be read: the visitor calls int on a node of
   the parse tree, which is no number (TypeError). *)
Theorem C26_counted_jump_refuted : forall i it e rest, 2 <= i ->
  p_jump (w_jump (mkJump ("PREVIOUS_" ++ str_nat i) (- Z.of_nat i)%Z it e) ++ rest) = None /\
  p_jump (w_jump (mkJump ("NEXT_" ++ str_nat i) (Z.of_nat i) it e) ++ rest) = None.
Proof.
  intros i it e rest H.
  assert (W : forall p z, (p = "PREVIOUS" \/ p = "NEXT") -> Z.abs z = Z.of_nat i -> p_jump (w_jump (mkJump (p ++ "_" ++ str_nat i) z it e) ++ rest) = None).
  { intros p z P Z. unfold w_jump. cbn [j_target j_rel j_iter j_cond]. rewrite Z. replace (1 <? Z.of_nat i)%Z with true by (symmetry; apply Z.ltb_lt; lia).
    assert (Sp : split_char "_" (p ++ "_" ++ str_nat i)%string = p :: split_char "_" (str_nat i)).
    { change ("_" ++ str_nat i)%string with (String "_" (str_nat i)). apply split_char_app. destruct P as [-> | ->]; reflexivity. }
    rewrite Sp. destruct P as [-> | ->]; reflexivity. }
  split; [apply (W "PREVIOUS"); [now left|lia]|apply (W "NEXT"); [now right|lia]].
Qed.
Print Assumptions C26_counted_jump_refuted.
(* A jump to a component named like NEXT_sample goes to the next component. *)
Theorem C26_jump_name_lost_refuted :
  exists c c', p_inst (w_inst c ++ [K "END"]) = Some (c', [K "END"]) /\
    map j_target (c_jump c) = ["NEXT_sample"] /\ map j_rel (c_jump c) = [0%Z] /\ map j_rel (c_jump c') = [1%Z].
Proof.
  exists (mkCi "a" "Arm" [] false false None None z3 None z3 None None [] [mkJump "NEXT_sample" 0%Z false (vx "f")] []).
  eexists. split; [reflexivity|]. repeat split.
Qed.
Print Assumptions C26_jump_name_lost_refuted.
(* After the translator has run, a named jump over more than one component has its
   distance recorded (target.py:219-230) and is then written in a form the grammar does
   not have. *)
Theorem C26_translated_jump_refuted :
  exists c, map j_target (c_jump c) = ["detector"] /\ p_inst (w_inst c ++ [K "END"]) = None.
Proof.
  exists (mkCi "a" "Arm" [] false false None None z3 None z3 None None [] [mkJump "detector" 3%Z false (vx "f")] []).
  split; reflexivity.
Qed.
Print Assumptions C26_translated_jump_refuted.
