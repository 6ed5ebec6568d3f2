(* Property C19: component references point backwards. *)
From Coq Require Import List String Bool Arith Lia.
From Verif Require Import PyStr Expr InstrModel Refs.
Import ListNotations.
Local Open Scope string_scope.
Local Open Scope list_scope.

(* Whatever the file, with any nesting of includes: each recorded reference of a
   component is the name of exactly one component of the instrument, an earlier one. *)
Theorem C19_references_point_backwards :
  forall dec known items comps, read_file dec known items = Ok comps ->
    NoDup (map r_name comps) /\
    forall i c r, nth_error comps i = Some c -> r_at c = Some r \/ r_rot c = Some r ->
      exists j d, j < i /\ nth_error comps j = Some d /\ r_name d = r.
Proof.
  intros dec known items comps H.
  assert (I0 : inv None []).
  { split; [intros i c r Hn; destruct i; discriminate|constructor|intro C; now elim C]. }
  destruct (elab_list_inv dec known items None [] comps I0 H) as [I1 I2 _]. split; auto.
  intros i c r Hc Hr. specialize (I1 i c r Hc Hr). cbn in I1. apply in_map_iff in I1 as (d & Ed & Hd).
  apply In_nth_error in Hd as [j Hj]. exists j, d.
  assert (L : j < List.length (firstn i comps)) by (apply nth_error_Some; congruence).
  rewrite firstn_length in L. split; [lia|]. split; auto.
  rewrite <- (firstn_skipn i comps), nth_error_app1 by (rewrite firstn_length; lia). exact Hj.
Qed.
Print Assumptions C19_references_point_backwards.

(* what a reference denotes among the components so far, the including file's first *)
Definition denotes (ctx : list rinst) (r : cref) (x : rinst) : Prop :=
  match r with
  | CPrev n => let k := match n with None => 1 | Some k => k end in 1 <= k /\ nth_error (rev ctx) (k - 1) = Some x
  | CName n => In x ctx /\ r_name x = n
  end.

Lemma r_get_spec l n : n <> "PREVIOUS" ->
  match r_get l n with
  | Ok x => In x l /\ r_name x = n
  | _ => ~ In n (map r_name l)
  end.
Proof.
  intro Hn. unfold r_get. destruct (String.eqb_spec n "PREVIOUS") as [E|_]; [congruence|].
  destruct (find _ l) as [x|] eqn:E.
  - apply find_some in E as [H E]. apply String.eqb_eq in E. auto.
  - intro C. apply in_map_iff in C as (x & Ex & Hx). apply (find_none _ _ E) in Hx. apply String.eqb_neq in Hx. congruence.
Qed.

(* Resolving a reference gives what it denotes; if it denotes nothing the reader raises in
   an included file.  PREVIOUS(0) is excluded, and a component named None. *)
Theorem C19_resolution_partial :
  forall dest st r,
    r <> CPrev (Some 0) -> r <> CName "PREVIOUS" -> ~ In "None" (map r_name st) ->
    match component_ref dest st r with
    | Ok (Some x) => denotes (dlist dest ++ st) r x
    | Ok None => dest = None /\ forall x, ~ denotes st r x
    | _ => dest <> None /\ forall x, ~ denotes (dlist dest ++ st) r x
    end.
Proof.
  intros dest st r H0 HP HN.
  assert (B : forall n, n <> "PREVIOUS" -> match by_name dest st n with
    | Ok (Some x) => In x (dlist dest ++ st) /\ r_name x = n
    | Ok None => dest = None /\ ~ In n (map r_name st)
    | _ => dest <> None /\ ~ In n (map r_name (dlist dest ++ st)) end).
  { intros n Hn. unfold by_name. destruct (existsb _ st) eqn:E.
    - apply existsb_names in E. pose proof (r_get_spec st n Hn) as G. destruct (r_get st n); [|tauto|tauto].
      split; [apply in_or_app|]; tauto.
    - assert (E' : ~ In n (map r_name st)) by (intro C; apply existsb_names in C; congruence).
      destruct dest as [d|]; [|auto]. pose proof (r_get_spec d n Hn) as G. destruct (r_get d n); cbn.
      + split; [apply in_or_app|]; tauto.
      + split; [discriminate|]. rewrite map_app, in_app_iff. tauto.
      + split; [discriminate|]. rewrite map_app, in_app_iff. tauto. }
  destruct r as [n|n]; cbn [component_ref].
  - set (k := match n with None => 1 | Some c => c end).
    assert (Hk : 1 <= k) by (unfold k; destruct n as [[|c]|]; [congruence|lia|lia]).
    assert (Den : forall ctx x, denotes ctx (CPrev n) x <-> nth_error (rev ctx) (k - 1) = Some x) by (intros; unfold denotes; fold k; tauto).
    assert (Last : forall l c, 1 <= c <= List.length l -> exists x, r_last l c = Ok x /\ nth_error (rev l) (c - 1) = Some x).
    { intros l c Hc. unfold r_last, py_neg_index. destruct (Nat.ltb_spec (List.length l) c); [lia|].
      destruct (Nat.eqb_spec c 0); [lia|]. destruct (nth_error (rev l) (c - 1)) as [x|] eqn:E; eauto.
      apply nth_error_None in E. rewrite rev_length in E. lia. }
    destruct (Nat.leb_spec k (List.length st)) as [L|L].
    + destruct (Last st k) as (x & -> & E); [lia|]. apply Den. rewrite rev_app_distr, nth_error_app1; auto.
      rewrite rev_length. lia.
    + destruct dest as [d|].
      * cbn [dlist]. destruct (Nat.le_gt_cases (k - List.length st) (List.length d)) as [L2|L2].
        -- destruct (Last d (k - List.length st)) as (x & -> & E); [lia|]. apply Den. rewrite rev_app_distr, nth_error_app2; rewrite rev_length; [|lia].
           rewrite <- E. f_equal. lia.
        -- unfold r_last. destruct (Nat.ltb_spec (List.length d) (k - List.length st)); [|lia]. split; [discriminate|].
           intros x Hx. apply Den in Hx. assert (k - 1 < List.length (rev (d ++ st))) by (apply nth_error_Some; congruence).
           rewrite rev_length, app_length in H1. lia.
      * unfold by_name. destruct (existsb _ st) eqn:E; [apply existsb_names in E; contradiction|]. split; auto.
        intros x Hx. apply Den in Hx. assert (k - 1 < List.length (rev st)) by (apply nth_error_Some; congruence).
        rewrite rev_length in H. lia.
  - assert (Hn : n <> "PREVIOUS") by congruence. specialize (B n Hn). destruct (by_name dest st n) as [[x|]| |].
    + exact B.
    + destruct B as [-> B]. split; auto. intros x [Hx E]. apply B. rewrite <- E. now apply in_map.
    + destruct B as [B1 B]. split; auto. intros x [Hx E]. apply B. rewrite <- E. now apply in_map.
    + destruct B as [B1 B]. split; auto. intros x [Hx E]. apply B. rewrite <- E. now apply in_map.
Qed.
Print Assumptions C19_resolution_partial.

(* copying the type of an unknown component is an error *)
Theorem C19_copy_of_unknown_raises :
  forall dec known st d r, d_type d = TCopy r -> component_ref None st r = Ok None ->
    component_instance dec known None st d = Raise.
Proof. intros dec known st d r E H. unfold component_instance, type_of. now rewrite E, H. Qed.
Print Assumptions C19_copy_of_unknown_raises.

(* included REMOVABLE components are not added; others are, in order *)
Theorem C19_included_components :
  forall dec known st l st', elab dec known None st (IInclude l) = Ok st' -> inv None st ->
    exists sub, elab_list dec known (Some st) [] l = Ok sub /\ st' = st ++ sub /\ Forall (fun c => r_removable c = false) sub.
Proof.
  intros dec known st l st' H I. rewrite elab_include in H.
  destruct (elab_list dec known (Some st) [] l) as [sub| |] eqn:E; try discriminate. exists sub.
  assert (Is : inv (Some st) sub).
  { eapply elab_list_inv; eauto. split; [intros i c r Hn; destruct i; discriminate|constructor|constructor]. }
  destruct Is as [S1 _ S3]. destruct (inv_add_all None st sub st' I S1) as [_ ->]; auto. apply S3. discriminate.
  split; auto. split; auto. apply S3. discriminate.
Qed.
Print Assumptions C19_included_components.

Definition item1 (rm : bool) (n : string) (a : option cref) : item := IComp (mkDecl rm (NId n) (TName "Arm") a None).
Example C19_references_point_backwards_example :
  read_file (fun _ => "") (fun _ => true)
    [item1 false "a" None; IInclude [item1 true "x" None; item1 false "y" (Some (CPrev None)); item1 false "z" (Some (CName "a"))];
     item1 false "b" (Some (CPrev (Some 2)))] =
  Ok [mkR "a" "Arm" false None None; mkR "y" "Arm" false (Some "a") (Some "a"); mkR "z" "Arm" false (Some "a") (Some "a");
      mkR "b" "Arm" false (Some "y") (Some "y")].
Proof. reflexivity. Qed.
Example C19_resolution_partial_example :
  component_ref (Some [mkR "a" "Arm" false None None]) [mkR "b" "Arm" false None None] (CPrev (Some 2)) = Ok (Some (mkR "a" "Arm" false None None)) /\
  component_ref (Some [mkR "a" "Arm" false None None]) [] (CName "q") = Raise.
Proof. split; reflexivity. Qed.
Example C19_included_components_example : inv None [] /\
  elab (fun _ => "") (fun _ => true) None [] (IInclude [item1 true "x" None; item1 false "y" None]) = Ok [mkR "y" "Arm" false None None].
Proof. split; [split; [intros [|i] c r Hn; discriminate|constructor|intro C; now elim C]|reflexivity]. Qed.

(* A misspelt reference in the instrument itself is only logged: the component is placed
   ABSOLUTE. *)
Theorem C19_unknown_reference_refuted :
  exists dec known d st', d_at d = Some (CName "sample") /\ component_instance dec known None [] d = Ok st' /\
    (exists c, st' = [c] /\ r_at c = None).
Proof.
  exists (fun _ => ""), (fun _ => true), (mkDecl false (NId "detector") (TName "Arm") (Some (CName "sample")) None).
  eexists. repeat split. eexists. split; reflexivity.
Qed.
Print Assumptions C19_unknown_reference_refuted.

(* PREVIOUS(0) is the first component. *)
Theorem C19_previous_zero_refuted :
  exists a b, component_ref None [a; b] (CPrev (Some 0)) = Ok (Some a) /\ a <> b.
Proof.
  exists (mkR "a" "Arm" false None None), (mkR "b" "Arm" false None None). split; [reflexivity|discriminate].
Qed.
Print Assumptions C19_previous_zero_refuted.

(* PREVIOUS beyond the beginning is a component named None, if there is one. *)
Theorem C19_previous_too_far_refuted :
  exists a b, component_ref None [a; b] (CPrev (Some 9)) = Ok (Some a).
Proof.
  exists (mkR "None" "Arm" false None None), (mkR "b" "Arm" false None None). reflexivity.
Qed.
Print Assumptions C19_previous_too_far_refuted.
