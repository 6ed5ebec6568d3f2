(** C77: the commands that manage the configuration and the cache *)
From Coq Require Import List String Ascii Bool Arith Lia Permutation Sorted.
From Verif Require Import PyStr TextLines Expr Manage.
From Verif Require Registry.
Import ListNotations.
Local Open Scope string_scope.
Local Open Scope list_scope.
Local Open Scope nat_scope.

(** ** what a setting is *)
(** the value in effect at a place: that of the first source that has the place, where no
    earlier source has a text in place of a table *)
Inductive in_effect (p : list string) : list tree -> tree -> Prop :=
| IHere s ss v : descend s p = Value v -> in_effect p (s :: ss) v
| ILater s ss v : descend s p = Missing -> in_effect p ss v -> in_effect p (s :: ss) v.
Lemma first_value_spec ss p v : first_value ss p = Ok (Some v) <-> in_effect p ss v.
Proof.
  induction ss as [|s ss IH]; cbn [first_value]; split.
  - discriminate.
  - inversion 1.
  - destruct (descend s p) eqn:E; [intros [= ->]; now apply IHere|intro H; apply ILater; auto; now apply IH|discriminate].
  - inversion 1 as [? ? ? E|? ? ? E F]; subst; rewrite E; auto. now apply IH.
Qed.

(** ** set in one session *)
Fixpoint starts (p q : list string) : bool :=
  match p, q with [], _ => true | a :: p', b :: q' => (a =?s b) && starts p' q' | _, [] => false end.
Lemma nest_same p v : descend (nest p v) p = Value v.
Proof. induction p as [|k p IH]; [reflexivity|]. cbn. unfold child. cbn. rewrite String.eqb_refl. cbn. exact IH. Qed.
Lemma nest_other p q v : starts p q = false -> starts q p = false -> descend (nest p v) q = Missing.
Proof.
  revert q. induction p as [|k p IH]; intros q A B; [discriminate|]. destruct q as [|l q]; [discriminate|]. cbn in A, B |- *. unfold child. cbn.
  destruct (k =?s l) eqn:E; cbn; [|reflexivity]. rewrite String.eqb_sym, E in B. now apply IH.
Qed.
(* In the running program: what is set is in effect, and settings at other places keep their
   values, whether they are found, missing or wrong. *)
Theorem C77_set_in_session :
  forall ss key v, in_effect (levels key) (config_set ss key v) (Leaf v) /\
    forall p, starts (levels key) p = false -> starts p (levels key) = false -> first_value (config_set ss key v) p = first_value ss p.
Proof.
  intros ss key v. split; [apply IHere, nest_same|]. intros p A B. unfold config_set. cbn [first_value]. now rewrite nest_other.
Qed.
Print Assumptions C77_set_in_session.

(** ** save and start again *)
Definition has_key (s : tree) (k : string) : Prop := descend s [k] <> Missing.
Lemma once_in l k : In k (once l) <-> In k l.
Proof.
  induction l as [|a l IH]; cbn; [tauto|]. rewrite filter_In, IH, negb_true_iff, String.eqb_neq. destruct (string_dec a k); intuition congruence.
Qed.
Lemma once_nodup l : NoDup (once l).
Proof.
  induction l as [|a l IH]; cbn; constructor.
  - rewrite filter_In, negb_true_iff, String.eqb_neq. tauto.
  - clear -IH. induction IH as [|x t N D IH]; cbn; [constructor|]. destruct (negb _); auto. constructor; auto. rewrite filter_In. tauto.
Qed.
Lemma child_in k l : (exists t, child k l = Some t) <-> In k (map fst l).
Proof.
  unfold child. induction l as [|[a t] l IH]; cbn; [split; [intros [? [=]]|tauto]|]. destruct (a =?s k) eqn:E; cbn.
  - apply String.eqb_eq in E. split; eauto.
  - apply String.eqb_neq in E. rewrite IH. tauto.
Qed.
Lemma gather_child ss ks : forall l, NoDup ks -> gather ss ks = Ok l ->
  forall k, child k l = if in_dec string_dec k ks then match first_value ss [k] with Ok v => v | _ => None end else None.
Proof.
  induction ks as [|a ks IH]; intros l N H k; cbn [gather] in H; [injection H as <-; reflexivity|].
  inversion N as [|? ? NA ND]; subst. destruct (first_value ss [a]) as [[v|]| |] eqn:V; try discriminate. cbn [rbind] in H.
  destruct (gather ss ks) as [r| |] eqn:G; try discriminate. cbn [rbind] in H. injection H as <-. specialize (IH r ND eq_refl k).
  unfold child in *. cbn [find fst]. destruct (a =?s k) eqn:E.
  - apply String.eqb_eq in E. subst a. destruct (in_dec string_dec k (k :: ks)) as [_|X]; [|exfalso; apply X; now left]. rewrite V. reflexivity.
  - apply String.eqb_neq in E. rewrite IH. destruct (in_dec string_dec k ks) as [I|I], (in_dec string_dec k (a :: ks)) as [J|J]; auto.
    + exfalso. apply J. now right.
    + destruct J; [contradiction|contradiction].
Qed.
Lemma child_first k p l : descend (Node l) (k :: p) = match child k l with Some t => descend t p | None => Missing end.
Proof. reflexivity. Qed.
Lemma key_in_all ss k v : first_value ss [k] = Ok (Some v) -> In k (all_keys ss).
Proof.
  intro H. apply first_value_spec in H. unfold all_keys. apply once_in. induction H as [s ss v D|s ss v D H IH]; cbn [flat_map]; apply in_or_app; [left|now right].
  destruct s as [x|l]; [discriminate|]. cbn in *. apply child_in. destruct (child k l); [eauto|discriminate].
Qed.
(** the saved file gives, for each key of the top, what the sources gave first *)
Lemma saved_descend ss l k p : gather ss (all_keys ss) = Ok l ->
  descend (Node l) (k :: p) = match first_value ss [k] with Ok (Some t) => descend t p | _ => Missing end.
Proof.
  intro G. rewrite child_first. rewrite (gather_child ss (all_keys ss) l (once_nodup _) G k). destruct (in_dec string_dec k (all_keys ss)) as [I|I].
  - destruct (first_value ss [k]) as [[t|]| |]; reflexivity.
  - destruct (first_value ss [k]) as [[t|]| |] eqn:E; auto. exfalso. apply I. eapply key_in_all, E.
Qed.
Definition is_table (t : tree) : Prop := match t with Node _ => True | Leaf _ => False end.
Lemma top_split s k p : is_table s -> descend s (k :: p) = match descend s [k] with Value t => descend t p | Missing => Missing | Wrong => Wrong end.
Proof. destruct s as [x|l]; [intros []|]. intros _. cbn. destruct (child k l); reflexivity. Qed.
Lemma top_not_wrong s k : is_table s -> descend s [k] <> Wrong.
Proof. destruct s as [x|l]; [intros []|]. intros _. cbn. destruct (child k l); discriminate. Qed.
Lemma first_app a b p : first_value (a ++ b) p = match first_value a p with Ok None => first_value b p | x => x end.
Proof. induction a as [|s a IH]; [reflexivity|]. cbn. destruct (descend s p); auto. Qed.
Lemma first_skip a k p : Forall (fun s => is_table s /\ descend s [k] = Missing) a -> first_value a (k :: p) = Ok None.
Proof. induction 1 as [|s a [T M] _ IH]; [reflexivity|]. cbn [first_value]. rewrite top_split, M by assumption. exact IH. Qed.
Lemma first_split a k : Forall is_table a -> first_value a [k] = Ok None /\ Forall (fun s => is_table s /\ descend s [k] = Missing) a \/
  exists t, first_value a [k] = Ok (Some t) /\ forall p, (exists v, descend t p = Value v /\ first_value a (k :: p) = Ok (Some v)) \/
    descend t p = Wrong /\ first_value a (k :: p) = Raise \/ descend t p = Missing.
Proof.
  induction 1 as [|s a T F IH]; [left; split; [reflexivity|constructor]|]. cbn [first_value].
  destruct (descend s [k]) as [t| |] eqn:D.
  - right. exists t. split; auto. intro p. rewrite top_split, D by assumption. destruct (descend t p) as [v| |]; eauto.
  - destruct IH as [[A B]|(t & A & B)].
    + left. split; auto.
    + right. exists t. split; auto. intro p. rewrite top_split, D by assumption. apply B.
  - now apply top_not_wrong in D.
Qed.
Lemma first_some_app a b k t : first_value a [k] = Ok (Some t) -> first_value (a ++ b) [k] = Ok (Some t).
Proof. intro H. rewrite first_app, H. reflexivity. Qed.

(* After save and a new start every setting has the value it had before, unless the same
   key of the top is in the user's file and also set by the environment or in the program. *)
Theorem C77_save_and_start_again :
  forall w w' k p, Forall is_table (sources w) -> config_save w (sources w) = Ok w' ->
    (forall f, w_file w = Some f -> has_key f k -> Forall (fun s => ~ has_key s k) (w_env w)) ->
    first_value (sources w') (k :: p) = first_value (sources w) (k :: p).
Proof.
  intros [e f d] w' k p T H C. unfold config_save in H. destruct (gather (sources (mkW e f d)) (all_keys (sources (mkW e f d)))) as [l| |] eqn:G; try discriminate.
  cbn [rbind] in H. injection H as <-. pose proof (saved_descend _ _ k p G) as S. cbn [w_env w_file w_defaults] in *.
  unfold sources in *. cbn [w_env w_file w_defaults] in *. set (F := match f with Some f => [f] | None => [] end) in *.
  apply Forall_app in T as [TE T]. apply Forall_app in T as [TF TD].
  rewrite !(first_app e). cbn [app first_value]. rewrite S.
  destruct (first_split e k TE) as [[E1 E2]|(t & E1 & E2)].
  - rewrite (first_skip _ _ p E2). rewrite first_app, E1, first_app. rewrite first_app.
    destruct (first_split F k TF) as [[F1 F2]|(t & F1 & F2)].
    + rewrite F1, (first_skip _ _ p F2). destruct (first_split d k TD) as [[D1 D2]|(t & D1 & D2)].
      * rewrite D1. reflexivity.
      * rewrite D1. destruct (D2 p) as [(v & V & W)|[[V W]|V]]; rewrite V; auto.
    + rewrite F1. destruct f as [g|]; [|discriminate]. unfold F in *. cbn [first_value] in *. clear F.
      destruct (descend g [k]) as [t'| |] eqn:DG; try discriminate. injection F1 as ->.
      assert (TG : is_table g) by now inversion TF.
      rewrite (top_split g k p TG), DG. destruct (descend t p); reflexivity.
  - rewrite first_app, E1. destruct (E2 p) as [(v & V & W)|[[V W]|V]]; [rewrite W; reflexivity|rewrite W; reflexivity|].
    rewrite V. destruct (first_value e (k :: p)) as [[v|]| |]; auto. rewrite first_app.
    assert (FM : first_value F (k :: p) = Ok None); [|now rewrite FM].
    apply first_skip. unfold F. destruct f as [g|]; [|constructor]. constructor; [|constructor]. split; [now inversion TF|].
    destruct (descend g [k]) as [x| |] eqn:DG; auto; exfalso.
    + assert (X : Forall (fun s => ~ has_key s k) e) by (apply (C g eq_refl); unfold has_key; rewrite DG; discriminate).
      assert (Y : exists s, In s e /\ has_key s k).
      { clear -E1. apply first_value_spec in E1. induction E1 as [s ss v D|s ss v D H IH].
        - exists s. split; [now left|]. unfold has_key. rewrite D. discriminate.
        - destruct IH as (s' & I & K). exists s'. split; [now right|auto]. }
      destruct Y as (s & I & K). rewrite Forall_forall in X. now apply (X s I).
    + apply top_not_wrong in DG; auto. now inversion TF.
Qed.
Print Assumptions C77_save_and_start_again.

(** a user's file and a default of the package; PREFIX_CC in the environment *)
Definition user_world : world :=
  mkW [Node [("cc", Leaf "clang")]]
      (Some (Node [("flags", Node [("ld", Leaf "-lm"); ("nexus", Leaf "-lNeXus")])]))
      [Node [("cc", Leaf "gcc"); ("flags", Node [("ld", Leaf ""); ("cc", Leaf "-O2")])]].
Example C77_set_in_session_example :
  config_get (config_set (sources user_world) "flags.cc" "-g") (Some "flags.cc") = Ok (Some (Node [("flags.cc", Leaf "-g")])) /\
  config_get (config_set (sources user_world) "flags.cc" "-g") (Some "flags.nexus") = Ok (Some (Node [("flags.nexus", Leaf "-lNeXus")])) /\
  starts (levels "flags.cc") ["flags"; "nexus"] = false /\ starts ["flags"; "nexus"] (levels "flags.cc") = false.
Proof. repeat split; vm_compute; reflexivity. Qed.
Example C77_save_and_start_again_example :
  Forall is_table (sources user_world) /\
  (forall f, w_file user_world = Some f -> has_key f "flags" -> Forall (fun s => ~ has_key s "flags") (w_env user_world)) /\
  exists w', config_save user_world (sources user_world) = Ok w' /\
    first_value (sources w') ["flags"; "cc"] = Ok (Some (Leaf "-O2")) /\ first_value (sources w') ["cc"] = Ok (Some (Leaf "clang")) /\
    w_file w' <> w_file user_world.
Proof.
  split; [repeat constructor|]. split.
  - intros f _ _. repeat constructor. intro H. now apply H.
  - eexists. split; [vm_compute; reflexivity|]. repeat split; try (vm_compute; reflexivity). discriminate.
Qed.

(** what get prints is the value in effect under the whole key *)
Lemma walk_prefix ss : forall ls depth d, walk ss depth ls = Ok (Some d) -> d = depth ++ ls.
Proof.
  induction ls as [|l ls IH]; intros depth d H; cbn in H; [injection H as <-; now rewrite app_nil_r|].
  destruct (first_value ss (depth ++ [l])) as [[v|]| |]; try discriminate. cbn [rbind] in H. apply IH in H. now rewrite <- app_assoc in H.
Qed.
(* get with a key prints the value in effect at that key and no other. *)
Theorem C77_get_prints_value :
  forall ss key t, key <> "" -> config_get ss (Some key) = Ok (Some t) -> exists v, t = Node [(key, v)] /\ in_effect (levels key) ss v.
Proof.
  intros ss key t N H. unfold config_get in H. destruct key as [|a k]; [contradiction|]. set (K := String a k) in *.
  destruct (walk ss [] (levels K)) as [[d|]| |] eqn:W; try discriminate. cbn [rbind] in H. apply walk_prefix in W. change ([] ++ levels K) with (levels K) in W. subst d.
  destruct (first_value ss (levels K)) as [[v|]| |] eqn:V; try discriminate. cbn [rbind option_map] in H. assert (E : t = Node [(K, v)]) by congruence. subst t.
  exists v. split; [reflexivity|]. now apply first_value_spec.
Qed.
Print Assumptions C77_get_prints_value.
Example C77_get_prints_value_example :
  config_get (sources user_world) (Some "flags.ld") = Ok (Some (Node [("flags.ld", Leaf "-lm")])) /\ config_get (sources user_world) (Some "flags.hdf") = Ok None.
Proof. split; vm_compute; reflexivity. Qed.

Lemma descend_app p q : forall s, descend s (p ++ q) = match descend s p with Value t => descend t q | x => x end.
Proof.
  induction p as [|k p IH]; intro s; [reflexivity|]. cbn. destruct s as [v|l]; [reflexivity|]. destruct (child k l); [apply IH|reflexivity].
Qed.
Lemma in_effect_prefix p q ss v : in_effect (p ++ q) ss v -> exists v', in_effect p ss v'.
Proof.
  induction 1 as [s ss v E|s ss v E H (v' & IH)]; rewrite descend_app in E; destruct (descend s p) as [t| |] eqn:D; try discriminate.
  - exists t. now apply IHere.
  - exists t. now apply IHere.
  - exists v'. now apply ILater.
Qed.
Lemma walk_found ss v : forall ls rest depth, in_effect (depth ++ ls) ss v -> walk ss depth (ls ++ rest) = walk ss (depth ++ ls) rest.
Proof.
  induction ls as [|l ls IH]; intros rest depth H; [now rewrite app_nil_r|]. cbn [walk app].
  replace (depth ++ l :: ls) with ((depth ++ [l]) ++ ls) in * by (rewrite <- app_assoc; reflexivity).
  destruct (in_effect_prefix _ _ _ _ H) as (v' & P). apply first_value_spec in P. rewrite P. cbn [rbind]. now apply IH.
Qed.
(* Every value in effect is printed by get with its key; a key that goes on below a text is an error, and not the notice that a key that is not
   there gives. *)
Theorem C77_get_finds_value :
  forall ss key v, key <> "" -> in_effect (levels key) ss v -> config_get ss (Some key) = Ok (Some (Node [(key, v)])).
Proof.
  intros ss key v N H. unfold config_get. destruct key as [|a k]; [contradiction|]. set (K := String a k) in *.
  pose proof (walk_found ss v (levels K) [] [] H) as W. rewrite app_nil_r in W. cbn [app walk] in W. rewrite W. cbn [rbind].
  apply first_value_spec in H. rewrite H. reflexivity.
Qed.
Print Assumptions C77_get_finds_value.
Theorem C77_get_below_text :
  forall ss key p k q v, key <> "" -> levels key = p ++ k :: q -> in_effect p ss (Leaf v) -> config_get ss (Some key) = Raise.
Proof.
  intros ss key p k q v N L H. unfold config_get. destruct key as [|a y]; [contradiction|]. set (K := String a y) in *. rewrite L.
  rewrite (walk_found ss (Leaf v) p (k :: q) [] H). cbn [app walk].
  assert (E : first_value ss (p ++ [k]) = Raise); [|now rewrite E].
  clear -H. remember (Leaf v) as t eqn:T. induction H as [s ss v' E|s ss v' E H IH]; cbn [first_value]; rewrite descend_app, E; [subst; reflexivity|now apply IH].
Qed.
Print Assumptions C77_get_below_text.
Example C77_get_below_text_example :
  levels "cc.path" = ["cc"] ++ ["path"] /\ in_effect ["cc"] (sources user_world) (Leaf "clang") /\ config_get (sources user_world) (Some "cc.path") = Raise /\
  in_effect (levels "flags.ld") (sources user_world) (Leaf "-lm").
Proof. split; [reflexivity|]. split; [now apply first_value_spec|]. split; [reflexivity|now apply first_value_spec]. Qed.

(** ** what the commands do not do *)
(** `config set` followed by any other command: the next program does not know the value. *)
Theorem C77_set_is_kept_refuted :
  ~ forall w k v w1 o1 w2 o2, run w (Set_ k v) = Ok (o1, w1) -> run w1 (Get (Some k)) = Ok (o2, w2) -> o2 = Some (Node [(k, Leaf v)]).
Proof. intro H. specialize (H user_world "flags.ld" "-lz" _ _ _ _ eq_refl eq_refl). discriminate. Qed.
Print Assumptions C77_set_is_kept_refuted.
(** `config set`, `config save` and `config get` as three commands: the file has the old value. *)
Theorem C77_set_then_save_refuted :
  ~ forall w k v w1 o1 w2 o2 w3 o3, run w (Set_ k v) = Ok (o1, w1) -> run w1 Save = Ok (o2, w2) -> run w2 (Get (Some k)) = Ok (o3, w3) -> o3 = Some (Node [(k, Leaf v)]).
Proof. intro H. specialize (H user_world "flags.ld" "-lz" _ _ _ _ _ _ eq_refl eq_refl eq_refl). discriminate. Qed.
Print Assumptions C77_set_then_save_refuted.
(** `config unset` deletes a local name: neither the program's settings nor the file change, and
    a value that was there is still there. *)
Theorem C77_unset_refuted :
  ~ forall ss k, first_value (config_unset ss k) (levels k) = Ok None.
Proof. intro H. specialize (H (sources user_world) "flags.nexus"). discriminate. Qed.
Print Assumptions C77_unset_refuted.
(** `config list` with a regular expression prints all keys: the expression is not looked at
    (`matches` is any meaning of expressions that tells two keys from each other). *)
Theorem C77_list_selects_refuted :
  forall matches : string -> string -> bool, (exists r, matches r "flags" = false) ->
    ~ forall ss r t k, config_list ss (Some r) = Ok t -> In k (top_keys t) -> matches r k = true.
Proof.
  intros m [r M] H. assert (X : exists t, config_list (sources user_world) (Some r) = Ok t /\ In "flags" (top_keys t)).
  { eexists. split; [reflexivity|]. vm_compute. auto. }
  destruct X as (t & A & B). specialize (H _ _ _ _ A B). congruence.
Qed.
Print Assumptions C77_list_selects_refuted.
(** `config list` and `config get flags` print the table of the first source that has the key: a
    setting that is in effect below a table of the user's file, but comes from the defaults, is not
    shown. *)
Theorem C77_list_shows_all_refuted :
  ~ forall ss t p v, config_list ss None = Ok t -> in_effect p ss (Leaf v) -> p <> [] -> descend t p = Value (Leaf v).
Proof.
  intro H. assert (E : in_effect ["flags"; "cc"] (sources user_world) (Leaf "-O2")) by (apply first_value_spec; reflexivity).
  specialize (H (sources user_world) _ _ _ eq_refl E ltac:(discriminate)). discriminate.
Qed.
Print Assumptions C77_list_shows_all_refuted.
(** `config get` without a key is said to give the full configuration; it prints the first source
    only. *)
Theorem C77_get_full_refuted :
  ~ forall ss t k v, config_get ss None = Ok (Some t) -> in_effect [k] ss v -> descend t [k] = Value v.
Proof.
  intro H. assert (E : in_effect ["flags"] (sources user_world) (Node [("ld", Leaf "-lm"); ("nexus", Leaf "-lNeXus")])) by (apply first_value_spec; reflexivity).
  specialize (H (sources user_world) _ _ _ eq_refl E). discriminate.
Qed.
Print Assumptions C77_get_full_refuted.
(** A save while a variable of the environment sets one entry of a table writes only that entry for
    the whole table: the user's other entries of the table are gone from the file. *)
Theorem C77_save_keeps_refuted :
  ~ forall w w' p, Forall is_table (sources w) -> config_save w (sources w) = Ok w' -> first_value (sources w') p = first_value (sources w) p.
Proof.
  intro H. set (w := mkW [Node [("flags", Node [("ld", Leaf "-lz")])]] (w_file user_world) (w_defaults user_world)).
  assert (T : Forall is_table (sources w)) by repeat constructor.
  specialize (H w _ ["flags"; "nexus"] T eq_refl). discriminate.
Qed.
Print Assumptions C77_save_keeps_refuted.
(* Every key of the top is listed exactly once, with the value in effect for it. *)
Theorem C77_list_top_keys :
  forall ss, Forall is_table ss -> exists l, config_list ss None = Ok (Node l) /\ NoDup (map fst l) /\
    forall k v, In (k, v) l <-> in_effect [k] ss v.
Proof.
  intros ss T. assert (G : forall ks, (forall k, In k ks -> In k (all_keys ss)) -> exists l, gather ss ks = Ok l /\ map fst l = ks /\ forall k v, In (k, v) l -> in_effect [k] ss v).
  { induction ks as [|a ks IH]; intro I; cbn [gather]; [exists []; split; [|split]; auto; intros k v []|].
    assert (V : exists v, first_value ss [a] = Ok (Some v)).
    { assert (A : In a (all_keys ss)) by (apply I; now left). clear -A T. unfold all_keys in A. apply (proj1 (once_in _ _)) in A.
      induction T as [|s ss TS _ IH]; [destruct A|]. cbn [flat_map] in A. cbn [first_value]. destruct s as [x|l]; [destruct TS|]. cbn [descend].
      destruct (child a l) as [t|] eqn:C; [cbn; eauto|]. apply in_app_or in A as [A|A]; [|auto]. cbn in A. apply child_in in A as [t X]. congruence. }
    destruct V as [v V]. rewrite V. cbn [rbind]. destruct IH as (l & L1 & L2 & L3); [intros; apply I; now right|]. rewrite L1. cbn [rbind].
    exists ((a, v) :: l). cbn. split; [reflexivity|]. split; [now rewrite L2|]. intros k u [[= <- <-]|X]; [now apply first_value_spec|auto]. }
  destruct (G (all_keys ss)) as (l & L1 & L2 & L3); [auto|]. exists l. unfold config_list. rewrite L1. split; [reflexivity|].
  split; [rewrite L2; apply once_nodup|]. intros k v. split; [apply L3|]. intro E.
  assert (K : In k (map fst l)) by (rewrite L2; eapply key_in_all, first_value_spec, E).
  apply in_map_iff in K as ([k' u] & K1 & K2). cbn in K1. subst k'. pose proof (L3 _ _ K2) as X. apply first_value_spec in X. apply first_value_spec in E. congruence.
Qed.
Print Assumptions C77_list_top_keys.
Example C77_list_top_keys_example :
  Forall is_table (sources user_world) /\
  config_list (sources user_world) None = Ok (Node [("cc", Leaf "clang"); ("flags", Node [("ld", Leaf "-lm"); ("nexus", Leaf "-lNeXus")])]).
Proof. split; [repeat constructor|vm_compute; reflexivity]. Qed.

(** ** the cache *)
Definition plain (s : string) : Prop := s <> "" /\ has_char "/" s = false /\ s <> "." /\ s <> "..".
Lemma plain_parts s : plain s -> Registry.parts s = [s].
Proof.
  intros (N & S & D & _). unfold Registry.parts. rewrite (split_char_none _ _ S). cbn. apply String.eqb_neq in N, D. now rewrite N, D.
Qed.
Lemma plain_join p s : plain s -> joinpath p s = p ++ [s].
Proof.
  intro P. unfold joinpath. rewrite (plain_parts s P). destruct (startswith "/" s) eqn:E; auto. exfalso.
  apply startswith_spec in E as [t ->]. destruct P as (_ & S & _). cbn in S. discriminate.
Qed.
Lemma real_plain p : forall q, Forall (fun x => x <> "..") p -> real q p = q ++ p.
Proof.
  induction p as [|x p IH]; intros q F; cbn; [now rewrite app_nil_r|]. inversion F as [|? ? X Y]; subst. apply String.eqb_neq in X. rewrite X, IH by assumption.
  now rewrite <- app_assoc.
Qed.
Lemma is_under_spec d x : is_under d x = true <-> exists rest, x = d ++ rest.
Proof.
  revert x. induction d as [|a d IH]; intro x; cbn; [split; eauto|]. destruct x as [|b x]; [split; [discriminate|intros [r [=]]]|].
  rewrite andb_true_iff, String.eqb_eq, IH. split; [intros [-> [r ->]]; eauto|intros [r [= -> ->]]; eauto].
Qed.
(** the directory that is named: the cache, a part of it, a version of that part *)
Definition named (cache : path) (name version : option string) : path :=
  cache ++ match name with Some n => [n] | None => [] end ++ match version with Some v => [v] | None => [] end.
Definition given_plain (s : option string) : Prop := match s with Some n => plain n | None => True end.
Lemma named_spec cache name version : Forall (fun x => x <> "..") cache -> given_plain name -> given_plain version ->
  real [] (join_opt (join_opt cache name) version) = named cache name version.
Proof.
  intros C A B. assert (J : join_opt (join_opt cache name) version = named cache name version).
  { unfold named. destruct name as [n|], version as [v|]; cbn [join_opt given_plain] in *; rewrite ?plain_join by assumption; cbn; rewrite ?app_nil_r, <- ?app_assoc; reflexivity. }
  rewrite J, real_plain; [reflexivity|]. unfold named. repeat (apply Forall_app; split); auto.
  - destruct name; constructor; [apply A|constructor].
  - destruct version; constructor; [apply B|constructor].
Qed.
(* Where name and version are plain names, the files left are exactly those that are not in
   the named directory. *)
Theorem C77_remove_exactly :
  forall fs cache name version answer fs', Forall (fun x => x <> "..") cache -> given_plain name -> given_plain version ->
    cache_remove fs cache name version true answer = Ok fs' ->
    (exists x rest, In x fs /\ x = named cache name version ++ rest) /\
    forall x, In x fs' <-> In x fs /\ ~ exists rest, x = named cache name version ++ rest.
Proof.
  intros fs cache name version answer fs' C A B H. unfold cache_remove in H. cbn [orb] in H. rewrite (named_spec _ _ _ C A B) in H.
  unfold rmtree in H. destruct (existsb _ fs) eqn:E; [|discriminate]. injection H as <-. split.
  - apply existsb_exists in E as (x & I & U). apply is_under_spec in U as [r ->]. eauto.
  - intro x. rewrite filter_In, negb_true_iff. split; intros [I N]; split; auto.
    + intro U. apply is_under_spec in U. congruence.
    + apply not_true_iff_false. intro U. apply N. now apply is_under_spec.
Qed.
Print Assumptions C77_remove_exactly.
Definition a_cache : list path :=
  [["home"; "u"; "thesis.tex"]; ["home"; "u"; ".cache"; "mccode_antlr"; "mcstas"; "v3.4"; "Arm.comp"];
   ["home"; "u"; ".cache"; "mccode_antlr"; "mcstas"; "v3.5"; "Arm.comp"]; ["home"; "u"; ".cache"; "mccode_antlr"; "mcxtrace"; "v3.5"; "Arm.comp"]].
Definition cache_dir : path := ["home"; "u"; ".cache"; "mccode_antlr"].
Example C77_remove_exactly_example :
  Forall (fun x => x <> "..") cache_dir /\ given_plain (Some "mcstas") /\ given_plain (Some "v3.4") /\
  cache_remove a_cache cache_dir (Some "mcstas") (Some "v3.4") true "" =
    Ok [["home"; "u"; "thesis.tex"]; ["home"; "u"; ".cache"; "mccode_antlr"; "mcstas"; "v3.5"; "Arm.comp"]; ["home"; "u"; ".cache"; "mccode_antlr"; "mcxtrace"; "v3.5"; "Arm.comp"]].
Proof. split; [repeat constructor; discriminate|]. split; [|split]; [repeat split; discriminate..|vm_compute; reflexivity]. Qed.

(** the answers that mean yes *)
Definition yes_answers : list string := ["y"; "Y"; "yes"; "yeS"; "yEs"; "yES"; "Yes"; "YeS"; "YEs"; "YES"].
Lemma lower_y c : lower_ascii c = "y"%char <-> c = "y"%char \/ c = "Y"%char.
Proof. destruct c as [[] [] [] [] [] [] [] []]; vm_compute; split; intuition (try discriminate). Qed.
Lemma lower_e c : lower_ascii c = "e"%char <-> c = "e"%char \/ c = "E"%char.
Proof. destruct c as [[] [] [] [] [] [] [] []]; vm_compute; split; intuition (try discriminate). Qed.
Lemma lower_s c : lower_ascii c = "s"%char <-> c = "s"%char \/ c = "S"%char.
Proof. destruct c as [[] [] [] [] [] [] [] []]; vm_compute; split; intuition (try discriminate). Qed.
Lemma yes_spec a : yes a = true <-> In a yes_answers.
Proof.
  unfold yes. rewrite orb_true_iff, !String.eqb_eq. split.
  - intros [H|H].
    + destruct a as [|c1 [|c2 [|c3 [|c4 a]]]]; try discriminate. cbn in H. injection H as A B C. apply lower_y in A. apply lower_e in B. apply lower_s in C.
      destruct A, B, C; subst; vm_compute; tauto.
    + destruct a as [|c1 [|c2 a]]; try discriminate. cbn in H. injection H as A. apply lower_y in A. destruct A; subst; vm_compute; tauto.
  - intro H. cbn in H. repeat (destruct H as [<-|H]; [vm_compute; auto|]). destruct H.
Qed.
(* Without force, one of the ten ways to say yes is the same as force, and any other answer
   leaves all files. *)
Theorem C77_remove_asks :
  forall fs cache name version answer,
    (In answer yes_answers -> cache_remove fs cache name version false answer = cache_remove fs cache name version true "") /\
    (~ In answer yes_answers -> cache_remove fs cache name version false answer = Ok fs).
Proof.
  intros fs cache name version answer. unfold cache_remove. cbn [orb]. split; intro H.
  - apply yes_spec in H. now rewrite H.
  - destruct (yes answer) eqn:E; [|reflexivity]. exfalso. now apply H, yes_spec.
Qed.
Print Assumptions C77_remove_asks.
Example C77_remove_asks_example :
  cache_remove a_cache cache_dir None None false "Yes" = Ok [["home"; "u"; "thesis.tex"]] /\ cache_remove a_cache cache_dir None None false "yes " = Ok a_cache.
Proof. split; vm_compute; reflexivity. Qed.
(** A name that is an absolute path, or goes up, or is empty, is joined as it is: files outside of
    the cache are removed, or the whole cache. *)
Theorem C77_remove_inside_refuted :
  ~ forall fs cache name version fs' x, Forall (fun x => x <> "..") cache -> cache_remove fs cache (Some name) version true "" = Ok fs' ->
      In x fs -> ~ In x fs' -> exists rest, x = cache ++ rest.
Proof.
  intro H. assert (C : Forall (fun x => x <> "..") cache_dir) by (repeat constructor; discriminate).
  destruct (H a_cache cache_dir "../../../u" None _ ["home"; "u"; "thesis.tex"] C eq_refl) as [r R]; [now left|intros []|discriminate].
Qed.
Print Assumptions C77_remove_inside_refuted.
(** An empty name, as of an unset shell variable, removes every cache though one was to be named. *)
Theorem C77_remove_empty_name_refuted :
  ~ forall fs cache name fs' x, Forall (fun x => x <> "..") cache -> cache_remove fs cache (Some name) None true "" = Ok fs' ->
      In x fs -> ~ In x fs' -> exists rest, x = cache ++ [name] ++ rest.
Proof.
  intro H. assert (C : Forall (fun x => x <> "..") cache_dir) by (repeat constructor; discriminate).
  destruct (H a_cache cache_dir "" _ ["home"; "u"; ".cache"; "mccode_antlr"; "mcxtrace"; "v3.5"; "Arm.comp"] C eq_refl) as [r R].
  - cbn. tauto.
  - vm_compute. intuition discriminate.
  - discriminate.
Qed.
Print Assumptions C77_remove_empty_name_refuted.

(** ** list of the caches *)
Lemma insert_perm x l : Permutation (insert_name x l) (x :: l).
Proof. induction l as [|y l IH]; cbn; auto. destruct (String.leb x y); auto. rewrite IH. apply perm_swap. Qed.
Lemma sorted_perm l : Permutation (sorted_names l) l.
Proof. induction l as [|x l IH]; cbn; auto. rewrite insert_perm. now constructor. Qed.
Lemma leb_total x y : String.leb x y = false -> String.leb y x = true.
Proof. intro H. destruct (String.leb_total x y) as [E|E]; congruence. Qed.
Lemma insert_sorted x l : LocallySorted (fun a b => String.leb a b = true) l -> LocallySorted (fun a b => String.leb a b = true) (insert_name x l).
Proof.
  induction 1 as [|y|y z l S IH L]; cbn [insert_name].
  - constructor.
  - destruct (String.leb x y) eqn:E; repeat constructor; auto. now apply leb_total.
  - destruct (String.leb x y) eqn:E; [repeat constructor; auto|]. cbn [insert_name] in IH. destruct (String.leb x z) eqn:F; constructor; auto. now apply leb_total.
Qed.
Lemma sorted_sorted l : LocallySorted (fun a b => String.leb a b = true) (sorted_names l).
Proof. induction l as [|x l IH]; cbn; [constructor|]. now apply insert_sorted. Qed.
Lemma direct_spec d x n : direct d x = Some n <-> x = d ++ [n].
Proof.
  unfold direct. destruct (is_under d x) eqn:U; cbn [andb].
  - apply is_under_spec in U as [r ->]. rewrite app_length. destruct (_ =? _) eqn:L.
    + apply Nat.eqb_eq in L. destruct r as [|a [|b r]]; cbn in L; try lia. rewrite last_last. split; [now intros [= ->]|]. intro E. apply app_inv_head in E. congruence.
    + apply Nat.eqb_neq in L. split; [discriminate|]. intro E. apply app_inv_head in E. subst r. cbn in L. lia.
  - split; [discriminate|]. intros ->. enough (is_under d (d ++ [n]) = true) by congruence. apply is_under_spec. eauto.
Qed.
(* The list names every directory directly in the cache, or in the named part of it, exactly
   once, and is ordered by name. *)
Theorem C77_cache_list :
  forall dirs cache name l, Forall (fun x => x <> "..") cache -> given_plain name -> NoDup dirs -> cache_list dirs cache name = Ok l ->
    LocallySorted (fun a b => String.leb a b = true) l /\ NoDup l /\ forall n, In n l <-> In (named cache name None ++ [n]) dirs.
Proof.
  intros dirs cache name l C A N H. unfold cache_list in H. pose proof (named_spec cache name None C A I) as X. cbn [join_opt] in X. rewrite X in H. clear X.
  set (d := named cache name None) in *. destruct (existsb _ dirs); [|discriminate]. injection H as <-. split; [apply sorted_sorted|].
  assert (M : forall n, In n (flat_map (fun x => match direct d x with Some n => [n] | None => [] end) dirs) <-> In (d ++ [n]) dirs).
  { intro n. rewrite in_flat_map. split.
    - intros (x & I & J). destruct (direct d x) as [m|] eqn:E; [|destruct J]. destruct J as [->|[]]. apply direct_spec in E. now subst x.
    - intro I. exists (d ++ [n]). split; auto. rewrite (proj2 (direct_spec d (d ++ [n]) n) eq_refl). now left. }
  split.
  - eapply Permutation_NoDup; [symmetry; apply sorted_perm|]. clear -N. induction N as [|x dirs I N IH]; cbn; [constructor|].
    destruct (direct d x) as [m|] eqn:E; auto. cbn. constructor; auto. rewrite in_flat_map. intros (y & J & K). destruct (direct d y) as [m'|] eqn:F; [|destruct K].
    destruct K as [->|[]]. apply direct_spec in E, F. congruence.
  - intro n. rewrite <- M. split; apply Permutation_in; [apply sorted_perm|symmetry; apply sorted_perm].
Qed.
Print Assumptions C77_cache_list.
Definition cache_dirs : list path :=
  [cache_dir; cache_dir ++ ["mcxtrace"]; cache_dir ++ ["mcstas"]; cache_dir ++ ["mcstas"; "v3.5"]; cache_dir ++ ["mcstas"; "v3.4"]; cache_dir ++ ["libc"]].
Example C77_cache_list_example :
  cache_list cache_dirs cache_dir None = Ok ["libc"; "mcstas"; "mcxtrace"] /\ cache_list cache_dirs cache_dir (Some "mcstas") = Ok ["v3.4"; "v3.5"] /\
  cache_list cache_dirs cache_dir (Some "mccode") = Raise.
Proof. repeat split; vm_compute; reflexivity. Qed.
