(** C48: component definitions have unambiguous parameters. *)
From Coq Require Import List String Bool Arith Lia.
From Verif Require Import PyStr CompDef.
Import ListNotations.
Local Open Scope string_scope.
Local Open Scope list_scope.
Local Open Scope nat_scope.

Definition names (l : list param) : list string := map p_name l.

(** after any history of additions no name is used twice among DEFINITION and SETTING parameters, nor among OUTPUT parameters *)
Theorem C48_names_are_distinct_partial : forall n ops,
  let c := history ops (new_comp n) in NoDup (names (c_define c ++ c_setting c)) /\ NoDup (names (c_output c)).
Proof.
  intros n ops. cbv zeta. change (clear (history ops (new_comp n))). assert (C : clear (new_comp n)) by (split; constructor). revert C. generalize (new_comp n).
  induction ops as [|o ops IH]; cbn; intros c C; auto. apply IH. destruct (apply o c) as [c'|] eqn:E; auto. now apply (apply_clear o c c').
Qed.
Print Assumptions C48_names_are_distinct_partial.

(** an addition is refused exactly when the name is taken, else it appends the parameter and changes nothing else *)
Theorem C48_effect_of_an_addition : forall c a,
  (In (p_name a) (names (c_define c ++ c_setting c ++ c_output c)) -> add_define a c = None /\ add_setting a c = None) /\
  (~ In (p_name a) (names (c_define c ++ c_setting c ++ c_output c)) ->
     add_define a c = Some (mkComp (c_name c) (c_acc c) (c_define c ++ [a]) (c_setting c) (c_output c) (c_share c) (c_user c) (c_declare c) (c_initialize c) (c_trace c) (c_save c) (c_final c) (c_display c)) /\
     add_setting a c = Some (mkComp (c_name c) (c_acc c) (c_define c) (c_setting c ++ [a]) (c_output c) (c_share c) (c_user c) (c_declare c) (c_initialize c) (c_trace c) (c_save c) (c_final c) (c_display c))) /\
  (In (p_name a) (names (c_output c)) -> add_output a c = None) /\
  (~ In (p_name a) (names (c_output c)) ->
     add_output a c = Some (mkComp (c_name c) (c_acc c) (c_define c) (c_setting c) (c_output c ++ [a]) (c_share c) (c_user c) (c_declare c) (c_initialize c) (c_trace c) (c_save c) (c_final c) (c_display c))).
Proof.
  intros c a. assert (U : name_used c (p_name a) = true <-> In (p_name a) (names (c_define c ++ c_setting c ++ c_output c))).
  { unfold name_used, names. rewrite !orb_true_iff, !present_in, !map_app, !in_app_iff. tauto. }
  unfold add_define, add_setting, add_output. repeat split.
  - now rewrite (proj2 U H).
  - now rewrite (proj2 U H).
  - rewrite <- U, not_true_iff_false in H. now rewrite H.
  - rewrite <- U, not_true_iff_false in H. now rewrite H.
  - intro I. apply present_in in I. now rewrite I.
  - intro I. apply present_not in I. now rewrite I.
Qed.
Print Assumptions C48_effect_of_an_addition.

(** get_parameter finds the parameter of that name, and only if there is one *)
Theorem C48_parameter_by_name : forall n ops, let c := history ops (new_comp n) in
  (forall p, In p (c_define c ++ c_setting c) -> get_parameter c (p_name p) = Some p /\ has_parameter c (p_name p) = true) /\
  (forall m, ~ In m (names (c_define c ++ c_setting c)) -> get_parameter c m = None /\ has_parameter c m = false).
Proof.
  intros n ops c. destruct (C48_names_are_distinct_partial n ops) as [N _]. fold c in N.
  assert (F : forall l p, NoDup (map p_name l) -> In p l -> nth_error (filter (fun x => p_name x =?s p_name p) l) 0 = Some p).
  { clear. induction l as [|x l IH]; cbn; intros p N I; [tauto|]. inversion_clear N. destruct I as [->|I]; [now rewrite String.eqb_refl|].
    destruct (p_name x =?s p_name p) eqn:E; [|now apply IH]. apply String.eqb_eq in E. destruct H. rewrite E. now apply in_map. }
  split.
  - intros p I. unfold names in N. rewrite map_app in N.
    assert (ND : NoDup (map p_name (c_define c))). { clear - N. induction (map p_name (c_define c)) as [|x l IH]; cbn in *; [constructor|]. inversion_clear N. constructor; [intro I; apply H; apply in_or_app; auto | auto]. }
    assert (NS : NoDup (map p_name (c_setting c))). { clear - N. induction (map p_name (c_define c)) as [|x l IH]; cbn in *; auto. inversion_clear N. auto. }
    unfold get_parameter, has_parameter. apply in_app_or in I as [I|I].
    + assert (P : present (c_define c) (p_name p) = true) by (apply present_in; now apply in_map). rewrite P. split; auto.
    + assert (P : present (c_setting c) (p_name p) = true) by (apply present_in; now apply in_map).
      assert (Q : present (c_define c) (p_name p) = false).
      { apply present_not. intro J. clear - N I J. induction (map p_name (c_define c)) as [|x l IH]; [destruct J|]. cbn in N. inversion_clear N. destruct J as [->|J]; [|auto]. apply H. apply in_or_app. right. now apply in_map. }
      rewrite P, Q. split; auto.
  - intros m I. unfold names in I. rewrite map_app, in_app_iff in I.
    assert (P : present (c_define c) m = false) by (apply present_not; tauto). assert (Q : present (c_setting c) m = false) by (apply present_not; tauto).
    unfold get_parameter, has_parameter. now rewrite P, Q.
Qed.
Print Assumptions C48_parameter_by_name.

Example C48_history_nonvacuous :
  let ops := [OSetting (mkP "xw" "1"); ODefine (mkP "xw" "2"); OOutput (mkP "xw" ""); ODefine (mkP "n" "3"); OSetting (mkP "yh" "1"); OOutput (mkP "xw" "")] in
  let c := history ops (new_comp "Slit") in
  c_define c = [mkP "n" "3"] /\ c_setting c = [mkP "xw" "1"; mkP "yh" "1"] /\ c_output c = [mkP "xw" ""] /\ get_parameter c "yh" = Some (mkP "yh" "1") /\ get_parameter c "zz" = None.
Proof. repeat split. Qed.

(** ** What is wrong with OUTPUT: a name may be used again there, though not in the other order *)
Theorem C48_output_repeats_setting_refuted : forall n a b, p_name a = p_name b ->
  (exists c, history [OSetting a; OOutput b] (new_comp n) = c /\ c_setting c = [a] /\ c_output c = [b]) /\
  (exists c, history [OOutput b; OSetting a] (new_comp n) = c /\ c_setting c = [] /\ c_output c = [b]).
Proof.
  intros n a b E. split; (eexists; split; [reflexivity|]).
  - cbn. auto.
  - cbn [history apply]. change (add_output b (new_comp n)) with (Some (set_output [b] (new_comp n))). cbv iota. unfold add_setting.
    replace (name_used (set_output [b] (new_comp n)) (p_name a)) with true; [auto|]. unfold name_used. cbn. rewrite E, String.eqb_refl. reflexivity.
Qed.
Print Assumptions C48_output_repeats_setting_refuted.

(** ** Reading definitions *)
Lemma bind_some {A B} (o : option A) (f : A -> option B) b : bind o f = Some b -> exists a, o = Some a /\ f a = Some b.
Proof. destruct o; cbn; [eauto|discriminate]. Qed.
Lemma read_definition_inv find d c : read_definition find d = Some c -> exists s, start find d = Some s /\
  c_name c = f_name d /\ c_acc c = c_acc s && negb (f_noacc d) /\
  c_define c = c_define s ++ f_define d /\ c_setting c = c_setting s ++ f_setting d /\ c_output c = c_output s ++ f_output d /\
  (clear s -> clear c) /\
  read_share find (f_share d) (c_share s) = Some (c_share c) /\ c_user c = c_user s ++ match f_user d with Some t => [t] | None => [] end /\
  read_section find (f_declare d) c_declare (c_declare s) = Some (c_declare c) /\ read_section find (f_initialize d) c_initialize (c_initialize s) = Some (c_initialize c) /\
  read_section find (f_trace d) c_trace (c_trace s) = Some (c_trace c) /\ read_section find (f_save d) c_save (c_save s) = Some (c_save c) /\
  read_section find (f_final d) c_final (c_final s) = Some (c_final c) /\ read_section find (f_display d) c_display (c_display s) = Some (c_display c).
Proof.
  unfold read_definition. intro E. apply bind_some in E as (s & S & E). apply bind_some in E as (c1 & E1 & E). apply bind_some in E as (c2 & E2 & E). apply bind_some in E as (c3 & E3 & E).
  apply bind_some in E as (b1 & B1 & E). apply bind_some in E as (b2 & B2 & E). apply bind_some in E as (b3 & B3 & E). apply bind_some in E as (b4 & B4 & E).
  apply bind_some in E as (b5 & B5 & E). apply bind_some in E as (b6 & B6 & E). apply bind_some in E as (b7 & B7 & E). injection E as <-.
  assert (K1 := E1). assert (K2 := E2). assert (K3 := E3). apply add_all_define in E1. apply add_all_setting in E2. apply add_all_output in E3. exists s. split; [exact S|]. subst c1 c2 c3. cbn [c_name c_acc c_define c_setting c_output c_share c_user c_declare c_initialize c_trace c_save c_final c_display set_define set_setting set_output] in *.
  assert (Nm : c_name s = f_name d). { unfold start in S. destruct (f_copy d); [destruct (find _); [|discriminate]|]; injection S as <-; reflexivity. }
  do 5 (split; [first [assumption | reflexivity]|]).
  split; [|repeat (split; [first [assumption | reflexivity]|]); assumption].
  intro C. assert (C1 : clear (set_define (c_define s ++ f_define d) s)).
  { refine (add_all_clear _ _ _ _ _ K1 C). intros a c c' H H0. exact (apply_clear (ODefine a) c c' H0 H). }
  assert (C2 := add_all_clear _ (fun a c c' H H0 => apply_clear (OSetting a) c c' H0 H) _ _ _ K2 C1).
  assert (C3 := add_all_clear _ (fun a c c' H H0 => apply_clear (OOutput a) c c' H0 H) _ _ _ K3 C2).
  destruct C3 as [X Y]. split; [exact X | exact Y].
Qed.

(** a copied definition has the parameters of the original followed by those added, and they are unambiguous *)
Theorem C48_copy_keeps_and_adds_parameters : forall find d o s c,
  f_copy d = Some o -> find o = Some s -> read_definition find d = Some c ->
  c_define c = c_define s ++ f_define d /\ c_setting c = c_setting s ++ f_setting d /\ c_output c = c_output s ++ f_output d /\
  c_name c = f_name d /\ (c_acc c = true <-> c_acc s = true /\ f_noacc d = false).
Proof.
  intros find d o s c F S R. apply read_definition_inv in R as (s' & S' & N & A & D & T & U & _). unfold start in S'. rewrite F, S in S'. injection S' as <-. cbn in *.
  repeat (split; [assumption|]). rewrite A, andb_true_iff, negb_true_iff. tauto.
Qed.
Print Assumptions C48_copy_keeps_and_adds_parameters.

(** no definition that can be read has ambiguous parameters, if those it copies have none *)
Theorem C48_definitions_are_unambiguous : forall find d c,
  (forall n s, find n = Some s -> NoDup (names (c_define s ++ c_setting s)) /\ NoDup (names (c_output s))) ->
  read_definition find d = Some c -> NoDup (names (c_define c ++ c_setting c)) /\ NoDup (names (c_output c)).
Proof.
  intros find d c H R. apply read_definition_inv in R as (s & S & _ & _ & _ & _ & _ & C & _). apply C. unfold start in S.
  destruct (f_copy d) as [o|]; [destruct (find o) as [s'|] eqn:F; [|discriminate]|]; injection S as <-; [exact (H o s' F)|split; constructor].
Qed.
Print Assumptions C48_definitions_are_unambiguous.

(** a copy cannot give a parameter of the original another default: every such definition is refused *)
Theorem C48_redefining_a_copied_parameter_is_refused : forall find d o s a,
  f_copy d = Some o -> find o = Some s -> In a (f_define d ++ f_setting d) -> In (p_name a) (names (c_define s ++ c_setting s ++ c_output s)) -> read_definition find d = None.
Proof.
  intros find d o s a F S I U. destruct (read_definition find d) as [c|] eqn:R; [|reflexivity]. exfalso.
  unfold read_definition in R. apply bind_some in R as (s' & S' & R). unfold start in S'. rewrite F, S in S'. injection S' as <-.
  apply bind_some in R as (c1 & R1 & R). apply bind_some in R as (c2 & R2 & _).
  assert (G : forall mk (P : comp -> Prop), (forall x c c', mk x c = Some c' -> P c -> P c' /\ (x = a -> False)) -> forall l c c', P c -> add_all mk l c = Some c' -> P c' /\ ~ In a l).
  { clear. intros mk P H. induction l as [|x l IH]; cbn; intros c c' Pc E; [injection E as <-; auto|]. destruct (mk x c) as [c1|] eqn:M; [|discriminate].
    destruct (H x c c1 M Pc) as [P1 N]. destruct (IH c1 c' P1 E) as [P2 N2]. split; auto. intros [X|X]; auto. }
  set (P := fun c => In (p_name a) (names (c_define c ++ c_setting c ++ c_output c))).
  assert (HD : forall x c c', add_define x c = Some c' -> P c -> P c' /\ (x = a -> False)).
  { clear c R1 c1 c2 R2. intros x c c' E Pc. split.
    - unfold add_define in E. destruct name_used; [discriminate|]. injection E as <-. unfold P, names in *. cbn. rewrite !map_app, !in_app_iff in *. cbn. tauto.
    - intros ->. rewrite (proj1 (proj1 (C48_effect_of_an_addition c a) Pc)) in E. discriminate. }
  assert (HS : forall x c c', add_setting x c = Some c' -> P c -> P c' /\ (x = a -> False)).
  { clear c R1 c1 c2 R2. intros x c c' E Pc. split.
    - unfold add_setting in E. destruct name_used; [discriminate|]. injection E as <-. unfold P, names in *. cbn. rewrite !map_app, !in_app_iff in *. cbn. tauto.
    - intros ->. rewrite (proj2 (proj1 (C48_effect_of_an_addition c a) Pc)) in E. discriminate. }
  match type of R1 with add_all _ _ ?k = _ => assert (U' : P k) by exact U end. destruct (G add_define P HD _ _ _ U' R1) as [P1 N1]. destruct (G add_setting P HS _ _ _ P1 R2) as [_ N2].
  apply in_app_or in I as [I|I]; auto.
Qed.
Print Assumptions C48_redefining_a_copied_parameter_is_refused.

(** sections: one that is not mentioned is that of the original; one copied from a component is that of the component, whatever was
    there before, followed by the EXTEND block; in a definition that is no copy the section is what is written *)
Theorem C48_sections_partial : forall find d c, read_definition find d = Some c -> forall f get,
  In (f, get) [(f_declare, c_declare); (f_initialize, c_initialize); (f_trace, c_trace); (f_save, c_save); (f_final, c_final); (f_display, c_display)] ->
  match f d with
  | None => match f_copy d with None => get c = [] | Some o => exists s, find o = Some s /\ get c = get s end
  | Some (CopyBlock from e) => exists s, find from = Some s /\ get c = get s ++ match e with Some t => [t] | None => [] end
  | Some (Block t) => f_copy d = None -> get c = [t]
  end.
Proof.
  intros find d c R f get I. apply read_definition_inv in R as (s & S & _ & _ & _ & _ & _ & _ & _ & _ & D1 & D2 & D3 & D4 & D5 & D6).
  assert (X : read_section find (f d) get (get s) = Some (get c)).
  { cbn in I. destruct I as [I|[I|[I|[I|[I|[I|[]]]]]]]; injection I as <- <-; assumption. }
  assert (G : match f_copy d with None => get s = [] | Some o => exists s', find o = Some s' /\ get s = get s' end).
  { unfold start in S. destruct (f_copy d) as [o|]; [destruct (find o) as [s'|] eqn:F; [|discriminate]; injection S as <-; exists s'; split; [reflexivity|]|injection S as <-];
      cbn in I; destruct I as [I|[I|[I|[I|[I|[I|[]]]]]]]; injection I as <- <-; reflexivity. }
  destruct (f d) as [[t|from e]|]; cbn in X.
  - intros E. rewrite E in G. rewrite G in X. now injection X as <-.
  - destruct (find from) as [s'|] eqn:F; [|discriminate]. injection X as <-. eauto.
  - injection X as X. rewrite <- X. exact G.
Qed.
Print Assumptions C48_sections_partial.

(** a section given in a copied definition does not replace that of the original, it is executed after it *)
Theorem C48_section_of_a_copy_is_appended_refuted : forall find d o s c t,
  f_copy d = Some o -> find o = Some s -> f_trace d = Some (Block t) -> read_definition find d = Some c -> c_trace c = c_trace s ++ [t].
Proof.
  intros find d o s c t F S T R. apply read_definition_inv in R as (s' & S' & _ & _ & _ & _ & _ & _ & _ & _ & _ & _ & D3 & _). unfold start in S'. rewrite F, S in S'. injection S' as <-.
  rewrite T in D3. cbn in D3. now injection D3 as <-.
Qed.
Print Assumptions C48_section_of_a_copy_is_appended_refuted.

(** SHARE COPY in a copied definition gives the shared code twice *)
Theorem C48_share_is_doubled_refuted : forall find d o s c,
  f_copy d = Some o -> find o = Some s -> f_share d = Some (CopyBlock o None) -> read_definition find d = Some c -> c_share c = c_share s ++ c_share s.
Proof.
  intros find d o s c F S T R. apply read_definition_inv in R as (s' & S' & _ & _ & _ & _ & _ & _ & D & _). unfold start in S'. rewrite F, S in S'. injection S' as <-.
  rewrite T in D. cbn in D. rewrite S in D. cbn in D. rewrite app_nil_r in D. now injection D as <-.
Qed.
Print Assumptions C48_share_is_doubled_refuted.

Definition slit : comp := mkComp "Slit" true [] [mkP "xwidth" "0"] [] ["#include"] [] ["int n;"] [] ["PROP_Z0;"] [] [] [].
Definition finds (n : string) : option comp := if n =?s "Slit" then Some slit else None.
Definition slit2 : definition := mkDef "Slit2" (Some "Slit") true [] [mkP "yheight" "0"] [mkP "n" ""] (Some (CopyBlock "Slit" None)) None None (Some (Block "n=0;")) (Some (Block "SCATTER;")) None None (Some (CopyBlock "Slit" (Some "box();"))).
Example C48_read_nonvacuous : f_copy slit2 = Some "Slit" /\ finds "Slit" = Some slit /\
  (exists c, read_definition finds slit2 = Some c /\ c_setting c = [mkP "xwidth" "0"; mkP "yheight" "0"] /\ c_trace c = ["PROP_Z0;"; "SCATTER;"] /\ c_share c = ["#include"; "#include"] /\ c_display c = ["box();"] /\ c_acc c = false) /\
  (forall n s, finds n = Some s -> NoDup (names (c_define s ++ c_setting s)) /\ NoDup (names (c_output s))).
Proof.
  repeat split; [eexists; repeat split | |]; unfold finds in H; destruct (n =?s "Slit"); try discriminate; injection H as <-; repeat constructor; cbn; intuition discriminate.
Qed.
