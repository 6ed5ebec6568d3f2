(* Property C71: keywords in dependency strings, and the flags handed to the compiler. *)
From Coq Require Import List String Ascii Bool Arith Lia Permutation.
From Verif Require Import PyStr Flags Target Keywords.
Import ListNotations.
Local Open Scope string_scope.
Local Open Scope list_scope.
Local Open Scope nat_scope.

(* ** Specification: a dependency is text and keywords, one after the other *)
Inductive piece := Txt (t : string) | Key (w : string).
Definition show (p : piece) : string := match p with Txt t => t | Key w => ("@" ++ w ++ "@")%string end.
Fixpoint written (ps : list piece) : string := match ps with [] => "" | p :: r => (show p ++ written r)%string end.
(* what a keyword stands for *)
Definition meaning (cfg : string -> option string) (w : string) : string :=
  if w =?s "MCCODE_LIB" then "." else
  if endswith "flags" (lower w) then match cfg (stem w) with Some v => v | None => ("-l" ++ stem w)%string end
  else ("@" ++ w ++ "@")%string.
Fixpoint meant (cfg : string -> option string) (ps : list piece) : string :=
  match ps with [] => "" | Txt t :: r => (t ++ meant cfg r)%string | Key w :: r => (meaning cfg w ++ meant cfg r)%string end.
(* text between keywords: without the sign of a keyword, and empty or not a name itself *)
Definition has_other (s : string) : bool := existsb (fun c => negb (is_word c)) (list_ascii_of_string s).
Definition between (t : string) : Prop := has_char "@" t = false /\ (t = "" \/ has_other t = true).
Definition name (w : string) : Prop := w <> "" /\ has_other w = false.
Definition piece_ok (p : piece) : Prop := match p with Txt t => between t | Key w => name w end.
(* a configured value: text like that, without backslash *)
Definition value_ok (v : string) : Prop := between v /\ has_char backslash v = false.

(* ** Proofs *)
Lemma has_other_app a b : has_other (a ++ b)%string = has_other a || has_other b.
Proof. unfold has_other. induction a as [|c a IH]; cbn; [reflexivity|]. rewrite IH. apply orb_assoc. Qed.
Lemma between_app a b : between a -> between b -> between (a ++ b)%string.
Proof.
  intros [A1 A2] [B1 B2]. split; [rewrite has_char_app, A1, B1; reflexivity|].
  destruct A2 as [->|A2]; [exact B2|]. right. rewrite has_other_app, A2. reflexivity.
Qed.
Lemma between_nil : between "". Proof. split; auto. Qed.
Lemma name_no_at w : has_other w = false -> has_char "@" w = false.
Proof.
  unfold has_other. induction w as [|c w IH]; cbn; auto. intro H. apply orb_false_iff in H as [H1 H2]. rewrite (IH H2), orb_false_r.
  destruct (Ascii.eqb c "@") eqn:E; auto. apply Ascii.eqb_eq in E. subst. discriminate.
Qed.
Lemma between_not_name t : between t -> name t -> False.
Proof. intros [_ [->|A]] [B C]; congruence. Qed.

(* the text up to the first sign *)
Fixpoint head (ps : list piece) : string := match ps with Txt t :: r => (t ++ head r)%string | _ => "" end.
Fixpoint tail (ps : list piece) : list piece := match ps with Txt t :: r => tail r | _ => ps end.
Lemma head_tail ps : written ps = (head ps ++ written (tail ps))%string.
Proof. induction ps as [|[t|w] r IH]; auto. cbn. rewrite IH. symmetry. apply string_app_assoc. Qed.
Lemma head_between ps : Forall piece_ok ps -> between (head ps).
Proof. induction 1 as [|[t|w] r P H IH]; cbn; auto using between_nil, between_app. Qed.
Lemma tail_at ps : tail ps = [] \/ exists w r, tail ps = Key w :: r.
Proof. induction ps as [|[t|w] r IH]; cbn; eauto. Qed.

Lemma first_sign a b x y : has_char "@" a = false -> has_char "@" b = false -> (a ++ String "@" x)%string = (b ++ String "@" y)%string -> a = b /\ x = y.
Proof.
  revert b. induction a as [|c a IH]; intros [|d b] A B E; cbn in *.
  - now injection E.
  - injection E as <- E. discriminate.
  - injection E as -> E. discriminate.
  - injection E as -> E. apply orb_false_iff in A as [_ A], B as [_ B]. destruct (IH b A B E) as [-> ->]. auto.
Qed.
Lemma no_sign_prefix a x y : has_char "@" x = false -> (a ++ String "@" y)%string = x -> False.
Proof. intros H <-. rewrite has_char_app in H. cbn in H. rewrite orb_true_r in H. discriminate. Qed.

(* a name between signs does not start where text starts, nor at the sign that closes a keyword *)
Lemma starts_key w x rest : name w -> name x -> startswith (at_name w) (at_name x ++ rest)%string = true <-> w = x.
Proof.
  intros [W1 W2] [X1 X2]. rewrite startswith_spec. unfold at_name. split.
  - intros [r E]. cbn in E. injection E as E. rewrite !string_app_assoc in E. cbn in E. apply first_sign in E as [E _]; auto using name_no_at.
  - intros ->. exists rest. reflexivity.
Qed.
Lemma starts_close w ps : name w -> Forall piece_ok ps -> startswith (at_name w) (String "@" (written ps)) = false.
Proof.
  intros W F. destruct (startswith _ _) eqn:E; auto. exfalso. apply startswith_spec in E as [r E]. unfold at_name in E. cbn in E. injection E as E.
  rewrite head_tail, string_app_assoc in E. cbn in E. pose proof (head_between _ F) as [H1 H2]. destruct W as [W1 W2].
  destruct (tail_at ps) as [T|(x & q & T)]; rewrite T in E; cbn in E.
  - rewrite string_app_nil_r in E. symmetry in E. now apply no_sign_prefix in E.
  - apply first_sign in E as [E _]; auto using name_no_at. subst w. apply (between_not_name (head ps)); repeat split; auto.
Qed.
Lemma starts_no_sign w c s : Ascii.eqb c "@" = false -> startswith (at_name w) (String c s) = false.
Proof. intro H. unfold at_name. cbn. destruct c as [[] [] [] [] [] [] [] []]; cbn in *; congruence. Qed.

Definition put (w v : string) (p : piece) : piece := match p with Key x => if x =?s w then Txt v else p | _ => p end.
Lemma replace_text fuel w v : forall t s, has_char "@" t = false -> String.length (t ++ s)%string < fuel ->
  exists fuel', String.length s < fuel' /\ replace_all_fuel fuel (at_name w) v (t ++ s)%string = (t ++ replace_all_fuel fuel' (at_name w) v s)%string.
Proof.
  intro t. revert fuel. induction t as [|c t IH]; intros fuel s H L; [exists fuel; auto|]. cbn in H. apply orb_false_iff in H as [H1 H2].
  destruct fuel as [|fuel]; [cbn in L; lia|]. destruct (IH fuel s H2) as (f & Lf & E); [cbn in L; lia|]. exists f. split; auto.
  change ((String c t ++ s)%string) with (String c (t ++ s)%string). cbn [replace_all_fuel]. rewrite starts_no_sign by auto. rewrite E. reflexivity.
Qed.
Lemma replace_pieces w v : name w -> forall ps fuel, Forall piece_ok ps -> String.length (written ps) < fuel ->
  replace_all_fuel fuel (at_name w) v (written ps) = written (map (put w v) ps).
Proof.
  intro W. induction ps as [|p ps IH]; intros fuel F L; [destruct fuel; reflexivity|]. inversion F as [|? ? P F']; subst. destruct p as [t|x]; cbn [written show map put].
  - cbn [written show] in L. destruct P as [P1 P2]. destruct (replace_text fuel w v t (written ps) P1 L) as (f & Lf & ->). now rewrite IH.
  - cbn [written show] in L. destruct fuel as [|fuel]; [lia|]. pose proof (starts_key w x (written ps) W P) as K.
    change (("@" ++ x ++ "@") ++ written ps)%string with (at_name x ++ written ps)%string in *. 
    destruct (x =?s w) eqn:E.
    + apply String.eqb_eq in E. subst x. unfold at_name at 2. cbn [append replace_all_fuel].
      change (String "@" ((w ++ "@") ++ written ps)%string) with (at_name w ++ written ps)%string.
      rewrite (proj2 K eq_refl), drop_app. cbn [written show]. rewrite IH; auto. unfold at_name in L. rewrite !string_app_length in L. cbn in L. lia.
    + apply String.eqb_neq in E. unfold at_name at 2. cbn [append replace_all_fuel].
      change (String "@" ((x ++ "@") ++ written ps)%string) with (at_name x ++ written ps)%string.
      destruct (startswith _ _) eqn:S'; [exfalso; apply E; symmetry; now apply K|]. rewrite string_app_assoc.
      cbn [written show append]. f_equal. rewrite string_app_assoc. cbn [append].
      destruct (replace_text fuel w v x (String "@" (written ps))) as (f & Lf & ->); [apply name_no_at; now destruct P| |].
      { unfold at_name in L. rewrite ?string_app_length in L. cbn in L. rewrite ?string_app_length in L. rewrite ?string_app_length. cbn in L |- *. lia. }
      f_equal. destruct f as [|f]; [lia|]. cbn [replace_all_fuel]. rewrite starts_close by auto. f_equal. apply IH; auto. cbn in Lf. lia.
Qed.
Lemma template_plain v : has_char backslash v = false -> template v = Some v.
Proof. induction v as [|c v IH]; auto. cbn. intro H. apply orb_false_iff in H as [H1 H2]. now rewrite H1, (IH H2). Qed.
Lemma sub_pieces w v ps : name w -> has_char backslash v = false -> Forall piece_ok ps -> sub (at_name w) v (written ps) = Some (written (map (put w v) ps)).
Proof. intros W V F. unfold sub. rewrite (template_plain _ V). unfold replace_all. now rewrite replace_pieces by auto. Qed.
Lemma put_ok w v ps : between v -> Forall piece_ok ps -> Forall piece_ok (map (put w v) ps).
Proof. intros V F. induction F as [|[t|x] r P H IH]; cbn; constructor; auto. cbn. destruct (x =?s w); auto. Qed.

Fixpoint keys (ps : list piece) : list string := match ps with [] => [] | Txt _ :: r => keys r | Key w :: r => w :: keys r end.
Lemma contains_keys w ps : name w -> contains (at_name w) (written ps) = false -> ~ In w (keys ps).
Proof.
  intros W H I. assert (contains (at_name w) (written ps) = true); [|congruence]. apply contains_spec. clear H. induction ps as [|[t|x] r IH]; [contradiction| |].
  - destruct (IH I) as (l & q & E). exists (t ++ l)%string, q. cbn [written show]. rewrite E. symmetry. apply string_app_assoc.
  - destruct I as [->|I]; [exists "", (written r); reflexivity|]. destruct (IH I) as (l & q & E). exists (at_name x ++ l)%string, q. cbn [written show]. rewrite E. symmetry. apply string_app_assoc.
Qed.
Lemma put_absent w v ps : ~ In w (keys ps) -> map (put w v) ps = ps.
Proof. induction ps as [|[t|x] r IH]; intro H; cbn in *; auto; [now rewrite IH|]. destruct (x =?s w) eqn:E; [apply String.eqb_eq in E; tauto|]. rewrite IH; tauto. Qed.

Lemma findall_text fuel : forall t s, has_char "@" t = false -> String.length (t ++ s)%string < fuel ->
  exists fuel', String.length s < fuel' /\ findall_fuel fuel (t ++ s)%string = findall_fuel fuel' s.
Proof.
  intro t. revert fuel. induction t as [|c t IH]; intros fuel s H L; [exists fuel; auto|]. cbn in H. apply orb_false_iff in H as [H1 H2].
  destruct fuel as [|fuel]; [cbn in L; lia|]. destruct (IH fuel s H2) as (f & Lf & E); [cbn in L; lia|]. exists f. split; auto. cbn. now rewrite H1.
Qed.
Lemma word_prefix_name w r : has_other w = false -> word_prefix (w ++ String "@" r)%string = (w, String "@" r).
Proof.
  unfold has_other. induction w as [|c w IH]; intro H; [reflexivity|]. cbn in *. apply orb_false_iff in H as [H1 H2]. rewrite negb_false_iff in H1. now rewrite H1, (IH H2).
Qed.
Lemma findall_pieces : forall ps fuel, Forall piece_ok ps -> String.length (written ps) < fuel -> findall_fuel fuel (written ps) = keys ps.
Proof.
  induction ps as [|p ps IH]; intros fuel F L; [destruct fuel; reflexivity|]. inversion F as [|? ? P F']; subst. destruct p as [t|x]; cbn [written show keys] in *.
  - destruct P as [P1 P2]. destruct (findall_text fuel t (written ps) P1 L) as (f & Lf & ->). auto.
  - destruct fuel as [|fuel]; [lia|]. destruct P as [P1 P2]. rewrite !string_app_assoc in *. cbn [append] in *. cbn [findall_fuel Ascii.eqb Bool.eqb]. rewrite word_prefix_name by auto.
    destruct x as [|a x]; [congruence|]. cbn [Ascii.eqb Bool.eqb]. f_equal. apply IH; auto. cbn in L. rewrite !string_app_length in L. cbn in L. lia.
Qed.

(* the loop: every named keyword gets its value *)
Definition step_value (cfg : string -> option string) (w : string) : option string :=
  if endswith "flags" (lower w) then Some (match cfg (stem w) with Some v => v | None => ("-l" ++ stem w)%string end) else None.
Definition fill (val : string -> option string) (p : piece) : piece := match p with Key w => match val w with Some v => Txt v | None => p end | _ => p end.
Lemma substring_no_char c s n m : has_char c s = false -> has_char c (substring n m s) = false.
Proof. revert n m. induction s as [|a s IH]; intros [|n] [|m] H; cbn in *; auto; apply orb_false_iff in H as [H1 H2]; [|now apply IH|now apply IH]. rewrite H1. cbn. now apply IH. Qed.
Lemma lower_ascii_word c : is_word c = true -> is_word (lower_ascii c) = true.
Proof. destruct c as [[] [] [] [] [] [] [] []]; cbv; auto. Qed.
Lemma lower_word w : has_other w = false -> has_other (lower w) = false.
Proof.
  unfold has_other. induction w as [|c w IH]; cbn; auto. intro H. apply orb_false_iff in H as [H1 H2]. rewrite negb_false_iff in H1.
  rewrite (lower_ascii_word _ H1), (IH H2). reflexivity.
Qed.
Lemma word_no_backslash w : has_other w = false -> has_char backslash w = false.
Proof.
  unfold has_other. induction w as [|c w IH]; cbn; auto. intro H. apply orb_false_iff in H as [H1 H2]. rewrite (IH H2), orb_false_r.
  destruct (Ascii.eqb c backslash) eqn:E; auto. apply Ascii.eqb_eq in E. subst. discriminate.
Qed.
Lemma step_value_ok cfg w v : (forall k u, cfg k = Some u -> value_ok u) -> name w -> step_value cfg w = Some v -> value_ok v.
Proof.
  intros C [W1 W2]. unfold step_value. destruct (endswith _ _); [|discriminate]. intros [= <-]. destruct (cfg (stem w)) as [u|] eqn:E; [eauto|].
  pose proof (lower_word _ W2) as L. unfold stem. repeat split.
  - cbn. apply substring_no_char. now apply name_no_at.
  - right. reflexivity.
  - cbn. apply substring_no_char. now apply word_no_backslash.
Qed.
Lemma loop_pieces cfg : (forall k u, cfg k = Some u -> value_ok u) -> forall ws ps, Forall name ws -> Forall piece_ok ps ->
  keyword_loop cfg (written ps) ws = Some (written (map (fill (fun w => if in_dec string_dec w ws then step_value cfg w else None)) ps)).
Proof.
  intro C. induction ws as [|w ws IH]; intros ps N F.
  - cbn [keyword_loop]. f_equal. transitivity (written (map (fun p => p) ps)); [now rewrite map_id|]. f_equal. apply map_ext. now intros [t|x].
  - inversion N as [|? ? N1 N2]; subst. cbn [keyword_loop].
    assert (S' : keyword_step cfg (written ps) w = Some (written (map (match step_value cfg w with Some v => put w v | None => fun p => p end) ps))).
    { unfold keyword_step. destruct (step_value cfg w) as [v|] eqn:E.
      - pose proof (step_value_ok cfg w v C N1 E) as [V1 V2]. unfold step_value in E. destruct (endswith _ _); [|discriminate]. injection E as <-. destruct (cfg (stem w)); apply sub_pieces; auto.
      - unfold step_value in E. destruct (endswith _ _); [discriminate|]. now rewrite map_id. }
    rewrite S'. rewrite IH; auto.
    + do 2 f_equal. rewrite map_map. apply map_ext. intros [t|x]; [destruct (step_value cfg w); reflexivity|]. 
      destruct (step_value cfg w) as [v|] eqn:E; cbn [put fill].
      * destruct (x =?s w) eqn:Q.
        -- apply String.eqb_eq in Q. subst x. cbn [fill]. destruct (in_dec string_dec w (w :: ws)) as [_|n]; [now rewrite E|exfalso; apply n; now left].
        -- apply String.eqb_neq in Q. cbn [fill]. destruct (in_dec string_dec x ws) as [i|n], (in_dec string_dec x (w :: ws)) as [i'|n']; auto; exfalso; [apply n'; now right|destruct i'; [congruence|tauto]].
      * destruct (in_dec string_dec x ws) as [i|n], (in_dec string_dec x (w :: ws)) as [i'|n']; auto; [exfalso; apply n'; now right|destruct i' as [<-|i']; [now rewrite E|tauto]].
    + destruct (step_value cfg w) as [v|] eqn:E; [|now rewrite map_id]. apply put_ok; auto. now destruct (step_value_ok cfg w v C N1 E).
Qed.

Lemma keys_names ps : Forall piece_ok ps -> Forall name (keys ps).
Proof. induction 1 as [|[t|w] r P H IH]; cbn; auto. Qed.
Lemma in_keys ps w : In (Key w) ps -> In w (keys ps).
Proof. induction ps as [|[t|x] r IH]; intros H; cbn in *; [tauto| |]; destruct H as [H|H]; try discriminate; auto. injection H as ->. auto. Qed.

(* Every keyword of a dependency is put in for what it stands for, whichever the others are and in which order they come; a keyword that
   means nothing, and everything else, is left as it is. *)
Theorem C71_keywords : forall cfg ps, (forall k v, cfg k = Some v -> value_ok v) -> Forall piece_ok ps ->
  (In "NEXUSFLAGS" (keys ps) -> cfg "nexus" <> None) -> replace_keywords cfg (written ps) = Some (meant cfg ps).
Proof.
  intros cfg ps C F X. unfold replace_keywords.
  assert (N1 : name "NEXUSFLAGS") by (split; [discriminate|reflexivity]). assert (N2 : name "MCCODE_LIB") by (split; [discriminate|reflexivity]).
  set (ps1 := match cfg "nexus" with Some v => map (put "NEXUSFLAGS" v) ps | None => ps end).
  assert (A : (if contains "@NEXUSFLAGS@" (written ps) then match cfg "nexus" with Some v => sub "@NEXUSFLAGS@" v (written ps) | None => None end else Some (written ps)) = Some (written ps1) /\ Forall piece_ok ps1).
  { subst ps1. destruct (cfg "nexus") as [v|] eqn:E.
    - destruct (C _ _ E) as [V1 V2]. split; [|now apply put_ok]. destruct (contains _ _) eqn:Q; [now apply (sub_pieces "NEXUSFLAGS")|].
      rewrite put_absent; auto. now apply contains_keys.
    - split; auto. destruct (contains _ _) eqn:Q; auto. exfalso. apply X; auto. apply contains_spec in Q as (l & r & Q).
      (* the sign of a keyword is only found where one is *)
      assert (W : written (map (put "NEXUSFLAGS" "") ps) <> written ps).
      { rewrite <- (replace_pieces "NEXUSFLAGS" "" N1 ps (S (String.length (written ps)))) by auto. change (at_name "NEXUSFLAGS") with "@NEXUSFLAGS@".
        assert (G : forall l fuel, String.length (l ++ "@NEXUSFLAGS@" ++ r)%string < fuel -> String.length (replace_all_fuel fuel "@NEXUSFLAGS@" "" (l ++ "@NEXUSFLAGS@" ++ r)%string) < String.length (l ++ "@NEXUSFLAGS@" ++ r)%string).
        { assert (Le : forall fuel s, String.length (replace_all_fuel fuel "@NEXUSFLAGS@" "" s) <= String.length s).
          { induction fuel as [|fuel IH]; intro s; [auto|]. destruct s as [|c s]; [auto|]. cbn [replace_all_fuel]. destruct (startswith _ _) eqn:S'.
            - apply startswith_spec in S' as [q ->]. rewrite drop_app. cbn [append]. specialize (IH q). cbn [String.length]. lia.
            - cbn. specialize (IH s). lia. }
          clear Q. intro l0. induction l0 as [|c l0 IH]; intros fuel L; (destruct fuel as [|fuel]; [lia|]).
          - cbn [append]. cbn [replace_all_fuel]. change (startswith _ _) with true. cbn [String.length drop append]. specialize (Le fuel r). cbn. lia.
          - change ((String c l0 ++ "@NEXUSFLAGS@" ++ r)%string) with (String c (l0 ++ "@NEXUSFLAGS@" ++ r)%string) in *. cbn [replace_all_fuel]. destruct (startswith _ _) eqn:S'.
            + apply startswith_spec in S' as [q E']. rewrite E'. rewrite drop_app. cbn [append]. specialize (Le fuel q). cbn [String.length append]. lia.
            + cbn. cbn in L. specialize (IH fuel). cbn in IH. apply -> Nat.succ_lt_mono. apply IH. lia. }
        intro E'. specialize (G l (S (String.length (written ps)))). rewrite <- Q, E' in G. lia. }
      destruct (in_dec string_dec "NEXUSFLAGS" (keys ps)) as [i|n]; auto. rewrite put_absent in W by auto. congruence. }
  destruct A as [-> F1].
  assert (B : (if contains "@MCCODE_LIB@" (written ps1) then sub "@MCCODE_LIB@" "." (written ps1) else Some (written ps1)) = Some (written (map (put "MCCODE_LIB" ".") ps1))).
  { destruct (contains _ _) eqn:Q; [now apply (sub_pieces "MCCODE_LIB")|]. rewrite put_absent; auto. now apply contains_keys. }
  rewrite B. set (ps2 := map (put "MCCODE_LIB" ".") ps1). assert (F2 : Forall piece_ok ps2) by (apply put_ok; auto; split; auto).
  unfold findall. rewrite findall_pieces by auto. rewrite (loop_pieces cfg C _ ps2 (keys_names _ F2) F2). f_equal.
  transitivity (written (map (fill (step_value cfg)) ps2)).
  { f_equal. apply map_ext_in. intros [t|w] I; auto. cbn [fill]. destruct (in_dec string_dec w (keys ps2)) as [_|n]; auto. exfalso. apply n. now apply in_keys. }
  subst ps2. subst ps1. clear B F1 F2. revert X. induction F as [|p r P F IH]; intro X.
  - destruct (cfg "nexus"); reflexivity.
  - assert (X' : In "NEXUSFLAGS" (keys r) -> cfg "nexus" <> None) by (intro I; apply X; destruct p; cbn; auto). specialize (IH X').
    destruct p as [t|w].
    + destruct (cfg "nexus") as [v|]; cbn [map put fill written show meant]; now rewrite IH.
    + cbn [meant]. rewrite <- IH. destruct (cfg "nexus") as [v|] eqn:E.
      * cbn [map put]. destruct (w =?s "NEXUSFLAGS") eqn:Q1.
        -- apply String.eqb_eq in Q1. subst w. cbn [fill written show]. f_equal. change (meaning cfg "NEXUSFLAGS") with (match cfg "nexus" with Some v => v | None => "-lnexus" end). now rewrite E.
        -- cbn [put]. unfold meaning. destruct (w =?s "MCCODE_LIB") eqn:Q2; [reflexivity|]. cbn [fill]. unfold step_value. destruct (endswith "flags" (lower w)); reflexivity.
      * assert (Q1 : (w =?s "NEXUSFLAGS") = false). { destruct (w =?s "NEXUSFLAGS") eqn:Q1; auto. apply String.eqb_eq in Q1. exfalso. apply X; auto. subst. now left. }
        cbn [map put]. unfold meaning. destruct (w =?s "MCCODE_LIB") eqn:Q2; [reflexivity|]. cbn [fill]. unfold step_value. destruct (endswith "flags" (lower w)); reflexivity.
Qed.
Print Assumptions C71_keywords.
(* a keyword that is a name before FLAGS, in letters of any case, stands for the configured flags of that name, or else for the library of that name *)
Theorem C71_meaning : forall cfg w k, lower w = (k ++ "flags")%string -> meaning cfg w = match cfg k with Some v => v | None => ("-l" ++ k)%string end.
Proof.
  intros cfg w k H. unfold meaning. destruct (w =?s "MCCODE_LIB") eqn:E.
  { apply String.eqb_eq in E. subst w. exfalso. apply (f_equal (endswith "flags")) in H. rewrite (proj2 (endswith_spec "flags" (k ++ "flags"))) in H by (exists k; reflexivity). discriminate. }
  rewrite H. rewrite (proj2 (endswith_spec "flags" (k ++ "flags"))) by (exists k; reflexivity).
  assert (S' : stem w = k).
  { unfold stem. rewrite H, string_app_length. cbn [String.length]. replace (String.length k + 5 - 5) with (String.length k) by lia. clear. induction k as [|c k IH]; [reflexivity|]. cbn. now rewrite IH. }
  now rewrite S'.
Qed.
Print Assumptions C71_meaning.
Definition cfg0 (k : string) : option string := if k =?s "nexus" then Some "-DUSE_NEXUS -lNeXus" else if k =?s "gsl" then Some "-lgsl -lgslcblas" else None.
Example C71_keywords_example : let ps := [Key "GSLFLAGS"; Txt " -L"; Key "MCCODE_LIB"; Txt "/x "; Key "NEXUSFLAGS"; Key "mcplFlags"; Txt " "; Key "other"] in
  Forall piece_ok ps /\ written ps = "@GSLFLAGS@ -L@MCCODE_LIB@/x @NEXUSFLAGS@@mcplFlags@ @other@" /\ meant cfg0 ps = "-lgsl -lgslcblas -L./x -DUSE_NEXUS -lNeXus-lmcpl @other@" /\
  (forall k v, cfg0 k = Some v -> value_ok v).
Proof.
  cbv zeta. split; [repeat constructor; cbn; auto; discriminate|]. split; [reflexivity|]. split; [reflexivity|].
  intros k v. unfold cfg0. destruct (k =?s "nexus"); [intros [= <-]|destruct (k =?s "gsl"); [intros [= <-]|discriminate]]; repeat split; auto.
Qed.
Example C71_meaning_example : lower "McplFLAGS" = ("mcpl" ++ "flags")%string /\ meaning cfg0 "McplFLAGS" = "-lmcpl". Proof. split; reflexivity. Qed.

(* A backslash in a configured value is an escape: the path of a directory that starts with n becomes a line break, one that starts with
   l makes the translation fail. *)
Theorem C71_backslash_refuted : forall v rest, has_char backslash v = false -> has_char backslash rest = false ->
  (forall cfg, cfg "x" = Some (v ++ String backslash (String "n" rest))%string -> replace_keywords cfg "@XFLAGS@" = Some (v ++ String "010"%char rest)%string) /\
  (forall cfg, cfg "x" = Some (v ++ String backslash (String "l" rest))%string -> replace_keywords cfg "@XFLAGS@" = None).
Proof.
  intros v rest V R.
  assert (T : forall e, template (v ++ String backslash (String e rest))%string = match escape e with Some a => Some (v ++ a ++ rest)%string | None => None end).
  { intro e. induction v as [|c v IH]; [cbn [append]; cbn [template]; rewrite Ascii.eqb_refl, (template_plain _ R); destruct (escape e); reflexivity|].
    cbn in V. apply orb_false_iff in V as [V1 V2]. cbn [append template]. rewrite V1, (IH V2). destruct (escape e); reflexivity. }
  assert (A : forall cfg u, cfg "x" = Some u -> replace_keywords cfg "@XFLAGS@" = match template u with Some a => Some (a ++ "")%string | None => None end).
  { intros cfg u E. transitivity (keyword_loop cfg "@XFLAGS@" ["XFLAGS"]); [reflexivity|]. cbn [keyword_loop].
    assert (K : keyword_step cfg "@XFLAGS@" "XFLAGS" = sub (at_name "XFLAGS") u "@XFLAGS@") by (unfold keyword_step; replace (cfg (stem "XFLAGS")) with (Some u) by (symmetry; exact E); reflexivity).
    rewrite K. unfold sub. destruct (template u) as [a|]; reflexivity. }
  split; intros cfg E; rewrite (A _ _ E), T; [|reflexivity]. cbn. now rewrite string_app_nil_r.
Qed.
Print Assumptions C71_backslash_refuted.
Example C71_backslash_refuted_example : let cfg := fun k => if k =?s "x" then Some ("-LC:" ++ String backslash "nexus")%string else None in
  replace_keywords cfg "@XFLAGS@" = Some ("-LC:" ++ String "010"%char "exus")%string.
Proof. reflexivity. Qed.

(* Keywords are put in one name after the other, in the whole text: a name that stands between two other keywords is taken for a keyword
   when that name is one elsewhere before them. *)
Theorem C71_text_between_refuted : exists cfg, (forall k v, cfg k = Some v -> value_ok v) /\
  let ps := [Key "AFLAGS"; Txt " "; Key "BFLAGS"; Txt "AFLAGS"; Key "CFLAGS"] in
  replace_keywords cfg (written ps) = Some "-la @BFLAGS-laCFLAGS@" /\ meant cfg ps = "-la -lbAFLAGS-lc" /\ replace_keywords cfg (written (tl (tl ps))) = Some (meant cfg (tl (tl ps))).
Proof. exists (fun _ => None). split; [discriminate|]. split; [reflexivity|]. split; reflexivity. Qed.
Print Assumptions C71_text_between_refuted.

(* ** The literal *)
Lemma rstrip_quotes_keep s c : Ascii.eqb c quote = false -> rstrip_quotes (s ++ String c (String quote ""))%string = (s ++ String c "")%string.
Proof.
  intro H. induction s as [|a s IH]; [cbn; now rewrite H|]. cbn [append rstrip_quotes]. rewrite IH. now destruct s.
Qed.
(* the flags are what stands between the quotes: for an instrument always, for a component when it neither begins nor ends with a quote *)
Theorem C71_literal : forall body, let literal := String quote (body ++ String quote "")%string in
  instr_dependency literal = body /\
  (forall b e c, body = (b ++ String c "")%string -> body = String e (drop 1 body) -> Ascii.eqb c quote = false -> Ascii.eqb e quote = false -> comp_dependency literal = body) /\
  (body = "" -> comp_dependency literal = "").
Proof.
  intro body. cbv zeta. split; [|split].
  - unfold instr_dependency. cbn [drop]. induction body as [|c b IH]; [reflexivity|]. cbn [append but_last]. rewrite IH. now destruct b.
  - intros b e c B E C D. unfold comp_dependency. cbn [lstrip_quotes]. rewrite Ascii.eqb_refl. rewrite E. cbn [append lstrip_quotes]. rewrite D.
    change (String e (drop 1 body ++ String quote "")%string) with (String e (drop 1 body) ++ String quote "")%string. rewrite <- E. rewrite B at 1. rewrite string_app_assoc. cbn [append]. rewrite rstrip_quotes_keep by auto. now symmetry.
  - intros ->. reflexivity.
Qed.
Print Assumptions C71_literal.
Example C71_literal_example : let body := "-L/opt -lx" in body = ("-L/opt -l" ++ String "x" "")%string /\ body = String "-" (drop 1 body) /\ comp_dependency (String quote (body ++ String quote "")) = body.
Proof. repeat split. Qed.
(* A flag of a component that ends with a quoted text loses the last quote: the word handed to the compiler is not the one written. *)
Theorem C71_quotes_refuted : forall b c, Ascii.eqb c quote = false -> let body := ("-D" ++ b ++ String c (String quote ""))%string in
  comp_dependency (String quote (body ++ String quote "")%string) = ("-D" ++ b ++ String c "")%string /\ instr_dependency (String quote (body ++ String quote "")%string) = body.
Proof.
  intros b c C body. split; [|now apply C71_literal]. unfold comp_dependency. cbn [lstrip_quotes]. rewrite Ascii.eqb_refl. subst body. cbn [append lstrip_quotes]. change (Ascii.eqb "-" quote) with false. cbv iota.
  assert (G : forall s, rstrip_quotes ((s ++ String c (String quote "")) ++ String quote "")%string = (s ++ String c "")%string).
  { induction s as [|a s IH]; [cbn; now rewrite C|]. cbn [append rstrip_quotes]. rewrite IH. now destruct s. }
  exact (G (String "-" (String "D" b))).
Qed.
Print Assumptions C71_quotes_refuted.
Example C71_quotes_refuted_example : let bs := backslash in
  comp_dependency (String quote ("-DNAME=" ++ String bs (String quote ("x" ++ String bs (String quote (String quote "")))))%string) = ("-DNAME=" ++ String bs (String quote ("x" ++ String bs "")))%string.
Proof. reflexivity. Qed.

(* ** The flags *)
Lemma decode_list_all cfg env getpath cmd l out : decode_list cfg env getpath cmd l = Some out <-> Forall2 (fun f x => decode cfg env getpath cmd f = Some x) l out.
Proof.
  split.
  - revert out. induction l as [|f l IH]; intro out; cbn; [intros [= <-]; constructor|]. destruct (decode cfg env getpath cmd f) as [x|] eqn:E; [|discriminate].
    destruct (decode_list cfg env getpath cmd l) as [y|]; [|discriminate]. intros [= <-]. constructor; auto.
  - induction 1 as [|f x l y E H IH]; [reflexivity|]. cbn. now rewrite E, IH.
Qed.
(* Each dependency is there once, whichever components gave it and however often, with the flag for a component that stays on the CPU
   when there is one, and nothing else is. *)
Theorem C71_each_once : forall cfg env getpath cmd order flags cpu out, (forall l, Permutation (order l) l) ->
  decoded_flags cfg env getpath cmd order flags cpu = Some out ->
  exists fs, NoDup fs /\ (forall f, In f fs <-> In f flags \/ (f = "-DFUNNEL" /\ In true cpu)) /\ Forall2 (fun f x => decode cfg env getpath cmd f = Some x) fs out.
Proof.
  intros cfg env getpath cmd order flags cpu out O H. apply decode_list_all in H. exists (order (unique_flags flags cpu)). repeat split; auto.
  - eapply Permutation_NoDup; [symmetry; apply O|]. apply NoDup_nodup.
  - intro I. apply (Permutation_in _ (O _)) in I. unfold unique_flags in I. rewrite nodup_In, in_app_iff in I. destruct I as [I|I]; auto.
    destruct (existsb _ _) eqn:E; [|contradiction]. destruct I as [<-|[]]. right. split; auto. apply existsb_exists in E as (x & I & ->). exact I.
  - intro I. apply (Permutation_in _ (Permutation_sym (O _))). unfold unique_flags. rewrite nodup_In, in_app_iff. destruct I as [I|[-> I]]; auto. right.
    destruct (existsb _ _) eqn:E; [now left|]. exfalso. assert (X : existsb (fun b : bool => b) cpu = true) by (apply existsb_exists; eauto). congruence.
Qed.
Print Assumptions C71_each_once.
Lemma decode_list_perm cfg env getpath cmd l l' : Permutation l l' -> forall out out', decode_list cfg env getpath cmd l = Some out -> decode_list cfg env getpath cmd l' = Some out' -> Permutation out out'.
Proof.
  assert (G : forall a b, Permutation a b -> forall x, decode_list cfg env getpath cmd a = Some x -> exists y, decode_list cfg env getpath cmd b = Some y /\ Permutation x y).
  { induction 1 as [|f a b P IH|f g a|a b c P1 IH1 P2 IH2]; cbn; intros x E.
    - injection E as <-. exists []. auto.
    - destruct (decode cfg env getpath cmd f) as [u|]; [|discriminate]. destruct (decode_list cfg env getpath cmd a) as [v|] eqn:Q; [|discriminate]. injection E as <-. destruct (IH v eq_refl) as (y & -> & Y). exists (u :: y). auto.
    - destruct (decode cfg env getpath cmd g) as [u|]; [|discriminate]. destruct (decode cfg env getpath cmd f) as [w|]; [|discriminate]. destruct (decode_list cfg env getpath cmd a) as [v|] eqn:Q; [|discriminate].
      injection E as <-. eexists. split; [reflexivity|]. constructor.
    - destruct (IH1 x E) as (y & E' & P). destruct (IH2 y E') as (z & E'' & P'). exists z. split; auto. now transitivity y. }
  intros P out out' E E'. destruct (G _ _ P _ E) as (y & Y & Q). congruence.
Qed.
(* The words the linker gets are the same in every run, up to their order. *)
Theorem C71_same_words : forall cfg env getpath cmd o1 o2 flags cpu a b, (forall l, Permutation (o1 l) l) -> (forall l, Permutation (o2 l) l) ->
  decoded_flags cfg env getpath cmd o1 flags cpu = Some a -> decoded_flags cfg env getpath cmd o2 flags cpu = Some b -> Permutation (linker_words a) (linker_words b).
Proof.
  intros cfg env getpath cmd o1 o2 flags cpu a b P1 P2 A B. apply Permutation_flat_map. eapply decode_list_perm; [|exact A|exact B].
  transitivity (unique_flags flags cpu); [apply P1|symmetry; apply P2].
Qed.
Print Assumptions C71_same_words.
Example C71_each_once_example : (forall l : list string, Permutation (rev l) l) /\
  decoded_flags cfg0 (fun _ => Some "/home") Some Some (fun l => rev l) ["@GSLFLAGS@"; "-LENV(HOME)/lib -lx"; "@GSLFLAGS@"] [false; true] = Some ["-DFUNNEL"; "-lgsl -lgslcblas"; "-L/home/lib -lx"].
Proof. split; [intro l; symmetry; apply Permutation_rev|reflexivity]. Qed.
Example C71_same_words_example : decoded_flags cfg0 (fun _ => Some "/home") Some Some (fun l => l) ["@GSLFLAGS@"; "-LENV(HOME)/lib -lx"; "@GSLFLAGS@"] [false; true] = Some ["-L/home/lib -lx"; "-lgsl -lgslcblas"; "-DFUNNEL"].
Proof. reflexivity. Qed.
(* The order is that of a set, which is another one in another run: a library that another one needs comes before it or after it. *)
Theorem C71_order_refuted : forall cfg, exists flags a b, a <> b /\ (exists o1, (forall l, Permutation (o1 l) l) /\ option_map linker_words (decoded_flags cfg Some Some Some o1 flags []) = Some a) /\
  (exists o2, (forall l, Permutation (o2 l) l) /\ option_map linker_words (decoded_flags cfg Some Some Some o2 flags []) = Some b).
Proof.
  intro cfg. exists ["-lused"; "-luser"], ["-lused"; "-luser"], ["-luser"; "-lused"]. split; [discriminate|]. split.
  - exists (fun l => l). split; [reflexivity|]. reflexivity.
  - exists (fun l => rev l). split; [intro l; symmetry; apply Permutation_rev|]. reflexivity.
Qed.
Print Assumptions C71_order_refuted.
