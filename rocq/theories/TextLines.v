(** Facts on str.strip, str.partition and lines, for the text formats. *)
From Coq Require Import List String Ascii Bool Arith ZArith Lia DecimalString DecimalZ DecimalFacts.
From Verif Require Import PyStr Flags DatFile.
Import ListNotations.
Local Open Scope string_scope.
Local Open Scope list_scope.
Local Open Scope nat_scope.
Infix "+++" := String.append (at level 60, right associativity).

(** the end of a line *)
Definition nl : ascii := Ascii false true false true false false false false.
(** specification: only white space *)
Fixpoint white (s : string) : bool := match s with EmptyString => true | String a t => is_space a && white t end.

(** * strip *)
Lemma lstrip_white w s : white w = true -> lstrip (w +++ s) = lstrip s.
Proof. induction w as [|a w IH]; cbn; [auto|]. intro H. apply andb_prop in H as [-> H]. auto. Qed.
Lemma rstrip_all_white w : white w = true -> rstrip w = "".
Proof. induction w as [|a w IH]; cbn; [auto|]. intro H. apply andb_prop in H as [Ha H]. now rewrite (IH H), Ha. Qed.
Lemma rstrip_white w s : white w = true -> rstrip (s +++ w) = rstrip s.
Proof. intro H. induction s as [|a s IH]; cbn; [now apply rstrip_all_white|]. now rewrite IH. Qed.
Lemma rstrip_app a b : rstrip b <> "" -> rstrip (a +++ b) = a +++ rstrip b.
Proof. intro H. induction a as [|x a IH]; cbn; [reflexivity|]. rewrite IH. destruct (a +++ rstrip b) eqn:E; [|reflexivity]. destruct a; cbn in E; [congruence|discriminate]. Qed.
Lemma rstrip_fix_tail x a : rstrip (String x a) = String x a -> rstrip a = a.
Proof. cbn. destruct (rstrip a); [destruct (is_space x); intro H; congruence|congruence]. Qed.
Lemma rstrip_app_fix a b : rstrip a = a -> rstrip (a +++ b) = a +++ rstrip b.
Proof.
  induction a as [|x a IH]; intro H; [reflexivity|]. cbn [append rstrip]. rewrite (IH (rstrip_fix_tail _ _ H)).
  destruct a as [|y a]; [|reflexivity]. cbn in *. destruct (rstrip b); [|reflexivity]. destruct (is_space x); [discriminate|reflexivity].
Qed.
Lemma lstrip_app a b : lstrip a <> "" -> lstrip (a +++ b) = lstrip a +++ b.
Proof. induction a as [|x a IH]; cbn; [congruence|]. destruct (is_space x); [auto|reflexivity]. Qed.
Lemma rstrip_idem s : rstrip (rstrip s) = rstrip s.
Proof.
  induction s as [|a s IH]; [reflexivity|]. cbn. destruct (rstrip s) as [|b t] eqn:E; [destruct (is_space a) eqn:A; cbn; rewrite ?A; reflexivity|].
  cbn [rstrip]. cbn [rstrip] in IH. rewrite IH. reflexivity.
Qed.
Lemma lstrip_idem s : lstrip (lstrip s) = lstrip s.
Proof. induction s as [|a s IH]; [reflexivity|]. cbn. destruct (is_space a) eqn:A; [exact IH|]. cbn. now rewrite A. Qed.
Lemma lstrip_rstrip s : lstrip s = s -> lstrip (rstrip s) = rstrip s.
Proof.
  destruct s as [|a s]; [reflexivity|]. cbn. destruct (is_space a) eqn:A.
  - intro H. exfalso. assert (L : forall t, String.length (lstrip t) <= String.length t).
    { clear. induction t as [|b t IH]; cbn; [lia|]. destruct (is_space b); cbn; lia. }
    specialize (L s). rewrite H in L. cbn in L. lia.
  - intros _. destruct (rstrip s); cbn; now rewrite A.
Qed.
Lemma strip_idem s : strip (strip s) = strip s.
Proof. unfold strip. rewrite (lstrip_rstrip (lstrip s) (lstrip_idem s)). apply rstrip_idem. Qed.
Lemma trimmed_eq s : trimmed s = true <-> strip s = s.
Proof. apply String.eqb_eq. Qed.
Lemma trimmed_strip s : trimmed (strip s) = true.
Proof. apply trimmed_eq, strip_idem. Qed.
Lemma trimmed_fix s : strip s = s -> lstrip s = s /\ rstrip s = s.
Proof.
  intro H. assert (L : lstrip s = s).
  { destruct s as [|a t]; [reflexivity|]. cbn [lstrip]. destruct (is_space a) eqn:A; [|reflexivity]. exfalso. unfold strip in H. cbn [lstrip] in H. rewrite A in H.
    pose proof (lstrip_rstrip (lstrip t) (lstrip_idem t)) as Q. rewrite H in Q. cbn in Q. rewrite A in Q.
    assert (Len : forall u, String.length (lstrip u) <= String.length u). { clear. induction u as [|b u IH]; cbn; [lia|]. destruct (is_space b); cbn; lia. }
    specialize (Len t). rewrite Q in Len. cbn in Len. lia. }
  split; [exact L|]. unfold strip in H. now rewrite L in H.
Qed.
Lemma strip_white_l w s : white w = true -> strip (w +++ s) = strip s.
Proof. intro H. unfold strip. now rewrite lstrip_white. Qed.
Lemma strip_white_r w s : white w = true -> strip (s +++ w) = strip s.
Proof.
  intro H. induction s as [|a s IH].
  - cbn [append]. unfold strip. cbn [lstrip rstrip]. clear -H. assert (Q : lstrip w = "") by (rewrite <- (string_app_nil_r w), lstrip_white by exact H; reflexivity). now rewrite Q.
  - unfold strip in *. cbn. destruct (is_space a); [exact IH|]. change (String a (s +++ w)) with (String a s +++ w). now apply rstrip_white.
Qed.
Lemma strip_lstrip s : strip (lstrip s) = strip s.
Proof. unfold strip. now rewrite lstrip_idem. Qed.
Lemma rstrip_split s : exists w, white w = true /\ s = rstrip s +++ w.
Proof.
  induction s as [|a s (w & W & E)]; [exists ""; auto|]. cbn. destruct (rstrip s) as [|b t] eqn:R.
  - destruct (is_space a) eqn:A; [exists (String a w)|exists w].
    + cbn. rewrite A, W. cbn in E. subst. auto.
    + cbn in E. subst. auto.
  - exists w. split; [exact W|]. cbn in *. congruence.
Qed.
Lemma lstrip_split s : exists w, white w = true /\ s = w +++ lstrip s.
Proof.
  induction s as [|a s (w & W & E)]; [exists ""; auto|]. cbn. destruct (is_space a) eqn:A; [exists (String a w)|exists ""; auto]. cbn. rewrite A, W. cbn. split; congruence.
Qed.
Lemma strip_rstrip s : strip (rstrip s) = strip s.
Proof. destruct (rstrip_split s) as (w & W & E). rewrite E at 2. now rewrite strip_white_r. Qed.
Lemma strip_split s : exists w w', white w = true /\ white w' = true /\ s = w +++ strip s +++ w'.
Proof.
  destruct (lstrip_split s) as (w & W & E), (rstrip_split (lstrip s)) as (w' & W' & E'). exists w, w'. split; [exact W|]. split; [exact W'|].
  unfold strip. rewrite <- E'. exact E.
Qed.
Lemma strip_nonempty a t : is_space a = false -> strip (String a t) <> "".
Proof. intro A. unfold strip. cbn. rewrite A. cbn. rewrite A. destruct (rstrip t); discriminate. Qed.
Lemma strip_head s a t : strip s = String a t -> is_space a = false.
Proof.
  intro H. pose proof (lstrip_rstrip (lstrip s) (lstrip_idem s)) as Q. fold (strip s) in Q. rewrite H in Q. cbn in Q. destruct (is_space a) eqn:A; [|reflexivity].
  assert (Len : forall u, String.length (lstrip u) <= String.length u). { clear. induction u as [|b u IH]; cbn; [lia|]. destruct (is_space b); cbn; lia. }
  specialize (Len t). rewrite Q in Len. cbn in Len. lia.
Qed.

(** * substrings *)
Definition part_of (a b : string) : Prop := exists l r, b = l +++ a +++ r.
Lemma part_refl a : part_of a a.
Proof. exists "", "". cbn. now rewrite string_app_nil_r. Qed.
Lemma part_trans a b c : part_of a b -> part_of b c -> part_of a c.
Proof. intros (l & r & ->) (l' & r' & ->). exists (l' +++ l), (r +++ r'). now rewrite !string_app_assoc. Qed.
Lemma part_l a b : part_of a (a +++ b).
Proof. exists "", b. reflexivity. Qed.
Lemma part_r a b : part_of b (a +++ b).
Proof. exists a, "". now rewrite string_app_nil_r. Qed.
Lemma part_contains m a b : part_of a b -> contains m b = false -> contains m a = false.
Proof.
  intros (l & r & ->) H. destruct (contains m a) eqn:E; [|reflexivity]. apply contains_spec in E as (l' & r' & ->).
  rewrite <- H. symmetry. apply contains_spec. exists (l +++ l'), (r' +++ r). now rewrite !string_app_assoc.
Qed.
Lemma part_char c a b : part_of a b -> has_char c b = false -> has_char c a = false.
Proof. intros (l & r & ->). rewrite !has_char_app. intro H. apply orb_false_iff in H as [_ H]. now apply orb_false_iff in H as [H _]. Qed.
Lemma part_strip s : part_of (strip s) s.
Proof. destruct (strip_split s) as (w & w' & _ & _ & E). exists w, w'. exact E. Qed.
Lemma split_char_part c s : forall x, In x (split_char c s) -> part_of x s.
Proof.
  induction s as [|a s IH]; intros x I; cbn in I.
  - destruct I as [<-|[]]. apply part_refl.
  - destruct (Ascii.eqb a c).
    + destruct I as [<-|I]; [exists "", (String a s); reflexivity|]. eapply part_trans; [apply IH, I|]. apply (part_r (String a "")).
    + destruct (split_char c s) as [|y r] eqn:E; [exfalso; eapply split_char_nonempty; eassumption|]. destruct I as [<-|I].
      * assert (P : exists t, s = y +++ t).
        { clear -E. revert y r E. induction s as [|b s IH]; intros y r E; cbn in E; [injection E as <- _; exists ""; reflexivity|].
          destruct (Ascii.eqb b c); [injection E as <- _; exists (String b s); reflexivity|]. destruct (split_char c s) as [|z q] eqn:F; [exfalso; eapply split_char_nonempty; eassumption|].
          injection E as <- _. destruct (IH z q eq_refl) as [t ->]. exists t. reflexivity. }
        destruct P as [t ->]. exists "", t. reflexivity.
      * eapply part_trans; [apply IH; right; exact I|]. apply (part_r (String a "")).
Qed.
Lemma split_char_nochar c s : Forall (fun x => has_char c x = false) (split_char c s).
Proof.
  induction s as [|a s IH]; cbn; [repeat constructor|]. destruct (Ascii.eqb a c) eqn:E; [constructor; auto|].
  destruct (split_char c s) as [|y r]; [repeat constructor; cbn; now rewrite E|]. inversion IH; subst. constructor; [cbn; now rewrite E|auto].
Qed.

(** * lines *)
Fixpoint unlines (ls : list string) : string := match ls with [] => "" | l :: t => l +++ String nl (unlines t) end.
Lemma unlines_app a b : unlines (a ++ b) = unlines a +++ unlines b.
Proof. induction a as [|x t IH]; cbn; [reflexivity|]. rewrite IH, string_app_assoc. reflexivity. Qed.
Lemma unlines_join l t : unlines (l :: t) = join (String nl "") (l :: t) +++ String nl "".
Proof.
  revert l. induction t as [|x t IH]; intro l; [reflexivity|]. change (unlines (l :: x :: t)) with (l +++ String nl (unlines (x :: t))). rewrite IH.
  change (join (String nl "") (l :: x :: t)) with (l +++ String nl "" +++ join (String nl "") (x :: t)). now rewrite !string_app_assoc.
Qed.
(** specification: a text without line ends *)
Definition oneline (l : string) : Prop := has_char nl l = false.
Lemma startswith_line m l x : has_char nl m = false -> startswith m (l +++ String nl x) = startswith m l.
Proof.
  revert l. induction m as [|c m IH]; intros l H; [destruct l; reflexivity|]. cbn in H. apply orb_false_iff in H as [Hc Hm].
  destruct l as [|b l]; cbn; [now rewrite Hc|]. now rewrite IH.
Qed.
Lemma cut_line m l x : m <> "" -> has_char nl m = false -> contains m l = false ->
  cut m (l +++ String nl x) = match cut m x with Some (b, a) => Some (l +++ String nl b, a) | None => None end.
Proof.
  intros Hm Hn. induction l as [|c l IH]; intro H.
  - cbn [append cut]. change (String nl x) with ("" +++ String nl x). rewrite startswith_line by exact Hn. destruct m; [congruence|]. reflexivity.
  - cbn [contains] in H. apply orb_false_iff in H as [H1 H2]. cbn [append cut]. change (String c (l +++ String nl x)) with (String c l +++ String nl x).
    rewrite startswith_line by exact Hn. rewrite H1, (IH H2). destruct (cut m x) as [[b a]|]; reflexivity.
Qed.
Lemma cut_here m r : cut m (m +++ r) = Some ("", r).
Proof.
  assert (E : startswith m (m +++ r) = true) by (apply startswith_spec; exists r; reflexivity).
  destruct (m +++ r) eqn:X; unfold cut; rewrite E; rewrite <- X; now rewrite drop_app.
Qed.
Lemma cut_lines m pre r : m <> "" -> has_char nl m = false -> Forall (fun l => contains m l = false) pre ->
  cut m (unlines pre +++ m +++ r) = Some (unlines pre, r).
Proof.
  intros Hm Hn. induction 1 as [|l t H _ IH]; cbn [unlines append]; [apply cut_here|].
  rewrite string_app_assoc. cbn [append]. rewrite cut_line by assumption. now rewrite IH.
Qed.
Lemma cut_lines_none m pre : m <> "" -> has_char nl m = false -> Forall (fun l => contains m l = false) pre -> cut m (unlines pre) = None.
Proof.
  intros Hm Hn. induction 1 as [|l t H _ IH]; cbn [unlines]; [destruct m; [congruence|reflexivity]|]. rewrite cut_line by assumption. now rewrite IH.
Qed.

(** text.strip().split(newline) of a block of lines *)
Fixpoint trim_last (l : list string) : list string := match l with [] => [] | [x] => [rstrip x] | x :: t => x :: trim_last t end.
(** specification: the first line without white space before it, the last without white space after it *)
Definition trim_ends (l : list string) : list string := match l with [] => [] | x :: t => lstrip x :: trim_last t end.
Lemma join_snoc c ls l : ls <> [] -> join c (ls ++ [l]) = join c ls +++ c +++ l.
Proof.
  induction ls as [|x t IH]; [congruence|]. intros _. destruct t as [|y t]; [reflexivity|].
  change (join c ((x :: y :: t) ++ [l])) with (x +++ c +++ join c ((y :: t) ++ [l])). rewrite IH by discriminate.
  change (join c (x :: y :: t)) with (x +++ c +++ join c (y :: t)). now rewrite !string_app_assoc.
Qed.
Lemma trim_last_snoc ls l : trim_last (ls ++ [l]) = ls ++ [rstrip l].
Proof. induction ls as [|x t IH]; [reflexivity|]. cbn [app trim_last]. rewrite IH. destruct (t ++ [l]) eqn:E; [destruct t; discriminate|reflexivity]. Qed.
Lemma rstrip_sub c s : has_char c s = false -> has_char c (rstrip s) = false.
Proof. intro H. destruct (rstrip_split s) as (w & _ & E). rewrite E, has_char_app in H. now apply orb_false_iff in H as [H _]. Qed.
Lemma lstrip_sub c s : has_char c s = false -> has_char c (lstrip s) = false.
Proof. intro H. destruct (lstrip_split s) as (w & _ & E). rewrite E, has_char_app in H. now apply orb_false_iff in H as [_ H]. Qed.
Lemma block_lines first mid last w : Forall oneline (first :: mid ++ [last]) -> lstrip first <> "" -> rstrip last <> "" -> white w = true ->
  split_char nl (strip (unlines (first :: mid ++ [last]) +++ w)) = lstrip first :: mid ++ [rstrip last].
Proof.
  intros O F L W. rewrite strip_white_r by exact W. rewrite unlines_join, strip_white_r by reflexivity.
  change (first :: mid ++ [last]) with ((first :: mid) ++ [last]). rewrite join_snoc by discriminate. unfold strip.
  rewrite lstrip_app.
  - rewrite <- string_app_assoc. rewrite rstrip_app by exact L.
    assert (E : lstrip (join (String nl "") (first :: mid)) = join (String nl "") (lstrip first :: mid)).
    { destruct mid as [|y t]; [reflexivity|]. change (join (String nl "") (first :: y :: t)) with (first +++ String nl "" +++ join (String nl "") (y :: t)). now rewrite lstrip_app. }
    rewrite E, string_app_assoc, <- join_snoc by discriminate. apply split_char_join; [discriminate|]. inversion O as [|? ? O1 O2]; subst.
    apply Forall_app in O2 as [O2 O3]. inversion O3; subst. cbn [app]. constructor; [now apply lstrip_sub|]. apply Forall_app. split; [exact O2|]. constructor; [now apply rstrip_sub|constructor].
  - destruct mid as [|y t]; [exact F|]. change (join (String nl "") (first :: y :: t)) with (first +++ String nl "" +++ join (String nl "") (y :: t)).
    rewrite lstrip_app by exact F. destruct (lstrip first); [congruence|discriminate].
Qed.

(** line.partition(colon), both sides stripped *)
Definition kv (line : string) : string * string :=
  match split_once ":" line with Some (k, v) => (strip k, strip v) | None => (strip line, "") end.
Lemma split_once_app k v : has_char ":" k = false -> split_once ":" (k +++ String ":" v) = Some (k, v).
Proof. intro H. apply split_once_some. auto. Qed.
Lemma rstrip_colon k : rstrip (k +++ ":") = k +++ ":".
Proof. rewrite rstrip_app; [reflexivity|discriminate]. Qed.
Lemma kv_rstrip l : kv (rstrip l) = kv l.
Proof.
  unfold kv. destruct (split_once ":" l) as [[k v]|] eqn:E.
  - apply split_once_some in E as [-> H]. change (k +++ String ":" v) with (k +++ ":" +++ v). rewrite <- string_app_assoc, rstrip_app_fix by apply rstrip_colon.
    rewrite string_app_assoc. cbn [append]. rewrite split_once_app by exact H. now rewrite strip_rstrip.
  - apply split_once_none in E. rewrite (proj2 (split_once_none ":" (rstrip l)) (rstrip_sub _ _ E)). now rewrite strip_rstrip.
Qed.
Lemma kv_lstrip l : kv (lstrip l) = kv l.
Proof.
  unfold kv. destruct (split_once ":" l) as [[k v]|] eqn:E.
  - apply split_once_some in E as [-> H]. assert (Q : lstrip (k +++ String ":" v) = lstrip k +++ String ":" v).
    { clear. induction k as [|a k IH]; [reflexivity|]. cbn. destruct (is_space a); [exact IH|reflexivity]. }
    rewrite Q, split_once_app by (now apply lstrip_sub). now rewrite strip_lstrip.
  - apply split_once_none in E. rewrite (proj2 (split_once_none ":" (lstrip l)) (lstrip_sub _ _ E)). now rewrite strip_lstrip.
Qed.
Lemma kv_line w k v : white w = true -> has_char ":" w = false -> has_char ":" k = false -> trimmed k = true -> trimmed v = true ->
  kv (w +++ k +++ ": " +++ v) = (k, v).
Proof.
  intros W Hw H K V. unfold kv. rewrite <- string_app_assoc. change ((w +++ k) +++ ": " +++ v) with ((w +++ k) +++ String ":" (" " +++ v)). rewrite split_once_app by (rewrite has_char_app, Hw; exact H).
  rewrite !strip_white_l by (auto; reflexivity). apply trimmed_eq in K, V. now rewrite K, V.
Qed.
Lemma kv_fst_snd_part l : part_of (snd (kv l)) l.
Proof.
  unfold kv. destruct (split_once ":" l) as [[k v]|] eqn:E; [|exists "", l; reflexivity]. apply split_once_some in E as [-> _]. cbn.
  eapply part_trans; [apply part_strip|]. exists (k +++ ":"), "". now rewrite string_app_nil_r, string_app_assoc.
Qed.
Lemma kv_trimmed l : trimmed (snd (kv l)) = true.
Proof. unfold kv. destruct (split_once ":" l) as [[k v]|]; [apply trimmed_strip|reflexivity]. Qed.

(** * decimal integers *)
Definition digit (a : ascii) : bool := let n := nat_of_ascii a in Nat.leb 48 n && Nat.leb n 57.
(** specification: all characters are such *)
Fixpoint all_chars (f : ascii -> bool) (s : string) : bool := match s with EmptyString => true | String a t => f a && all_chars f t end.
(** specification: the characters of an integer *)
Definition numeric (a : ascii) : bool := digit a || Ascii.eqb a "-".
Lemma uint_numeric d : all_chars numeric (NilEmpty.string_of_uint d) = true.
Proof. induction d; cbn; auto. Qed.
Lemma str_Z_numeric z : all_chars numeric (str_Z z) = true.
Proof.
  unfold str_Z. destruct (Z.to_int z) as [u|u]; cbn [NilZero.string_of_int].
  - unfold NilZero.string_of_uint. destruct u; try reflexivity; apply uint_numeric.
  - cbn. unfold NilZero.string_of_uint. destruct u; try reflexivity; apply uint_numeric.
Qed.
Lemma all_chars_absent f c s : all_chars f s = true -> f c = false -> has_char c s = false.
Proof.
  intros H F. induction s as [|a s IH]; [reflexivity|]. cbn in *. apply andb_prop in H as [H1 H2]. rewrite (IH H2), orb_false_r.
  destruct (Ascii.eqb a c) eqn:E; [|reflexivity]. apply Ascii.eqb_eq in E. subst. congruence.
Qed.
Lemma numeric_not_space a : numeric a = true -> is_space a = false.
Proof. destruct a as [[] [] [] [] [] [] [] []]; cbn; auto. Qed.
Lemma all_nonspace_trim s : all_chars (fun a => negb (is_space a)) s = true -> strip s = s.
Proof.
  intro H. assert (R : rstrip s = s).
  { clear -H. induction s as [|a s IH]; [reflexivity|]. cbn in *. apply andb_prop in H as [H1 H2]. rewrite (IH H2). destruct s; [|reflexivity]. destruct (is_space a); [discriminate|reflexivity]. }
  unfold strip. destruct s as [|a s]; [reflexivity|]. cbn [lstrip]. cbn in H. apply andb_prop in H as [H1 _]. destruct (is_space a); [discriminate|exact R].
Qed.
Lemma str_Z_trimmed z : trimmed (str_Z z) = true.
Proof.
  apply trimmed_eq, all_nonspace_trim. pose proof (str_Z_numeric z) as H. induction (str_Z z) as [|a s IH]; [reflexivity|]. cbn in *.
  apply andb_prop in H as [H1 H2]. rewrite (IH H2), (numeric_not_space _ H1). reflexivity.
Qed.
Lemma str_Z_nonempty z : str_Z z <> "".
Proof. unfold str_Z. destruct (Z.to_int z) as [u|u]; cbn; [|discriminate]. unfold NilZero.string_of_uint. destruct u; discriminate. Qed.
Lemma py_int_str z : py_int (str_Z z) = Some z.
Proof.
  unfold py_int. rewrite (proj1 (trimmed_eq _) (str_Z_trimmed z)). unfold str_Z. rewrite NilZero.isi.
  - f_equal. apply DecimalZ.of_to.
  - destruct z as [|p|p]; cbn; try discriminate. intro H. inversion H as [Q]. pose proof (DecimalPos.Unsigned.of_to p) as X. rewrite Q in X. discriminate.
  - destruct z as [|p|p]; cbn; try discriminate. intro H. inversion H as [Q]. pose proof (DecimalPos.Unsigned.of_to p) as X. rewrite Q in X. discriminate.
Qed.
Lemma contains_has_char m c s : has_char c m = true -> has_char c s = false -> contains m s = false.
Proof.
  intros Hm Hs. destruct (contains m s) eqn:E; [|reflexivity]. apply contains_spec in E as (l & r & ->). rewrite !has_char_app, Hm in Hs. rewrite orb_true_r in Hs. discriminate.
Qed.
