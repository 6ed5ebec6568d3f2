(** C81: which version of the component libraries is used. *)
From Coq Require Import List String Ascii Bool Arith Lia Sorting.Sorted.
From Verif Require Import PyStr TextLines Expr LibTag.
Import ListNotations.
Local Open Scope string_scope.
Local Open Scope list_scope.
Local Open Scope nat_scope.

(* ---- specification ---- *)
Definition digits : list ascii := ["0"; "1"; "2"; "3"; "4"; "5"; "6"; "7"; "8"; "9"]%char.
Definition number (s : string) : Prop := s <> "" /\ Forall (fun c => In c digits) (list_ascii_of_string s).
(** a name of a version: v3, v3.5 or v3.5.31 *)
Definition plain_tag (t : string) : Prop :=
  exists a, number a /\
    (t = "v" +++ a \/
     exists b, number b /\ (t = "v" +++ a +++ "." +++ b \/ exists c, number c /\ t = "v" +++ a +++ "." +++ b +++ "." +++ c)).

(** what git ls-remote prints of a tag: the commit, a tabulator, the name; an annotated tag a
    second time with a mark *)
Record entry := mkEntry { e_sha : string; e_tag : string; e_peeled : bool }.
Definition tab : string := String (ascii_of_nat 9) "".
Definition nl : string := String (ascii_of_nat 10) "".
Definition line (e : entry) : string :=
  (e_sha e +++ tab +++ "refs/tags/" +++ e_tag e +++ (if e_peeled e then "^{}" else ""))%string.
Definition listing (l : list entry) : string := join nl (map line l).
Definition hex (e : entry) : Prop := has_char "v" (e_sha e) = false.

(* ---- scanning ---- *)
Lemma digit_spec c : In c digits <-> is_digit c = true.
Proof.
  split.
  - intros H. cbn in H. repeat (destruct H as [<- | H]; [reflexivity|]). destruct H.
  - destruct c as [[] [] [] [] [] [] [] []]; vm_compute; intros H; try discriminate H; tauto.
Qed.
Lemma span_app s : s = fst (span s) +++ snd (span s).
Proof. induction s as [|c r IH]; cbn [span]; [reflexivity|]. destruct (is_digit c); [|reflexivity]. destruct (span r) as [d t]. cbn in *. now rewrite <- IH. Qed.
Lemma span_digits s : Forall (fun c => In c digits) (list_ascii_of_string (fst (span s))).
Proof.
  induction s as [|c r IH]; cbn [span]; [constructor|]. destruct (is_digit c) eqn:D; [|constructor].
  destruct (span r) as [d t]. cbn [fst list_ascii_of_string] in *. constructor; [now apply digit_spec|exact IH].
Qed.
Lemma dot_part_sound s p u : dot_part s = Some (p, u) -> s = p +++ u /\ exists b, number b /\ p = "." +++ b.
Proof.
  unfold dot_part. destruct s as [|c r]; [discriminate|].
  destruct c as [[] [] [] [] [] [] [] []]; try discriminate.
  destruct (span r) as [d t] eqn:E. destruct d as [|x d]; [discriminate|]. intros [= <- <-].
  pose proof (span_app r) as A. pose proof (span_digits r) as B. rewrite E in A, B. cbn [fst snd] in A, B.
  split; [cbn; cbn in A; now rewrite A|]. exists (String x d). split; [split; [discriminate|exact B]|reflexivity].
Qed.
Lemma match_tag_sound s m t : match_tag s = Some (m, t) -> s = m +++ t /\ plain_tag m.
Proof.
  unfold match_tag. destruct s as [|c r]; [discriminate|].
  destruct c as [[] [] [] [] [] [] [] []]; try discriminate.
  destruct (span r) as [d u] eqn:E. destruct d as [|x d]; [discriminate|].
  pose proof (span_app r) as A. pose proof (span_digits r) as B. rewrite E in A, B. cbn [fst snd] in A, B.
  assert (N : number (String x d)) by (split; [discriminate|exact B]).
  destruct (dot_part u) as [[p w]|] eqn:D1.
  - destruct (dot_part_sound _ _ _ D1) as (-> & b & Nb & ->).
    destruct (dot_part w) as [[p' w']|] eqn:D2.
    + destruct (dot_part_sound _ _ _ D2) as (-> & b' & Nb' & ->). intros [= <- <-].
      split; [rewrite A; cbn; rewrite !string_app_assoc; cbn; now rewrite !string_app_assoc|].
      exists (String x d). split; [exact N|]. right. exists b. split; [exact Nb|]. right. exists b'. split; [exact Nb'|reflexivity].
    + intros [= <- <-]. split; [rewrite A; cbn; now rewrite !string_app_assoc|].
      exists (String x d). split; [exact N|]. right. exists b. split; [exact Nb|]. now left.
  - intros [= <- <-]. split; [now rewrite A|]. exists (String x d). split; [exact N|]. now left.
Qed.

(** nothing more of a version may follow *)
Definition stops (s : string) : Prop := match s with EmptyString => True | String c _ => is_digit c = false /\ c <> "."%char end.
Lemma span_number a s : Forall (fun c => In c digits) (list_ascii_of_string a) ->
  match s with EmptyString => True | String c _ => is_digit c = false end -> span (a +++ s) = (a, s).
Proof.
  intros F S. induction a as [|c r IH].
  - destruct s as [|c r]; [reflexivity|]. cbn. now rewrite S.
  - cbn in F |- *. inversion F as [|? ? D F']; subst. apply digit_spec in D. rewrite D, (IH F'). reflexivity.
Qed.
Lemma dot_part_number b s : number b -> match s with EmptyString => True | String c _ => is_digit c = false end ->
  dot_part ("." +++ b +++ s) = Some ("." +++ b, s).
Proof. intros [N F] S. cbn. rewrite (span_number _ _ F S). destruct b; [congruence|reflexivity]. Qed.
Lemma dot_part_stops s : stops s -> dot_part s = None.
Proof. destruct s as [|c r]; [reflexivity|]. intros [_ N]. cbn. destruct c as [[] [] [] [] [] [] [] []]; try reflexivity. now elim N. Qed.
Lemma stops_digit s : stops s -> match s with EmptyString => True | String c _ => is_digit c = false end.
Proof. destruct s; cbn; tauto. Qed.
Lemma match_tag_plain t s : plain_tag t -> stops s -> match_tag (t +++ s) = Some (t, s).
Proof.
  intros (a & [Na Fa] & H) S. pose proof (stops_digit _ S) as D.
  destruct H as [-> | (b & Nb & [-> | (c & Nc & ->)])].
  - cbn. rewrite (span_number _ _ Fa D). destruct a; [congruence|]. now rewrite (dot_part_stops _ S).
  - rewrite !string_app_assoc. change ("v" +++ a +++ "." +++ b +++ s) with (String "v" (a +++ ("." +++ b +++ s))).
    cbn [match_tag]. rewrite (span_number a ("." +++ b +++ s) Fa eq_refl). destruct a; [congruence|].
    rewrite (dot_part_number _ _ Nb D), (dot_part_stops _ S). reflexivity.
  - rewrite !string_app_assoc.
    change ("v" +++ a +++ "." +++ b +++ "." +++ c +++ s) with (String "v" (a +++ ("." +++ b +++ ("." +++ c +++ s)))).
    cbn [match_tag]. rewrite (span_number a ("." +++ b +++ ("." +++ c +++ s)) Fa eq_refl). destruct a; [congruence|].
    rewrite (dot_part_number b ("." +++ c +++ s) Nb eq_refl), (dot_part_number _ _ Nc D). reflexivity.
Qed.
Lemma plain_tag_length t : plain_tag t -> 1 <= String.length t.
Proof. intros (a & _ & [-> | (b & _ & [-> | (c & _ & ->)])]); cbn; lia. Qed.
Lemma find_tags_fuel n : forall m s, String.length s <= n -> String.length s <= m -> find_tags n s = find_tags m s.
Proof.
  induction n as [|n IH]; intros m s A B.
  - destruct s; [|cbn in A; lia]. destruct m; reflexivity.
  - destruct s as [|c r]; [destruct m; reflexivity|]. cbn in A, B. destruct m as [|m]; [lia|]. cbn [find_tags].
    destruct (match_tag (String c r)) as [[x t]|] eqn:M; [|apply IH; lia].
    destruct (match_tag_sound _ _ _ M) as [E P]. apply plain_tag_length in P.
    apply (f_equal String.length) in E. rewrite string_app_length in E. cbn in E. f_equal. apply IH; lia.
Qed.
Lemma known_tags_cons c r : known_tags (String c r) =
  match match_tag (String c r) with Some (m, t) => m :: known_tags t | None => known_tags r end.
Proof.
  unfold known_tags. cbn [String.length find_tags]. destruct (match_tag (String c r)) as [[x t]|] eqn:M; [|reflexivity].
  destruct (match_tag_sound _ _ _ M) as [E P]. apply plain_tag_length in P.
  apply (f_equal String.length) in E. rewrite string_app_length in E. cbn in E. f_equal. apply find_tags_fuel; lia.
Qed.
Lemma known_tags_plain t s : plain_tag t -> stops s -> known_tags (t +++ s) = t :: known_tags s.
Proof.
  intros P S. pose proof (match_tag_plain t s P S) as M. pose proof (plain_tag_length t P) as L.
  destruct t as [|c t]; [cbn in L; lia|]. change (String c t +++ s) with (String c (t +++ s)) in *. now rewrite known_tags_cons, M.
Qed.
Lemma match_tag_other c r : c <> "v"%char -> match_tag (String c r) = None.
Proof. intros N. cbn. destruct c as [[] [] [] [] [] [] [] []]; try reflexivity. now elim N. Qed.
Lemma known_tags_skip a s : has_char "v" a = false -> known_tags (a +++ s) = known_tags s.
Proof.
  induction a as [|c r IH]; [reflexivity|]. cbn [has_char]. intros H. apply orb_false_iff in H as [A B].
  change (String c r +++ s) with (String c (r +++ s)). rewrite known_tags_cons, match_tag_other; [now apply IH|].
  intros ->. now rewrite Ascii.eqb_refl in A.
Qed.
Lemma line_tags e s : hex e -> plain_tag (e_tag e) -> stops s -> known_tags (line e +++ s) = e_tag e :: known_tags s.
Proof.
  intros H P S. unfold line. rewrite !string_app_assoc, (known_tags_skip _ _ H).
  rewrite (known_tags_skip tab _ eq_refl), (known_tags_skip "refs/tags/" _ eq_refl). destruct (e_peeled e).
  - rewrite known_tags_plain; [|exact P|split; [reflexivity|discriminate]]. now rewrite (known_tags_skip "^{}" _ eq_refl).
  - now apply known_tags_plain.
Qed.

Definition proper (e : entry) : Prop := hex e /\ plain_tag (e_tag e).
(** If all tags are names of versions then the tags found are the tags printed, in that order. *)
Theorem C81_tags_found : forall l, Forall proper l -> known_tags (listing l) = map e_tag l.
Proof.
  intros l. unfold listing. induction l as [|e l IH]; intros F; [reflexivity|]. inversion F as [|? ? [H P] F']; subst.
  destruct l as [|e' l].
  - cbn [map join]. rewrite <- (string_app_nil_r (line e)), (line_tags e "" H P I). reflexivity.
  - change (join nl (map line (e :: e' :: l))) with (line e +++ nl +++ join nl (map line (e' :: l))).
    rewrite (line_tags e _ H P) by (split; [reflexivity|discriminate]).
    rewrite (known_tags_skip nl _ eq_refl), (IH F'). reflexivity.
Qed.
Print Assumptions C81_tags_found.

(** Then [latest] is the tag printed first; printed in an order from new to old, no tag is newer. *)
Theorem C81_latest : forall l requested, Forall proper l -> lower requested = "latest" -> l <> [] ->
  exists e, library_tag requested (listing l) = Ok (e_tag e) /\ In e l
  /\ forall newer : string -> string -> Prop, StronglySorted newer (map e_tag l) -> forall e', In e' l -> e_tag e' = e_tag e \/ newer (e_tag e) (e_tag e').
Proof.
  intros l requested F L N. destruct l as [|e l]; [congruence|]. exists e. split; [|split; [now left|]].
  - unfold library_tag. rewrite L, (C81_tags_found _ F). reflexivity.
  - intros newer S e' [<- | I]; [now left|]. right. inversion S as [|? ? _ A]; subst. rewrite Forall_forall in A.
    apply A. now apply in_map.
Qed.
Print Assumptions C81_latest.

(** Any other tag is used as it is if it is there, and refused if it is not. *)
Theorem C81_requested : forall l requested, Forall proper l -> lower requested <> "latest" ->
  (library_tag requested (listing l) = Ok requested <-> In requested (map e_tag l))
  /\ (~ In requested (map e_tag l) -> library_tag requested (listing l) = Raise).
Proof.
  intros l requested F L. unfold library_tag. rewrite (C81_tags_found _ F). apply String.eqb_neq in L. rewrite L.
  unfold isin. destruct (existsb (String.eqb requested) (map e_tag l)) eqn:E.
  - apply existsb_exists in E as (x & I & X). apply String.eqb_eq in X. subst x. split; [tauto|now intros].
  - split; [|reflexivity]. split; [discriminate|]. intros I. exfalso.
    assert (T : existsb (String.eqb requested) (map e_tag l) = true) by (apply existsb_exists; exists requested; split; [exact I|apply String.eqb_refl]).
    now rewrite T in E.
Qed.
Print Assumptions C81_requested.

Definition entry_a := mkEntry "0a1f" "v3.5.31" true.
Definition entry_b := mkEntry "77be" "v3.5" false.
Lemma number_ok s : forallb is_digit (list_ascii_of_string s) = true -> s <> "" -> number s.
Proof. intros A N. split; [exact N|]. apply Forall_forall. intros c I. rewrite forallb_forall in A. apply digit_spec. now apply A. Qed.
Lemma entry_a_ok : proper entry_a.
Proof.
  split; [reflexivity|]. exists "3". split; [now apply number_ok|]. right. exists "5". split; [now apply number_ok|]. right.
  exists "31". split; [now apply number_ok|reflexivity].
Qed.
Lemma entry_b_ok : proper entry_b.
Proof. split; [reflexivity|]. exists "3". split; [now apply number_ok|]. right. exists "5". split; [now apply number_ok|]. now left. Qed.
Example C81_tags_example : Forall proper [entry_a; entry_b] /\ known_tags (listing [entry_a; entry_b]) = ["v3.5.31"; "v3.5"]
  /\ library_tag "Latest" (listing [entry_a; entry_b]) = Ok "v3.5.31" /\ library_tag "v3.5" (listing [entry_a; entry_b]) = Ok "v3.5"
  /\ library_tag "v3" (listing [entry_a; entry_b]) = Raise /\ library_tag "latest" (listing []) = Raise.
Proof. split; [repeat constructor; first [apply entry_a_ok | apply entry_b_ok | idtac]|]. all: try (repeat split; reflexivity). Qed.

Lemma known_tags_sound : forall n s t, In t (find_tags n s) -> plain_tag t /\ exists l r, s = l +++ t +++ r.
Proof.
  induction n as [|n IH]; intros s t I; [destruct I|]. destruct s as [|c s]; [destruct I|]. cbn [find_tags] in I.
  destruct (match_tag (String c s)) as [[m u]|] eqn:M.
  - destruct (match_tag_sound _ _ _ M) as [E P]. destruct I as [<- | I].
    + split; [exact P|]. exists "", u. exact E.
    + destruct (IH _ _ I) as (Q & l & r & ->). split; [exact Q|]. exists (m +++ l), r. now rewrite E, !string_app_assoc.
  - destruct (IH _ _ I) as (Q & l & r & ->). split; [exact Q|]. exists (String c l), r. reflexivity.
Qed.
(** Whatever git prints, the tag used is the name of a version and stands in the text printed. *)
Theorem C81_always_a_version : forall requested text t, library_tag requested text = Ok t ->
  plain_tag t /\ (exists l r, text = l +++ t +++ r) /\ (lower requested = "latest" \/ t = requested).
Proof.
  intros requested text t. unfold library_tag. destruct (lower requested =?s "latest") eqn:L.
  - destruct (known_tags text) as [|x k] eqn:K; [discriminate|]. intros [= ->].
    destruct (known_tags_sound (String.length text) text t) as [P X]; [fold (known_tags text); rewrite K; now left|].
    split; [exact P|]. split; [exact X|]. left. now apply String.eqb_eq.
  - unfold isin. destruct (existsb (String.eqb requested) (known_tags text)) eqn:E; [|discriminate]. intros [= <-].
    apply existsb_exists in E as (x & I & X). apply String.eqb_eq in X. subst x.
    destruct (known_tags_sound _ _ _ I) as [P X]. split; [exact P|]. split; [exact X|now right].
Qed.
Print Assumptions C81_always_a_version.

Definition next_tag := mkEntry "5d2c" "v3.6.0-rc1" false.
(** But the tag used need not be a tag: after v3.6.0-rc1 the tag [latest] is v3.6.0, which nobody
    has made yet, and can be asked for; whatever tags follow. *)
Theorem C81_tag_exists_refuted : forall l, Forall proper l -> ~ In "v3.6.0" (map e_tag l) ->
  ~ In "v3.6.0" (map e_tag (next_tag :: l))
  /\ library_tag "latest" (listing (next_tag :: l)) = Ok "v3.6.0" /\ library_tag "v3.6.0" (listing (next_tag :: l)) = Ok "v3.6.0"
  /\ library_tag "v3.6.0-rc1" (listing (next_tag :: l)) = Raise.
Proof.
  intros l F N. split; [intros [A | A]; [discriminate A|now apply N]|].
  assert (K : exists k, known_tags (listing (next_tag :: l)) = "v3.6.0" :: k /\ k = map e_tag l).
  { exists (map e_tag l). split; [|reflexivity]. unfold listing. destruct l as [|e l]; [reflexivity|].
    change (join nl (map line (next_tag :: e :: l))) with (line next_tag +++ nl +++ listing (e :: l)).
    change (line next_tag) with (("5d2c" +++ tab +++ "refs/tags/") +++ "v3.6.0" +++ "-rc1").
    rewrite string_app_assoc, (known_tags_skip ("5d2c" +++ tab +++ "refs/tags/") _ eq_refl), string_app_assoc.
    rewrite known_tags_plain; [|exists "3"; split; [now apply number_ok|]; right; exists "6"; split; [now apply number_ok|]; right; exists "0"; split; [now apply number_ok|reflexivity]|split; [reflexivity|discriminate]].
    rewrite (known_tags_skip "-rc1" _ eq_refl), (known_tags_skip nl _ eq_refl). now rewrite (C81_tags_found _ F). }
  destruct K as (k & K & E). unfold library_tag. rewrite K. split; [reflexivity|]. split; [reflexivity|].
  change (lower "v3.6.0-rc1" =?s "latest") with false. cbn [isin existsb]. unfold isin. cbn [existsb]. change ("v3.6.0-rc1" =?s "v3.6.0") with false. cbn [orb].
  destruct (existsb (String.eqb "v3.6.0-rc1") k) eqn:X; [|reflexivity]. exfalso.
  apply existsb_exists in X as (x & I & X). apply String.eqb_eq in X. subst x k. apply in_map_iff in I as (e & T & I).
  rewrite Forall_forall in F. destruct (F e I) as [_ P]. rewrite T in P.
  pose proof (match_tag_plain _ "" P Logic.I) as M. vm_compute in M. discriminate M.
Qed.
Print Assumptions C81_tag_exists_refuted.
Example C81_tag_exists_refuted_example : Forall proper [entry_a; entry_b] /\ ~ In "v3.6.0" (map e_tag [entry_a; entry_b]).
Proof. split; [repeat constructor; first [apply entry_a_ok | apply entry_b_ok | idtac]|]. all: cbn; intuition discriminate. Qed.

(* ---- places ---- *)
Lemma plain_tag_no_slash t : plain_tag t -> has_char "/" t = false.
Proof.
  assert (D : forall a, number a -> has_char "/" a = false).
  { intros a [_ F]. induction a as [|c r IH]; [reflexivity|]. cbn in F |- *. inversion F as [|? ? I F']; subst.
    rewrite (IH F'). cbn in I. repeat (destruct I as [<- | I]; [reflexivity|]). destruct I. }
  intros (a & A & [-> | (b & B & [-> | (c & C & ->)])]); cbn; rewrite ?has_char_app; cbn; rewrite ?has_char_app, ?(D _ A), ?(D _ B), ?(D _ C); cbn; rewrite ?has_char_app, ?(D _ B), ?(D _ C); reflexivity.
Qed.
Lemma split_at (a b s t : string) : has_char "/" a = false -> has_char "/" b = false -> (a +++ "/" +++ s = b +++ "/" +++ t)%string -> a = b /\ s = t.
Proof.
  revert b. induction a as [|x a IH]; intros b A B E; destruct b as [|y b].
  - cbn in E. now inversion E.
  - cbn in E, B. inversion E; subst. discriminate B.
  - cbn in E, A. inversion E; subst. discriminate A.
  - cbn in E, A, B. inversion E as [[X E']]. subst y. apply orb_false_iff in A as [_ A]. apply orb_false_iff in B as [_ B].
    destruct (IH b A B E') as [-> ->]. split; reflexivity.
Qed.

(** The three registries are of one version: list and files of each come from that version of the
    two places given. *)
Theorem C81_one_version : forall cache src reg requested text gs, pooch_registries cache src reg requested text = Ok gs ->
  exists t, library_tag requested text = Ok t /\ map g_name gs = ["mcstas"; "mcxtrace"; "libc"]
  /\ forall g, In g gs -> (forall f, file_url g f = (src +++ "/raw/" +++ t +++ "/" +++ f)%string)
       /\ g_list_url g = (reg +++ "/raw/" +++ t +++ "/" +++ g_name g +++ "-registry.txt")%string.
Proof.
  intros cache src reg requested text gs. unfold pooch_registries. destruct (library_tag requested text) as [t| |] eqn:T; try discriminate.
  intros [= <-]. exists t. split; [reflexivity|]. split; [reflexivity|].
  assert (A : forall n f, file_url (github_registry cache n src t reg) f = (src +++ "/raw/" +++ t +++ "/" +++ f)%string)
    by (intros n f; unfold file_url, github_registry; cbn [g_base]; now rewrite !string_app_assoc).
  intros g [<- | [<- | [<- | []]]]; (split; [intros f; apply A|reflexivity]).
Qed.
Print Assumptions C81_one_version.

(** Files of different versions or of different libraries are never kept at the same place, and
    different files of one neither. *)
Theorem C81_kept_apart : forall cache src src' reg reg' r r' text text' gs gs' g g' f f',
  pooch_registries cache src reg r text = Ok gs -> pooch_registries cache src' reg' r' text' = Ok gs' -> In g gs -> In g' gs' ->
  kept_at g f = kept_at g' f' -> g_name g = g_name g' /\ f = f' /\ library_tag r text = library_tag r' text'.
Proof.
  intros cache src src' reg reg' r r' text text' gs gs' g g' f f'. unfold pooch_registries.
  destruct (library_tag r text) as [t| |] eqn:T; try discriminate. destruct (library_tag r' text') as [t'| |] eqn:T'; try discriminate.
  intros [= <-] [= <-] I I'.
  destruct (C81_always_a_version _ _ _ T) as [P _]. destruct (C81_always_a_version _ _ _ T') as [P' _].
  pose proof (plain_tag_no_slash _ P) as N. pose proof (plain_tag_no_slash _ P') as N'.
  assert (V : forall x, plain_tag x -> startswith "v" x = true)
    by (intros x (a & _ & [-> | (b & _ & [-> | (c & _ & ->)])]); apply startswith_spec; eexists; reflexivity).
  change (In g (map (fun n => github_registry cache n src t reg) ["mcstas"; "mcxtrace"; "libc"])) in I.
  change (In g' (map (fun n => github_registry cache n src' t' reg') ["mcstas"; "mcxtrace"; "libc"])) in I'.
  apply in_map_iff in I as (n & <- & I). apply in_map_iff in I' as (n' & <- & I').
  assert (S : forall x, In x ["mcstas"; "mcxtrace"; "libc"] -> has_char "/" x = false)
    by (intros x [<- | [<- | [<- | []]]]; reflexivity).
  unfold kept_at, github_registry. cbn [g_dir g_name]. rewrite (V _ P), (V _ P'). rewrite !string_app_assoc.
  intros E. apply string_app_inj_l in E. apply string_app_inj_l in E.
  destruct (split_at _ _ _ _ (S _ I) (S _ I') E) as [-> E1]. destruct (split_at _ _ _ _ N N' E1) as [-> ->]. repeat split; reflexivity.
Qed.
Print Assumptions C81_kept_apart.
Example C81_places_example : exists gs g, pooch_registries "/c" "https://s" "https://r" "latest" (listing [entry_a; entry_b]) = Ok gs /\ In g gs
  /\ kept_at g "optics/Guide.comp" = "/c/mccode_antlr/mcstas/v3.5.31/optics/Guide.comp"
  /\ file_url g "optics/Guide.comp" = "https://s/raw/v3.5.31/optics/Guide.comp" /\ g_list_url g = "https://r/raw/v3.5.31/mcstas-registry.txt".
Proof. eexists. eexists. split; [vm_compute; reflexivity|]. split; [left; reflexivity|]. repeat split. Qed.
