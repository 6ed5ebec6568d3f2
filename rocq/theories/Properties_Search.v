(** C76: SEARCH statements and the texts that describe registries *)
From Coq Require Import List String Ascii Bool Arith Lia.
From Verif Require Import PyStr TextLines Expr Search.
From Verif Require Target Properties_RunCmd.
Import Target (words).
Import ListNotations.
Local Open Scope string_scope.
Local Open Scope list_scope.
Local Open Scope nat_scope.

(** ** the documented forms, registry.py:416-427 *)
Definition a_dir (f : fs) (p : string) : Prop := exists_ f p = true /\ is_dir f p = true.
Definition a_file (f : fs) (p : string) : Prop := exists_ f p = true /\ is_file f p = true.
Inductive describes (f : fs) (url_ok : string -> bool) (format : string -> string) : list string -> reg -> Prop :=
| D1 d : a_dir f d -> describes f url_ok format [d] (Local d (resolve f d))
| D2 n d : a_dir f d -> describes f url_ok format [n; d] (Local n (resolve f d))
| D3 n u p : ~ a_dir f u -> url_ok u = true -> a_file f p -> describes f url_ok format [n; u; p] (Module n u (resolve f p) (format u))
| D4 n u v p : ~ a_dir f u -> url_ok u = true -> ~ a_file f v ->
    describes f url_ok format [n; u; v; p] (GitHub n u v p (let b := (u ++ "/raw/" ++ v ++ "/")%string in if startswith "v" v then format b else b)).
(** a word of the text: no white space and not between quotation marks *)
Definition plain (w : string) : Prop := Properties_RunCmd.word w /\ has_char """" w = false.
Definition text (ws : list string) : string := join " " ws.

Lemma dec2 a b : a && b = true <-> a = true /\ b = true.
Proof. apply andb_true_iff. Qed.
Lemma not_dir f p : ~ a_dir f p -> exists_ f p && is_dir f p = false.
Proof. intro H. apply not_true_is_false. intro E. apply H. now apply dec2. Qed.
Lemma not_file f p : ~ a_file f p -> exists_ f p && is_file f p = false.
Proof. intro H. apply not_true_is_false. intro E. apply H. now apply dec2. Qed.
Lemma starts_q w : startswith q w = true -> has_char """" w = true.
Proof. intro H. apply startswith_spec in H as [r ->]. reflexivity. Qed.
Lemma unquote_plain w : has_char """" w = false -> unquote w = w.
Proof.
  intro P. unfold unquote. destruct (startswith q w) eqn:E; auto. apply starts_q in E. congruence.
Qed.
Lemma words_text ws : Forall plain ws -> words (text ws) = ws.
Proof. intro H. apply Properties_RunCmd.words_join. eapply Forall_impl; [|exact H]. intros a [A _]. exact A. Qed.
Lemma any_match_false f regs spec : words spec <> [] -> (any_match f regs spec = Ok false <-> Forall (fun r => registries_match f r spec = Ok false) regs).
Proof.
  intro N. induction regs as [|r t IH]; cbn [any_match]; [split; auto|]. unfold registries_match at 1.
  assert (T : exists b, registries_match f r spec = Ok b) by (unfold registries_match; destruct (words spec); [congruence|eauto]).
  destruct T as [b T]. fold (registries_match f r spec). rewrite T. cbn [rbind]. destruct b; split.
  - discriminate.
  - inversion 1. congruence.
  - intro H. constructor; [congruence|now apply IH].
  - inversion 1. now apply IH.
Qed.
Lemma any_match_true f regs spec : any_match f regs spec = Ok true -> exists r, In r regs /\ registries_match f r spec = Ok true.
Proof.
  induction regs as [|r t IH]; cbn [any_match]; [discriminate|]. destruct (registries_match f r spec) as [[]| |] eqn:E; try discriminate; cbn [rbind].
  - intros _. exists r. split; [now left|auto].
  - intro H. destruct (IH H) as (x & I & X). exists x. split; [now right|auto].
Qed.

(** which of the registries are taken to be the described one: those with the root or the
    base URL that the text gives *)
Definition same_place (f : fs) (ws : list string) (r : reg) : Prop :=
  match ws with
  | [d] => (exists_ f d = true /\ root_of r = Some (resolve f d)) \/ base_of r = Some d
  | [n; d] => (exists_ f d = true /\ root_of r = Some (resolve f d)) \/ base_of r = Some d
  | n :: u :: _ => (exists_ f n = true /\ root_of r = Some (resolve f n)) \/ base_of r = Some u
  | [] => False
  end.
Lemma same_spec a b : same a b = true <-> a = Some b.
Proof. unfold same. destruct a; [rewrite String.eqb_eq|]; split; congruence. Qed.
Lemma match_place f ws r : Forall plain ws -> ws <> [] ->
  (registries_match f r (text ws) = Ok true <-> same_place f ws r) /\ (registries_match f r (text ws) = Ok false <-> ~ same_place f ws r).
Proof.
  intros P N. unfold registries_match. rewrite words_text by assumption. destruct ws as [|w1 t]; [congruence|].
  set (b := (_ && _) || _).
  assert (B : b = true <-> same_place f (w1 :: t) r).
  { unfold b, same_place. rewrite orb_true_iff, andb_true_iff, !same_spec. destruct t as [|w2 [|w3 t]]; reflexivity. }
  destruct b; split; split; intro H; try discriminate; auto.
  - now apply B.
  - exfalso. now apply H, B.
  - apply B in H. discriminate.
  - intro Q. apply B in Q. discriminate.
Qed.

(* From Python: a text in one of the four documented forms puts the registry it describes in
   front of all others, unless one of them already has its place. *)
Theorem C76_documented_forms :
  forall f url_ok format can_load regs ws r,
    Forall plain ws -> describes f url_ok format ws r -> can_load r = true -> Forall (fun x => ~ same_place f ws x) regs ->
    handle_search f url_ok format can_load regs (text ws) = Ok (r :: regs).
Proof.
  intros f url_ok format can_load regs ws r P D C N. assert (NE : ws <> []) by (inversion D; discriminate).
  unfold handle_search. assert (A : any_match f regs (text ws) = Ok false).
  { apply any_match_false; [now rewrite words_text|]. eapply Forall_impl; [|exact N]. intros x X. now apply match_place. }
  rewrite A. cbn [rbind]. unfold from_specification. rewrite words_text by assumption.
  assert (U : forall w, In w ws -> unquote w = w) by (rewrite Forall_forall in P; intros w I; apply unquote_plain, P, I).
  destruct D as [d H|n d H|n u p ND UO HF|n u v p ND UO NF]; cbn [option_map]; rewrite ?U by (cbn; auto).
  - apply dec2 in H. rewrite H. reflexivity.
  - apply dec2 in H. rewrite H. reflexivity.
  - apply not_dir in ND. rewrite ND, UO. apply dec2 in HF. rewrite HF. cbn [negb]. unfold made. rewrite C. reflexivity.
  - apply not_dir in ND. rewrite ND, UO. apply not_file in NF. rewrite NF. cbn [negb]. unfold made, github_url. cbv zeta in C |- *. rewrite C. reflexivity.
Qed.
Print Assumptions C76_documented_forms.

(* A text of one or two words that is accepted leaves a registry of that place in the list,
   in front or where it was; no registry is lost or moved. *)
Theorem C76_accepted_place :
  forall f url_ok format can_load regs ws regs',
    Forall plain ws -> (List.length ws = 1 \/ List.length ws = 2) -> handle_search f url_ok format can_load regs (text ws) = Ok regs' ->
    exists r, In r regs' /\ (root_of r = Some (resolve f (last ws "")) \/ base_of r = Some (last ws "")) /\
      (regs' = regs \/ regs' = r :: regs /\ a_dir f (last ws "") /\ Forall (fun x => ~ same_place f ws x) regs).
Proof.
  intros f url_ok format can_load regs ws regs' P L H. assert (NE : ws <> []) by (destruct L as [L|L]; destruct ws; discriminate).
  unfold handle_search in H. destruct (any_match f regs (text ws)) as [[]| |] eqn:A; try discriminate; cbn [rbind] in H.
  - injection H as <-. apply any_match_true in A as (r & I & M). exists r. split; auto. split; auto.
    apply match_place in M; auto. destruct ws as [|w1 [|w2 [|]]]; cbn in L; try lia; cbn in M |- *; tauto.
  - assert (F : Forall (fun x => ~ same_place f ws x) regs).
    { apply any_match_false in A; [|now rewrite words_text]. eapply Forall_impl; [|exact A]. intros x X. now apply match_place in X. }
    unfold from_specification in H. rewrite words_text in H by assumption.
    assert (U : forall w, In w ws -> unquote w = w) by (rewrite Forall_forall in P; intros w I; apply unquote_plain, P, I).
    destruct ws as [|w1 [|w2 [|]]]; cbn in L; try lia; cbn [option_map last] in *; rewrite ?U in H by (cbn; auto).
    + destruct (exists_ f w1 && is_dir f w1) eqn:E; [|destruct (url_ok w1); discriminate]. cbn [rbind] in H. injection H as <-.
      eexists. split; [now left|]. split; [now left|]. right. apply dec2 in E. auto.
    + destruct (exists_ f w2 && is_dir f w2) eqn:E; [|destruct (url_ok w2); discriminate]. cbn [rbind] in H. injection H as <-.
      eexists. split; [now left|]. split; [now left|]. right. apply dec2 in E. auto.
Qed.
Print Assumptions C76_accepted_place.

(* Whatever the text, an accepted one adds at most one registry, in front. *)
Theorem C76_at_most_one :
  forall f url_ok format can_load regs spec regs', handle_search f url_ok format can_load regs spec = Ok regs' ->
    words spec <> [] /\ (regs' = regs \/ exists r, regs' = r :: regs).
Proof.
  intros f url_ok format can_load regs spec regs' H. unfold handle_search in H.
  destruct (words spec) as [|w t] eqn:W.
  - exfalso. assert (F : from_specification f url_ok format can_load spec = Ok None) by (unfold from_specification; now rewrite W).
    destruct (any_match f regs spec) as [[]| |] eqn:A; try discriminate; cbn [rbind] in H.
    + apply any_match_true in A as (r & _ & M). unfold registries_match in M. rewrite W in M. discriminate.
    + rewrite F in H. discriminate.
  - split; [discriminate|]. destruct (any_match f regs spec) as [[]| |]; try discriminate; cbn [rbind] in H; [left; congruence|].
    destruct (from_specification f url_ok format can_load spec) as [[r|]| |]; try discriminate. cbn [rbind] in H. right. exists r. congruence.
Qed.
Print Assumptions C76_at_most_one.

(** ** several statements *)
(* A directory, or a name and a directory, that was accepted is not added again; nor is a
   list of files under a URL. *)
Theorem C76_again :
  forall f url_ok format can_load regs ws regs',
    Forall plain ws -> 1 <= List.length ws <= 3 -> (List.length ws = 3 -> ~ a_dir f (nth 1 ws "") /\ format (nth 1 ws "") = nth 1 ws "") ->
    handle_search f url_ok format can_load regs (text ws) = Ok regs' ->
    handle_search f url_ok format can_load regs' (text ws) = Ok regs'.
Proof.
  intros f url_ok format can_load regs ws regs' P L F H. assert (NE : ws <> []) by (destruct ws; [cbn in L; lia|discriminate]).
  assert (G : forall r rs, same_place f ws r -> In r rs -> handle_search f url_ok format can_load rs (text ws) = Ok rs).
  { intros r rs S I. unfold handle_search. assert (A : any_match f rs (text ws) = Ok true); [|now rewrite A].
    destruct (any_match f rs (text ws)) as [[]| |] eqn:A; auto; exfalso.
    - apply any_match_false in A; [|now rewrite words_text]. rewrite Forall_forall in A. specialize (A _ I). apply match_place in A; auto.
    - clear -A P NE. induction rs as [|x t IH]; cbn [any_match] in A; [discriminate|]. destruct (registries_match f x (text ws)) as [[]| |] eqn:M; try discriminate; cbn [rbind] in A; auto.
      unfold registries_match in M. rewrite words_text in M by assumption. destruct ws; [congruence|discriminate].
    - clear -A P NE. induction rs as [|x t IH]; cbn [any_match] in A; [discriminate|]. destruct (registries_match f x (text ws)) as [[]| |] eqn:M; try discriminate; cbn [rbind] in A; auto.
      unfold registries_match in M. rewrite words_text in M by assumption. destruct ws; [congruence|discriminate]. }
  unfold handle_search in H. destruct (any_match f regs (text ws)) as [[]| |] eqn:A; try discriminate; cbn [rbind] in H.
  - injection H as <-. apply any_match_true in A as (r & I & M). apply match_place in M; auto. now apply (G r).
  - unfold from_specification in H. rewrite words_text in H by assumption.
    assert (U : forall w, In w ws -> unquote w = w) by (rewrite Forall_forall in P; intros w I; apply unquote_plain, P, I).
    destruct ws as [|w1 [|w2 [|w3 [|]]]]; cbn in L; try lia; cbn [option_map nth List.length] in *; rewrite ?U in H by (cbn; auto).
    + destruct (exists_ f w1 && is_dir f w1) eqn:E; [|destruct (url_ok w1); discriminate]. cbn [rbind] in H. injection H as <-.
      apply dec2 in E as [E _]. eapply G; [|now left]. left. auto.
    + destruct (exists_ f w2 && is_dir f w2) eqn:E; [|destruct (url_ok w2); discriminate]. cbn [rbind] in H. injection H as <-.
      apply dec2 in E as [E _]. eapply G; [|now left]. left. auto.
    + destruct (F eq_refl) as [ND FE]. rewrite (not_dir _ _ ND) in H. destruct (url_ok w2); [|discriminate]. cbn [negb] in H.
      destruct (exists_ f w3 && is_file f w3); [|discriminate]. unfold made in H. destruct (can_load _); [|discriminate]. cbn [rbind] in H. injection H as <-.
      eapply G; [|now left]. right. cbn. congruence.
Qed.
Print Assumptions C76_again.

(* Directories searched one after the other: each new one stands before all earlier ones and
   before all registries the reader had. *)
Theorem C76_later_first :
  forall f url_ok format can_load ds regs,
    Forall plain ds -> Forall (a_dir f) ds -> NoDup (map (resolve f) ds) ->
    (forall d r, In d ds -> In r regs -> root_of r <> Some (resolve f d) /\ base_of r <> Some d) ->
    search_all f url_ok format can_load regs ds = Ok (rev (map (fun d => Local d (resolve f d)) ds) ++ regs).
Proof.
  intros f url_ok format can_load ds. induction ds as [|d ds IH]; intros regs P D N C; [reflexivity|].
  inversion P as [|? ? P1 P2]; subst. inversion D as [|? ? D1 D2]; subst. inversion N as [|? ? N1 N2]; subst. cbn [search_all].
  assert (H : handle_search f url_ok format can_load regs d = Ok (Local d (resolve f d) :: regs)).
  { assert (E : text [d] = d) by reflexivity. rewrite <- E at 1. unfold handle_search.
    assert (A : any_match f regs (text [d]) = Ok false).
    { apply any_match_false; [rewrite words_text; [discriminate|auto]|]. apply Forall_forall. intros r I. apply match_place; [auto|discriminate|].
      destruct (C d r (or_introl eq_refl) I). cbn. tauto. }
    rewrite A. cbn [rbind]. unfold from_specification. rewrite words_text by auto. cbn [option_map]. rewrite unquote_plain by apply P1.
    apply dec2 in D1. rewrite D1. reflexivity. }
  rewrite H. cbn [rbind]. rewrite IH; auto.
  - cbn [map rev]. rewrite <- app_assoc. reflexivity.
  - intros d' r I [<-|J].
    + cbn. split; [|discriminate]. intros [= E]. apply N1. rewrite E. now apply in_map.
    + apply C; auto. now right.
Qed.
Print Assumptions C76_later_first.

(** ** SEARCH in an instrument file *)
Lemma but_last_app s c : but_last (s ++ String c "")%string = s.
Proof. induction s as [|a s IH]; [reflexivity|]. cbn [append but_last]. rewrite IH. destruct s; reflexivity. Qed.
Lemma unquote_literal s : unquote (literal s) = s.
Proof.
  unfold unquote, literal. assert (A : startswith q (q ++ s ++ q)%string = true) by (apply startswith_spec; eauto).
  assert (B : endswith q (q ++ s ++ q)%string = true) by (apply endswith_spec; exists (q ++ s)%string; now rewrite string_app_assoc).
  rewrite A, B. cbn [andb]. unfold q at 1. cbn [append]. apply but_last_app.
Qed.
Lemma no_space_app a b : Properties_Target.no_space (a ++ b)%string = Properties_Target.no_space a && Properties_Target.no_space b.
Proof. unfold Properties_Target.no_space. induction a as [|c a IH]; [reflexivity|]. cbn. rewrite IH. apply andb_assoc. Qed.
Lemma word_literal w : Properties_RunCmd.word w -> Properties_RunCmd.word (literal w).
Proof. intros [N S]. split; [discriminate|]. unfold literal. rewrite !no_space_app, S. reflexivity. Qed.
(** the quotation marks belong to the first and to the last word *)
Fixpoint last_quoted (ws : list string) : list string :=
  match ws with [] => [] | [w] => [(w ++ q)%string] | w :: t => w :: last_quoted t end.
Definition first_quoted (ws : list string) : list string := match ws with [] => [] | w :: t => (q ++ w)%string :: t end.
Lemma text_cons w t : t <> [] -> text (w :: t) = (w ++ " " ++ text t)%string.
Proof. destruct t; [congruence|reflexivity]. Qed.
Lemma last_quoted_nil ws : ws <> [] -> last_quoted ws <> [].
Proof. destruct ws as [|w [|]]; cbn; congruence. Qed.
Lemma text_last ws : ws <> [] -> (text ws ++ q)%string = text (last_quoted ws).
Proof.
  induction ws as [|w t IH]; [congruence|]. intros _. destruct t as [|x t]; [reflexivity|].
  rewrite text_cons by discriminate. change (last_quoted (w :: x :: t)) with (w :: last_quoted (x :: t)).
  rewrite (text_cons w (last_quoted (x :: t))) by (apply last_quoted_nil; discriminate). rewrite <- IH by discriminate. now rewrite !string_app_assoc.
Qed.
Lemma text_first w t : (q ++ text (w :: t))%string = text ((q ++ w)%string :: t).
Proof. destruct t as [|x t]; [reflexivity|]. rewrite (text_cons w), (text_cons (q ++ w)%string) by discriminate. now rewrite string_app_assoc. Qed.
Lemma literal_text w x t : literal (text (w :: x :: t)) = text ((q ++ w)%string :: last_quoted (x :: t)).
Proof.
  unfold literal. rewrite text_last by discriminate. change (last_quoted (w :: x :: t)) with (w :: last_quoted (x :: t)). apply text_first.
Qed.
Lemma words_literal w x t : Forall Properties_RunCmd.word (w :: x :: t) -> words (literal (text (w :: x :: t))) = (q ++ w)%string :: last_quoted (x :: t).
Proof.
  intro F. rewrite literal_text. apply Properties_RunCmd.words_join. inversion F as [|? ? [_ W] F']; subst. constructor.
  - split; [discriminate|]. rewrite no_space_app, W. reflexivity.
  - clear -F'. revert F'. generalize (x :: t). intro l. induction 1 as [|y l [Y1 Y2] F' IH]; [constructor|].
    assert (Properties_RunCmd.word (y ++ q)%string) by (split; [destruct y; cbn; discriminate|rewrite no_space_app, Y2; reflexivity]).
    destruct l as [|z l]; [constructor; auto|].
    change (last_quoted (y :: z :: l)) with (y :: last_quoted (z :: l)). constructor; [split; auto|exact IH].
Qed.

(* SEARCH with one directory: it is searched before everything else. *)
Theorem C76_search_directory :
  forall f url_ok format can_load regs d,
    plain d -> a_dir f d -> Forall (fun r => exists_ f (literal d) = false /\ base_of r <> Some (literal d)) regs ->
    search_path f url_ok format can_load regs d = Ok (Local d (resolve f d) :: regs).
Proof.
  intros f url_ok format can_load regs d [W Q] D N. unfold search_path, handle_search.
  assert (WL : words (literal d) = [literal d]) by (apply Properties_RunCmd.words_one, word_literal, W).
  assert (A : any_match f regs (literal d) = Ok false).
  { apply any_match_false; [now rewrite WL|]. eapply Forall_impl; [|exact N]. intros r [E B]. unfold registries_match. rewrite WL, E. cbn [andb orb].
    destruct (same (base_of r) (literal d)) eqn:S; auto. apply same_spec in S. contradiction. }
  rewrite A. cbn [rbind]. unfold from_specification. rewrite WL. cbn [option_map]. rewrite unquote_literal. apply dec2 in D. rewrite D. reflexivity.
Qed.
Print Assumptions C76_search_directory.

(* SEARCH with two words, or with three of which the second is no directory, is an error when
   no file and no URL has a quotation mark in its name: the marks stay on the words. *)
Theorem C76_search_of_words :
  forall f url_ok format can_load regs w x t regs',
    Forall plain (w :: x :: t) -> (t = [] \/ exists y, t = [y] /\ ~ a_dir f x) ->
    (forall p, has_char """" p = true -> exists_ f p = false) ->
    (forall r b, In r regs -> base_of r = Some b -> has_char """" b = false /\ b <> x) ->
    search_path f url_ok format can_load regs (text (w :: x :: t)) <> Ok regs'.
Proof.
  intros f url_ok format can_load regs w x t regs' P T NQ NB H. unfold search_path, handle_search in H.
  assert (F : Forall Properties_RunCmd.word (w :: x :: t)) by (eapply Forall_impl; [|exact P]; intros a [A _]; exact A).
  pose proof (words_literal w x t F) as WL.
  assert (QX : forall y, has_char """" (y ++ q)%string = true) by (intro y; rewrite has_char_app; cbn; apply orb_true_r).
  assert (QW : has_char """" (q ++ w)%string = true) by reflexivity.
  assert (UX : forall y, has_char """" y = false -> y <> "" -> unquote (y ++ q)%string = (y ++ q)%string).
  { intros y Y1 Y2. unfold unquote. destruct y as [|c y]; [congruence|]. cbn [has_char] in Y1. apply orb_false_iff in Y1 as [Y1 _].
    cbn [append startswith q]. destruct (Ascii.eqb """" c) eqn:E; [|reflexivity]. apply Ascii.eqb_eq in E. subst c. discriminate. }
  destruct (any_match f regs (literal (text (w :: x :: t)))) as [[]| |] eqn:A; try discriminate; cbn [rbind] in H.
  - apply any_match_true in A as (r & I & M). unfold registries_match in M. rewrite WL in M. injection M as M. apply orb_true_iff in M as [M|M].
    + apply andb_true_iff in M as [M _]. destruct T as [->|(y & -> & _)]; cbn [last_quoted] in M; [rewrite NQ in M by apply QX|rewrite NQ in M by exact QW]; discriminate.
    + destruct (base_of r) as [b|] eqn:B; [|discriminate]. destruct (NB _ _ I B) as [B1 B2]. apply String.eqb_eq in M.
      destruct T as [->|(y & -> & _)]; cbn [last_quoted] in M; [rewrite M, QX in B1; discriminate|contradiction].
  - unfold from_specification in H. rewrite WL in H.
    inversion P as [|? ? [PW PQ] P']; subst. inversion P' as [|? ? [XW XQ] P'']; subst.
    destruct T as [->|(y & -> & ND)]; cbn [last_quoted option_map] in H.
    + rewrite UX in H by (auto; apply XW). rewrite NQ in H by apply QX. cbn [andb] in H. destruct (url_ok _); discriminate.
    + rewrite (unquote_plain x XQ) in H. rewrite (not_dir _ _ ND) in H. destruct (url_ok x); [|discriminate]. cbn [negb] in H.
      inversion P'' as [|? ? [YW YQ] _]; subst. rewrite UX in H by (auto; apply YW). rewrite NQ in H by apply QX. discriminate.
Qed.
Print Assumptions C76_search_of_words.

(** ** SEARCH SHELL *)
Lemma search_all_app f url_ok format can_load l1 l2 : forall regs, search_all f url_ok format can_load regs (l1 ++ l2) =
  (do regs' <- search_all f url_ok format can_load regs l1 ; search_all f url_ok format can_load regs' l2).
Proof. induction l1 as [|s l1 IH]; intro regs; [reflexivity|]. cbn [app search_all]. destruct (handle_search _ _ _ _ regs s); cbn [rbind]; auto. Qed.
Lemma split_end c s : exists l, split_char c (s ++ String c "")%string = l ++ [""].
Proof.
  induction s as [|a s [l IH]].
  - exists [""]. cbn. now rewrite Ascii.eqb_refl.
  - cbn [append split_char]. destruct (Ascii.eqb a c); [exists ("" :: l); now rewrite IH|]. rewrite IH. destruct l as [|x l]; cbn.
    + exfalso. destruct (s ++ String c "")%string as [|b u] eqn:E; [destruct s; discriminate|]. clear -IH E.
      assert (L : forall s, List.length (split_char c (s ++ String c "")%string) >= 2).
      { clear. induction s as [|a s IH]; cbn [append split_char]; [rewrite Ascii.eqb_refl; cbn; lia|]. destruct (Ascii.eqb a c); cbn; [lia|].
        destruct (split_char c (s ++ String c "")); cbn in *; lia. }
      specialize (L s). rewrite E, IH in L. cbn in L. lia.
    + eexists (_ :: l). reflexivity.
Qed.
(* Output that ends with the end of a line, as that of nearly every command does, is an error. *)
Theorem C76_shell_last_line :
  forall f url_ok format can_load shell regs s script args o regs',
    words (literal s) = script :: args -> shell script args = Some (o ++ String newline_char "")%string ->
    search_shell f url_ok format can_load shell regs s <> Ok regs'.
Proof.
  intros f url_ok format can_load shell regs s script args o regs' W S H. unfold search_shell in H. rewrite W, S in H.
  destruct (split_end newline_char o) as [l E]. rewrite E, search_all_app in H. destruct (search_all f url_ok format can_load regs l) as [rs| |]; try discriminate.
  cbn [rbind search_all] in H. destruct (handle_search f url_ok format can_load rs "") as [rs'| |] eqn:B; try discriminate.
  apply C76_at_most_one in B as [B _]. now apply B.
Qed.
Print Assumptions C76_shell_last_line.

(* A command of one word that prints directories, one per line but without the end of the
   last line: they are searched, the last one first. *)
Theorem C76_shell_lines :
  forall f url_ok format can_load shell regs cmd ds,
    Properties_RunCmd.word cmd -> shell (literal cmd) [] = Some (join (String newline_char "") ds) -> ds <> [] ->
    Forall plain ds -> Forall (a_dir f) ds -> NoDup (map (resolve f) ds) ->
    (forall d r, In d ds -> In r regs -> root_of r <> Some (resolve f d) /\ base_of r <> Some d) ->
    search_shell f url_ok format can_load shell regs cmd = Ok (rev (map (fun d => Local d (resolve f d)) ds) ++ regs).
Proof.
  intros f url_ok format can_load shell regs cmd ds C S NE P D N R. unfold search_shell.
  rewrite (Properties_RunCmd.words_one _ (word_literal _ C)), S. rewrite split_char_join.
  - now apply C76_later_first.
  - exact NE.
  - eapply Forall_impl; [|exact P]. intros a [[A B] _]. unfold Properties_Target.no_space in B.
    clear -B. induction a as [|c a IH]; [reflexivity|]. cbn [list_ascii_of_string forallb has_char] in B |- *. apply andb_true_iff in B as [B1 B2].
    rewrite (IH B2), orb_false_r. apply Ascii.eqb_neq. intros ->. discriminate.
Qed.
Print Assumptions C76_shell_lines.

Fixpoint marks (s : string) : nat := match s with EmptyString => 0 | String c r => (if Ascii.eqb c """" then 1 else 0) + marks r end.
(* A command of several words is an error in a shell that refuses a script with an odd number
   of quotation marks: only the first word, with the mark before it, is the script. *)
Theorem C76_shell_of_words :
  forall f url_ok format can_load shell regs w x t,
    (forall script args, Nat.odd (marks script) = true -> shell script args = None) -> Forall plain (w :: x :: t) ->
    search_shell f url_ok format can_load shell regs (text (w :: x :: t)) = Raise /\ visit_shell shell (text (w :: x :: t)) = Raise.
Proof.
  intros f url_ok format can_load shell regs w x t SH P.
  assert (F : Forall Properties_RunCmd.word (w :: x :: t)) by (eapply Forall_impl; [|exact P]; intros a [A _]; exact A).
  assert (M : marks (q ++ w)%string = 1).
  { inversion P as [|? ? [_ Q] _]; subst. cbn. f_equal. clear -Q. induction w as [|c w IH]; [reflexivity|]. cbn in Q |- *. apply orb_false_iff in Q as [Q1 Q2].
    rewrite IH by assumption. now rewrite Q1. }
  split.
  - unfold search_shell. rewrite words_literal by assumption. rewrite SH by (rewrite M; reflexivity). reflexivity.
  - unfold visit_shell. rewrite literal_text. rewrite text_cons by (apply last_quoted_nil; discriminate). rewrite <- string_app_assoc.
    rewrite string_app_assoc. change (" " ++ text (last_quoted (x :: t)))%string with (String " " (text (last_quoted (x :: t)))).
    rewrite split_char_app.
    + rewrite SH by (rewrite M; reflexivity). reflexivity.
    + rewrite has_char_app. cbn. inversion F as [|? ? [_ W] _]; subst. clear -W. induction w as [|c w IH]; [reflexivity|].
      unfold Properties_Target.no_space in W. cbn [list_ascii_of_string forallb has_char] in W |- *. apply andb_true_iff in W as [W1 W2].
      rewrite (IH W2), orb_false_r. apply Ascii.eqb_neq. intros ->. discriminate.
Qed.
Print Assumptions C76_shell_of_words.

(** ** examples and findings *)
(** directories /a and lib (which is /a/lib), a file list.txt *)
Definition disk : fs := mkFs
  (fun p => (p =?s "/a") || (p =?s "lib") || (p =?s "list.txt")) (fun p => (p =?s "/a") || (p =?s "lib")) (fun p => p =?s "list.txt")
  (fun p => if p =?s "/a" then "/a" else ("/a/" ++ p)%string).
Definition http (u : string) : bool := startswith "http://" u.
Notation py_search := (handle_search disk http (fun s => s) (fun _ => true)).
Notation instr_search := (search_path disk http (fun s => s) (fun _ => true)).
Notation instr_search_shell := (search_shell disk http (fun s => s) (fun _ => true)).
Definition base : list reg := [GitHub "mcstas" "http://m" "v3" "mcstas-registry.txt" "http://m/raw/v3/"].
Lemma plain_by w : Properties_Target.no_space w = true -> w <> "" -> has_char """" w = false -> plain w.
Proof. intros. split; [split|]; auto. Qed.
Ltac plains := repeat (apply Forall_cons || apply Forall_nil); (apply plain_by; [reflexivity|discriminate|reflexivity]).
Example C76_documented_forms_example :
  Forall plain ["n"; "http://x/"; "list.txt"] /\ describes disk http (fun s => s) ["n"; "http://x/"; "list.txt"] (Module "n" "http://x/" "/a/list.txt" "http://x/") /\
  py_search base "n http://x/ list.txt" = Ok (Module "n" "http://x/" "/a/list.txt" "http://x/" :: base) /\
  py_search base "n http://x v1 f.txt" = Ok (GitHub "n" "http://x" "v1" "f.txt" "http://x/raw/v1/" :: base) /\
  py_search base "n lib" = Ok (Local "n" "/a/lib" :: base) /\ py_search base "lib" = Ok (Local "lib" "/a/lib" :: base).
Proof. split; [plains|]. split; [apply (D3 disk http (fun s => s) "n" "http://x/" "list.txt"); [intros [H _]; discriminate|reflexivity|split; reflexivity]|]. repeat split. Qed.
Example C76_accepted_place_example : py_search (Local "m" "/a/lib" :: base) "n lib" = Ok (Local "m" "/a/lib" :: base).
Proof. reflexivity. Qed.
Example C76_again_example :
  exists r, py_search base "n http://x/ list.txt" = Ok (r :: base) /\ py_search (r :: base) "n http://x/ list.txt" = Ok (r :: base).
Proof. exists (Module "n" "http://x/" "/a/list.txt" "http://x/"). split; vm_compute; reflexivity. Qed.
Example C76_later_first_example :
  search_all disk http (fun s => s) (fun _ => true) base ["lib"; "/a"] = Ok (Local "/a" "/a" :: Local "lib" "/a/lib" :: base) /\
  Forall plain ["lib"; "/a"] /\ NoDup (map (resolve disk) ["lib"; "/a"]).
Proof. split; [reflexivity|]. split; [plains|]. repeat constructor; cbn; intuition discriminate. Qed.
Example C76_search_directory_example : instr_search base "lib" = Ok (Local "lib" "/a/lib" :: base).
Proof. reflexivity. Qed.
Example C76_search_of_words_example : instr_search base "n lib" = Raise /\ instr_search base "n http://x/ list.txt" = Raise.
Proof. split; reflexivity. Qed.
(** a shell that knows one command *)
Definition sh (script : string) (args : list string) : option string :=
  if script =?s """dirs""" then Some ("lib" ++ String newline_char "/a")%string
  else if script =?s """lines""" then Some ("lib" ++ String newline_char "")%string else None.
Example C76_shell_lines_example :
  instr_search_shell sh base "dirs" = Ok (Local "/a" "/a" :: Local "lib" "/a/lib" :: base) /\
  instr_search_shell sh base "lines" = Raise /\ instr_search_shell sh base "dirs all" = Raise.
Proof. repeat split. Qed.

(* SEARCH with a name and a directory, the second documented form, is an error. *)
Theorem C76_search_named_directory_refuted :
  ~ forall f url_ok format can_load regs n d, plain n -> plain d -> a_dir f d ->
      exists regs', search_path f url_ok format can_load regs (text [n; d]) = Ok regs'.
Proof.
  intro H. destruct (H disk http (fun s => s) (fun _ => true) base "n" "lib") as [r R].
  - apply plain_by; [reflexivity|discriminate|reflexivity].
  - apply plain_by; [reflexivity|discriminate|reflexivity].
  - split; reflexivity.
  - vm_compute in R. discriminate.
Qed.
Print Assumptions C76_search_named_directory_refuted.
(* SEARCH with name, URL, version and file makes a registry whose name begins with a quotation
   mark and whose list of files is looked for under a name that ends with one. *)
Theorem C76_search_github_refuted :
  ~ forall f url_ok format can_load regs n u v p regs' r, Forall plain [n; u; v; p] ->
      search_path f url_ok format can_load regs (text [n; u; v; p]) = Ok (r :: regs') -> regs' = regs -> exists b, r = GitHub n u v p b.
Proof.
  intro H. destruct (H disk http (fun s => s) (fun _ => true) [] "n" "http://x" "v1" "f.txt" [] (GitHub """n" "http://x" "v1" "f.txt""" "http://x/raw/v1/")) as [b B]; auto.
  - plains.
  - discriminate.
Qed.
Print Assumptions C76_search_github_refuted.
(* The same SEARCH twice searches the directory twice: the comparison keeps the marks. *)
Theorem C76_search_again_refuted :
  ~ forall f url_ok format can_load regs d regs', plain d -> search_path f url_ok format can_load regs d = Ok regs' ->
      search_path f url_ok format can_load regs' d = Ok regs'.
Proof.
  intro H. specialize (H disk http (fun s => s) (fun _ => true) base "lib" (Local "lib" "/a/lib" :: base)).
  assert (X : instr_search (Local "lib" "/a/lib" :: base) "lib" = Ok (Local "lib" "/a/lib" :: base))
    by (apply H; [apply plain_by; [reflexivity|discriminate|reflexivity]|reflexivity]).
  vm_compute in X. discriminate.
Qed.
Print Assumptions C76_search_again_refuted.
(* From Python: a registry of the fourth form is added again, its base URL is not the one written. *)
Theorem C76_again_github_refuted :
  ~ forall f url_ok format can_load regs ws regs', Forall plain ws -> handle_search f url_ok format can_load regs (text ws) = Ok regs' ->
      handle_search f url_ok format can_load regs' (text ws) = Ok regs'.
Proof.
  intro H. specialize (H disk http (fun s => s) (fun _ => true) [] ["n"; "http://x"; "v1"; "f.txt"] [GitHub "n" "http://x" "v1" "f.txt" "http://x/raw/v1/"]).
  assert (X : py_search [GitHub "n" "http://x" "v1" "f.txt" "http://x/raw/v1/"] "n http://x v1 f.txt" = Ok [GitHub "n" "http://x" "v1" "f.txt" "http://x/raw/v1/"])
    by (apply H; [plains|reflexivity]).
  vm_compute in X. discriminate.
Qed.
Print Assumptions C76_again_github_refuted.
(* A description with a URL is passed over when its name is that of a searched directory. *)
Theorem C76_name_like_directory_refuted :
  ~ forall f url_ok format can_load regs ws r regs', Forall plain ws -> describes f url_ok format ws r -> ~ In r regs ->
      handle_search f url_ok format can_load regs (text ws) = Ok regs' -> In r regs'.
Proof.
  intro H. specialize (H disk http (fun s => s) (fun _ => true) [Local "lib" "/a/lib"] ["lib"; "http://x/"; "list.txt"]
    (Module "lib" "http://x/" "/a/list.txt" "http://x/") [Local "lib" "/a/lib"]).
  assert (X : In (Module "lib" "http://x/" "/a/list.txt" "http://x/") [Local "lib" "/a/lib"]).
  { apply H; [plains|apply (D3 disk http (fun s => s) "lib" "http://x/" "list.txt"); [intros [Q _]; discriminate|reflexivity|split; reflexivity]|intros [Q|[]]; discriminate|reflexivity]. }
  destruct X as [X|[]]. discriminate.
Qed.
Print Assumptions C76_name_like_directory_refuted.
(* A command that prints a directory and the end of the line is an error. *)
Theorem C76_shell_directory_refuted :
  ~ forall f url_ok format can_load shell regs cmd d, Properties_RunCmd.word cmd -> plain d -> a_dir f d ->
      shell (literal cmd) [] = Some (d ++ String newline_char "")%string ->
      exists regs', search_shell f url_ok format can_load shell regs cmd = Ok regs'.
Proof.
  intro H. destruct (H disk http (fun s => s) (fun _ => true) sh base "lines" "lib") as [r R].
  - split; [discriminate|reflexivity].
  - apply plain_by; [reflexivity|discriminate|reflexivity].
  - split; reflexivity.
  - reflexivity.
  - vm_compute in R. discriminate.
Qed.
Print Assumptions C76_shell_directory_refuted.
