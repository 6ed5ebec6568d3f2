(** C37: the stored listing of a remote registry *)
From Coq Require Import List String Ascii Bool Arith Lia.
From Verif Require Import PyStr TextLines Stash.
Import ListNotations.
Local Open Scope string_scope.
Local Open Scope list_scope.
Local Open Scope nat_scope.

(** A listing that was stored completely is read back as it was *)
Theorem C37_complete_listing_is_read_back : forall d download, NoDup (map fst d) -> Forall entry d ->
  start (Some (stash d)) download = (Some d, false, Some (stash d)).
Proof. intros d download N F. unfold start. now rewrite (read_stash_stash d N F). Qed.
Print Assumptions C37_complete_listing_is_read_back.

(** What a first, uninterrupted, start leaves behind makes the second start use the same listing, if the download has clean lines *)
Theorem C37_second_start_agrees : forall download d, read_download download = Some d -> NoDup (map fst d) -> Forall entry d ->
  forall other, fst (fst (start (snd (start None download)) other)) = fst (fst (start None download)).
Proof. intros download d H N F other. cbn. rewrite H. cbn. now rewrite (read_stash_stash d N F). Qed.
Print Assumptions C37_second_start_agrees.
(** Blanks at a line's end are part of the value on the first start and are not on the following ones *)
Theorem C37_second_start_differs_refuted : exists download d d', fst (fst (start None download)) = Some d
  /\ fst (fst (start (snd (start None download)) download)) = Some d' /\ d <> d'.
Proof. exists ("a/b.comp 0f1e " +++ String nl "c/d.comp 2d3c"). eexists. eexists. vm_compute. split; [reflexivity|]. split; [reflexivity|]. discriminate. Qed.
Print Assumptions C37_second_start_differs_refuted.

(** An interruption before the file is opened does no harm *)
Theorem C37_interrupted_before_opening_partial : forall download d, read_download download = Some d ->
  fst (fst (start None download)) = Some d.
Proof. intros download d H. cbn. now rewrite H. Qed.
Print Assumptions C37_interrupted_before_opening_partial.

(** But an interruption at any point while the text is being written, for any listing, leaves a file with which the next start
    does not fetch and does not get the listing; the file stays as it is, so neither do all later starts. *)
Theorem C37_interrupted_write_refuted : forall download d p r, read_download download = Some d -> stash d = p +++ r -> r <> "" ->
  interrupted download (Some p) /\
  let '(listing, fetched, disk) := start (Some p) download in fetched = false /\ listing <> Some d /\ disk = Some p.
Proof.
  intros download d p r R E N. split; [exact (during download d p r R E)|]. cbn. repeat split. intro H. apply read_stash_size in H.
  assert (D : d <> []) by (intro; subst d; destruct p, r; try discriminate; contradiction).
  pose proof (stash_size d D) as S. rewrite E, string_app_length in S. destruct r; [contradiction|]. cbn in S. lia.
Qed.
Lemma nodup_app_l {A} (a b : list A) : NoDup (a ++ b) -> NoDup a.
Proof. induction a as [|x a IH]; cbn; intro H; [constructor|]. inversion H as [|? ? H1 H2]; subst. constructor; [|auto]. intro I. apply H1. apply in_or_app. now left. Qed.
Definition gap (a : listing) : string := match a with [] => "" | _ => String nl "" end.
Lemma stash_app a e b : stash (a ++ e :: b) = stash a +++ gap a +++ stash (e :: b).
Proof.
  induction a as [|x [|y a] IH]; [reflexivity|reflexivity|].
  change (stash ((x :: y :: a) ++ e :: b)) with ((fst x +++ " " +++ snd x) +++ String nl "" +++ stash ((y :: a) ++ e :: b)). rewrite IH.
  change (stash (x :: y :: a)) with ((fst x +++ " " +++ snd x) +++ String nl "" +++ stash (y :: a)). cbn [gap]. now rewrite !string_app_assoc.
Qed.
(** In particular an interruption between two lines leaves a listing that just lacks the remaining files, without any error *)
Theorem C37_files_silently_missing_refuted : forall download d a b, read_download download = Some d -> NoDup (map fst d) -> Forall entry d ->
  d = a ++ b -> interrupted download (Some (stash a)) /\ start (Some (stash a)) download = (Some a, false, Some (stash a)).
Proof.
  intros download d a b H N F ->. split.
  - destruct b as [|e b].
    + rewrite app_nil_r in *. apply (during download a (stash a) "" H). now rewrite string_app_nil_r.
    + eapply during; [exact H|]. apply stash_app.
  - rewrite map_app in N. apply nodup_app_l in N. apply Forall_app in F as [F _]. now apply C37_complete_listing_is_read_back.
Qed.
(** and one inside a file name makes every later start fail *)
Theorem C37_start_fails_forever_refuted : forall download a k r v b, let d := a ++ (k +++ r, v) :: b in
  read_download download = Some d -> NoDup (map fst d) -> Forall entry d -> k <> "" ->
  let disk := Some (stash a +++ gap a +++ k) in interrupted download disk /\ start disk download = (None, false, disk).
Proof.
  intros download a k r v b d H N F Nk disk. split.
  { assert (X : exists y, stash ((k +++ r, v) :: b) = k +++ y).
    { unfold stash. destruct b as [|e b]; cbn [map join fst snd]; rewrite !string_app_assoc; eauto. }
    destruct X as (y & X). apply (during download d _ y H). unfold d. rewrite stash_app, X. now rewrite !string_app_assoc. }
  apply Forall_app in F as [F Fk]. inversion Fk as [|? ? [[_ A] _] _]; subst. cbn [fst] in A. clear Fk.
  unfold d in N. rewrite map_app in N. apply nodup_app_l in N.
  assert (K : key k).
  { split; [exact Nk|]. clear - A. induction k as [|c k IH]; [reflexivity|]. cbn in *. apply andb_prop in A as [-> A]. auto. }
  unfold start, disk. f_equal. f_equal. unfold read_stash, readlines.
  assert (E : split_char nl (stash a +++ gap a +++ k) = map (fun kv => fst kv +++ " " +++ snd kv) a ++ [k]).
  { destruct a as [|e a]; [cbn; apply split_char_none; now apply key_oneline|]. unfold stash, gap.
    rewrite <- (split_char_join nl (map (fun kv => fst kv +++ " " +++ snd kv) (e :: a) ++ [k])).
    - f_equal. rewrite join_snoc by discriminate. reflexivity.
    - intro Q. apply app_eq_nil in Q as [Q _]. discriminate.
    - apply Forall_app. split; [|repeat constructor; now apply key_oneline]. rewrite Forall_map. revert F. apply Forall_impl. apply entry_line. }
  rewrite E, last_last. destruct (String.eqb_spec k ""); [contradiction|].
  rewrite map_app, (map_strip a F), pairs_app, (pairs_lines [] a N (entry_weak a F)). cbn [map].
  assert (S : strip k = k) by (apply all_nonspace_trim; apply K). rewrite S. cbn [pairs]. now rewrite (split1_key k K).
Qed.
Print Assumptions C37_interrupted_write_refuted.
Print Assumptions C37_files_silently_missing_refuted.
Print Assumptions C37_start_fails_forever_refuted.

Example C37_nonvacuous : let d := [("optics/Foo.comp", "0a1b"); ("share/x-lib.h", "ff00 https://host/x-lib.h")] in
  Forall entry d /\ NoDup (map fst d)
  /\ read_download (stash d +++ String nl "") = Some d
  /\ start (Some "optics/Foo.comp 0a1b") "" = (Some [("optics/Foo.comp", "0a1b")], false, Some "optics/Foo.comp 0a1b")
  /\ start (Some "optics/Fo") "" = (None, false, Some "optics/Fo")
  /\ start (Some "") "" = (Some [], false, Some "").
Proof.
  cbn zeta. split; [repeat constructor; try discriminate|]. split; [|vm_compute; repeat split].
  cbn. repeat constructor; cbn; intuition discriminate.
Qed.

(** A download that is no listing (an error page) stores nothing, so the next start fetches again and uses what it gets *)
Theorem C37_bad_download_is_not_kept : forall download, read_download download = None ->
  fst (fst (start None download)) = None /\
  forall other d, read_download other = Some d -> fst (start (snd (start None download)) other) = (Some d, true).
Proof. intros download H. unfold start at 1 3. rewrite H. split; [reflexivity|]. intros other d D. cbn. now rewrite D. Qed.
Print Assumptions C37_bad_download_is_not_kept.
Example C37_bad_nonvacuous : read_download "Forbidden" = None.
Proof. reflexivity. Qed.
