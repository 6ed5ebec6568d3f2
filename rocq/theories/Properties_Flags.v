(* Property C25: dependency strings. *)
From Coq Require Import List String Ascii Bool Arith Lia.
From Verif Require Import PyStr Flags.
Import ListNotations.
Local Open Scope string_scope.
Local Open Scope list_scope.

(* text, argument, text, argument, ..., text *)
Fixpoint written (key : string) (segs : list (string * string)) (tail : string) : string :=
  match segs with
  | [] => tail
  | (t, a) :: r => (t ++ key ++ "(" ++ a ++ ")" ++ written key r tail)%string
  end.
Fixpoint expanded (worker : string -> option string) (segs : list (string * string)) (tail : string) : option string :=
  match segs with
  | [] => Some tail
  | (t, a) :: r => match worker a, expanded worker r tail with Some v, Some e => Some (t ++ v ++ e)%string | _, _ => None end
  end.
(* the key is not in the text between, arguments hold neither the key nor a parenthesis *)
Definition well_formed (key : string) (segs : list (string * string)) (tail : string) : Prop :=
  contains key tail = false /\
  Forall (fun s => contains key (fst s) = false /\ contains key (snd s) = false /\ has_char ")" (snd s) = false) segs.
Definition keyword (key : string) : Prop := key = "ENV" \/ key = "GETPATH" \/ key = "CMD".

Lemma keyword_shape key : keyword key -> exists c k, key = String c k /\ has_char c k = false.
Proof. intros [->|[->| ->]]; eexists _, _; split; reflexivity. Qed.

Lemma split_close a r : has_char ")" a = false -> split_once ")" (a ++ String ")" r)%string = Some (a, r).
Proof. intro H. apply split_once_some. auto. Qed.

Lemma replace_written key worker : keyword key -> forall segs tail fuel out, well_formed key segs tail ->
  String.length (written key segs tail) < fuel -> expanded worker segs tail = Some out ->
  replace_fuel key worker fuel (written key segs tail) = Done out.
Proof.
  intro HK. destruct (keyword_shape _ HK) as (c & k & -> & Hc).
  induction segs as [|[t a] segs IH]; intros tail fuel out [W1 W2] L E.
  - destruct fuel; [lia|]. cbn in *. injection E as <-. apply cut_none in W1. now rewrite W1.
  - inversion W2 as [|? ? (T & A & P) W3]; subst. cbn [fst snd] in *.
    destruct fuel as [|fuel]; [lia|]. cbn [replace_fuel written].
    rewrite cut_first by auto. cbn [append]. cbn [Ascii.eqb negb Bool.eqb]. 
    change (String ")" (written (String c k) segs tail)) with (String ")" (written (String c k) segs tail)).
    rewrite split_close by auto. rewrite A.
    cbn [expanded] in E. destruct (worker a) as [v|]; [|discriminate].
    destruct (expanded worker segs tail) as [e|] eqn:Ee; [|discriminate]. injection E as <-.
    rewrite (IH tail fuel e); auto.
    + split; auto.
    + cbn [written] in L. rewrite !string_app_length in L. cbn in L. rewrite ?string_app_length in L. cbn in L. lia.
Qed.

(* every well formed occurrence is replaced, everything else is left *)
Theorem C25_expands :
  forall key worker segs tail out, keyword key -> well_formed key segs tail ->
    expanded worker segs tail = Some out -> replace key worker (written key segs tail) = Done out.
Proof. intros key worker segs tail out HK W E. unfold replace. apply replace_written; auto. Qed.
Print Assumptions C25_expands.

(* and nothing else is accepted: a string that is expanded was well formed *)
Theorem C25_only_well_formed :
  forall key worker s out, keyword key -> replace key worker s = Done out ->
    exists segs tail, s = written key segs tail /\ well_formed key segs tail /\ expanded worker segs tail = Some out.
Proof.
  intros key worker s out HK. unfold replace. generalize (S (String.length s)). intro fuel. revert s out.
  destruct (keyword_shape _ HK) as (c & k & -> & Hc).
  induction fuel as [|fuel IH]; intros s out; cbn [replace_fuel]; [discriminate|].
  destruct (cut (String c k) s) as [[b a]|] eqn:C.
  - destruct a as [|x rest]; [discriminate|]. destruct (Ascii.eqb x "(") eqn:Ex; [|discriminate]. cbn [negb].
    apply Ascii.eqb_eq in Ex. subst x.
    destruct (split_once ")" rest) as [[dep r]|] eqn:Sp; [|discriminate].
    destruct (contains (String c k) dep) eqn:D; [discriminate|]. destruct (worker dep) as [v|] eqn:Wk; [|discriminate].
    destruct (replace_fuel (String c k) worker fuel r) as [t| | | |] eqn:R; try discriminate. intros [= <-].
    destruct (IH r t R) as (segs & tail & -> & [W1 W2] & E).
    apply split_once_some in Sp as [Sp P]. exists ((b, dep) :: segs), tail. split; [|split].
    + rewrite (cut_some _ _ _ _ C), Sp. reflexivity.
    + split; auto. constructor; auto. cbn. split; [|auto]. eapply (cut_before (String c k)); [discriminate|exact C].
    + cbn. now rewrite Wk, E.
  - intros [= <-]. exists [], s. split; auto. split; auto. split; [|constructor]. now apply cut_none.
Qed.
Print Assumptions C25_only_well_formed.

(* it always terminates, and the unrelated failure happens only at the end of the text *)
Theorem C25_terminates : forall key worker s, replace key worker s <> OutOfFuel.
Proof.
  intros key worker s. unfold replace. assert (L : String.length s < S (String.length s)) by lia. revert L.
  generalize (S (String.length s)) as fuel. intro fuel. revert s. induction fuel as [|fuel IH]; intros s L; [lia|].
  cbn [replace_fuel]. destruct (cut key s) as [[b a]|] eqn:C; [|discriminate].
  destruct a as [|x rest]; [discriminate|]. destruct (negb _); [discriminate|].
  destruct (split_once ")" rest) as [[dep r]|] eqn:Sp; [|discriminate]. destruct (contains key dep); [discriminate|].
  destruct (worker dep); [|discriminate].
  assert (Lr : String.length r < fuel).
  { apply split_once_some in Sp as [Sp _]. apply cut_some in C. subst rest s.
    rewrite !string_app_length in L. cbn in L. rewrite string_app_length in L. cbn in L. lia. }
  specialize (IH r Lr). destruct (replace_fuel key worker fuel r); discriminate || congruence.
Qed.
Print Assumptions C25_terminates.

Theorem C25_error_kinds_partial :
  forall key worker s, replace key worker s = IndexError -> endswith key s = true.
Proof.
  intros key worker s. unfold replace. generalize (S (String.length s)). intro fuel. revert s.
  induction fuel as [|fuel IH]; intro s; cbn [replace_fuel]; [discriminate|].
  destruct (cut key s) as [[b a]|] eqn:C; [|discriminate]. apply cut_some in C.
  destruct a as [|x rest].
  - intros _. apply endswith_spec. exists b. now rewrite C, string_app_nil_r.
  - destruct (negb _); [discriminate|]. destruct (split_once ")" rest) as [[dep r]|] eqn:Sp; [|discriminate].
    destruct (contains key dep); [discriminate|]. destruct (worker dep); [|discriminate].
    destruct (replace_fuel key worker fuel r) eqn:R; try discriminate. intros _.
    apply IH in R. apply endswith_spec in R as [l ->]. apply split_once_some in Sp as [-> _].
    apply endswith_spec. exists (b ++ key ++ String x (dep ++ String ")" l))%string. rewrite C.
    rewrite !string_app_assoc. cbn. rewrite !string_app_assoc. cbn. reflexivity.
Qed.
Print Assumptions C25_error_kinds_partial.

(* text in which no key occurs is unchanged by the three passes *)
Theorem C25_plain_text_unchanged :
  forall env getpath cmd s, contains "ENV" s = false -> contains "GETPATH" s = false -> contains "CMD" s = false ->
    expand env getpath cmd s = Done s.
Proof.
  intros env getpath cmd s A B C. unfold expand.
  assert (G : forall k w, contains k s = false -> replace k w s = Done s).
  { intros k w H. unfold replace. cbn [replace_fuel]. apply cut_none in H. now rewrite H. }
  now rewrite !G.
Qed.
Print Assumptions C25_plain_text_unchanged.

Example C25_expands_example :
  well_formed "ENV" [("-L", "HOME"); ("/lib -I", "INC")] "/x" /\
  replace "ENV" (fun a => if a =? "HOME" then Some "/home" else Some "/inc")%string "-LENV(HOME)/lib -IENV(INC)/x" = Done "-L/home/lib -I/inc/x".
Proof. split; [split; [reflexivity|repeat constructor]|reflexivity]. Qed.
Example C25_error_kinds_partial_example : replace "CMD" Some "-DCMD x" = ValueError.
Proof. reflexivity. Qed.

(* A key at the very end is an IndexError rather than the ValueError of a missing
   parenthesis. *)
Theorem C25_key_at_end_refuted : exists worker s, replace "ENV" worker s = IndexError.
Proof. exists Some, "-DENV". reflexivity. Qed.
Print Assumptions C25_key_at_end_refuted.

(* Expansions are expanded again: the value of an environment variable is run as a
   command. *)
Theorem C25_expansion_rescanned_refuted :
  exists env getpath cmd segs,
    expand env getpath cmd (written "ENV" segs "") <> match expanded env segs "" with Some s => Done s | None => WorkerError end.
Proof.
  exists (fun _ => Some "CMD(rm)"), Some, (fun _ => Some "ran"), [("", "X")]. vm_compute. discriminate.
Qed.
Print Assumptions C25_expansion_rescanned_refuted.
