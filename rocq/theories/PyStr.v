(* Python string operations used by the modelled code, over Coq's [string].
   Only ASCII text is modelled: one [ascii] per Python character. *)
From Coq Require Import String Ascii List Bool Arith Lia DecimalString DecimalNat.
Import ListNotations.
Local Open Scope string_scope.

Infix "=?s" := String.eqb (at level 70).

(* s.startswith(p) *)
Fixpoint startswith (p s : string) : bool :=
  match p, s with
  | EmptyString, _ => true
  | String a p', String b s' => Ascii.eqb a b && startswith p' s'
  | _, _ => false
  end.

Lemma startswith_spec p s : startswith p s = true <-> exists r, s = p ++ r.
Proof.
  revert s; induction p as [|a p IH]; intros s; simpl.
  - split; [exists s; reflexivity | reflexivity].
  - destruct s as [|b s].
    + split; [discriminate | intros [r H]; discriminate].
    + rewrite andb_true_iff, Ascii.eqb_eq, IH. split.
      * intros [-> [r ->]]. exists r; reflexivity.
      * intros [r H]. injection H as -> ->. split; [reflexivity | exists r; reflexivity].
Qed.

(* sub in s *)
Fixpoint contains (sub s : string) : bool :=
  startswith sub s || match s with EmptyString => false | String _ s' => contains sub s' end.

Lemma contains_spec sub s : contains sub s = true <-> exists l r, s = l ++ sub ++ r.
Proof.
  induction s as [|b s IH]; cbn [contains].
  - rewrite orb_false_r, startswith_spec. split.
    + intros [r H]. exists "", r. exact H.
    + intros (l & r & H). destruct l; [exists r; exact H | discriminate].
  - rewrite orb_true_iff, startswith_spec, IH. split.
    + intros [[r H] | (l & r & H)].
      * exists "", r. exact H.
      * exists (String b l), r. simpl. rewrite H. reflexivity.
    + intros (l & r & H). destruct l as [|c l].
      * left. exists r. exact H.
      * injection H as -> H. right. exists l, r. exact H.
Qed.

Lemma string_app_assoc (a b c : string) : (a ++ b) ++ c = a ++ (b ++ c).
Proof. induction a as [|x a IH]; simpl; [reflexivity | rewrite IH; reflexivity]. Qed.
Lemma string_app_nil_r (a : string) : a ++ "" = a.
Proof. induction a as [|x a IH]; simpl; [reflexivity | rewrite IH; reflexivity]. Qed.
Lemma string_app_length (a b : string) : String.length (a ++ b) = String.length a + String.length b.
Proof. induction a as [|x a IH]; simpl; [reflexivity | rewrite IH; reflexivity]. Qed.

Lemma string_app_inj_l (p a b : string) : p ++ a = p ++ b -> a = b.
Proof. induction p as [|x p IH]; simpl; intros H; [exact H | injection H as H; apply IH, H]. Qed.

Lemma string_app_inj_r (a b s : string) : a ++ s = b ++ s -> a = b.
Proof.
  revert b; induction a as [|x a IH]; intros b H.
  - destruct b as [|y b]; [reflexivity|].
    apply (f_equal String.length) in H. simpl in H. rewrite string_app_length in H. lia.
  - destruct b as [|y b].
    + apply (f_equal String.length) in H. simpl in H. rewrite string_app_length in H. lia.
    + simpl in H. injection H as -> H. f_equal. apply IH, H.
Qed.

(* s.endswith(p) *)
Fixpoint endswith (p s : string) : bool :=
  (p =?s s) || match s with EmptyString => false | String _ s' => endswith p s' end.

Lemma endswith_spec p s : endswith p s = true <-> exists l, s = l ++ p.
Proof.
  induction s as [|b s IH]; cbn [endswith].
  - rewrite orb_false_r, String.eqb_eq. split.
    + intros ->. exists "". reflexivity.
    + intros [l H]. destruct l; [symmetry; exact H | discriminate].
  - rewrite orb_true_iff, String.eqb_eq, IH. split.
    + intros [-> | [l ->]]; [exists "" | exists (String b l)]; reflexivity.
    + intros [l H]. destruct l as [|c l].
      * left. symmetry. exact H.
      * right. injection H as -> H. exists l. exact H.
Qed.

(* c in s for one character *)
Fixpoint has_char (c : ascii) (s : string) : bool :=
  match s with EmptyString => false | String a s' => Ascii.eqb a c || has_char c s' end.

Lemma has_char_app c a b : has_char c (a ++ b) = has_char c a || has_char c b.
Proof. induction a as [|x a IH]; simpl; [reflexivity | rewrite IH, orb_assoc; reflexivity]. Qed.

(* s.partition(c) for a one character separator: text before the first c and
   the text after it; [None] when c does not occur. *)
Fixpoint split_once (c : ascii) (s : string) : option (string * string) :=
  match s with
  | EmptyString => None
  | String a s' =>
      if Ascii.eqb a c then Some ("", s')
      else match split_once c s' with
           | Some (l, r) => Some (String a l, r)
           | None => None
           end
  end.

Lemma split_once_some c s l r :
  split_once c s = Some (l, r) <-> (s = l ++ String c r /\ has_char c l = false).
Proof.
  revert l r; induction s as [|a s IH]; intros l r; simpl.
  - split; [discriminate|]. intros [H _]. destruct l; discriminate.
  - destruct (Ascii.eqb a c) eqn:E.
    + apply Ascii.eqb_eq in E as ->. split.
      * intros H; injection H as <- <-. split; reflexivity.
      * intros [H Hl]. destruct l as [|x l].
        -- injection H as ->. reflexivity.
        -- injection H as -> H. simpl in Hl. rewrite Ascii.eqb_refl in Hl. discriminate.
    + destruct (split_once c s) as [[l' r']|] eqn:E2.
      * split.
        -- intros H; injection H as <- <-. destruct (proj1 (IH l' r') eq_refl) as [-> H2].
           simpl. rewrite E. split; [reflexivity | exact H2].
        -- intros [H Hl]. destruct l as [|x l].
           ++ injection H as -> _. rewrite Ascii.eqb_refl in E. discriminate.
           ++ injection H as -> H. simpl in Hl. rewrite E in Hl. simpl in Hl.
              assert (HH : split_once c s = Some (l, r)) by (rewrite E2; apply IH; split; assumption).
              rewrite E2 in HH. injection HH as -> ->. reflexivity.
      * split; [discriminate|]. intros [H Hl]. destruct l as [|x l].
        -- injection H as -> _. rewrite Ascii.eqb_refl in E. discriminate.
        -- injection H as -> H. simpl in Hl. rewrite E in Hl. simpl in Hl.
           assert (HH : None = Some (l, r)) by (apply IH; split; assumption). discriminate.
Qed.

Lemma split_once_none c s : split_once c s = None <-> has_char c s = false.
Proof.
  induction s as [|a s IH]; simpl; [split; reflexivity|].
  destruct (Ascii.eqb a c) eqn:E; simpl; [split; discriminate|].
  destruct (split_once c s) as [[l r]|].
  - split; [discriminate|]. intros H. apply IH in H. discriminate.
  - rewrite <- IH. split; reflexivity.
Qed.

(* s.lower() on ASCII *)
Definition lower_ascii (a : ascii) : ascii :=
  let n := nat_of_ascii a in
  if (Nat.leb 65 n && Nat.leb n 90)%bool then ascii_of_nat (n + 32) else a.
(** str.lower *)
Fixpoint lower (s : string) : string :=
  match s with EmptyString => "" | String a s' => String (lower_ascii a) (lower s') end.

(* sep.join(l) *)
Fixpoint join (sep : string) (l : list string) : string :=
  match l with
  | [] => ""
  | [x] => x
  | x :: r => x ++ sep ++ join sep r
  end.

(* s.split(c) for a one character separator *)
Fixpoint split_char (c : ascii) (s : string) : list string :=
  match s with
  | EmptyString => [""]
  | String a s' =>
      if Ascii.eqb a c then "" :: split_char c s'
      else match split_char c s' with
           | [] => [String a ""]
           | x :: r => String a x :: r
           end
  end.

Lemma split_char_nonempty c s : split_char c s <> [].
Proof.
  destruct s as [|a s]; simpl; [discriminate|].
  destruct (Ascii.eqb a c); [discriminate|]. destruct (split_char c s); discriminate.
Qed.

Lemma split_char_none c s : has_char c s = false -> split_char c s = [s].
Proof.
  induction s as [|a s IH]; simpl; [reflexivity|].
  destruct (Ascii.eqb a c); simpl; [discriminate|]. intros H. rewrite (IH H). reflexivity.
Qed.

Lemma split_char_app c a b : has_char c a = false ->
  split_char c (a ++ String c b) = a :: split_char c b.
Proof.
  induction a as [|x a IH]; simpl.
  - intros _. rewrite Ascii.eqb_refl. reflexivity.
  - destruct (Ascii.eqb x c); simpl; [discriminate|]. intros H. rewrite (IH H). reflexivity.
Qed.

Lemma split_char_join c (l : list string) :
  l <> [] -> Forall (fun s => has_char c s = false) l ->
  split_char c (join (String c "") l) = l.
Proof.
  induction l as [|x l IH]; [congruence|]. intros _ HF. inversion HF as [|? ? H1 H2]; subst.
  destruct l as [|y l].
  - simpl. apply split_char_none, H1.
  - change (join (String c "") (x :: y :: l)) with (x ++ String c (join (String c "") (y :: l))).
    rewrite split_char_app by exact H1. f_equal. apply IH; [discriminate | exact H2].
Qed.

(* str(n) for a natural number *)
Definition str_nat (n : nat) : string := NilZero.string_of_uint (Nat.to_uint n).

Lemma str_nat_inj n m : str_nat n = str_nat m -> n = m.
Proof.
  unfold str_nat. intros H.
  apply (f_equal NilZero.uint_of_string) in H.
  rewrite !NilZero.usu in H.
  - injection H as H. apply (f_equal Nat.of_uint) in H. rewrite !Unsigned.of_to in H. exact H.
  - intros E. pose proof (Unsigned.of_to m) as Hm. rewrite E in Hm. simpl in Hm. subst m. discriminate E.
  - intros E. pose proof (Unsigned.of_to n) as Hm. rewrite E in Hm. simpl in Hm. subst n. discriminate E.
Qed.

(* white space for str.strip() and str.split() without argument *)
Definition is_space (a : ascii) : bool :=
  let n := nat_of_ascii a in
  Nat.eqb n 32 || (Nat.leb 9 n && Nat.leb n 13) || (Nat.leb 28 n && Nat.leb n 31).

(** str.lstrip *)
Fixpoint lstrip (s : string) : string :=
  match s with
  | EmptyString => ""
  | String a s' => if is_space a then lstrip s' else s
  end.
(** str.rstrip *)
Fixpoint rstrip (s : string) : string :=
  match s with
  | EmptyString => ""
  | String a s' => match rstrip s' with
                   | EmptyString => if is_space a then "" else String a ""
                   | r => String a r
                   end
  end.
(** str.strip *)
Definition strip (s : string) : string := rstrip (lstrip s).

(* first character not white / last character not white (or empty) *)
Definition trimmed (s : string) : bool := (strip s =?s s).

Lemma rstrip_app_space s a : is_space a = true -> rstrip (s ++ String a "") = rstrip s.
Proof.
  intros H. induction s as [|b s IH]; simpl.
  - rewrite H. reflexivity.
  - rewrite IH. reflexivity.
Qed.
