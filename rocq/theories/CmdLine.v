(* Model of run/range.py:193-232 (command line parameters) and run/runner.py:58-73 (sort_args). *)
From Coq Require Import String Ascii List Bool ZArith QArith Lia Permutation.
From Verif Require Import PyStr Range Scan.
Import ListNotations.

(* Python dict with string keys: insertion ordered association list *)
Fixpoint dict_set {A} (d : list (string * A)) (k : string) (v : A) : list (string * A) :=
  match d with
  | [] => [(k, v)]
  | (k', v') :: r => if String.eqb k' k then (k', v) :: r else (k', v') :: dict_set r k v
  end.
(** d[k] *)
Fixpoint dict_get {A} (d : list (string * A)) (k : string) : option A :=
  match d with
  | [] => None
  | (k', v') :: r => if String.eqb k' k then Some v' else dict_get r k
  end.

Lemma dict_get_set {A} (d : list (string * A)) k v k' :
  dict_get (dict_set d k v) k' = if String.eqb k k' then Some v else dict_get d k'.
Proof.
  induction d as [|[a b] d IH]; simpl; [reflexivity|].
  destruct (String.eqb a k) eqn:E; simpl.
  - apply String.eqb_eq in E as ->. destruct (String.eqb k k'); reflexivity.
  - rewrite IH. destruct (String.eqb a k') eqn:E2; [|reflexivity].
    apply String.eqb_eq in E2 as ->. rewrite String.eqb_sym, E. reflexivity.
Qed.

Lemma dict_set_keys {A} (d : list (string * A)) k v :
  map fst (dict_set d k v) = if existsb (String.eqb k) (map fst d) then map fst d else map fst d ++ [k].
Proof.
  induction d as [|[a b] d IH]; simpl; [reflexivity|].
  rewrite (String.eqb_sym k a). destruct (String.eqb a k) eqn:E; simpl; [reflexivity|].
  rewrite IH. destruct (existsb (String.eqb k) (map fst d)); reflexivity.
Qed.

Lemma dict_set_NoDup {A} (d : list (string * A)) k v :
  NoDup (map fst d) -> NoDup (map fst (dict_set d k v)).
Proof.
  intros H. rewrite dict_set_keys. destruct (existsb (String.eqb k) (map fst d)) eqn:E; [exact H|].
  apply NoDup_app_disj; [exact H | constructor; [intros []|constructor] |].
  intros x Hx [<-|[]]. assert (existsb (String.eqb k) (map fst d) = true); [|congruence].
  apply existsb_exists. exists k. split; [exact Hx | apply String.eqb_refl].
Qed.

Section Parse.
(* run/range.py:193-196  _MRange_or_Singular: text to entry, may raise. The conversion of
   number texts is not modelled: it is an arbitrary partial function. *)
Variable conv : string -> option item.

(** the character that separates name and value, range.py:199-217 *)
Definition eq_char : ascii := "="%char.

(* run/range.py:199-217  parse_command_line_parameters; None is an exception *)
Fixpoint parse_cl (ws : list string) (ranges : list (string * item)) {struct ws} : option (list (string * item)) :=
  match ws with
  | [] => Some ranges
  | w :: r =>
      match split_once eq_char w with
      | Some (k, v) => match conv v with
                       | Some i => parse_cl r (dict_set ranges k i)
                       | None => None end
      | None => match r with
                | w2 :: r2 => if has_char eq_char w2 then None
                              else match conv w2 with
                                   | Some i => parse_cl r2 (dict_set ranges w i)
                                   | None => None end
                | [] => None
                end
      end
  end.
(** parse_command_line_parameters, range.py:199-217 *)
Definition parse_command_line (ws : list string) := parse_cl ws [].

(* run/range.py:220-232  parse_scan_parameters: open-ended Singulars repeat as often as the
   longest range; None is an exception *)
Definition scan_len (i : item) : option Z := match i with IRange r => mrange_len r | _ => Some 1%Z end.
(** range.py:220-232: a single value is repeated as often as needed *)
Definition close_singular (n : Z) (i : item) : item :=
  match i with ISing v None => ISing v (Some n) | _ => i end.
(** range.py:220-232 *)
Definition parse_scan_parameters (ws : list string) : option (list (string * item)) :=
  match parse_command_line ws with
  | None => None
  | Some ranges =>
      match mapM scan_len (map snd ranges) with
      | None => None
      | Some lens =>
          let n := match lens with [] => 1%Z | _ => maxZ lens end in
          Some (map (fun p => (fst p, close_singular n (snd p))) ranges)
      end
  end.

(* ---- specification: the words are a sequence of name=value words and name, value word pairs ---- *)
Inductive spells : list string -> list (string * string) -> Prop :=
| spells_nil : spells [] []
| spells_eq k v ws ps : has_char eq_char k = false ->
    spells ws ps -> spells ((k ++ String eq_char v)%string :: ws) ((k, v) :: ps)
| spells_two k v ws ps : has_char eq_char k = false -> has_char eq_char v = false ->
    spells ws ps -> spells (k :: v :: ws) ((k, v) :: ps).

(* the last pair with the name decides *)
Fixpoint last_value (k : string) (ps : list (string * string)) : option string :=
  match ps with
  | [] => None
  | (k', v) :: r => match last_value k r with
                    | Some w => Some w
                    | None => if String.eqb k' k then Some v else None
                    end
  end.

(** an exception is passed on *)
Definition obind {A B} (o : option A) (f : A -> option B) : option B :=
  match o with Some a => f a | None => None end.

Lemma parse_cl_spec : forall n ws d d', (length ws <= n)%nat -> parse_cl ws d = Some d' ->
  exists ps, spells ws ps /\ Forall (fun p => conv (snd p) <> None) ps /\
    (forall k, dict_get d' k = match last_value k ps with Some v => conv v | None => dict_get d k end) /\
    (NoDup (map fst d) -> NoDup (map fst d')).
Proof.
  induction n as [|n IH]; intros ws d d' Hn H.
  - destruct ws; [|simpl in Hn; lia]. injection H as <-. exists []. repeat split; auto; constructor.
  - destruct ws as [|w ws].
    + injection H as <-. exists []. repeat split; auto; constructor.
    + cbn [parse_cl] in H. destruct (split_once eq_char w) as [[k v]|] eqn:E.
      * apply split_once_some in E as [-> Hk].
        destruct (conv v) as [i|] eqn:Ec; [|discriminate].
        apply IH in H; [|simpl in Hn; lia]. destruct H as (ps & S & F & G & N).
        exists ((k, v) :: ps). split; [constructor; assumption|]. split; [constructor; [simpl; congruence | exact F]|].
        split; [|intros HN; apply N, dict_set_NoDup, HN].
        intros k'. rewrite G. simpl. destruct (last_value k' ps); [reflexivity|].
        rewrite dict_get_set. destruct (String.eqb k k'); [symmetry; exact Ec | reflexivity].
      * apply split_once_none in E. destruct ws as [|w2 ws]; [discriminate|].
        destruct (has_char eq_char w2) eqn:E2; [discriminate|].
        destruct (conv w2) as [i|] eqn:Ec; [|discriminate].
        apply IH in H; [|simpl in Hn; lia]. destruct H as (ps & S & F & G & N).
        exists ((w, w2) :: ps). split; [constructor; assumption|]. split; [constructor; [simpl; congruence | exact F]|].
        split; [|intros HN; apply N, dict_set_NoDup, HN].
        intros k'. rewrite G. simpl. destruct (last_value k' ps); [reflexivity|].
        rewrite dict_get_set. destruct (String.eqb w k'); [symmetry; exact Ec | reflexivity].
Qed.

(* every spelling is accepted when the values convert *)
Lemma parse_cl_complete ws ps : spells ws ps -> Forall (fun p => conv (snd p) <> None) ps ->
  forall d, parse_cl ws d <> None.
Proof.
  induction 1 as [|k v ws ps Hk HS IH|k v ws ps Hk Hv HS IH]; intros HF d.
  - discriminate.
  - inversion HF as [|? ? H1 H2]; subst. simpl in H1. cbn [parse_cl].
    replace (split_once eq_char (k ++ String eq_char v)) with (Some (k, v))
      by (symmetry; apply split_once_some; split; [reflexivity | exact Hk]).
    destruct (conv v); [apply IH, H2 | congruence].
  - inversion HF as [|? ? H1 H2]; subst. simpl in H1. cbn [parse_cl].
    replace (split_once eq_char k) with (@None (string * string)) by (symmetry; apply split_once_none, Hk).
    rewrite Hv. destruct (conv v); [apply IH, H2 | congruence].
Qed.

(* the reading of a word list is unique *)
Lemma spells_det ws ps ps' : spells ws ps -> spells ws ps' -> ps = ps'.
Proof.
  intros H. revert ps'. induction H as [|k v ws ps Hk HS IH|k v ws ps Hk Hv HS IH]; intros ps' H'.
  - inversion H'; reflexivity.
  - inversion H' as [|k' v' ws' ps1 Hk' HS' E|k' v' ws' ps1 Hk' Hv' HS' E]; subst.
    + assert (E1 : split_once eq_char (k ++ String eq_char v) = Some (k, v)) by (apply split_once_some; auto).
      assert (E2 : split_once eq_char (k' ++ String eq_char v') = Some (k', v')) by (apply split_once_some; auto).
      rewrite E in E2. rewrite E1 in E2. injection E2 as -> ->. f_equal. apply IH, HS'.
    + rewrite has_char_app in Hk'. apply orb_false_iff in Hk' as [_ Hk']. cbn [has_char] in Hk'.
      rewrite Ascii.eqb_refl in Hk'. discriminate.
  - inversion H' as [|k' v' ws' ps1 Hk' HS' E|k' v' ws' ps1 Hk' Hv' HS' E]; subst.
    + rewrite has_char_app in Hk. apply orb_false_iff in Hk as [_ Hk]. cbn [has_char] in Hk.
      rewrite Ascii.eqb_refl in Hk. discriminate.
    + f_equal. apply IH, HS'.
Qed.
End Parse.

(* ---------- run/runner.py:58-73  sort_args ---------- *)
Definition dash : string := "-".
(** runner.py:58-73: the word starts with a dash *)
Definition is_opt (w : string) : bool := startswith dash w.

(** runner.py:58-73, the loop *)
Fixpoint sort_loop (args : list string) (first last : list string) {struct args} : list string * list string :=
  match args with
  | [] => (first, last)
  | a :: r =>
      if is_opt a then
        if has_char eq_char a then sort_loop r (first ++ [a]) last
        else match r with
             | b :: r2 => if (negb (is_opt b) && negb (has_char eq_char b))%bool
                          then sort_loop r2 (first ++ [a; b]) last
                          else sort_loop r (first ++ [a]) last
             | [] => (first ++ [a], last)
             end
      else sort_loop r first (last ++ [a])
  end.
(** runner.py:58-73 *)
Definition sort_args (args : list string) : list string :=
  let (f, l) := sort_loop args [] [] in f ++ l.

(* specification: [front] marks the words that belong to options; a word is marked when it starts
   with '-', or directly follows an unmarked-argument option word (no '=') and is itself neither an
   option nor contains '=' *)
Fixpoint front (prev_takes_arg : bool) (ws : list string) : list bool :=
  match ws with
  | [] => []
  | w :: r =>
      if is_opt w then true :: front (negb (has_char eq_char w)) r
      else if (prev_takes_arg && negb (has_char eq_char w))%bool then true :: front false r
      else false :: front false r
  end.
(** specification: the words with a given mark *)
Fixpoint select {A} (b : bool) (mask : list bool) (l : list A) : list A :=
  match mask, l with
  | m :: ms, x :: r => if Bool.eqb m b then x :: select b ms r else select b ms r
  | _, _ => []
  end.

Lemma sort_loop_spec : forall n args f l, (length args <= n)%nat ->
  sort_loop args f l = (f ++ select true (front false args) args, l ++ select false (front false args) args).
Proof.
  induction n as [|n IH]; intros args f l Hn.
  - destruct args; [|simpl in Hn; lia]. simpl. rewrite !app_nil_r. reflexivity.
  - destruct args as [|a r]; [simpl; rewrite !app_nil_r; reflexivity|].
    cbn [sort_loop front]. destruct (is_opt a) eqn:Ea.
    + destruct (has_char eq_char a) eqn:Eq.
      * rewrite IH by (simpl in Hn; lia). cbn [negb select]. simpl. rewrite <- app_assoc. reflexivity.
      * destruct r as [|b r2]; [simpl; rewrite app_nil_r; reflexivity|].
        cbn [front negb]. destruct (is_opt b) eqn:Eb; cbn [negb andb].
        -- rewrite IH by (simpl in *; lia). cbn [front]. rewrite Eb. simpl. rewrite <- app_assoc. reflexivity.
        -- destruct (has_char eq_char b) eqn:Eqb; cbn [negb andb].
           ++ rewrite IH by (simpl in *; lia). cbn [front]. rewrite Eb. simpl. rewrite <- app_assoc. reflexivity.
           ++ rewrite IH by (simpl in *; lia). simpl. rewrite <- app_assoc. reflexivity.
    + rewrite IH by (simpl in Hn; lia). simpl. rewrite <- app_assoc. reflexivity.
Qed.

Lemma sort_args_spec args :
  sort_args args = select true (front false args) args ++ select false (front false args) args.
Proof. unfold sort_args. rewrite (sort_loop_spec (length args)) by lia. reflexivity. Qed.

Lemma select_perm {A} (mask : list bool) : forall l : list A, length mask = length l ->
  Permutation l (select true mask l ++ select false mask l).
Proof.
  induction mask as [|m mask IH]; intros l H; destruct l as [|x l]; try discriminate; simpl; [constructor|].
  injection H as H. destruct m; simpl.
  - constructor. apply IH, H.
  - apply Permutation_cons_app, IH, H.
Qed.
Lemma front_length ws : forall b, length (front b ws) = length ws.
Proof.
  induction ws as [|w ws IH]; intros b; simpl; [reflexivity|].
  destruct (is_opt w); [|destruct (b && _)%bool]; simpl; rewrite IH; reflexivity.
Qed.

Lemma sort_args_perm args : Permutation args (sort_args args).
Proof. rewrite sort_args_spec. apply select_perm. apply front_length. Qed.
