(** Text that the translator writes into C sources: string literals, macros and the lookup of components by name. *)
From Coq Require Import List String Ascii Bool NArith ZArith Arith Lia.
From Verif Require Import PyStr.
Import ListNotations.

(** * String literals
    A Python text is a list of code points, a C string a list of bytes. *)
Section Literals.
Local Open Scope N_scope.
(** a hexadecimal digit as Python's unicode-escape writes it (for common/utilities.py:1-4) *)
Definition hexd (d : N) : N := if d <? 10 then 48 + d else 87 + d.
(** k hexadecimal digits (for common/utilities.py:1-4) *)
Fixpoint hex (k : nat) (c : N) : list N := match k with O => [] | S k' => hex k' (c / 16) ++ [hexd (c mod 16)] end.
(** common/utilities.py:1-4 escape_str_for_c: the codec unicode-escape of Python, then a backslash before each double quote.
    The quotes of the result are those of the original, so both steps are done character by character. *)
Definition esc (c : N) : list N :=
  if c =? 92 then [92; 92] else if c =? 9 then [92; 116] else if c =? 10 then [92; 110] else if c =? 13 then [92; 114]
  else if c =? 34 then [92; 34]
  else if (32 <=? c) && (c <? 127) then [c]
  else if c <? 256 then 92 :: 120 :: hex 2 c
  else if c <? 65536 then 92 :: 117 :: hex 4 c
  else 92 :: 85 :: hex 8 c.
(** common/utilities.py:1-4 escape_str_for_c, all characters *)
Definition escape (s : list N) : list N := flat_map esc s.
(** the literal as written, e.g. translators/c_decls.py:82-83, c_header.py:296-300 *)
Definition literal (s : list N) : list N := 34 :: escape s ++ [34].

(** ** Reading by the rules of C (ISO C99 5.1.1.2, 5.2.1.1, 6.4.3, 6.4.4.4, 6.4.5), execution character set UTF-8.
    -std=c99 (config/platforms.yaml:6) makes the compiler replace trigraphs. *)
Definition trig (x : N) : option N :=
  if x =? 61 then Some 35 else if x =? 47 then Some 92 else if x =? 39 then Some 94 else if x =? 40 then Some 91 else if x =? 41 then Some 93
  else if x =? 33 then Some 124 else if x =? 60 then Some 123 else if x =? 62 then Some 125 else if x =? 45 then Some 126 else None.
(** ISO C99 5.1.1.2 phase 1 and 5.2.1.1 *)
Fixpoint trigraphs (l : list N) : list N :=
  match l with
  | a :: t => match t with
              | b :: x :: r => if (a =? 63) && (b =? 63) then match trig x with Some y => y :: trigraphs r | None => a :: trigraphs t end else a :: trigraphs t
              | _ => a :: trigraphs t end
  | [] => []
  end.
(** ISO C99 6.4.4.1, the value of a hexadecimal digit *)
Definition unhex (c : N) : option N :=
  if (48 <=? c) && (c <=? 57) then Some (c - 48) else if (97 <=? c) && (c <=? 102) then Some (c - 87) else if (65 <=? c) && (c <=? 70) then Some (c - 55) else None.
(** as many hexadecimal digits as there are, at most [k] if given *)
Fixpoint digits (k : option nat) (acc : N) (n : nat) (l : list N) : N * nat * list N :=
  match l with
  | c :: r => match k, unhex c with
              | Some O, _ | _, None => (acc, n, l)
              | Some (S k'), Some d => digits (Some k') (acc * 16 + d) (S n) r
              | None, Some d => digits None (acc * 16 + d) (S n) r end
  | [] => (acc, n, [])
  end.
(** ISO C99 6.4.4.4, at most k octal digits *)
Fixpoint octal (k : nat) (acc : N) (l : list N) : N * list N :=
  match k, l with
  | S k', c :: r => if (48 <=? c) && (c <=? 55) then octal k' (acc * 8 + (c - 48)) r else (acc, l)
  | _, _ => (acc, l)
  end.
(** the bytes of a character in the execution character set *)
Definition utf8 (c : N) : list N :=
  if c <? 128 then [c]
  else if c <? 2048 then [192 + c / 64; 128 + c mod 64]
  else if c <? 65536 then [224 + c / 4096; 128 + (c / 64) mod 64; 128 + c mod 64]
  else [240 + c / 262144; 128 + (c / 4096) mod 64; 128 + (c / 64) mod 64; 128 + c mod 64].
(** characters that may be written as \u or \U (6.4.3) *)
Definition ucn (c : N) : bool := ((160 <=? c) || (c =? 36) || (c =? 64) || (c =? 96)) && negb ((55296 <=? c) && (c <=? 57343)) && (c <=? 1114111).
(** ISO C99 6.4.4.4, simple escape sequences *)
Definition simple (e : N) : option N :=
  if e =? 110 then Some 10 else if e =? 116 then Some 9 else if e =? 114 then Some 13 else if e =? 97 then Some 7 else if e =? 98 then Some 8
  else if e =? 102 then Some 12 else if e =? 118 then Some 11
  else if (e =? 92) || (e =? 34) || (e =? 39) || (e =? 63) then Some e else None.
(** ISO C99 6.4.5, the characters up to the closing quote *)
Fixpoint chars (fuel : nat) (l : list N) : option (list N) :=
  match fuel with
  | O => None
  | S f =>
    match l with
    | [] => None
    | c :: r =>
      if c =? 34 then match r with [] => Some [] | _ => None end
      else if c =? 10 then None
      else if c =? 92 then
        match r with
        | [] => None
        | e :: r' =>
          if e =? 120 then let '(v, n, q) := digits None 0 0 r' in
                           if (n =? 0)%nat || (255 <? v) then None else option_map (cons v) (chars f q)
          else if (e =? 117) || (e =? 85) then
            let k := if e =? 117 then 4%nat else 8%nat in
            let '(v, n, q) := digits (Some k) 0 0 r' in
            if (n =? k)%nat && ucn v then option_map (app (utf8 v)) (chars f q) else None
          else if (48 <=? e) && (e <=? 55) then let (v, q) := octal 3 0 r in if 255 <? v then None else option_map (cons v) (chars f q)
          else match simple e with Some b => option_map (cons b) (chars f r') | None => None end
        end
      else option_map (app (utf8 c)) (chars f r)
    end
  end.
(** the bytes of the string a text denotes, None: it is not a string literal *)
Definition c_reads (l : list N) : option (list N) :=
  match trigraphs l with c :: r => if c =? 34 then chars (S (List.length r)) r else None | [] => None end.

(** ** Facts *)
Definition hexdigit (c : N) : bool := match unhex c with Some _ => true | None => false end.
Lemma unhex_hexd d : d < 16 -> unhex (hexd d) = Some d.
Proof.
  intro H. unfold hexd, unhex. destruct (N.ltb_spec d 10).
  - rewrite (proj2 (N.leb_le 48 (48 + d))), (proj2 (N.leb_le (48 + d) 57)) by lia. cbn [andb]. f_equal. lia.
  - rewrite (proj2 (N.leb_gt (87 + d) 57)) by lia. rewrite andb_false_r. rewrite (proj2 (N.leb_le 97 (87 + d))), (proj2 (N.leb_le (87 + d) 102)) by lia. cbn [andb]. f_equal. lia.
Qed.
Lemma digits_hex_some k c : forall j acc n r, c < 16 ^ N.of_nat k -> digits (Some (k + j)%nat) acc n (hex k c ++ r) = digits (Some j) (acc * 16 ^ N.of_nat k + c) (n + k) r.
Proof.
  revert c. induction k as [|k IH]; intros c j acc n r H.
  - cbn [hex app Nat.add]. change (16 ^ N.of_nat 0) with 1 in *. replace (acc * 1 + c) with acc by lia. now rewrite Nat.add_0_r.
  - cbn [hex]. rewrite <- app_assoc. rewrite Nat2N.inj_succ, N.pow_succ_r' in *. replace (S k + j)%nat with (k + S j)%nat by lia.
    rewrite IH by (apply N.div_lt_upper_bound; lia). cbn [app digits]. rewrite unhex_hexd by (apply N.mod_lt; lia).
    f_equal; [|lia]. pose proof (N.div_mod c 16 ltac:(lia)). lia.
Qed.
Lemma digits_hex_none k c : forall acc n r, c < 16 ^ N.of_nat k -> digits None acc n (hex k c ++ r) = digits None (acc * 16 ^ N.of_nat k + c) (n + k) r.
Proof.
  revert c. induction k as [|k IH]; intros c acc n r H.
  - cbn [hex app]. change (16 ^ N.of_nat 0) with 1 in *. replace (acc * 1 + c) with acc by lia. now rewrite Nat.add_0_r.
  - cbn [hex]. rewrite <- app_assoc. rewrite Nat2N.inj_succ, N.pow_succ_r' in *.
    rewrite IH by (apply N.div_lt_upper_bound; lia). cbn [app digits]. rewrite unhex_hexd by (apply N.mod_lt; lia).
    f_equal; [|lia]. pose proof (N.div_mod c 16 ltac:(lia)). lia.
Qed.
Lemma digits_zero acc n r : digits (Some O) acc n r = (acc, n, r).
Proof. destruct r; reflexivity. Qed.
Lemma digits_stop acc n r : match r with c :: _ => hexdigit c = false | [] => True end -> digits None acc n r = (acc, n, r).
Proof. destruct r as [|c r]; [reflexivity|]. unfold hexdigit. cbn [digits]. destruct (unhex c); [discriminate|reflexivity]. Qed.

(** a text without anything C reads differently *)
Definition control (c : N) : bool := ((c <? 32) && negb ((c =? 9) || (c =? 10) || (c =? 13))) || (c =? 127).
(** specification: characters outside the range 128-255 and the surrogates *)
Definition faithful (c : N) : bool := ((c <? 128) || (255 <? c)) && negb ((55296 <=? c) && (c <=? 57343)) && (c <=? 1114111).
(** specification: no control character before a hexadecimal digit *)
Fixpoint separated (s : list N) : bool :=
  match s with
  | c :: t => match t with d :: _ => negb (control c && hexdigit d) | [] => true end && separated t
  | [] => true
  end.
(** specification: no trigraph in the text *)
Fixpoint trigraph_free (l : list N) : bool :=
  match l with
  | a :: t => match t with b :: x :: _ => negb ((a =? 63) && (b =? 63) && match trig x with Some _ => true | None => false end) | _ => true end && trigraph_free t
  | [] => true
  end.
Lemma trigraphs_free l : trigraph_free l = true -> trigraphs l = l.
Proof.
  induction l as [|a t IH]; [reflexivity|]. intro H. cbn [trigraph_free] in H. apply andb_prop in H as [H Ht]. cbn [trigraphs].
  destruct t as [|b [|x r]]; try (f_equal; now apply IH). destruct ((a =? 63) && (b =? 63)); [|f_equal; now apply IH].
  destruct (trig x); [discriminate|]. f_equal. now apply IH.
Qed.
Lemma free_skip l r : Forall (fun c => c <> 63) l -> trigraph_free (l ++ r) = trigraph_free r.
Proof.
  induction 1 as [|a t Ha Ht IH]; [reflexivity|]. cbn [app trigraph_free]. rewrite IH. apply N.eqb_neq in Ha. rewrite Ha. cbn [andb negb].
  destruct (t ++ r) as [|b [|x q]]; reflexivity.
Qed.
Lemma hexd_not d : d < 16 -> hexd d <> 63.
Proof. intro H. unfold hexd. destruct (N.ltb_spec d 10); lia. Qed.
Lemma hex_not k c : Forall (fun c => c <> 63) (hex k c).
Proof.
  revert c. induction k as [|k IH]; intro c; cbn [hex]; [constructor|]. apply Forall_app. split; [apply IH|]. constructor; [|constructor]. apply hexd_not. apply N.mod_lt. lia.
Qed.
(** an escaped character is itself, or starts with a backslash and contains no question mark *)
Lemma esc_cases c : (esc c = [c] /\ c <> 34 /\ c <> 92 /\ 32 <= c < 127) \/ (exists t, esc c = 92 :: t /\ Forall (fun c => c <> 63) t /\ c <> 63 /\ trig c = None).
Proof.
  unfold esc.
  repeat match goal with |- context [if ?a =? ?b then _ else _] => destruct (N.eqb_spec a b) as [->|]; [right; eexists; split; [reflexivity|]; split; [repeat constructor; lia|]; split; [lia|reflexivity]|] end.
  destruct (N.leb_spec 32 c), (N.ltb_spec c 127); cbn [andb]; [left; repeat split; auto; lia|right..]; (assert (c <> 63) by lia); (assert (trig c = None) by
    (unfold trig; repeat match goal with |- context [if ?a =? ?b then _ else _] => destruct (N.eqb_spec a b); [lia|] end; reflexivity));
  (destruct (c <? 256); [eexists; split; [reflexivity|]; split; [constructor; [lia|apply hex_not]|auto]|]; destruct (c <? 65536); (eexists; split; [reflexivity|]; split; [constructor; [lia|apply hex_not]|auto])).
Qed.
Lemma escape_cons c s : escape (c :: s) = esc c ++ escape s. Proof. reflexivity. Qed.
Lemma escape_free s : trigraph_free (escape s ++ [34]) = trigraph_free s.
Proof.
  induction s as [|c s IH]; [reflexivity|]. rewrite escape_cons. destruct (esc_cases c) as [(-> & _)|(t & -> & F & N & _)].
  - cbn [app trigraph_free]. rewrite IH. f_equal. destruct s as [|b s]; [reflexivity|]. rewrite escape_cons.
    destruct (esc_cases b) as [(-> & _)|(t & -> & _ & Nb & _)].
    + cbn [app]. destruct s as [|x s]; [cbn; now rewrite ?andb_false_r|]. rewrite escape_cons. destruct (esc_cases x) as [(-> & _)|(u & -> & _ & _ & Tx)]; [reflexivity|].
      cbn [app]. rewrite Tx. cbn [trig]. change (trig 92) with (@None N). now rewrite !andb_false_r.
    + cbn [app]. apply N.eqb_neq in Nb. change (92 =? 63) with false. rewrite Nb, !andb_false_r. cbn [negb andb]. destruct ((t ++ escape s) ++ [34]); destruct s; reflexivity.
  - assert (F' : Forall (fun c => c <> 63) (92 :: t)) by (constructor; [discriminate|exact F]). rewrite <- app_assoc, (free_skip _ _ F'), IH. cbn [trigraph_free]. apply N.eqb_neq in N. rewrite N. cbn [andb negb].
    destruct s as [|b [|x s]]; reflexivity.
Qed.

Lemma first_of_escape s : match escape s ++ [34] with c :: _ => hexdigit c = match s with d :: _ => hexdigit d && negb (c =? 92) | [] => false end | [] => False end.
Proof.
  destruct s as [|d s]; [reflexivity|]. rewrite escape_cons. destruct (esc_cases d) as [(-> & _ & N & _)|(t & -> & _)]; cbn [app].
  - apply N.eqb_neq in N. now rewrite N, andb_true_r.
  - now rewrite andb_false_r.
Qed.
Lemma chars_escape s : forall fuel, (List.length (escape s) < fuel)%nat -> forallb faithful s = true -> separated s = true -> chars fuel (escape s ++ [34]) = Some (flat_map utf8 s).
Proof.
  induction s as [|c s IH]; intros fuel L F S.
  - destruct fuel; [inversion L|]. reflexivity.
  - cbn [forallb] in F. apply andb_prop in F as [Fc F]. cbn [separated] in S. apply andb_prop in S as [Sc S].
    rewrite escape_cons in *. rewrite app_length in L. rewrite <- app_assoc. cbn [flat_map].
    unfold faithful in Fc. apply andb_prop in Fc as [Fc Fm]. apply andb_prop in Fc as [Fc Fs].
    revert L Sc. unfold esc.
    destruct (N.eqb_spec c 92) as [->|N92]; [|destruct (N.eqb_spec c 9) as [->|N9]; [|destruct (N.eqb_spec c 10) as [->|N10]; [|destruct (N.eqb_spec c 13) as [->|N13]; [|destruct (N.eqb_spec c 34) as [->|N34]]]]];
      try (intros L _; cbn [List.length] in L; destruct fuel as [|f]; [inversion L|]; cbn [app chars]; cbn - [chars flat_map]; rewrite IH by (auto; lia); reflexivity).
    destruct ((32 <=? c) && (c <? 127)) eqn:P.
    + intros L _. apply andb_prop in P as [P1 P2]. apply N.leb_le in P1. apply N.ltb_lt in P2. cbn [List.length] in L. destruct fuel as [|f]; [inversion L|]. cbn [app chars].
      apply N.eqb_neq in N34, N10, N92. rewrite N34, N10, N92. rewrite IH by (auto; lia). reflexivity.
    + destruct (N.ltb_spec c 256) as [B|B].
      * intros L Sc. cbn [List.length] in L. destruct fuel as [|f]; [inversion L|]. cbn [app chars]. change (92 =? 34) with false. change (92 =? 10) with false. change (92 =? 92) with true. change (120 =? 120) with true. cbv iota.
        rewrite (digits_hex_none 2 c) by (change (16 ^ N.of_nat 2) with 256; lia). rewrite digits_stop.
        -- change ((0 + 2 =? 0)%nat) with false. replace (0 * 16 ^ N.of_nat 2 + c) with c by lia. rewrite (proj2 (N.ltb_ge 255 c)) by lia. cbn [orb]. rewrite IH by (auto; lia). cbn [option_map]. unfold utf8.
           destruct (N.ltb_spec c 128); [reflexivity|]. cbn [orb] in Fc. apply N.ltb_lt in Fc. lia.
        -- pose proof (first_of_escape s) as E. destruct (escape s ++ [34]) as [|d t]; [exact I|]. rewrite E. destruct s as [|x s']; [reflexivity|].
           assert (C : control c = true).
           { unfold control. assert (c < 128) by (apply orb_prop in Fc as [Fc|Fc]; apply N.ltb_lt in Fc; lia).
             apply N.eqb_neq in N9, N10, N13. rewrite N9, N10, N13. cbn [orb negb]. rewrite andb_true_r. apply andb_false_iff in P as [P|P]; [apply N.leb_gt in P; apply N.ltb_lt in P; now rewrite P|].
             apply N.ltb_ge in P. replace c with 127 by lia. reflexivity. }
           rewrite C in Sc. cbn [andb] in Sc. apply negb_true_iff in Sc. now rewrite Sc.
      * assert (U : ucn c = true) by (unfold ucn; rewrite (proj2 (N.leb_le 160 c)) by lia; cbn [orb andb]; now rewrite Fs, Fm).
        destruct (N.ltb_spec c 65536) as [B2|B2].
        -- intros L _. cbn [List.length] in L. destruct fuel as [|f]; [inversion L|]. cbn [app chars]. change (92 =? 34) with false. change (92 =? 10) with false. change (92 =? 92) with true. change (117 =? 120) with false. change (117 =? 117) with true. cbn [orb]. cbv iota.
           rewrite (digits_hex_some 4 c 0) by (change (16 ^ N.of_nat 4) with 65536; lia). rewrite digits_zero. replace (0 * 16 ^ N.of_nat 4 + c) with c by lia. rewrite U. change ((0 + 4 =? 4)%nat) with true. cbn [andb]. rewrite IH by (auto; lia). reflexivity.
        -- intros L _. cbn [List.length] in L. destruct fuel as [|f]; [inversion L|]. cbn [app chars]. change (92 =? 34) with false. change (92 =? 10) with false. change (92 =? 92) with true. change (85 =? 120) with false. change (85 =? 117) with false. change (85 =? 85) with true. cbn [orb]. cbv iota.
           apply N.leb_le in Fm. rewrite (digits_hex_some 8 c 0) by (change (16 ^ N.of_nat 8) with 4294967296; lia). rewrite digits_zero. replace (0 * 16 ^ N.of_nat 8 + c) with c by lia. rewrite U. change ((0 + 8 =? 8)%nat) with true. cbn [andb]. rewrite IH by (auto; lia). reflexivity.
Qed.
Lemma reads_literal s : forallb faithful s = true -> separated s = true -> trigraph_free s = true -> c_reads (literal s) = Some (flat_map utf8 s).
Proof.
  intros F S T. unfold c_reads, literal.
  assert (T' : trigraph_free (34 :: escape s ++ [34]) = true).
  { change (34 :: escape s ++ [34]) with ([34] ++ (escape s ++ [34])). rewrite free_skip by (repeat constructor; discriminate). now rewrite escape_free. }
  rewrite (trigraphs_free _ T'). change (34 =? 34) with true. cbv iota. apply chars_escape; auto. rewrite app_length. cbn. lia.
Qed.
(** the hexadecimal escape takes in the hexadecimal digits that follow in the text *)
Lemma digits_run s : forall acc n, exists ds s' v, s = ds ++ s' /\ digits None acc n (escape s ++ [34]) = (v, (n + List.length ds)%nat, escape s' ++ [34]) /\ (ds = [] -> v = acc /\ match s with d :: _ => hexdigit d = false | [] => True end).
Proof.
  induction s as [|c s IH]; intros acc n.
  - exists [], [], acc. cbn. rewrite Nat.add_0_r. auto.
  - rewrite escape_cons. destruct (esc_cases c) as [(E & H34 & H92 & _)|(t & E & _)].
    + destruct (unhex c) as [d|] eqn:U.
      * destruct (IH (acc * 16 + d) (S n)) as (ds & s' & v & -> & D & _). exists (c :: ds), s', v. split; [reflexivity|]. split; [|discriminate].
        rewrite E. cbn [app digits]. rewrite U, D. cbn [List.length]. now rewrite Nat.add_succ_r.
      * exists [], (c :: s), acc. split; [reflexivity|]. rewrite escape_cons, E. cbn [app digits List.length]. rewrite U, Nat.add_0_r. split; [reflexivity|]. intros _. split; [reflexivity|]. unfold hexdigit. now rewrite U.
    + exists [], (c :: s), acc. split; [reflexivity|]. rewrite escape_cons, E. cbn [app digits List.length]. rewrite Nat.add_0_r. split; [reflexivity|]. intros _. split; [reflexivity|].
      unfold esc in E. unfold hexdigit, unhex.
      repeat match type of E with context [if ?a =? ?b then _ else _] => destruct (N.eqb_spec a b) as [->|]; [reflexivity|] end.
      destruct ((32 <=? c) && (c <? 127)) eqn:P; [congruence|].
      replace ((48 <=? c) && (c <=? 57)) with false; [replace ((97 <=? c) && (c <=? 102)) with false; [replace ((65 <=? c) && (c <=? 70)) with false; [reflexivity|]|]|];
        (symmetry; apply andb_false_iff; apply andb_false_iff in P as [P|P]; [left; apply N.leb_gt in P; apply N.leb_gt; lia|right; apply N.ltb_ge in P; apply N.leb_gt; lia]).
Qed.
Lemma utf8_length c : (1 <= List.length (utf8 c))%nat /\ (List.length (utf8 c) = 1%nat -> c < 128).
Proof. unfold utf8. destruct (N.ltb_spec c 128); cbn; [auto|]. destruct (c <? 2048); cbn; [lia|]. destruct (c <? 65536); cbn; lia. Qed.
Lemma utf8s_length s : (List.length s <= List.length (flat_map utf8 s))%nat.
Proof. induction s as [|c s IH]; [auto|]. cbn [flat_map List.length]. rewrite app_length. pose proof (proj1 (utf8_length c)). lia. Qed.
Lemma low_faithful c : c < 128 -> faithful c = true.
Proof. intro H. unfold faithful. rewrite (proj2 (N.ltb_lt c 128) H), (proj2 (N.leb_gt 55296 c)) by lia. cbn [orb andb negb]. apply N.leb_le. lia. Qed.
Lemma separated_cons c s : control c = false -> separated (c :: s) = separated s.
Proof. intro C. cbn [separated]. rewrite C. destruct s; reflexivity. Qed.
Lemma printable_control c : 32 <= c -> c <> 127 -> control c = false.
Proof. intros A B. unfold control. rewrite (proj2 (N.ltb_ge c 32)) by lia. apply N.eqb_neq in B. now rewrite B. Qed.
Lemma chars_shorter k : forall s fuel bs, Forall (fun c => c <= 1114111) s -> (List.length s <= k)%nat -> chars fuel (escape s ++ [34]) = Some bs ->
  (List.length bs <= List.length (flat_map utf8 s))%nat /\ (List.length bs = List.length (flat_map utf8 s) -> forallb faithful s = true /\ separated s = true).
Proof.
  induction k as [|k IH]; intros s fuel bs Py K H.
  { destruct s; [|cbn in K; lia]. destruct fuel; [discriminate|]. cbn in H. injection H as <-. auto. }
  destruct s as [|c s]; [destruct fuel; [discriminate|]; cbn in H; injection H as <-; auto|].
  cbn [List.length] in K. inversion_clear Py as [|? ? Pc Ps]. rewrite escape_cons, <- app_assoc in H. cbn [flat_map]. rewrite app_length.
  (* one byte for a character that is not a control character *)
  assert (One : forall f, c < 128 -> control c = false -> forall b, option_map (cons b) (chars f (escape s ++ [34])) = Some bs ->
    (List.length bs <= List.length (utf8 c) + List.length (flat_map utf8 s))%nat /\ (List.length bs = (List.length (utf8 c) + List.length (flat_map utf8 s))%nat -> forallb faithful (c :: s) = true /\ separated (c :: s) = true)).
  { intros f C Cc b E. destruct (chars f (escape s ++ [34])) as [bs'|] eqn:X; [|discriminate]. injection E as <-. destruct (IH s f bs' Ps ltac:(lia) X) as [A B]. cbn [List.length].
    assert (L : List.length (utf8 c) = 1%nat) by (unfold utf8; rewrite (proj2 (N.ltb_lt _ _) C); reflexivity). split; [lia|]. intro Q. destruct (B ltac:(lia)) as [B1 B2]. cbn [forallb].
    rewrite (low_faithful c C), B1, (separated_cons c s Cc). auto. }
  destruct fuel as [|f]; [discriminate|]. revert H. unfold esc.
  destruct (N.eqb_spec c 92) as [->|N92]; [|destruct (N.eqb_spec c 9) as [->|N9]; [|destruct (N.eqb_spec c 10) as [->|N10]; [|destruct (N.eqb_spec c 13) as [->|N13]; [|destruct (N.eqb_spec c 34) as [->|N34]]]]];
    try (intro H; cbn [app chars] in H; cbn - [chars flat_map utf8 List.length forallb separated escape] in H; refine (One f _ _ _ H); [reflexivity|reflexivity]).
  destruct ((32 <=? c) && (c <? 127)) eqn:P.
  - apply andb_prop in P as [P1 P2]. apply N.leb_le in P1. apply N.ltb_lt in P2. intro H. cbn [app chars] in H. apply N.eqb_neq in N34, N10, N92. rewrite N34, N10, N92 in H. unfold utf8 at 1 in H. rewrite (proj2 (N.ltb_lt c 128)) in H by lia. cbn [app] in H.
    refine (One f _ _ c H); [lia|apply printable_control; lia].
  - destruct (N.ltb_spec c 256) as [B|B].
    + intro H. cbn [app chars] in H. change (92 =? 34) with false in H. change (92 =? 10) with false in H. change (92 =? 92) with true in H. change (120 =? 120) with true in H. cbv iota in H.
      rewrite (digits_hex_none 2 c) in H by (change (16 ^ N.of_nat 2) with 256; lia). replace (0 * 16 ^ N.of_nat 2 + c) with c in H by lia.
      destruct (digits_run s c (0 + 2)) as (ds & s' & v & -> & D & Q). rewrite D in H. destruct ((0 + 2 + List.length ds =? 0)%nat || (255 <? v)); [discriminate|].
      destruct (chars f (escape s' ++ [34])) as [bs'|] eqn:X; [|discriminate]. injection H as <-. rewrite app_length in K. destruct (IH s' f bs' (proj2 (proj1 (Forall_app _ _ _) Ps)) ltac:(lia) X) as [A A2].
      rewrite flat_map_app, app_length. pose proof (utf8_length c) as [U1 U2]. pose proof (utf8s_length ds). cbn [List.length]. split; [lia|]. intro Eq.
      assert (ds = []) by (destruct ds; [reflexivity|cbn [List.length] in *; lia]). subst ds. cbn [app flat_map List.length] in *. destruct (Q eq_refl) as [_ Hh]. destruct (A2 ltac:(lia)) as [A3 A4].
      cbn [forallb separated]. rewrite (low_faithful c) by (apply U2; lia). rewrite A3, A4. split; [reflexivity|]. destruct s' as [|d s']; [reflexivity|]. rewrite Hh, andb_false_r. reflexivity.
    + intro H. assert (Big : exists bs', option_map (app (utf8 c)) bs' = Some bs /\ ucn c = true /\ bs' = chars f (escape s ++ [34])).
      { destruct (N.ltb_spec c 65536) as [B2|B2].
        - cbn [app chars] in H. change (92 =? 34) with false in H. change (92 =? 10) with false in H. change (92 =? 92) with true in H. change (117 =? 120) with false in H. change (117 =? 117) with true in H. cbn [orb] in H. cbv iota in H.
          rewrite (digits_hex_some 4 c 0) in H by (change (16 ^ N.of_nat 4) with 65536; lia). rewrite digits_zero in H. replace (0 * 16 ^ N.of_nat 4 + c) with c in H by lia. change ((0 + 4 =? 4)%nat) with true in H. cbn [andb] in H. destruct (ucn c) eqn:U; [|discriminate]. eauto.
        - cbn [app chars] in H. change (92 =? 34) with false in H. change (92 =? 10) with false in H. change (92 =? 92) with true in H. change (85 =? 120) with false in H. change (85 =? 117) with false in H. change (85 =? 85) with true in H. cbn [orb] in H. cbv iota in H.
          rewrite (digits_hex_some 8 c 0) in H by (change (16 ^ N.of_nat 8) with 4294967296; lia). rewrite digits_zero in H. replace (0 * 16 ^ N.of_nat 8 + c) with c in H by lia. change ((0 + 8 =? 8)%nat) with true in H. cbn [andb] in H. destruct (ucn c) eqn:U; [|discriminate]. eauto. }
      destruct Big as (bs' & E & U & ->). destruct (chars f (escape s ++ [34])) as [bs'|] eqn:X; [|discriminate]. injection E as <-. destruct (IH s f bs' Ps ltac:(lia) X) as [A A2]. rewrite app_length. split; [lia|]. intro Q. destruct (A2 ltac:(lia)) as [A3 A4].
      cbn [forallb]. rewrite A3, (separated_cons c s) by (apply printable_control; lia). split; [|exact A4]. unfold ucn in U. apply andb_prop in U as [U U3]. apply andb_prop in U as [U1 U2]. unfold faithful. rewrite U2, U3, (proj2 (N.ltb_lt 255 c)) by lia. rewrite orb_true_r. reflexivity.
Qed.
End Literals.

(** translators/c_decls.py:63-70 nps: default value and unit of an instrument parameter. The replacement of line 68 writes a double quote for a double quote. *)
Section Nps.
Local Open Scope N_scope.
(** nps, translators/c_decls.py:63-69: quotes around the text unless it has them *)
Definition nps (z : list N) : list N :=
  match z with
  | c :: _ => if (c =? 34) && (List.last z 0 =? 34) then z else 34 :: z ++ [34]
  | [] => [34; 34]
  end.
(** a character that stands for itself in a C string *)
Definition itself (c : N) : bool := (32 <=? c) && (c <? 127) && negb (c =? 34) && negb (c =? 92).
Lemma itself_escape z : forallb itself z = true -> escape z = z.
Proof.
  induction z as [|c z IH]; [reflexivity|]. cbn [forallb]. intro H. apply andb_prop in H as [H Hz]. rewrite escape_cons, (IH Hz). unfold itself in H. apply andb_prop in H as [H H92]. apply andb_prop in H as [H H34]. apply andb_prop in H as [A B].
  apply negb_true_iff in H92, H34. unfold esc. rewrite H92, H34, A, B. apply N.leb_le in A. rewrite (proj2 (N.eqb_neq c 9)), (proj2 (N.eqb_neq c 10)), (proj2 (N.eqb_neq c 13)) by lia. reflexivity.
Qed.
Lemma itself_faithful z : forallb itself z = true -> forallb faithful z = true /\ separated z = true /\ flat_map utf8 z = z.
Proof.
  induction z as [|c z IH]; [auto|]. cbn [forallb flat_map]. intro H. apply andb_prop in H as [H Hz]. destruct (IH Hz) as (A & B & C). unfold itself in H. apply andb_prop in H as [H _]. apply andb_prop in H as [H _]. apply andb_prop in H as [X Y].
  apply N.leb_le in X. apply N.ltb_lt in Y. rewrite (low_faithful c) by lia. rewrite A, (separated_cons c z) by (apply printable_control; lia). rewrite C. unfold utf8. rewrite (proj2 (N.ltb_lt c 128)) by lia. auto.
Qed.
Lemma itself_literal z : forallb itself z = true -> trigraph_free z = true -> c_reads (34 :: z ++ [34]) = Some z.
Proof.
  intros H T. destruct (itself_faithful z H) as (A & B & C). rewrite <- C at 2. rewrite <- (reads_literal z A B T). unfold literal. now rewrite (itself_escape z H).
Qed.
End Nps.

(** * Macros
    What the preprocessor knows at each piece of user code of the generated source. *)
Local Open Scope string_scope.
Local Open Scope list_scope.
Local Open Scope nat_scope.
Notation "a +++ b" := (String.append a b) (at level 60, right associativity).

(** the sections of an instrument or component, instr/instr.py:28-31, comp/comp.py:23-30 *)
Inductive section := Init | Trace | Save | Final | Display.
(** the places of user code in the generated file, translators/target.py:140-177 *)
Inductive place :=
| PInstr (s : section)        (* a block of the instrument *)
| PComp (s : section) (k : nat) (* a block of the component type number k *)
| PExtend (k : nat)           (* the EXTEND blocks of the instances of a component type *)
| PRay.                       (* the generated ray tracing loops *)
Inductive item := Def (name body : string) | Undef (name : string) | Code (p : place).
(** the macros that are known at a place: name and replacement *)
Definition env := string -> option string.
(** the macro n becomes v, or is removed *)
Definition upd (e : env) (n : string) (v : option string) : env := fun m => if String.eqb m n then v else e m.
(** the preprocessor: a later #define replaces an earlier one, #undef removes it *)
Fixpoint leaves (e : env) (l : list item) : env :=
  match l with
  | [] => e
  | Def n b :: t => leaves (upd e n (Some b)) t
  | Undef n :: t => leaves (upd e n None) t
  | Code _ :: t => leaves e t
  end.
(** the macros known at the first piece of code with a given place *)
Fixpoint seen (e : env) (l : list item) : list (place * env) :=
  match l with
  | [] => []
  | Def n b :: t => seen (upd e n (Some b)) t
  | Undef n :: t => seen (upd e n None) t
  | Code p :: t => (p, e) :: seen e t
  end.

(** comp/comp.py: the names of a component type; [ct_declares] are those of its DECLARE block (c_listener), [ct_uservars] those of the particle.
    The flags say which sections have code, [ct_extended]: some instance has an EXTEND block. *)
Record ctype := CType { ct_define : list string; ct_setting : list string; ct_output : list string; ct_declares : list string; ct_uservars : list string;
                        ct_has : section -> bool; ct_extended : bool }.
(** what the translator knows of an instrument, instr/instr.py:20-34, translators/target.py:17-32 *)
Record source := Source { so_mcstas : bool; so_parameters : list string; so_has : section -> bool; so_uservars : list string; so_types : list ctype }.

(** c_defines.py:6-7, 10-11, 14-23 *)
Definition def_par (n : string) : item := Def n ("(_comp->_parameters." +++ n +++ ")").
(** c_defines.py:16 and 22, in that order *)
Definition ct_pars (c : ctype) : list string := ct_define c ++ ct_setting c ++ ct_output c ++ ct_declares c.
(** c_defines.py:14-17 *)
Definition parameter_define (c : ctype) : list item := map def_par (ct_pars c).
(** c_defines.py:20-23 *)
Definition parameter_undef (c : ctype) : list item := map Undef (ct_pars c).
(** c_initialise.py:299-322, c_save.py:46-69, c_finally.py:56-79, c_display.py:63-87: the function of a component type for a section *)
Definition comp_class (s : section) (k : nat) (c : ctype) : list item :=
  if ct_has c s then parameter_define c ++ [Code (PComp s k)] ++ parameter_undef c else [].
(** c_trace.py:99-186; dict.fromkeys of the declarators (they differ in name, C49) *)
Definition def_user (n : string) : item := Def n ("(_particle->" +++ n +++ ")").
(** c_trace.py:99-186, one component type *)
Definition comp_trace (so : source) (k : nat) (c : ctype) : list item :=
  if ct_extended c || ct_has c Trace
  then parameter_define c ++ [Code (PComp Trace k)]
       ++ (if ct_extended c then map def_user (so_uservars so ++ ct_uservars c) ++ [Code (PExtend k)] ++ map Undef (so_uservars so ++ ct_uservars c) else [])
       ++ parameter_undef c
  else [].
(** enumerate over the component types, e.g. c_trace.py:78-94 *)
Fixpoint each {A} (f : nat -> A -> list item) (k : nat) (l : list A) : list item := match l with [] => [] | c :: t => f k c ++ each f (S k) t end.
(** c_trace.py:5-13 *)
Definition runtime_parameters (mcstas : bool) : list string :=
  ["x"; "y"; "z"] ++ (if mcstas then ["vx"; "vy"; "vz"; "t"; "sx"; "sy"; "sz"; "p"; "mcgravitation"; "mcMagnet"; "allow_backprop"]
                      else ["kx"; "ky"; "kz"; "phi"; "t"; "Ex"; "Ey"; "Ez"; "p"]) ++ ["_mctmp_a"; "_mctmp_b"; "_mctmp_c"].
(** c_particle.py:1-2 *)
Definition restore_name (mcstas : bool) : string := if mcstas then "RESTORE_NEUTRON" else "RESTORE_XRAY".
(** c_trace.py:23-52 and 55-75 without the lines for OPENACC; RESTORE_... and mcget_run_num take arguments, which are left out *)
Definition trace_macros (mcstas : bool) : list (string * string) :=
  map (fun n => (n, "(_particle->" +++ n +++ ")")) (runtime_parameters mcstas)
  ++ [("SCATTERED", "(_particle->_scattered)"); ("RESTORE", "(_particle->_restore)"); ("ABSORBED", "(_particle->_absorbed)");
      (restore_name mcstas, "_particle->_restore = _index;"); ("mcget_run_num", "_particle->_uid");
      ("ABSORB0", "do { DEBUG_STATE(); DEBUG_ABSORB(); MAGNET_OFF; ABSORBED++; return(_comp); } while(0)"); ("ABSORB", "ABSORB0")].
(** c_trace.py:23-52 *)
Definition def_trace (mcstas : bool) : list item := map (fun '(n, b) => Def n b) (trace_macros mcstas).
(** c_trace.py:55-75 *)
Definition undef_trace (mcstas : bool) : list item :=
  map Undef (runtime_parameters mcstas ++ ["SCATTERED"; "RESTORE"; restore_name mcstas; "STORE_NEUTRON"; "ABSORBED"; "ABSORB"; "ABSORB0"]).
(** c_initialise.py:254-270, c_finally.py:24-38: code of the instrument; c_save.py:20-34: as these, without the closing parenthesis *)
Definition def_instr (s : section) (n : string) : item := Def n ("(instrument->_parameters." +++ n +++ match s with Save => "" | _ => ")" end).
(** c_initialise.py:254-270, c_save.py:20-34, c_finally.py:24-38 *)
Definition instr_code (so : source) (s : section) : list item :=
  if so_has so s then map (def_instr s) (so_parameters so) ++ [Code (PInstr s)] ++ map Undef (so_parameters so) else [].
(** c_display.py:6-20 *)
Definition shapes : list (string * string) :=
  map (fun n => (n, "mcdis_" +++ n)) ["magnify"; "line"; "dashed_line"; "multiline"; "rectangle"; "box"; "circle"; "cylinder"; "sphere"; "cone"; "polygon"; "polyhedron"].
(** c.py:387-401 with _instrument_and_component_uservars; target.py:140-177: order of the sections. Headers and libraries come before: they are the initial macros. *)
Definition all_uservars (so : source) : list string := so_uservars so ++ flat_map ct_uservars (so_types so).
(** c.py:375-377, c_initialise.py *)
Definition sec_init (so : source) : list item := each (comp_class Init) 0 (so_types so) ++ instr_code so Init.
(** c.py:379-383, c_trace.py:78-94 *)
Definition sec_trace (so : source) : list item := def_trace (so_mcstas so) ++ each (comp_trace so) 0 (so_types so).
(** c.py:385-405 *)
Definition sec_ray (so : source) : list item := map def_user (all_uservars so) ++ [Code PRay] ++ map Undef (all_uservars so) ++ undef_trace (so_mcstas so).
(** c.py:407-409, c_save.py *)
Definition sec_save (so : source) : list item := each (comp_class Save) 0 (so_types so) ++ instr_code so Save.
(** c.py:411-413, c_finally.py *)
Definition sec_final (so : source) : list item := each (comp_class Final) 0 (so_types so) ++ instr_code so Final.
(** c.py:415-417, c_display.py *)
Definition sec_display (so : source) : list item :=
  map (fun '(n, b) => Def n b) shapes ++ each (comp_class Display) 0 (so_types so) ++ map (fun '(n, _) => Undef n) shapes.
(** target.py:140-177, the sections in their order *)
Definition file (so : source) : list item := sec_init so ++ sec_trace so ++ sec_ray so ++ sec_save so ++ sec_final so ++ sec_display so.

(** ** Facts *)
Lemma leaves_app e a b : leaves e (a ++ b) = leaves (leaves e a) b.
Proof. revert e. induction a as [|[n x|n|p] a IH]; intro e; cbn; auto. Qed.
Lemma seen_app e a b : seen e (a ++ b) = seen e a ++ seen (leaves e a) b.
Proof. revert e. induction a as [|[n x|n|p] a IH]; intro e; cbn; auto. now rewrite IH. Qed.
(** the operator in of Python for names *)
Definition inb (n : string) (l : list string) : bool := existsb (String.eqb n) l.
Lemma inb_In n l : inb n l = true <-> In n l.
Proof. unfold inb. rewrite existsb_exists. split; [intros (x & H & E); apply String.eqb_eq in E; now subst|intro H; exists n; split; [exact H|apply String.eqb_refl]]. Qed.
Lemma inb_app n a b : inb n (a ++ b) = inb n a || inb n b.
Proof. unfold inb. apply existsb_app. Qed.
Lemma inb_not n l : inb n l = false <-> ~ In n l.
Proof. rewrite <- inb_In. destruct (inb n l); split; congruence. Qed.
(** specification: the replacement listed for a name *)
Definition lookup (l : list (string * string)) (n : string) : option string := option_map snd (find (fun kv => String.eqb n (fst kv)) l).
Lemma leaves_defs f l e n : leaves e (map (fun x => Def x (f x)) l) n = if inb n l then Some (f n) else e n.
Proof.
  revert e. induction l as [|x l IH]; intro e; [reflexivity|]. cbn [map leaves]. rewrite IH. unfold inb. cbn [existsb]. fold (inb n l). unfold upd. destruct (inb n l); [now rewrite orb_true_r|].
  destruct (String.eqb_spec n x) as [->|]; reflexivity.
Qed.
Lemma seen_defs f l e : seen e (map (fun x => Def x (f x)) l) = [].
Proof. revert e. induction l as [|x l IH]; intro e; [reflexivity|]. cbn. apply IH. Qed.
Lemma leaves_undefs l e n : leaves e (map Undef l) n = if inb n l then None else e n.
Proof.
  revert e. induction l as [|x l IH]; intro e; [reflexivity|]. cbn [map leaves]. rewrite IH. unfold inb. cbn [existsb]. fold (inb n l). unfold upd. destruct (inb n l); [now rewrite orb_true_r|].
  destruct (String.eqb_spec n x) as [->|]; reflexivity.
Qed.
Lemma seen_undefs l e : seen e (map Undef l) = [].
Proof. revert e. induction l as [|x l IH]; intro e; [reflexivity|]. cbn. apply IH. Qed.
Lemma leaves_pairs l e n : NoDup (map fst l) -> leaves e (map (fun '(x, b) => Def x b) l) n = match lookup l n with Some b => Some b | None => e n end.
Proof.
  revert e. induction l as [|[x b] l IH]; intros e H; [reflexivity|]. cbn [map leaves]. inversion_clear H as [|? ? Hx Hl]. rewrite (IH _ Hl). unfold lookup. cbn [find fst]. unfold upd. destruct (String.eqb_spec n x) as [->|]; [|reflexivity].
  assert (F : find (fun kv => String.eqb x (fst kv)) l = None).
  { destruct (find _ l) as [[y c]|] eqn:E; [|reflexivity]. apply find_some in E as [E1 E2]. cbn in E2. apply String.eqb_eq in E2. subst y. exfalso. apply Hx. change x with (fst (x, c)). now apply in_map. }
  rewrite F. reflexivity.
Qed.
Lemma seen_pairs l e : seen e (map (fun '(x, b) => Def x b) l) = [].
Proof. revert e. induction l as [|[x b] l IH]; intro e; [reflexivity|]. cbn. apply IH. Qed.
(** the replacement of a parameter of a component, c_defines.py:6-7 *)
Definition own (n : string) : string := "(_comp->_parameters." +++ n +++ ")".
(** the replacement of a user variable, c_trace.py:99-186 *)
Definition user (n : string) : string := "(_particle->" +++ n +++ ")".
Lemma leaves_define c e n : leaves e (parameter_define c) n = if inb n (ct_pars c) then Some (own n) else e n.
Proof. exact (leaves_defs own _ e n). Qed.
Lemma seen_define c e : seen e (parameter_define c) = []. Proof. exact (seen_defs own _ e). Qed.
Lemma leaves_undefine c e n : leaves e (parameter_undef c) n = if inb n (ct_pars c) then None else e n.
Proof. exact (leaves_undefs _ e n). Qed.
Lemma seen_undefine c e : seen e (parameter_undef c) = []. Proof. exact (seen_undefs _ e). Qed.
(** the names undone by the functions of a section *)
Definition undone (s : section) (l : list ctype) : list string := flat_map (fun c => if ct_has c s then ct_pars c else []) l.
Lemma undone_cons s c l n : inb n (undone s (c :: l)) = (ct_has c s && inb n (ct_pars c)) || inb n (undone s l).
Proof. unfold undone. cbn [flat_map]. rewrite inb_app. destruct (ct_has c s); reflexivity. Qed.
Lemma comp_class_leaves s k c e n : leaves e (comp_class s k c) n = if ct_has c s && inb n (ct_pars c) then None else e n.
Proof.
  unfold comp_class. destruct (ct_has c s); [|reflexivity]. rewrite leaves_app. cbn [app leaves]. rewrite leaves_undefine, leaves_define. cbn [andb]. now destruct (inb n (ct_pars c)).
Qed.
Lemma comp_class_seen s k c e : seen e (comp_class s k c) = if ct_has c s then [(PComp s k, leaves e (parameter_define c))] else [].
Proof.
  unfold comp_class. destruct (ct_has c s); [|reflexivity]. rewrite seen_app, seen_define. cbn [app seen]. now rewrite seen_undefine.
Qed.
Lemma class_leaves s l : forall k e n, leaves e (each (comp_class s) k l) n = if inb n (undone s l) then None else e n.
Proof.
  induction l as [|c l IH]; intros k e n; [reflexivity|]. cbn [each]. rewrite leaves_app, IH, comp_class_leaves, undone_cons. destruct (ct_has c s && inb n (ct_pars c)), (inb n (undone s l)); reflexivity.
Qed.
Lemma class_seen s l : forall k e p e', In (p, e') (seen e (each (comp_class s) k l)) ->
  exists j c, nth_error l j = Some c /\ p = PComp s (k + j) /\ forall n, e' n = if inb n (ct_pars c) then Some (own n) else if inb n (undone s (firstn j l)) then None else e n.
Proof.
  induction l as [|c l IH]; intros k e p e' H; [destruct H|]. cbn [each] in H. rewrite seen_app in H. apply in_app_or in H as [H|H].
  - rewrite comp_class_seen in H. destruct (ct_has c s); [|destruct H]. destruct H as [H|[]]. injection H as <- <-. exists 0, c. rewrite Nat.add_0_r. repeat split. intro n. apply leaves_define.
  - apply IH in H as (j & c' & N & -> & E). exists (S j), c'. split; [exact N|]. split; [f_equal; lia|]. intro n. rewrite E, comp_class_leaves. cbn [firstn]. rewrite undone_cons. destruct (inb n (ct_pars c')); [reflexivity|].
    destruct (ct_has c s && inb n (ct_pars c)), (inb n (undone s (firstn j l))); reflexivity.
Qed.
(** specification: the names undone by the trace function of a component type *)
Definition traced (so : source) (c : ctype) : list string :=
  if ct_extended c || ct_has c Trace then (if ct_extended c then so_uservars so ++ ct_uservars c else []) ++ ct_pars c else [].
(** specification: the names undone by all trace functions *)
Definition undone_trace (so : source) (l : list ctype) : list string := flat_map (traced so) l.
Lemma comp_trace_leaves so k c e n : leaves e (comp_trace so k c) n = if inb n (traced so c) then None else e n.
Proof.
  unfold comp_trace, traced. destruct (ct_extended c || ct_has c Trace); [|reflexivity]. rewrite !leaves_app, leaves_undefine. cbn [leaves]. destruct (ct_extended c).
  - rewrite leaves_app. cbn [app leaves]. rewrite leaves_undefs, (leaves_defs user), leaves_define, (inb_app n (so_uservars so ++ ct_uservars c)). destruct (inb n (ct_pars c)); [now rewrite orb_true_r|]. rewrite orb_false_r. now destruct (inb n (so_uservars so ++ ct_uservars c)).
  - cbn [leaves app]. rewrite leaves_define. now destruct (inb n (ct_pars c)).
Qed.
Lemma comp_trace_seen so k c e p e' : In (p, e') (seen e (comp_trace so k c)) ->
  (p = PComp Trace k /\ forall n, e' n = if inb n (ct_pars c) then Some (own n) else e n) \/
  (p = PExtend k /\ forall n, e' n = if inb n (so_uservars so ++ ct_uservars c) then Some (user n) else if inb n (ct_pars c) then Some (own n) else e n).
Proof.
  unfold comp_trace. destruct (ct_extended c || ct_has c Trace); [|intros []]. rewrite seen_app, seen_define. cbn [app seen]. intros [H|H].
  - injection H as <- <-. left. split; [reflexivity|]. intro n. apply leaves_define.
  - destruct (ct_extended c).
    + rewrite <- app_assoc, seen_app, (seen_defs user) in H. cbn [app seen] in H. destruct H as [H|H].
      * injection H as <- <-. right. split; [reflexivity|]. intro n. rewrite (leaves_defs user), leaves_define. reflexivity.
      * rewrite seen_app, seen_undefs in H. cbn [app] in H. rewrite seen_undefine in H. destruct H.
    + cbn [app] in H. rewrite seen_undefine in H. destruct H.
Qed.
Lemma trace_leaves so l : forall k e n, leaves e (each (comp_trace so) k l) n = if inb n (undone_trace so l) then None else e n.
Proof.
  induction l as [|c l IH]; intros k e n; [reflexivity|]. cbn [each]. rewrite leaves_app, IH, comp_trace_leaves. unfold undone_trace. cbn [flat_map]. rewrite inb_app. fold (undone_trace so l). destruct (inb n (traced so c)), (inb n (undone_trace so l)); reflexivity.
Qed.
Lemma trace_seen so l : forall k e p e', In (p, e') (seen e (each (comp_trace so) k l)) ->
  exists j c, nth_error l j = Some c /\
    let a n := if inb n (undone_trace so (firstn j l)) then None else e n in
    ((p = PComp Trace (k + j) /\ forall n, e' n = if inb n (ct_pars c) then Some (own n) else a n) \/
     (p = PExtend (k + j) /\ forall n, e' n = if inb n (so_uservars so ++ ct_uservars c) then Some (user n) else if inb n (ct_pars c) then Some (own n) else a n)).
Proof.
  induction l as [|c l IH]; intros k e p e' H; [destruct H|]. cbn [each] in H. rewrite seen_app in H. apply in_app_or in H as [H|H].
  - exists 0, c. rewrite Nat.add_0_r. split; [reflexivity|]. exact (comp_trace_seen so k c e p e' H).
  - apply IH in H as (j & c' & N & E). exists (S j), c'. split; [exact N|]. rewrite Nat.add_succ_r. cbn [firstn]. unfold undone_trace. cbn [flat_map]. fold (undone_trace so (firstn j l)).
    assert (A : forall n, (if inb n (undone_trace so (firstn j l)) then None else leaves e (comp_trace so k c) n) = if inb n (traced so c ++ undone_trace so (firstn j l)) then None else e n).
    { intro n. rewrite comp_trace_leaves, inb_app. destruct (inb n (traced so c)), (inb n (undone_trace so (firstn j l))); reflexivity. }
    cbv zeta in *. destruct E as [[-> E]|[-> E]]; [left|right]; (split; [reflexivity|]); intro n; rewrite E, A; reflexivity.
Qed.
Lemma instr_leaves so s e n : leaves e (instr_code so s) n = if so_has so s && inb n (so_parameters so) then None else e n.
Proof.
  unfold instr_code. destruct (so_has so s); [|reflexivity]. rewrite leaves_app. cbn [app leaves]. rewrite leaves_undefs, (leaves_defs (fun x => "(instrument->_parameters." +++ x +++ match s with Save => "" | _ => ")" end)). cbn [andb]. now destruct (inb n (so_parameters so)).
Qed.
Lemma instr_seen so s e p e' : In (p, e') (seen e (instr_code so s)) ->
  p = PInstr s /\ forall n, e' n = if inb n (so_parameters so) then Some ("(instrument->_parameters." +++ n +++ match s with Save => "" | _ => ")" end) else e n.
Proof.
  unfold instr_code. destruct (so_has so s); [|intros []]. rewrite seen_app, (seen_defs (fun x => "(instrument->_parameters." +++ x +++ match s with Save => "" | _ => ")" end)). cbn [app seen]. intros [H|H].
  - injection H as <- <-. split; [reflexivity|]. intro n. apply (leaves_defs (fun x => "(instrument->_parameters." +++ x +++ match s with Save => "" | _ => ")" end)).
  - rewrite seen_undefs in H. destruct H.
Qed.
(** the macros before each section *)
Definition after_init (so : source) (e : env) : env := leaves e (sec_init so).
(** specification: the macros within the trace section *)
Definition in_trace (so : source) (e : env) : env := leaves (after_init so e) (def_trace (so_mcstas so)).
(** specification: the macros after the trace section *)
Definition after_trace (so : source) (e : env) : env := leaves (in_trace so e) (each (comp_trace so) 0 (so_types so)).
(** specification: the macros after the ray tracing loops *)
Definition after_ray (so : source) (e : env) : env := leaves (after_trace so e) (sec_ray so).
(** specification: the macros after the save section *)
Definition after_save (so : source) (e : env) : env := leaves (after_ray so e) (sec_save so).
(** specification: the macros after the finally section *)
Definition after_final (so : source) (e : env) : env := leaves (after_save so e) (sec_final so).
(** specification: the macros within the display section *)
Definition in_display (so : source) (e : env) : env := leaves (after_final so e) (map (fun '(n, b) => Def n b) shapes).
Lemma trace_macros_nodup m : NoDup (map fst (trace_macros m)).
Proof. destruct m; cbn; repeat (constructor; [cbn; intuition discriminate|]); constructor. Qed.
Lemma shapes_nodup : NoDup (map fst shapes).
Proof. cbn; repeat (constructor; [cbn; intuition discriminate|]); constructor. Qed.
Lemma file_seen so e p e' : In (p, e') (seen e (file so)) ->
  In (p, e') (seen e (each (comp_class Init) 0 (so_types so))) \/
  In (p, e') (seen (leaves e (each (comp_class Init) 0 (so_types so))) (instr_code so Init)) \/
  In (p, e') (seen (in_trace so e) (each (comp_trace so) 0 (so_types so))) \/
  (p = PRay /\ forall n, e' n = if inb n (all_uservars so) then Some (user n) else after_trace so e n) \/
  In (p, e') (seen (after_ray so e) (each (comp_class Save) 0 (so_types so))) \/
  In (p, e') (seen (leaves (after_ray so e) (each (comp_class Save) 0 (so_types so))) (instr_code so Save)) \/
  In (p, e') (seen (after_save so e) (each (comp_class Final) 0 (so_types so))) \/
  In (p, e') (seen (leaves (after_save so e) (each (comp_class Final) 0 (so_types so))) (instr_code so Final)) \/
  In (p, e') (seen (in_display so e) (each (comp_class Display) 0 (so_types so))).
Proof.
  unfold file. rewrite !seen_app. fold (after_init so e). intro H. apply in_app_or in H as [H|H].
  { unfold sec_init in H. rewrite seen_app in H. apply in_app_or in H. tauto. }
  apply in_app_or in H as [H|H].
  { unfold sec_trace in H. rewrite seen_app in H. unfold def_trace in H. rewrite seen_pairs in H. cbn [app] in H. tauto. }
  assert (E : leaves (after_init so e) (sec_trace so) = after_trace so e) by (unfold sec_trace; rewrite leaves_app; reflexivity). rewrite E in H.
  apply in_app_or in H as [H|H].
  { unfold sec_ray in H. rewrite seen_app, (seen_defs user) in H. cbn [app seen] in H. destruct H as [H|H].
    - injection H as <- <-. do 3 right. left. split; [reflexivity|]. intro n. apply (leaves_defs user).
    - rewrite seen_app, seen_undefs in H. unfold undef_trace in H. rewrite seen_undefs in H. destruct H. }
  fold (after_ray so e) in H. apply in_app_or in H as [H|H].
  { unfold sec_save in H. rewrite seen_app in H. apply in_app_or in H. tauto. }
  fold (after_save so e) in H. apply in_app_or in H as [H|H].
  { unfold sec_final in H. rewrite seen_app in H. apply in_app_or in H. tauto. }
  fold (after_final so e) in H. unfold sec_display in H. rewrite seen_app, seen_pairs in H. cbn [app] in H. fold (in_display so e) in H. rewrite seen_app in H. apply in_app_or in H as [H|H]; [tauto|].
  assert (M : map (fun '(n, _) => Undef n) shapes = map Undef (map fst shapes)) by reflexivity. rewrite M, seen_undefs in H. destruct H.
Qed.
(** specification: the names without macro after the trace section, c_trace.py:55-75 *)
Definition undefined_trace (m : bool) : list string := runtime_parameters m ++ ["SCATTERED"; "RESTORE"; restore_name m; "STORE_NEUTRON"; "ABSORBED"; "ABSORB"; "ABSORB0"].
Lemma after_init_eq so e n : after_init so e n = if inb n (undone Init (so_types so)) || (so_has so Init && inb n (so_parameters so)) then None else e n.
Proof. unfold after_init, sec_init. rewrite leaves_app, instr_leaves, class_leaves. destruct (so_has so Init && inb n (so_parameters so)), (inb n (undone Init (so_types so))); reflexivity. Qed.
Lemma in_trace_eq so e n : in_trace so e n = match lookup (trace_macros (so_mcstas so)) n with Some b => Some b | None => after_init so e n end.
Proof. unfold in_trace, def_trace. apply leaves_pairs. apply trace_macros_nodup. Qed.
Lemma after_trace_eq so e n : after_trace so e n = if inb n (undone_trace so (so_types so)) then None else in_trace so e n.
Proof. apply trace_leaves. Qed.
Lemma after_ray_eq so e n : after_ray so e n = if inb n (undefined_trace (so_mcstas so)) || inb n (all_uservars so) then None else after_trace so e n.
Proof.
  unfold after_ray, sec_ray. rewrite leaves_app. cbn [app leaves]. rewrite leaves_app. unfold undef_trace. rewrite leaves_undefs, leaves_undefs, (leaves_defs user). fold (undefined_trace (so_mcstas so)).
  destruct (inb n (undefined_trace (so_mcstas so))), (inb n (all_uservars so)); reflexivity.
Qed.
Lemma after_save_eq so e n : after_save so e n = if inb n (undone Save (so_types so)) || (so_has so Save && inb n (so_parameters so)) then None else after_ray so e n.
Proof. unfold after_save, sec_save. rewrite leaves_app, instr_leaves, class_leaves. destruct (so_has so Save && inb n (so_parameters so)), (inb n (undone Save (so_types so))); reflexivity. Qed.
Lemma after_final_eq so e n : after_final so e n = if inb n (undone Final (so_types so)) || (so_has so Final && inb n (so_parameters so)) then None else after_save so e n.
Proof. unfold after_final, sec_final. rewrite leaves_app, instr_leaves, class_leaves. destruct (so_has so Final && inb n (so_parameters so)), (inb n (undone Final (so_types so))); reflexivity. Qed.
Lemma in_display_eq so e n : in_display so e n = match lookup shapes n with Some b => Some b | None => after_final so e n end.
Proof. unfold in_display. apply leaves_pairs. apply shapes_nodup. Qed.
Lemma file_leaves so e n : leaves e (file so) n = if inb n (map fst shapes) || inb n (undone Display (so_types so)) then None else in_display so e n.
Proof.
  unfold file. rewrite !leaves_app. fold (after_init so e). assert (E : leaves (after_init so e) (sec_trace so) = after_trace so e) by (unfold sec_trace; rewrite leaves_app; reflexivity). rewrite E.
  fold (after_ray so e). fold (after_save so e). fold (after_final so e). unfold sec_display. rewrite !leaves_app. fold (in_display so e).
  assert (M : map (fun '(n, _) => Undef n) shapes = map Undef (map fst shapes)) by reflexivity. rewrite M, leaves_undefs, class_leaves. destruct (inb n (map fst shapes)), (inb n (undone Display (so_types so))); reflexivity.
Qed.

(** * Lookup by name
    c_macros.py:1-53: the three generated functions as lists of lines. *)
Definition q : string := String """" "".
(** a line of the functions, c_macros.py:1-53 *)
Definition if_line (arg name result : string) : string := "  if (!strcmp(" +++ arg +++ ", " +++ q +++ name +++ q +++ ")) return " +++ result +++ ";".
(** enumerate *)
Fixpoint number {A} (k : nat) (l : list A) : list (nat * A) := match l with [] => [] | a :: t => (k, a) :: number (S k) t end.
(** c_macros.py:38-53 *)
Definition getcompindex (names : list string) : list string :=
  ["int _getcomp_index(char* compname)"; "/* Enables retrieving the component position & rotation when the index is not known.";
   " * Component indexing into MACROS, e.g., POS_A_COMP_INDEX, are 1-based! */"; "{"]
  ++ map (fun '(i, n) => if_line "compname" n (str_nat (1 + i))) (number 0 names) ++ ["  return -1;"; "}"; ""].
(** c_macros.py:1-19 *)
Definition getvarpars (names : list string) : list string :=
  ["void* _getvar_parameters(char* compname)"; "/* enables settings parameters based use of the GETPAR macro */"; "{";
   "  #ifdef OPENACC"; "    #define strcmp(a,b) str_comp(a,b)"; "  #endif"]
  ++ map (fun n => if_line "compname" n ("(void *) &(_" +++ n +++ "_var._parameters)")) names ++ ["  return 0;"; "}"; ""].
(** c_macros.py:22-35 *)
Definition getparticlevar (uservars : list string) : list string :=
  ["void* _get_particle_var(char *token, _class_particle *p)"; "/* enables setpars based use of GET_PARTICLE_DVAR macro and similar */"; "{"]
  ++ map (fun n => if_line "token" n ("(void *) &(p->" +++ n +++ ")")) uservars ++ ["  return 0;"; "}"; ""].

(** ** A reader of such functions: the C statements if (!strcmp(arg, literal)) return expression; and return expression; *)
Definition after (p s : string) : option string := if startswith p s then Some (String.substring (String.length p) (String.length s - String.length p) s) else None.
(** what a statement of such a function does: go on, return, or not understood *)
Inductive outcome := Goes | Returns (e : string) | Stuck.
(** a line, read as a C statement *)
Definition statement (arg x line : string) : outcome :=
  match after ("  if (!strcmp(" +++ arg +++ ", " +++ q) line with
  | Some r => match split_once """" r with
              | Some (name, r') => match after ")) return " r' with
                                   | Some r'' => match split_once ";" r'' with
                                                 | Some (e, EmptyString) => if has_char "\" name then Stuck else if String.eqb x name then Returns e else Goes
                                                 | _ => Stuck end
                                   | None => Stuck end
              | None => Stuck end
  | None => match after "  return " line with
            | Some r => match split_once ";" r with Some (e, EmptyString) => Returns e | _ => Stuck end
            | None => if startswith "#" (lstrip line) then Goes else Stuck end
  end.
(** the statements up to the first return *)
Fixpoint body (arg x : string) (ls : list string) : option string :=
  match ls with
  | [] => None
  | l :: t => match statement arg x l with Goes => body arg x t | Returns e => Some e | Stuck => None end
  end.
(** the value of a call with the text [x] *)
Fixpoint call (arg x : string) (ls : list string) : option string :=
  match ls with [] => None | l :: t => if String.eqb l "{" then body arg x t else call arg x t end.

(** a name of a component or variable *)
Definition plain (n : string) : Prop := has_char """" n = false /\ has_char "\" n = false /\ has_char ";" n = false.
Lemma substring_all s : String.substring 0 (String.length s) s = s.
Proof. induction s as [|a s IH]; [reflexivity|]. cbn. now rewrite IH. Qed.
Lemma after_app p s : after p (p +++ s) = Some s.
Proof.
  unfold after. assert (H : startswith p (p +++ s) = true) by (apply startswith_spec; now exists s). rewrite H. f_equal. rewrite string_app_length. replace (String.length p + String.length s - String.length p) with (String.length s) by lia. clear H.
  induction p as [|a p IH]; [apply substring_all|]. cbn. exact IH.
Qed.
Lemma split_once_here c a b : has_char c a = false -> split_once c (a +++ String c b) = Some (a, b).
Proof. intro H. apply split_once_some. split; [reflexivity|exact H]. Qed.
Lemma statement_if arg x n r : plain n -> has_char ";" r = false -> statement arg x (if_line arg n r) = if String.eqb x n then Returns r else Goes.
Proof.
  intros (Q & B & _) R. unfold statement, if_line, q.
  replace ("  if (!strcmp(" +++ arg +++ ", " +++ String """" "" +++ n +++ String """" "" +++ ")) return " +++ r +++ ";") with (("  if (!strcmp(" +++ arg +++ ", " +++ String """" "") +++ (n +++ String """" (")) return " +++ r +++ ";"))) by (rewrite !string_app_assoc; reflexivity).
  rewrite after_app, (split_once_here _ _ _ Q), after_app, (split_once_here ";" r "" R), B. reflexivity.
Qed.
(** the first entry of the name *)
Fixpoint entry (x : string) (l : list (string * string)) (d : string) : string := match l with [] => d | (n, r) :: t => if String.eqb x n then r else entry x t d end.
Lemma body_table arg x l d tail : Forall (fun '(n, r) => plain n /\ has_char ";" r = false) l -> statement arg x ("  return " +++ d +++ ";") = Returns d ->
  body arg x (map (fun '(n, r) => if_line arg n r) l ++ ("  return " +++ d +++ ";") :: tail) = Some (entry x l d).
Proof.
  intros H D. induction l as [|[n r] l IH]; cbn [map app body entry].
  - rewrite D. reflexivity.
  - inversion_clear H as [|? ? PR Hl]. destruct PR as [P R]. rewrite (statement_if arg x n r P R). destruct (String.eqb x n); [reflexivity|]. apply IH. exact Hl.
Qed.
Lemma entry_none x l d : ~ In x (map fst l) -> entry x l d = d.
Proof. induction l as [|[n r] l IH]; [reflexivity|]. cbn [map fst In entry]. intro H. destruct (String.eqb_spec x n) as [->|]; [exfalso; auto|]. apply IH. tauto. Qed.
Lemma entry_nth l d : NoDup (map fst l) -> forall i n r, nth_error l i = Some (n, r) -> entry n l d = r.
Proof.
  induction l as [|[m s] l IH]; intros H i n r E; [destruct i; discriminate|]. cbn [map fst] in H. inversion_clear H as [|? ? Hm Hl]. cbn [entry]. destruct i as [|i]; cbn in E.
  - injection E as <- <-. now rewrite String.eqb_refl.
  - destruct (String.eqb_spec n m) as [->|]; [|now apply (IH Hl i)]. exfalso. apply Hm. change m with (fst (m, r)). apply in_map. now apply (nth_error_In l i).
Qed.
Lemma number_nth {A} (l : list A) : forall k i a, nth_error l i = Some a -> nth_error (number k l) i = Some (k + i, a).
Proof. induction l as [|b l IH]; intros k [|i] a H; cbn in H; try discriminate. - injection H as ->. cbn. now rewrite Nat.add_0_r. - cbn. rewrite (IH (S k) i a H). f_equal. f_equal. lia. Qed.
Lemma number_snd {A} (l : list A) : forall k, map snd (number k l) = l.
Proof. induction l as [|b l IH]; intro k; cbn; [reflexivity|]. now rewrite IH. Qed.
