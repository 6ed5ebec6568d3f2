(** C85: what a value or a range on the command line means. *)
From Coq Require Import List String Ascii Bool ZArith QArith Qpower Lia DecimalString DecimalZ DecimalPos.
From Verif Require Import PyStr TextLines DatFile RangeText.
Import ListNotations.
Local Open Scope string_scope.
Local Open Scope list_scope.
Local Open Scope Z_scope.

(** * Specification: numbers as they are written *)

(** a sign or none, digits, a fraction or none, an exponent with its letter or none *)
Record numeral := mkN { n_sign : option bool; n_whole : string; n_frac : option string; n_exp : option (ascii * option bool * string) }.
Definition sign_text (s : option bool) : string := match s with None => "" | Some true => "-" | Some false => "+" end.
Definition written (n : numeral) : string :=
  (sign_text (n_sign n) ++ n_whole n
   ++ match n_frac n with Some f => "." ++ f | None => "" end
   ++ match n_exp n with Some (c, s, e) => String c (sign_text s ++ e) | None => "" end)%string.
Definition number_ok (n : numeral) : Prop :=
  all_chars digit (n_whole n) = true /\ match n_frac n with Some f => all_chars digit f = true | None => True end
  /\ match n_exp n with Some (c, _, e) => (c = "e" \/ c = "E")%char /\ all_chars digit e = true /\ e <> "" | None => True end
  /\ (n_whole n <> "" \/ exists f, n_frac n = Some f /\ f <> "").
(** positional notation *)
Fixpoint amount_of (s : string) : Z :=
  match s with EmptyString => 0 | String c r => digit_value c * 10 ^ Z.of_nat (String.length r) + amount_of r end.
Definition with_sign (s : option bool) (z : Z) : Z := match s with Some true => - z | _ => z end.
Definition amount (n : numeral) : Q :=
  let f := match n_frac n with Some f => f | None => "" end in
  let e := match n_exp n with Some (_, s, e) => with_sign s (amount_of e) | None => 0 end in
  (inject_Z (with_sign (n_sign n) (amount_of (n_whole n ++ f)%string)) * Qpower 10 (e - Z.of_nat (String.length f)))%Q.
(** neither a fraction nor an exponent *)
Definition plain_int (n : numeral) : Prop := n_frac n = None /\ n_exp n = None.
(** the number of Python is this number; an int of Python or a float *)
Definition is_num (x : num) (q : Q) : Prop := match x with PInt z => (inject_Z z == q)%Q | PFloat r => (r == q)%Q | _ => False end.
Definition is_int (x : num) : Prop := match x with PInt _ => True | _ => False end.

(** * Lemmas *)

Lemma amount_app a b : amount_of (a ++ b)%string = amount_of a * 10 ^ Z.of_nat (String.length b) + amount_of b.
Proof.
  induction a as [|c a IH]; cbn [amount_of String.append]; [lia|].
  rewrite IH, string_app_length, Nat2Z.inj_add, Z.pow_add_r by lia. ring.
Qed.
Definition no_digit (s : string) : Prop := match s with String c _ => digit c = false | EmptyString => True end.
Lemma digits_run ds rest acc n : all_chars digit ds = true -> no_digit rest ->
  digits acc n (ds ++ rest)%string = (acc * 10 ^ Z.of_nat (String.length ds) + amount_of ds, n + Z.of_nat (String.length ds), rest).
Proof.
  revert acc n; induction ds as [|c ds IH]; intros acc n A B; cbn [String.append].
  - destruct rest as [|c r]; cbn [digits String.length amount_of]; [|cbn in B; rewrite B]; f_equal; f_equal; cbn; lia.
  - cbn [all_chars] in A. apply andb_prop in A as [A1 A2]. cbn [digits]. rewrite A1, IH by assumption.
    cbn [String.length amount_of]. rewrite Nat2Z.inj_succ, Z.pow_succ_r by lia. f_equal; f_equal; [ring | lia].
Qed.
Lemma no_space_strip s : all_chars (fun c => negb (is_space c)) s = true -> strip s = s.
Proof.
  intros A. unfold strip. assert (L : lstrip s = s).
  { destruct s as [|c s]; [reflexivity|]. cbn [all_chars] in A. apply andb_prop in A as [A _]. cbn [lstrip]. destruct (is_space c); [discriminate|reflexivity]. }
  rewrite L. clear L. induction s as [|c s IH]; [reflexivity|]. cbn [all_chars] in A. apply andb_prop in A as [A B]. cbn [rstrip]. rewrite (IH B).
  destruct s; [|reflexivity]. destruct (is_space c); [discriminate|reflexivity].
Qed.
Lemma no_under s p : has_char "_" s = false -> unders p s = Some s.
Proof.
  revert p; induction s as [|c s IH]; intros p A; [reflexivity|]. cbn [has_char] in A. apply orb_false_elim in A as [A B].
  cbn [unders]. rewrite A, (IH _ B). reflexivity.
Qed.

(** the characters of a number *)
Definition number_char (c : ascii) : bool := digit c || has_char c "+-.eE".
Lemma all_app f a b : all_chars f (a ++ b)%string = all_chars f a && all_chars f b.
Proof. induction a as [|c a IH]; [reflexivity|]. cbn [String.append all_chars]. rewrite IH. apply andb_assoc. Qed.
Lemma all_mono (f g : ascii -> bool) s : (forall c, f c = true -> g c = true) -> all_chars f s = true -> all_chars g s = true.
Proof. intros A. induction s as [|c s IH]; [reflexivity|]. cbn [all_chars]. intros B. apply andb_prop in B as [B C]. rewrite (A _ B), (IH C). reflexivity. Qed.
Lemma sign_chars s : all_chars number_char (sign_text s) = true.
Proof. destruct s as [[]|]; reflexivity. Qed.
Lemma written_chars n : number_ok n -> all_chars number_char (written n) = true.
Proof.
  assert (D : forall s, all_chars digit s = true -> all_chars number_char s = true).
  { intros s. apply all_mono. intros c H. unfold number_char. rewrite H. reflexivity. }
  intros (A & B & C & _). unfold written. rewrite !all_app, sign_chars, (D _ A). cbn [andb].
  replace (all_chars number_char match n_frac n with Some f => _ | None => _ end) with true; [|destruct (n_frac n); [cbn [String.append all_chars]; rewrite (D _ B)|]; reflexivity].
  destruct (n_exp n) as [[[c s] e]|]; [|reflexivity]. destruct C as (E & C & _).
  cbn [all_chars]. rewrite all_app, sign_chars, (D _ C). destruct E as [-> | ->]; reflexivity.
Qed.
Lemma number_char_not c d : number_char d = false -> number_char c = true -> Ascii.eqb c d = false.
Proof. intros A B. destruct (Ascii.eqb_spec c d) as [->|]; [congruence|reflexivity]. Qed.
Lemma chars_not d s : number_char d = false -> all_chars number_char s = true -> has_char d s = false.
Proof.
  intros A. induction s as [|c s IH]; [reflexivity|]. cbn [all_chars has_char]. intros B. apply andb_prop in B as [B C].
  rewrite (number_char_not _ _ A B), (IH C). reflexivity.
Qed.
Lemma written_strip n : number_ok n -> unders false (strip (written n)) = Some (written n).
Proof.
  intros A. apply written_chars in A. rewrite no_space_strip.
  - apply no_under, chars_not; [reflexivity | exact A].
  - revert A. apply all_mono. intros c. unfold number_char, digit, is_space. cbn [has_char].
    intros B. apply negb_true_iff. apply orb_prop in B as [B|B].
    + apply andb_prop in B as [B1 B2]. apply Nat.leb_le in B1, B2.
      replace (nat_of_ascii c =? 32)%nat with false by (symmetry; apply Nat.eqb_neq; lia).
      replace (nat_of_ascii c <=? 13)%nat with false by (symmetry; apply Nat.leb_gt; lia).
      replace (nat_of_ascii c <=? 31)%nat with false by (symmetry; apply Nat.leb_gt; lia). rewrite !andb_false_r. reflexivity.
    + repeat (apply orb_prop in B as [B|B]; [apply Ascii.eqb_eq in B; subst c; reflexivity|]). discriminate.
Qed.
Lemma written_colon n : number_ok n -> has_char colon (written n) = false.
Proof. intros A. apply chars_not; [reflexivity | apply written_chars, A]. Qed.

Definition behind_sign (s : string) : Prop := match s with String c _ => Ascii.eqb c "-" = false /\ Ascii.eqb c "+" = false | EmptyString => True end.
Definition is_minus (s : option bool) : bool := match s with Some true => true | _ => false end.
Lemma sign_read s u : behind_sign u -> sign (sign_text s ++ u)%string = (is_minus s, u).
Proof.
  intros A. destruct s as [[]|]; try reflexivity. cbn [sign_text String.append is_minus]. destruct u as [|c u]; [reflexivity|].
  destruct A as [A B]. cbn [sign]. rewrite A, B. reflexivity.
Qed.
Lemma signed_is s z : signed (is_minus s) z = with_sign s z.
Proof. destruct s as [[]|]; reflexivity. Qed.
Lemma digit_not c d : digit d = false -> digit c = true -> Ascii.eqb c d = false.
Proof. intros A B. destruct (Ascii.eqb_spec c d) as [->|]; [congruence|reflexivity]. Qed.
Lemma digits_behind ds r : all_chars digit ds = true -> ds <> "" -> behind_sign (ds ++ r)%string.
Proof.
  intros A B. destruct ds as [|c ds]; [congruence|]. cbn [all_chars] in A. apply andb_prop in A as [A _].
  cbn. split; apply digit_not; [reflexivity | exact A | reflexivity | exact A].
Qed.
Lemma whole_read s ds : all_chars digit ds = true -> ds <> "" -> whole (sign_text s ++ ds)%string = Some (with_sign s (amount_of ds)).
Proof.
  intros A B. unfold whole. rewrite sign_read by (rewrite <- (string_app_nil_r ds); apply digits_behind; assumption).
  rewrite <- (string_app_nil_r ds) at 1. rewrite (digits_run ds "" 0 0 A Logic.I).
  replace (0 <? 0 + Z.of_nat (String.length ds)) with true; [cbn [andb String.eqb]; rewrite signed_is; reflexivity|].
  symmetry. apply Z.ltb_lt. destruct ds; [congruence|]. cbn [String.length]. lia.
Qed.

Definition tail (n : numeral) : string :=
  (match n_frac n with Some f => "." ++ f | None => "" end ++ match n_exp n with Some (c, s, e) => String c (sign_text s ++ e) | None => "" end)%string.
Definition frac (n : numeral) : string := match n_frac n with Some f => f | None => "" end.
Definition expo (n : numeral) : Z := match n_exp n with Some (_, s, e) => with_sign s (amount_of e) | None => 0 end.
Definition exp_text (n : numeral) : string := match n_exp n with Some (c, s, e) => String c (sign_text s ++ e) | None => "" end.
Lemma written_parts n : written n = (sign_text (n_sign n) ++ n_whole n ++ tail n)%string.
Proof. reflexivity. Qed.
Lemma exp_no_digit n : number_ok n -> no_digit (exp_text n).
Proof. intros (_ & _ & C & _). unfold exp_text. destruct (n_exp n) as [[[c s] e]|]; [|exact Logic.I]. destruct C as ([-> | ->] & _); reflexivity. Qed.
Lemma tail_no_digit n : number_ok n -> no_digit (tail n).
Proof. intros A. unfold tail. destruct (n_frac n); [reflexivity|]. exact (exp_no_digit n A). Qed.
Lemma exp_read n : number_ok n -> exponent (exp_text n) = Some (expo n).
Proof.
  intros (_ & _ & C & _). unfold exp_text, expo. destruct (n_exp n) as [[[c s] e]|]; [|reflexivity]. destruct C as (E & C & D).
  cbn [exponent]. replace (Ascii.eqb c "e" || Ascii.eqb c "E") with true by (destruct E as [-> | ->]; reflexivity). apply whole_read; assumption.
Qed.
Lemma frac_read n v : number_ok n -> fraction v (tail n) = (v * 10 ^ Z.of_nat (String.length (frac n)) + amount_of (frac n), Z.of_nat (String.length (frac n)), exp_text n).
Proof.
  intros A. pose proof A as (_ & B & X & _). unfold tail, frac. fold (exp_text n). destruct (n_frac n) as [f|].
  - change (("." ++ f) ++ exp_text n)%string with (String "." (f ++ exp_text n)). cbn [fraction]. rewrite Ascii.eqb_refl.
    rewrite (digits_run f (exp_text n) v 0 B (exp_no_digit n A)). reflexivity.
  - change ("" ++ exp_text n)%string with (exp_text n). replace (fraction v (exp_text n)) with (v, 0, exp_text n).
    + cbn [String.length amount_of Z.of_nat]. f_equal. f_equal. lia.
    + unfold exp_text. destruct (n_exp n) as [[[c s] e]|]; [|reflexivity]. destruct X as ([-> | ->] & _); reflexivity.
Qed.
Lemma body_start n : number_ok n -> exists c r, (n_whole n ++ tail n)%string = String c r /\ (digit c = true \/ c = "."%char).
Proof.
  intros (A & _ & _ & [D|(f & D & E)]).
  - destruct (n_whole n) as [|c w]; [congruence|]. cbn [all_chars] in A. apply andb_prop in A as [A _]. exists c, (w ++ tail n)%string. split; [reflexivity | left; exact A].
  - destruct (n_whole n) as [|c w].
    + unfold tail. rewrite D. eexists. eexists. split; [reflexivity | right; reflexivity].
    + cbn [all_chars] in A. apply andb_prop in A as [A _]. exists c, (w ++ tail n)%string. split; [reflexivity | left; exact A].
Qed.
Lemma digit_low c : digit c = true -> lower_ascii c = c.
Proof.
  unfold digit, lower_ascii. intros H. apply andb_prop in H as [_ H]. apply Nat.leb_le in H.
  replace (65 <=? nat_of_ascii c)%nat with false; [reflexivity|]. symmetry. apply Nat.leb_gt. lia.
Qed.
Lemma scale_value m e : (scale m e == inject_Z m * Qpower 10 e)%Q.
Proof.
  unfold scale. destruct (0 <=? e) eqn:E.
  - apply Z.leb_le in E. rewrite inject_Z_mult. change 10%Q with (inject_Z 10). rewrite (Zpower_Qpower 10 e E). reflexivity.
  - apply Z.leb_gt in E. destruct e as [|p|p]; try lia. cbn [Z.opp]. rewrite Qmake_Qdiv. unfold Qdiv. apply Qmult_comp; [reflexivity|].
    change (Qpower 10 (Z.neg p)) with (/ (Qpower 10 (Z.pos p)))%Q. apply Qinv_comp. change 10%Q with (inject_Z 10).
    rewrite <- (Zpower_Qpower 10 (Z.pos p)) by lia. rewrite Z2Pos.id by (apply Z.pow_pos_nonneg; lia). reflexivity.
Qed.
Lemma float_read n : number_ok n -> exists q, float_of (written n) = Some (PFloat q) /\ (q == amount n)%Q.
Proof.
  intros A. pose proof (body_start n A) as (c & r & E & C). rewrite written_parts. unfold float_of.
  assert (Lc : Ascii.eqb (lower_ascii c) "i" = false /\ Ascii.eqb (lower_ascii c) "n" = false /\ Ascii.eqb c "-" = false /\ Ascii.eqb c "+" = false).
  { destruct C as [C| ->]; [|repeat split]. rewrite (digit_low c C). repeat split; apply digit_not; try exact C; reflexivity. }
  destruct Lc as (L1 & L2 & L3 & L4).
  rewrite sign_read by (rewrite E; split; assumption).
  assert (G : forall d t, Ascii.eqb (lower_ascii c) d = false -> (lower (n_whole n ++ tail n)%string =?s String d t) = false).
  { intros d t H. rewrite E. cbn [lower String.eqb]. rewrite H. reflexivity. }
  rewrite (G "i"%char _ L1), (G "i"%char _ L1), (G "n"%char _ L2). cbn [orb].
  rewrite (digits_run (n_whole n) (tail n) 0 0 (proj1 A) (tail_no_digit n A)), (frac_read n _ A), (exp_read n A).
  replace (_ =? 0) with false.
  2:{ symmetry. apply Z.eqb_neq. destruct A as (_ & _ & _ & [D|(f & D & F)]); [destruct (n_whole n); [congruence|cbn [String.length]; lia]|].
      unfold frac. rewrite D. destruct f; [congruence|cbn [String.length]; lia]. }
  eexists. split; [reflexivity|]. rewrite scale_value. unfold amount. fold (frac n). fold (expo n). rewrite signed_is, amount_app.
  replace (0 * 10 ^ Z.of_nat (String.length (n_whole n)) + amount_of (n_whole n)) with (amount_of (n_whole n)) by lia. reflexivity.
Qed.
(** underscores between digits: with them, without them *)
Inductive grouped : string -> string -> Prop :=
| g_nil : grouped "" ""
| g_char c s t : c <> "_"%char -> grouped s t -> grouped (String c s) (String c t)
| g_under a b s t : digit a = true -> digit b = true -> grouped (String b s) (String b t) -> grouped (String a (String "_" (String b s))) (String a (String b t)).
(** [s] is the number [n] with white space around it and underscores between digits *)
Definition spells (s : string) (n : numeral) : Prop := number_ok n /\ grouped (strip s) (written n).
Lemma digit_no_under c : digit c = true -> c <> "_"%char.
Proof. intros A ->. discriminate. Qed.
Lemma grouped_read s t : grouped s t -> forall p, unders p s = Some t.
Proof.
  intros G. induction G as [|c s t N G IH|a b s t A B G IH]; intros p; [reflexivity|..].
  - cbn [unders]. destruct (Ascii.eqb_spec c "_") as [|_]; [contradiction|]. rewrite IH. reflexivity.
  - cbn [unders]. destruct (Ascii.eqb_spec a "_") as [->|_]; [discriminate|]. rewrite Ascii.eqb_refl, A, B. cbn [andb].
    specialize (IH false). cbn [unders] in IH. destruct (Ascii.eqb_spec b "_") as [->|_]; [discriminate|]. rewrite ?B in IH. rewrite IH. reflexivity.
Qed.
Lemma read_grouped s : forall p t, unders p s = Some t ->
  match s with
  | String c r => if Ascii.eqb c "_" then p = true /\ (exists b r', r = String b r' /\ digit b = true) /\ grouped r t else grouped s t
  | EmptyString => grouped s t
  end.
Proof.
  induction s as [|c r IH]; intros p t A; [injection A as <-; constructor|]. cbn [unders] in A. destruct (Ascii.eqb_spec c "_") as [->|N].
  - destruct p; [|discriminate]. cbn [andb] in A. destruct r as [|b r']; [discriminate|]. destruct (digit b) eqn:B; [|discriminate].
    split; [reflexivity|]. split; [exists b, r'; split; [reflexivity | exact B]|]. specialize (IH _ _ A). cbn beta iota in IH.
    destruct (Ascii.eqb_spec b "_") as [->|_]; [discriminate | exact IH].
  - destruct (unders (digit c) r) as [t'|] eqn:U; [|discriminate]. injection A as <-. specialize (IH _ _ U). destruct r as [|d r']; [constructor; assumption|].
    destruct (Ascii.eqb_spec d "_") as [->|_]; [|constructor; assumption]. destruct IH as (A & (b & r'' & -> & B) & G).
    inversion G; subst; constructor; assumption.
Qed.
Lemma grouped_strip s t : unders false (strip s) = Some t <-> grouped (strip s) t.
Proof.
  split; [|intros G; apply grouped_read, G]. intros A. apply read_grouped in A. destruct (strip s) as [|c r]; [exact A|].
  destruct (Ascii.eqb c "_"); [destruct A as [A _]; discriminate | exact A].
Qed.
Lemma number_spelt s n : spells s n -> exists x, float_or_int s = Some x /\ is_num x (amount n) /\ (is_int x <-> plain_int n).
Proof.
  intros [A GG]. apply grouped_strip in GG. unfold float_or_int, py_int, py_float. rewrite GG.
  assert (P : plain_int n \/ ~ plain_int n).
  { unfold plain_int. destruct (n_frac n), (n_exp n); try (right; intros [? ?]; discriminate). left. split; reflexivity. }
  destruct P as [P|P].
  - assert (W : written n = (sign_text (n_sign n) ++ n_whole n)%string).
    { destruct P as [P Q]. unfold written. rewrite P, Q. cbn [String.append]. rewrite string_app_nil_r. reflexivity. }
    assert (N : n_whole n <> "") by (destruct A as (_ & _ & _ & [D|(f & D & _)]); [exact D | destruct P; congruence]).
    rewrite W, (whole_read (n_sign n) (n_whole n) (proj1 A) N). eexists. split; [reflexivity|]. split; [|split; intros; [exact P | exact Logic.I]].
    destruct P as [P Q]. cbn [is_num]. unfold amount. rewrite P, Q, string_app_nil_r. cbn. rewrite Qmult_1_r. reflexivity.
  - destruct (whole (written n)) as [z|] eqn:W.
    + exfalso. rewrite written_parts in W. unfold whole in W. pose proof (body_start n A) as (c & r & E & C).
      rewrite sign_read in W.
      2:{ rewrite E. destruct C as [C| ->]; split; try reflexivity; apply digit_not; try exact C; reflexivity. }
      rewrite (digits_run (n_whole n) (tail n) 0 0 (proj1 A) (tail_no_digit n A)) in W.
      destruct (tail n =?s "") eqn:T; [|rewrite andb_false_r in W; discriminate]. apply String.eqb_eq in T.
      apply P. unfold tail in T. unfold plain_int. destruct (n_frac n); [discriminate|]. destruct (n_exp n) as [[[? ?] ?]|]; [discriminate|]. split; reflexivity.
    + destruct (float_read n A) as (q & F & Q). rewrite F. eexists. split; [reflexivity|]. split; [exact Q|]. split; [intros []|intros H; elim (P H)].
Qed.
Lemma spells_itself n : number_ok n -> spells (written n) n.
Proof. intros A. split; [exact A | apply grouped_strip, written_strip, A]. Qed.
Lemma number_read n : number_ok n -> exists x, float_or_int (written n) = Some x /\ is_num x (amount n) /\ (is_int x <-> plain_int n).
Proof. intros A. apply number_spelt, spells_itself, A. Qed.

(** * Values and ranges *)

Lemma strip_chars (f : ascii -> bool) s : (forall c, is_space c = true -> f c = true) -> all_chars f (strip s) = true -> all_chars f s = true.
Proof.
  intros A. unfold strip. assert (R : forall t, all_chars f (rstrip t) = true -> all_chars f t = true).
  { induction t as [|c t IH]; [reflexivity|]. cbn [rstrip all_chars]. destruct (rstrip t) as [|d u] eqn:E.
    - destruct (is_space c) eqn:S; cbn [all_chars]; intros H; [rewrite (A c S), (IH eq_refl); reflexivity|].
      apply andb_prop in H as [H _]. rewrite H, (IH eq_refl). reflexivity.
    - intros H. cbn [all_chars] in H, IH. apply andb_prop in H as [H I]. rewrite H, (IH I). reflexivity. }
  intros H. apply R in H. clear R. induction s as [|c s IH]; [reflexivity|]. cbn [lstrip] in H. destruct (is_space c) eqn:S; [|exact H].
  cbn [all_chars]. rewrite (A c S), (IH H). reflexivity.
Qed.
Lemma unders_chars (f : ascii -> bool) s p t : f "_"%char = true -> unders p s = Some t -> all_chars f t = true -> all_chars f s = true.
Proof.
  intros A. revert p t; induction s as [|c s IH]; intros p t B C; [reflexivity|]. cbn [unders all_chars] in *.
  destruct (Ascii.eqb_spec c "_") as [->|N].
  - rewrite A. destruct (p && _); [|discriminate]. exact (IH _ _ B C).
  - destruct (unders (digit c) s) as [u|] eqn:E; [|discriminate]. injection B as <-. cbn [all_chars] in C. apply andb_prop in C as [C D].
    rewrite C. exact (IH _ _ E D).
Qed.

(** A number that is given for a parameter is that number; it is an int exactly if it has neither a
    fraction nor an exponent. White space around it and underscores between its digits do not matter. *)
Theorem C85_number_is_meant s n : spells s n ->
  exists x, entry_of s = Some (ESing (Num x)) /\ is_num x (amount n) /\ (is_int x <-> plain_int n).
Proof.
  intros A. destruct (number_spelt s n A) as (x & B & C & D). exists x. split; [|split; assumption].
  assert (H : has_char colon s = false).
  { destruct A as [A G]. pose proof (written_chars n A) as W. apply grouped_strip in G.
    assert (F : all_chars (fun c => negb (Ascii.eqb c colon)) s = true).
    { apply strip_chars; [intros c S; destruct (Ascii.eqb_spec c colon) as [->|]; [discriminate|reflexivity]|].
      apply (unders_chars _ _ _ _ eq_refl G). revert W. apply all_mono. intros c E. rewrite (number_char_not c colon eq_refl E). reflexivity. }
    revert F. clear. induction s as [|c s IH]; [reflexivity|]. cbn [all_chars has_char]. intros F. apply andb_prop in F as [F1 F2]. rewrite (IH F2).
    apply negb_true_iff in F1. rewrite F1. reflexivity. }
  unfold entry_of, single_from_str, value_of. rewrite H, B. reflexivity.
Qed.
Print Assumptions C85_number_is_meant.
Example C85_number_is_meant_example :
  let n := mkN (Some true) "12" (Some "50") (Some ("e"%char, None, "1")) in
  written n = "-12.50e1" /\ spells " -1_2.5_0e1" n /\ (amount n == -125 # 1)%Q
  /\ entry_of " -1_2.5_0e1" = Some (ESing (Num (PFloat (-1250 # 10)))).
Proof.
  cbn zeta. split; [reflexivity|]. split; [|split; reflexivity]. split; [|apply grouped_strip; reflexivity].
  repeat split; cbn; try discriminate; left; [reflexivity | discriminate].
Qed.

Lemma num_eqb_is x y a b : is_num x a -> is_num y b -> num_eqb x y = true <-> (a == b)%Q.
Proof.
  destruct x, y; cbn [is_num num_eqb]; intros A B; try contradiction; rewrite <- A, <- B; rewrite ?Qeq_bool_iff; try reflexivity.
  rewrite Z.eqb_eq. split; [intros ->; reflexivity|]. intros H. unfold Qeq in H. cbn in H. lia.
Qed.
Lemma mk_range_is x y z a b c : is_num x a -> is_num y b -> is_num z c ->
  (~ (a == b)%Q /\ ~ (c == 0)%Q -> mk_range x y z = Some (ERange x y z)) /\ ((a == b)%Q \/ (c == 0)%Q -> mk_range x y z = None).
Proof.
  intros A B C. unfold mk_range. pose proof (num_eqb_is x y a b A B) as E. pose proof (num_eqb_is z (PInt 0) c 0 C ltac:(reflexivity)) as F.
  destruct (num_eqb x y), (num_eqb z (PInt 0)); split; intros H; try reflexivity.
  - elim (proj1 H). apply E. reflexivity.
  - elim (proj1 H). apply E. reflexivity.
  - elim (proj2 H). apply F. reflexivity.
  - destruct H as [H|H]; [apply E in H|apply F in H]; discriminate.
Qed.
Lemma three a b c : has_char colon a = false -> has_char colon b = false -> has_char colon c = false ->
  has_char colon (a ++ ":" ++ b ++ ":" ++ c)%string = true /\ split_char colon (a ++ ":" ++ b ++ ":" ++ c)%string = [a; b; c].
Proof.
  intros A B C. split; [rewrite !has_char_app; cbn [has_char]; rewrite Ascii.eqb_refl; cbn [orb]; apply orb_true_r|].
  change (a ++ ":" ++ b ++ ":" ++ c)%string with (a ++ String colon (b ++ String colon c))%string.
  rewrite (split_char_app colon a _ A), (split_char_app colon b c B), (split_char_none colon c C). reflexivity.
Qed.
Lemma two a b : has_char colon a = false -> has_char colon b = false ->
  has_char colon (a ++ ":" ++ b)%string = true /\ split_char colon (a ++ ":" ++ b)%string = [a; b].
Proof.
  intros A B. split; [rewrite !has_char_app; cbn [has_char]; rewrite Ascii.eqb_refl; cbn [orb]; apply orb_true_r|].
  change (a ++ ":" ++ b)%string with (a ++ String colon b)%string. rewrite (split_char_app colon a b A), (split_char_none colon b B). reflexivity.
Qed.

(** A range with two colons has its start, its step and its stop in this order; it is refused exactly if it
    ends where it starts or has no step. *)
Theorem C85_range_is_meant a b c : number_ok a -> number_ok b -> number_ok c ->
  let text := (written a ++ ":" ++ written b ++ ":" ++ written c)%string in
  (~ (amount a == amount c)%Q -> ~ (amount b == 0)%Q ->
     exists start stop step, entry_of text = Some (ERange start stop step)
       /\ is_num start (amount a) /\ is_num step (amount b) /\ is_num stop (amount c))
  /\ ((amount a == amount c)%Q \/ (amount b == 0)%Q -> entry_of text = None).
Proof.
  intros A B C text. destruct (three _ _ _ (written_colon a A) (written_colon b B) (written_colon c C)) as [H S].
  destruct (number_read a A) as (x & XA & XB & _), (number_read b B) as (y & YA & YB & _), (number_read c C) as (z & ZA & ZB & _).
  assert (E : entry_of text = mk_range x z y).
  { unfold entry_of, text. rewrite H. unfold range_from_str. rewrite S. unfold range_of. rewrite XA, YA, ZA. reflexivity. }
  destruct (mk_range_is x z y _ _ _ XB ZB YB) as [P Q]. rewrite E. split.
  - intros N0 N1. exists x, z, y. split; [apply P; split; assumption | split; [|split]; assumption].
  - exact Q.
Qed.
Print Assumptions C85_range_is_meant.
Example C85_range_is_meant_example :
  let a := mkN None "1" None None in let b := mkN None "0" (Some "5") None in let c := mkN None "3" None None in
  number_ok a /\ number_ok b /\ number_ok c /\ ~ (amount a == amount c)%Q /\ ~ (amount b == 0)%Q
  /\ entry_of "1:0.5:3" = Some (ERange (PInt 1) (PInt 3) (PFloat (5 # 10))) /\ entry_of "3:0.5:3" = None /\ entry_of "1:0:3" = None.
Proof. cbn. repeat split; try discriminate; left; discriminate. Qed.

(** A range with one colon has its start and its stop, and one as its step. *)
Theorem C85_step_is_one a c : number_ok a -> number_ok c ->
  let text := (written a ++ ":" ++ written c)%string in
  (~ (amount a == amount c)%Q -> exists start stop, entry_of text = Some (ERange start stop (PInt 1)) /\ is_num start (amount a) /\ is_num stop (amount c))
  /\ ((amount a == amount c)%Q -> entry_of text = None).
Proof.
  intros A C text. destruct (two _ _ (written_colon a A) (written_colon c C)) as [H S].
  destruct (number_read a A) as (x & XA & XB & _), (number_read c C) as (z & ZA & ZB & _).
  assert (E : entry_of text = mk_range x z (PInt 1)).
  { unfold entry_of, text. rewrite H. unfold range_from_str. rewrite S. unfold range_of. rewrite XA, ZA. reflexivity. }
  destruct (mk_range_is x z (PInt 1) _ _ 1%Q XB ZB ltac:(reflexivity)) as [P Q]. rewrite E. split.
  - intros N0. exists x, z. split; [apply P; split; [exact N0 | discriminate] | split; assumption].
  - intros N0. apply Q. left. exact N0.
Qed.
Print Assumptions C85_step_is_one.
Example C85_step_is_one_example :
  let a := mkN (Some true) "2" None None in let c := mkN None "2" None None in
  number_ok a /\ number_ok c /\ ~ (amount a == amount c)%Q /\ entry_of "-2:2" = Some (ERange (PInt (-2)) (PInt 2) (PInt 1)) /\ entry_of "2:2" = None.
Proof. cbn. repeat split; try discriminate; left; discriminate. Qed.

(** * Texts with colons *)

(** Whatever has a colon is refused or is a range: two or three numbers, the middle one of three being the step. *)
Theorem C85_colon_means_range s e : has_char colon s = true -> entry_of s = Some e ->
  exists a c x z y, e = ERange x z y /\ float_or_int a = Some x /\ float_or_int c = Some z
    /\ ((s = (a ++ ":" ++ c)%string /\ y = PInt 1) \/ (exists b, s = (a ++ ":" ++ b ++ ":" ++ c)%string /\ float_or_int b = Some y)).
Proof.
  intros A B. unfold entry_of in B. rewrite A in B. unfold range_from_str in B.
  assert (J : s = join (String colon "") (split_char colon s)).
  { clear. induction s as [|c s IH]; [reflexivity|]. cbn [split_char]. destruct (Ascii.eqb_spec c colon) as [->|N].
    - destruct (split_char colon s) as [|x r] eqn:E; [elim (split_char_nonempty _ _ E)|]. cbn [join]. cbn [String.append]. f_equal. exact IH.
    - destruct (split_char colon s) as [|x r] eqn:E; [elim (split_char_nonempty _ _ E)|]. destruct r as [|y r]; cbn [join] in *; rewrite IH; reflexivity. }
  assert (R : forall a b c, range_of a b c = Some e -> exists x y z, float_or_int a = Some x /\ float_or_int b = Some y /\ float_or_int c = Some z /\ e = ERange x y z).
  { intros a b c. unfold range_of, mk_range. destruct (float_or_int a) as [x|], (float_or_int b) as [y|], (float_or_int c) as [z|]; try discriminate.
    destruct (num_eqb x y); [discriminate|]. destruct (num_eqb z (PInt 0)); [discriminate|]. intros [= <-]. exists x, y, z. repeat split. }
  destruct (split_char colon s) as [|a [|b [|c [|d l]]]] eqn:E; try discriminate.
  - exfalso. cbn [join] in J. pose proof (split_char_nochar colon s) as F. rewrite E in F. inversion F; subst. congruence.
  - cbn [join] in J. destruct (R _ _ _ B) as (x & y & z & X & Y & Z & ->). exists a, b, x, y, z. repeat split; try assumption. left. split; [exact J|].
    injection Z as <-. reflexivity.
  - cbn [join] in J. destruct (R _ _ _ B) as (x & y & z & X & Y & Z & ->). exists a, c, x, y, z. repeat split; try assumption. right. exists b. split; [exact J | exact Z].
Qed.
Print Assumptions C85_colon_means_range.
Example C85_colon_means_range_example :
  has_char colon "0:2:10" = true /\ entry_of "0:2:10" = Some (ERange (PInt 0) (PInt 10) (PInt 2)) /\ entry_of "0:1:2:3" = None /\ entry_of "1:" = None.
Proof. repeat split. Qed.

(** A text with a colon cannot be given as the value of a parameter: a path with a drive is refused, and a time of day
    becomes a range of numbers. *)
Theorem C85_text_with_colon_refuted :
  ~ (forall s, float_or_int s = None -> entry_of s = Some (ESing (Text s)))
  /\ entry_of "C:/data.dat" = None /\ entry_of "12:30" = Some (ERange (PInt 12) (PInt 30) (PInt 1)) /\ float_or_int "12:30" = None.
Proof. split; [|repeat split]. intros H. specialize (H "C:/data.dat" eq_refl). discriminate. Qed.
Print Assumptions C85_text_with_colon_refuted.

(** * Texts that stay texts *)

(** the characters of everything that float or int of Python accept *)
Definition numeric (c : ascii) : bool := is_space c || digit c || has_char c "+-._einfatyEINFATY".
Lemma digit_numeric c : digit c = true -> numeric c = true.
Proof. intros H. unfold numeric. rewrite H, orb_true_r. reflexivity. Qed.
Lemma digits_chars s acc n v m r : digits acc n s = (v, m, r) -> all_chars numeric r = true -> all_chars numeric s = true.
Proof.
  revert acc n; induction s as [|c s IH]; intros acc n A B; [reflexivity|]. cbn [digits] in A. destruct (digit c) eqn:D.
  - cbn [all_chars]. rewrite (digit_numeric c D). exact (IH _ _ A B).
  - injection A as _ _ <-. exact B.
Qed.
Lemma char_numeric c d : Ascii.eqb c d = true -> numeric d = true -> numeric c = true.
Proof. intros B A. apply Ascii.eqb_eq in B as ->. exact A. Qed.
Lemma sign_chars' s b u : sign s = (b, u) -> all_chars numeric u = true -> all_chars numeric s = true.
Proof.
  destruct s as [|c s]; [reflexivity|]. cbn [sign]. destruct (Ascii.eqb c "-") eqn:M; [|destruct (Ascii.eqb c "+") eqn:P];
    intros [= <- <-] H; try exact H; cbn [all_chars]; rewrite H; [rewrite (char_numeric c _ M eq_refl) | rewrite (char_numeric c _ P eq_refl)]; reflexivity.
Qed.
Lemma whole_chars s z : whole s = Some z -> all_chars numeric s = true.
Proof.
  unfold whole. destruct (sign s) as [b u] eqn:S. destruct (digits 0 0 u) as [[v n] r] eqn:D. destruct (r =?s "") eqn:E; [|rewrite andb_false_r; discriminate].
  intros _. apply String.eqb_eq in E as ->. exact (sign_chars' _ _ _ S (digits_chars _ _ _ _ _ _ D eq_refl)).
Qed.
Lemma lower_numeric c : numeric (lower_ascii c) = true -> numeric c = true.
Proof. destruct c as [[] [] [] [] [] [] [] []]; intros H; try reflexivity; vm_compute in H; discriminate. Qed.
Lemma lower_chars s t : lower s = t -> all_chars numeric t = true -> all_chars numeric s = true.
Proof.
  revert t; induction s as [|c s IH]; intros t A B; [reflexivity|]. cbn [lower] in A. subst t. cbn [all_chars] in *. apply andb_prop in B as [B C].
  rewrite (lower_numeric c B). exact (IH _ eq_refl C).
Qed.
Lemma float_chars s x : float_of s = Some x -> all_chars numeric s = true.
Proof.
  unfold float_of. destruct (sign s) as [b u] eqn:S. intros H. apply (sign_chars' _ _ _ S). clear S.
  destruct (lower u =?s "inf") eqn:E1; [apply String.eqb_eq in E1; exact (lower_chars _ _ E1 eq_refl)|].
  destruct (lower u =?s "infinity") eqn:E2; [apply String.eqb_eq in E2; exact (lower_chars _ _ E2 eq_refl)|].
  destruct (lower u =?s "nan") eqn:E3; [apply String.eqb_eq in E3; exact (lower_chars _ _ E3 eq_refl)|]. cbn [orb] in H.
  destruct (digits 0 0 u) as [[v n] r] eqn:D. apply (digits_chars _ _ _ _ _ _ D). clear D.
  destruct (fraction v r) as [[w k] r'] eqn:F. destruct (n + k =? 0); [discriminate|]. destruct (exponent r') as [e|] eqn:X; [|discriminate].
  assert (R : all_chars numeric r' = true).
  { destruct r' as [|c q]; [reflexivity|]. cbn [exponent] in X. destruct (Ascii.eqb c "e" || Ascii.eqb c "E") eqn:C; [|discriminate].
    cbn [all_chars]. rewrite (whole_chars _ _ X), andb_true_r. apply orb_prop in C as [C|C]; exact (char_numeric c _ C eq_refl). }
  unfold fraction in F. destruct r as [|c q]; [reflexivity|]. destruct (Ascii.eqb c ".") eqn:C.
  - cbn [all_chars]. rewrite (char_numeric c _ C eq_refl). exact (digits_chars _ _ _ _ _ _ F R).
  - injection F as _ _ <-. exact R.
Qed.

(** A text without a colon that has a character no number has is handed on as it is. *)
Theorem C85_text_with_other_characters_kept repr s : has_char colon s = false -> all_chars numeric s = false ->
  entry_of s = Some (ESing (Text s)) /\ str_entry repr (ESing (Text s)) = s.
Proof.
  intros A B. split; [|reflexivity]. unfold entry_of, single_from_str, value_of, float_or_int, py_int, py_float. rewrite A.
  assert (S : forall c, is_space c = true -> numeric c = true) by (intros c H; unfold numeric; rewrite H; reflexivity).
  destruct (unders false (strip s)) as [t|] eqn:U; [|reflexivity].
  destruct (whole t) as [z|] eqn:W.
  - apply whole_chars in W. apply (unders_chars _ _ _ _ eq_refl U) in W. apply (strip_chars _ _ S) in W. congruence.
  - destruct (float_of t) as [x|] eqn:F; [|reflexivity].
    apply float_chars in F. apply (unders_chars _ _ _ _ eq_refl U) in F. apply (strip_chars _ _ S) in F. congruence.
Qed.
Print Assumptions C85_text_with_other_characters_kept.
Example C85_text_with_other_characters_kept_example :
  has_char colon "data/run_12.dat" = false /\ all_chars numeric "data/run_12.dat" = false /\ entry_of "data/run_12.dat" = Some (ESing (Text "data/run_12.dat")).
Proof. repeat split. Qed.

(** what Python takes for a number: a decimal number, or infinity or not a number, with white space around and underscores between digits *)
Definition number_text (s : string) : Prop :=
  (exists n, spells s n) \/ (exists sg w, grouped (strip s) (sign_text sg ++ w)%string /\ In (lower w) ["inf"; "infinity"; "nan"]).
Lemma sign_parts s b u : sign s = (b, u) -> exists sg, s = (sign_text sg ++ u)%string.
Proof.
  destruct s as [|c s]; cbn [sign]; [intros [= _ <-]; exists None; reflexivity|].
  destruct (Ascii.eqb_spec c "-") as [->|_]; [intros [= _ <-]; exists (Some true); reflexivity|].
  destruct (Ascii.eqb_spec c "+") as [->|_]; [intros [= _ <-]; exists (Some false); reflexivity|]. intros [= _ <-]. exists None. reflexivity.
Qed.
Lemma digits_parts s acc n v m r : digits acc n s = (v, m, r) -> exists ds, s = (ds ++ r)%string /\ all_chars digit ds = true /\ m = n + Z.of_nat (String.length ds).
Proof.
  revert acc n; induction s as [|c s IH]; intros acc n A; cbn [digits] in A.
  - injection A as _ <- <-. exists "". repeat split. cbn. lia.
  - destruct (digit c) eqn:D.
    + destruct (IH _ _ A) as (ds & -> & B & C). exists (String c ds). cbn [String.append all_chars String.length]. rewrite D, B. repeat split. lia.
    + injection A as _ <- <-. exists "". repeat split. cbn. lia.
Qed.
Lemma whole_parts s z : whole s = Some z -> exists sg ds, s = (sign_text sg ++ ds)%string /\ all_chars digit ds = true /\ ds <> "".
Proof.
  unfold whole. destruct (sign s) as [b u] eqn:S. destruct (digits 0 0 u) as [[v n] r] eqn:D.
  destruct (r =?s "") eqn:E; [|rewrite andb_false_r; discriminate]. apply String.eqb_eq in E as ->.
  destruct (0 <? n) eqn:N; [|discriminate]. intros _. apply Z.ltb_lt in N. destruct (sign_parts _ _ _ S) as [sg ->]. destruct (digits_parts _ _ _ _ _ _ D) as (ds & -> & A & B).
  exists sg, ds. rewrite string_app_nil_r. repeat split; [exact A|]. intros ->. cbn in B. lia.
Qed.
Lemma float_parts s x : float_of s = Some x -> (exists n, number_ok n /\ s = written n) \/ (exists sg w, s = (sign_text sg ++ w)%string /\ In (lower w) ["inf"; "infinity"; "nan"]).
Proof.
  unfold float_of. destruct (sign s) as [b u] eqn:S. destruct (sign_parts _ _ _ S) as [sg ->]. clear S. intros H.
  destruct (lower u =?s "inf") eqn:E1; [apply String.eqb_eq in E1; right; exists sg, u; rewrite E1; cbn; tauto|].
  destruct (lower u =?s "infinity") eqn:E2; [apply String.eqb_eq in E2; right; exists sg, u; rewrite E2; cbn; tauto|].
  destruct (lower u =?s "nan") eqn:E3; [apply String.eqb_eq in E3; right; exists sg, u; rewrite E3; cbn; tauto|]. cbn [orb] in H. left.
  destruct (digits 0 0 u) as [[v n] r] eqn:D. destruct (digits_parts _ _ _ _ _ _ D) as (ds & -> & A & B). clear D.
  destruct (fraction v r) as [[w k] r'] eqn:F. destruct (n + k =? 0) eqn:K; [discriminate|]. apply Z.eqb_neq in K. destruct (exponent r') as [e|] eqn:X; [|discriminate].
  assert (EX : exists ex, r' = match ex with Some (c, s, e) => String c (sign_text s ++ e) | None => "" end
            /\ match ex with Some (c, _, e) => (c = "e" \/ c = "E")%char /\ all_chars digit e = true /\ e <> "" | None => True end).
  { destruct r' as [|c q]; [exists None; split; [reflexivity | exact Logic.I]|]. cbn [exponent] in X. destruct (Ascii.eqb c "e" || Ascii.eqb c "E") eqn:C; [|discriminate].
    destruct (whole_parts _ _ X) as (s2 & es & -> & P & Q). exists (Some (c, s2, es)). split; [reflexivity|]. split; [|split; assumption].
    apply orb_prop in C as [C|C]; apply Ascii.eqb_eq in C; [left | right]; exact C. }
  destruct EX as (ex & -> & EX).
  assert (FR : exists fr, r = (match fr with Some f => "." ++ f | None => "" end ++ match ex with Some (c, s, e) => String c (sign_text s ++ e) | None => "" end)%string
            /\ match fr with Some f => all_chars digit f = true | None => True end /\ k = match fr with Some f => Z.of_nat (String.length f) | None => 0 end).
  { unfold fraction in F. destruct r as [|c q].
    - injection F as _ <- F. exists None. repeat split. exact F.
    - destruct (Ascii.eqb_spec c ".") as [->|N].
      + destruct (digits_parts _ _ _ _ _ _ F) as (f & -> & P & Q). exists (Some f). repeat split; [exact P | lia].
      + injection F as _ <- F. exists None. repeat split. exact F. }
  destruct FR as (fr & -> & P & Q). exists (mkN sg ds fr ex). split; [|reflexivity].
  split; [exact A|]. split; [exact P|]. split; [exact EX|]. cbn [n_whole n_frac]. destruct ds as [|c ds]; [|left; discriminate].
  right. destruct fr as [[|c f]|]; cbn in B, Q; [lia | exists (String c f); split; [reflexivity | discriminate] | lia].
Qed.

(** A text without a colon is handed on as it is, unless Python takes it for a number. *)
Theorem C85_other_text_kept repr s : has_char colon s = false -> ~ number_text s ->
  exists e, entry_of s = Some e /\ e = ESing (Text s) /\ str_entry repr e = s.
Proof.
  intros A B. exists (ESing (Text s)). split; [|split; reflexivity]. unfold entry_of, single_from_str, value_of, float_or_int, py_int, py_float. rewrite A.
  destruct (unders false (strip s)) as [t|] eqn:U; [|reflexivity]. apply grouped_strip in U.
  destruct (whole t) as [z|] eqn:W.
  - exfalso. destruct (whole_parts _ _ W) as (sg & ds & -> & P & Q). apply B. left. exists (mkN sg ds None None).
    split; [repeat split; [exact P | left; exact Q]|]. unfold written. cbn [n_sign n_whole n_frac n_exp String.append]. rewrite string_app_nil_r. exact U.
  - destruct (float_of t) as [x|] eqn:F; [|reflexivity]. exfalso. apply B. destruct (float_parts _ _ F) as [(n & P & ->)|(sg & w & -> & P)].
    + left. exists n. split; assumption.
    + right. exists sg, w. split; assumption.
Qed.
Print Assumptions C85_other_text_kept.
Example C85_other_text_kept_example :
  has_char colon "1__0" = false /\ ~ number_text "1__0" /\ entry_of "1__0" = Some (ESing (Text "1__0")) /\ entry_of "1_0" = Some (ESing (Num (PInt 10))).
Proof.
  repeat split. intros [(n & _ & G)|(sg & w & G & _)]; apply grouped_strip in G; discriminate.
Qed.

(** A text that looks like a number is not handed on as it is, whatever the type of the parameter: different texts
    reach the instrument as the same one, a leading zero or an underscore is lost, and the word Infinity is shortened. *)
Theorem C85_text_kept_refuted : forall repr,
  ~ (forall s, has_char colon s = false -> exists e, entry_of s = Some e /\ str_entry repr e = s)
  /\ (exists s t e, s <> t /\ entry_of s = Some e /\ entry_of t = Some e)
  /\ (exists e, entry_of "0071" = Some e /\ str_entry repr e = "71")
  /\ (exists e, entry_of "2024_11" = Some e /\ str_entry repr e = "202411")
  /\ (exists e, entry_of "Infinity" = Some e /\ str_entry repr e = "inf").
Proof.
  intros repr. repeat split.
  - intros H. destruct (H "0071" eq_refl) as (e & [= <-] & B). discriminate.
  - exists "0071", "71", (ESing (Num (PInt 71))). repeat split. discriminate.
  - eexists. split; reflexivity.
  - eexists. split; reflexivity.
  - eexists. split; reflexivity.
Qed.
Print Assumptions C85_text_kept_refuted.

(** * What is printed is read again *)

Lemma uint_amount d : amount_of (NilEmpty.string_of_uint d) = Z.of_uint d /\ all_chars digit (NilEmpty.string_of_uint d) = true.
Proof.
  split.
  2:{ induction d; cbn [NilEmpty.string_of_uint all_chars]; rewrite ?IHd; reflexivity. }
  assert (A : forall d acc, Z.pos (Pos.of_uint_acc d acc) = Z.pos acc * 10 ^ Z.of_nat (String.length (NilEmpty.string_of_uint d)) + amount_of (NilEmpty.string_of_uint d)).
  { clear d. induction d; intros acc; cbn [Pos.of_uint_acc NilEmpty.string_of_uint String.length amount_of]; [cbn; lia|..];
      rewrite IHd, Nat2Z.inj_succ, Z.pow_succ_r by lia; unfold digit_value;
      match goal with |- context [nat_of_ascii ?c] => let v := eval vm_compute in (nat_of_ascii c) in change (nat_of_ascii c) with v end;
      cbn [Nat.sub Z.of_nat Pos.of_succ_nat Pos.succ]; lia. }
  unfold Z.of_uint. induction d; cbn [NilEmpty.string_of_uint amount_of Pos.of_uint]; [reflexivity|..];
    unfold digit_value; match goal with |- context [nat_of_ascii ?c] => let v := eval vm_compute in (nat_of_ascii c) in change (nat_of_ascii c) with v end;
    cbn [Nat.sub Z.of_nat Pos.of_succ_nat Pos.succ Z.of_N]; rewrite ?A; lia.
Qed.
Lemma uint_text d : amount_of (NilZero.string_of_uint d) = Z.of_uint d /\ all_chars digit (NilZero.string_of_uint d) = true /\ NilZero.string_of_uint d <> "".
Proof.
  destruct (uint_amount d) as [A B]. destruct d; [repeat split; discriminate|..]; (split; [exact A | split; [exact B | discriminate]]).
Qed.
Definition int_numeral (z : Z) : numeral :=
  match Z.to_int z with Decimal.Pos d => mkN None (NilZero.string_of_uint d) None None | Decimal.Neg d => mkN (Some true) (NilZero.string_of_uint d) None None end.
Lemma int_written z : written (int_numeral z) = str_Z z /\ number_ok (int_numeral z) /\ plain_int (int_numeral z).
Proof.
  unfold int_numeral, str_Z, NilZero.string_of_int. destruct (Z.to_int z) as [d|d]; destruct (uint_text d) as (A & B & C);
    unfold written, number_ok, plain_int; cbn [n_sign n_whole n_frac n_exp sign_text String.append]; rewrite string_app_nil_r;
    repeat split; try assumption; left; exact C.
Qed.
Lemma int_read z : float_or_int (str_Z z) = Some (PInt z) /\ has_char colon (str_Z z) = false.
Proof.
  destruct (int_written z) as (<- & A & B). split; [|apply written_colon, A].
  unfold float_or_int, py_int. rewrite (written_strip _ A). clear A B.
  assert (W : whole (written (int_numeral z)) = Some z).
  { rewrite <- (DecimalZ.of_to z) at 2. unfold int_numeral. destruct (Z.to_int z) as [d|d]; destruct (uint_text d) as (A & B & C);
      unfold written; cbn [n_sign n_whole n_frac n_exp]; rewrite string_app_nil_r; rewrite (whole_read _ _ B C), A; reflexivity. }
  rewrite W. reflexivity.
Qed.

(** the text of a float is read as that float *)
Definition readable (repr : Q -> string) (x : num) : Prop :=
  match x with PFloat q => float_or_int (repr q) = Some (PFloat q) /\ has_char colon (repr q) = false | _ => True end.
Definition readable_entry (repr : Q -> string) (e : entry) : Prop :=
  match e with ERange a b c => readable repr a /\ readable repr b /\ readable repr c | ESing (Num x) => readable repr x | ESing (Text _) => True end.
Lemma num_read repr x : readable repr x -> float_or_int (str_num repr x) = Some x /\ has_char colon (str_num repr x) = false.
Proof. destruct x as [z|q|[]|]; cbn [readable str_num]; intros A; [apply int_read | exact A | split; reflexivity..]. Qed.

Lemma range_of_mk a b c x z y : range_of a b c = Some (ERange x z y) -> mk_range x z y = Some (ERange x z y).
Proof.
  unfold range_of. destruct (float_or_int a) as [x'|]; [|discriminate]. destruct (float_or_int b) as [z'|]; [|discriminate]. destruct (float_or_int c) as [y'|]; [|discriminate].
  intros H. assert (E : x' = x /\ z' = z /\ y' = y).
  { unfold mk_range in H. destruct (num_eqb x' z'); [discriminate|]. destruct (num_eqb y' (PInt 0)); [discriminate|]. injection H as -> -> ->. repeat split. }
  destruct E as (-> & -> & ->). exact H.
Qed.

(** What stands for a value or a range when a run is started is read again as the same value or range,
    if this is so for its floats. *)
Theorem C85_handed_on_unchanged repr s e : entry_of s = Some e -> readable_entry repr e -> entry_of (str_entry repr e) = Some e.
Proof.
  intros A R. destruct (has_char colon s) eqn:C.
  - destruct (C85_colon_means_range s e C A) as (a & c & x & z & y & -> & X & Z & Y). destruct R as (R1 & R2 & R3).
    assert (M : mk_range x z y = Some (ERange x z y)).
    { unfold entry_of in A. rewrite C in A. unfold range_from_str in A. destruct (split_char colon s) as [|p [|q [|r [|? ?]]]]; try discriminate; exact (range_of_mk _ _ _ _ _ _ A). }
    destruct (num_read repr x R1) as [A1 B1], (num_read repr z R2) as [A2 B2], (num_read repr y R3) as [A3 B3].
    cbn [str_entry]. destruct (three _ _ _ B1 B3 B2) as [H S]. unfold entry_of. rewrite H. unfold range_from_str. rewrite S. unfold range_of.
    rewrite A1, A2, A3. exact M.
  - unfold entry_of in A. rewrite C in A. unfold single_from_str in A. rewrite C in A. injection A as <-. unfold value_of in *.
    destruct (float_or_int s) as [x|] eqn:F.
    + destruct (num_read repr x R) as [A1 B1]. cbn [str_entry]. unfold entry_of, single_from_str, value_of. rewrite B1, A1. reflexivity.
    + cbn [str_entry]. unfold entry_of, single_from_str, value_of. rewrite C, F. reflexivity.
Qed.
Print Assumptions C85_handed_on_unchanged.
Example C85_handed_on_unchanged_example :
  let repr := fun q : Q => "0.25" in
  exists e, entry_of " +1:.25:1_000" = Some e /\ str_entry repr e = "1:0.25:1000" /\ readable_entry repr e /\ entry_of "1:0.25:1000" = Some e.
Proof. eexists. repeat split. Qed.
