(** Property C07, continued: the characters of a printed expression. *)
From Coq Require Import List String Ascii Bool NArith QArith Qcanon ZArith Arith Lia.
From Verif Require Import PyStr Expr ExprSem Print Signs Properties_Print Lexer ExprChars.
Import ListNotations.
Local Open Scope string_scope.
Local Open Scope list_scope.
Local Open Scope nat_scope.

(** The characters [s], cut into tokens by the lexer of instrument files, are read as the expression [n] by its grammar. *)
Definition text_reads (s : string) (n : node) : Prop :=
  exists l ts, lex s = Some l /\ map expr_tok l = map Some ts /\ reads mc_table ts n.

Lemma lexes_alone s ts : lexes s ts -> exists l, lex s = Some l /\ map expr_tok l = map Some ts.
Proof. intros (l & L & E). exists l. split; [|exact E]. specialize (L "" eq_refl). rewrite string_app_nil_r in L. rewrite L. cbn. now rewrite app_nil_r. Qed.

(** The characters printed for a tree in which every operand binds tight enough, whose names are identifiers and not keywords, whose texts are
    literals and whose numbers are written as decimal numbers, are read as an expression with the same value.
    Missing: other trees, see the refutations. *)
Theorem C07_characters_read_back_partial : forall num n, fine num n -> tight mc_table plain true n ->
  forall IB IU env, calls IB IU -> exists n', text_reads (show num n) n' /\ den IB IU env false n' = den IB IU env false n.
Proof.
  intros num n F T IB IU env C. destruct (C07_instrument_reads_the_value_partial n T IB IU env env C (fun _ _ _ => eq_refl)) as (n' & R & D).
  exists n'. split; [|exact D]. destruct (lexes_alone _ _ (show_lexes num n F T)) as (l & L & E). exists l, (print plain true n). auto.
Qed.
Print Assumptions C07_characters_read_back_partial.

(** * What was read can be written *)
Definition good_tok (t : tok) : Prop :=
  match t with TId s => ident s | TStr s => literal s | _ => True end.
Lemma fine_all num l : Forall (fine num) l -> Forall ident (flat_map words l) /\ Forall literal (flat_map literals l) /\ Forall (shown num) (flat_map numbers l).
Proof.
  induction 1 as [|x l (A & B & C) _ (A' & B' & C')]; [repeat constructor|]. cbn [flat_map]. split; [|split]; apply Forall_app; auto.
Qed.
Lemma fine_mk_un num op d l : Forall (fine num) l -> (forall s, op <> UNamed s) -> fine num (NUn op d l).
Proof.
  intros F N. apply fine_all in F as (A & B & C). split; [|split; [exact B|exact C]]. cbn [words]. destruct op; try exact A. destruct (N s eq_refl).
Qed.
Lemma fine_mk_tri num d f s t : Forall (fine num) f -> Forall (fine num) s -> Forall (fine num) t -> fine num (NTri d f s t).
Proof.
  intros F G H. apply fine_all in F as (A & B & C). apply fine_all in G as (A' & B' & C'). apply fine_all in H as (A2 & B2 & C2).
  split; [|split]; cbn [words literals numbers]; rewrite !Forall_app; auto.
Qed.
(** names are identifiers and not keywords, texts are literals *)
Definition proper (n : node) : Prop := Forall ident (words n) /\ Forall literal (literals n).
Lemma proper_all l : Forall proper l -> Forall ident (flat_map words l) /\ Forall literal (flat_map literals l).
Proof. induction 1 as [|x l (A & B) _ (A' & B')]; [split; constructor|]. cbn [flat_map]. split; apply Forall_app; auto. Qed.
Lemma proper_mk_un op d l : Forall proper l -> (forall s, op <> UNamed s) -> proper (NUn op d l).
Proof. intros F N. apply proper_all in F as (A & B). split; [|exact B]. cbn [words]. destruct op; try exact A. destruct (N s eq_refl). Qed.
Lemma proper_mk_bin op d l r : Forall proper l -> Forall proper r -> (forall s, op <> BNamed s) -> proper (NBin op d l r).
Proof.
  intros F G N. apply proper_all in F as (A & B). apply proper_all in G as (A' & B'). assert (W : Forall ident (flat_map words l ++ flat_map words r)) by (apply Forall_app; auto).
  split; [|apply Forall_app; auto]. cbn [words]. destruct op; try exact W. destruct (N s eq_refl).
Qed.
Lemma proper_mk_tri d f s t : Forall proper f -> Forall proper s -> Forall proper t -> proper (NTri d f s t).
Proof. intros F G H. apply proper_all in F as (A & B). apply proper_all in G as (A' & B'). apply proper_all in H as (A2 & B2). split; cbn [words literals]; rewrite !Forall_app; auto. Qed.
Lemma mc_bin_named s op p q : binfo mc_table s = Some (op, p, q) -> forall w, op <> BNamed w.
Proof.
  intro H. cbn in H. unfold look in H. destruct (find _ _) as [[k v]|] eqn:F; [|discriminate]. apply find_some in F as [F _]. cbn in F, H. injection H as ->.
  repeat match type of F with _ \/ _ => destruct F as [F|F]; [injection F as _ <- _ _; discriminate|] end. destruct F.
Qed.
Lemma mc_pre_named s op p : pinfo mc_table s = Some (op, p) -> forall w, op <> UNamed w.
Proof.
  intro H. cbn in H. unfold look in H. destruct (find _ _) as [[k v]|] eqn:F; [|discriminate]. apply find_some in F as [F _]. cbn in F, H. injection H as ->.
  repeat match type of F with _ \/ _ => destruct F as [F|F]; [injection F as _ <- _; discriminate|] end. destruct F.
Qed.
Section Read.
  Notation gt := (Forall good_tok).
  Notation fn := proper.
  Lemma proper_leaf s : ident s -> fn (leaf s). Proof. intro H. split; [constructor; [exact H|constructor]|constructor]. Qed.
  Lemma proper_func s d : ident s -> fn (NVal (PStr s) d OFunc). Proof. intro H. split; [constructor; [exact H|constructor]|constructor]. Qed.
  Lemma proper_text s d : literal s -> fn (NVal (PStr s) d OValue). Proof. intro H. split; [constructor|constructor; [exact H|constructor]]. Qed.
  Lemma proper_num q d o : fn (NVal (PNum q) d o). Proof. split; constructor. Qed.
  Lemma read_proper : forall f,
    (forall mn ts n r, gt ts -> pexpr mc_table f mn ts = Some (n, r) -> fn n /\ gt r)
    /\ (forall mn lhs ts n r, fn lhs -> gt ts -> ploop mc_table f mn lhs ts = Some (n, r) -> fn n /\ gt r)
    /\ (forall ts ns r, gt ts -> pargs mc_table f ts = Some (ns, r) -> Forall fn ns /\ gt r).
  Proof.
    induction f as [|f (IE & IL & IA)]; [split; [|split]; intros; discriminate|]. split; [|split].
    - intros mn ts n r G H. destruct ts as [|x ts]; [discriminate|]. pose proof (Forall_inv G) as Gx. pose proof (Forall_inv_tail G) as G1. clear G.
      destruct x as [q|s|s|s| | | | | | | | |]; try discriminate.
      + rewrite e_num in H. destruct (Qc_ltb q 0); [discriminate|]. eapply IL; [|exact G1|exact H]. now apply proper_num.
      + rewrite e_str in H. eapply IL; [|exact G1|exact H]. now apply proper_text.
      + cbn in Gx. assert (Pl : ploop mc_table f mn (leaf s) ts = Some (n, r) -> fn n /\ gt r) by (intro H'; eapply IL; [|exact G1|exact H']; now apply proper_leaf).
        destruct ts as [|y ts]; [exact (Pl H)|]. pose proof (Forall_inv G1) as Gy. pose proof (Forall_inv_tail G1) as G2.
        destruct y as [q|s2|s2|s2| | | | | | | | |]; try exact (Pl H).
        * rewrite e_call in H. destruct (pargs mc_table f ts) as [[args r']|] eqn:A; [|discriminate]. apply IA in A as (A & G3); [|exact G2]. eapply IL; [|exact G3|exact H].
          apply proper_mk_bin; [constructor; [now apply proper_func|constructor]|exact A|discriminate].
        * rewrite e_item in H. destruct (pexpr mc_table f 0 ts) as [[e [|[] rest]]|] eqn:A; try discriminate. apply IE in A as (A & G3); [|exact G2]. eapply IL; [|exact (Forall_inv_tail G3)|exact H].
          apply proper_mk_bin; [constructor; [now apply proper_leaf|constructor]|constructor; [exact A|constructor]|discriminate].
        * destruct ts as [|z r']; [exact (Pl H)|]. pose proof (Forall_inv G2) as Gz. pose proof (Forall_inv_tail G2) as G3. destruct z as [q|s2|s2|s2| | | | | | | | |]; try exact (Pl H).
          rewrite e_struct in H. eapply IL; [|exact G3|exact H]. apply proper_mk_bin; [| |discriminate]; (constructor; [now apply proper_leaf|constructor]).
        * destruct ts as [|z r']; [exact (Pl H)|]. pose proof (Forall_inv G2) as Gz. pose proof (Forall_inv_tail G2) as G3. destruct z as [q|s2|s2|s2| | | | | | | | |]; try exact (Pl H).
          rewrite e_ptr in H. eapply IL; [|exact G3|exact H]. apply proper_mk_bin; [| |discriminate]; (constructor; [now apply proper_leaf|constructor]).
      + rewrite Print.e_op in H. destruct (pinfo mc_table s) as [[op pm]|] eqn:P; [|discriminate]. destruct (pexpr mc_table f pm ts) as [[e rest]|] eqn:A; [|discriminate].
        apply IE in A as (A & G3); [|exact G1]. eapply IL; [|exact G3|exact H]. apply proper_mk_un; [constructor; [exact A|constructor]|]. exact (mc_pre_named _ _ _ P).
      + rewrite e_group in H. destruct (pexpr mc_table f 0 ts) as [[e [|[] rest]]|] eqn:A; try discriminate. apply IE in A as (A & G3); [|exact G1]. eapply IL; [|exact (Forall_inv_tail G3)|exact H].
        apply proper_mk_un; [constructor; [exact A|constructor]|discriminate].
    - intros mn lhs ts n r Hl G H. assert (Done : Some (lhs, ts) = Some (n, r) -> fn n /\ gt r) by (intro X; injection X as <- <-; auto).
      destruct ts as [|x ts]; [exact (Done H)|]. pose proof (Forall_inv_tail G) as G1. destruct x as [q|s|s|s| | | | | | | | |]; try exact (Done H).
      + rewrite l_op in H. destruct (binfo mc_table s) as [[[op p] rm]|] eqn:B; [|exact (Done H)]. destruct (mn <=? p); [|exact (Done H)].
        destruct (pexpr mc_table f rm ts) as [[e rest]|] eqn:A; [|discriminate]. apply IE in A as (A & G2); [|exact G1]. eapply IL; [|exact G2|exact H].
        apply proper_mk_bin; [constructor; [exact Hl|constructor]|constructor; [exact A|constructor]|exact (mc_bin_named _ _ _ _ B)].
      + rewrite l_tri in H. destruct (mn <=? tlevel mc_table); [|exact (Done H)]. destruct (pexpr mc_table f 0 ts) as [[e [|[] rest]]|] eqn:A; try discriminate.
        apply IE in A as (A & G2); [|exact G1]. destruct (pexpr mc_table f (tlast mc_table) rest) as [[e' rest']|] eqn:A'; [|discriminate].
        apply IE in A' as (A' & G3); [|exact (Forall_inv_tail G2)]. eapply IL; [|exact G3|exact H]. apply proper_mk_tri; (constructor; [assumption|constructor]).
    - intros ts ns r G H. rewrite a_eq in H. destruct (pexpr mc_table f 0 ts) as [[e [|[] rest]]|] eqn:A; try discriminate; apply IE in A as (A & G1); try exact G; apply Forall_inv_tail in G1.
      + injection H as <- <-. split; [constructor; [exact A|constructor]|exact G1].
      + destruct (pargs mc_table f rest) as [[es r']|] eqn:A'; [|discriminate]. apply IA in A' as (A' & G2); [|exact G1]. injection H as <- <-. split; [constructor; assumption|exact G2].
  Qed.
End Read.
Section Fine.
  Variable num : Qc -> string.
  Notation fn := (fine num).
  Lemma magnitude_opp q : magnitude (- q)%Qc = magnitude q.
  Proof.
    unfold magnitude, Qc_ltb. destruct (Qclt_le_dec q 0) as [L|L]; destruct (Qclt_le_dec (- q) 0) as [M|M]; try reflexivity.
    - exfalso. assert (N : (- 0 <= - - q)%Qc) by (apply Qcopp_le_compat; now apply Qclt_le_weak). rewrite Qcopp_involutive in N. replace (-0)%Qc with 0%Qc in N by (apply Qc_is_canon; reflexivity). exact (Qcle_not_lt _ _ N L).
    - apply Qcopp_involutive.
    - assert (N : (- q <= - 0)%Qc) by now apply Qcopp_le_compat. replace (-0)%Qc with 0%Qc in N by (apply Qc_is_canon; reflexivity).
      assert (E : (- q)%Qc = 0%Qc) by (apply Qcle_antisym; assumption). rewrite E. rewrite <- (Qcopp_involutive q), E. apply Qc_is_canon. reflexivity.
  Qed.
  Lemma negate_fine d n : fn n -> fn (negate d n).
  Proof.
    intro F. assert (U : fn (NUn UNeg d [n])) by (apply fine_mk_un; [constructor; [exact F|constructor]|discriminate]).
    destruct n as [q|[q|s] d0 o|d0 l|op d0 l|op d0 l r|d0 f s t|l]; try exact U; cbn [negate].
    - destruct F as (A & B & C). split; [exact A|split; [exact B|]]. cbn [numbers] in *. now rewrite magnitude_opp.
    - destruct F as (A & B & C). split; [exact A|split; [exact B|]]. cbn [numbers] in *. now rewrite magnitude_opp.
    - destruct op; try exact U. destruct l as [|x [|? ?]]; try exact U. apply fine_un in F as [F _]. now apply Forall_inv in F.
  Qed.
  Lemma map_settle l : Forall (fun n => fn n -> fn (settle n)) l -> Forall fn l -> Forall fn (map settle l).
  Proof. induction 1 as [|x l Hx _ IH]; intro F; [constructor|]. cbn [map]. constructor; [apply Hx; now apply Forall_inv in F|apply IH; now apply Forall_inv_tail in F]. Qed.
  Lemma settle_fine n : fn n -> fn (settle n).
  Proof.
    induction n using node_ind'; intro F; try exact F.
    - cbn [settle]. apply fine_box in F. destruct l as [|x [|y l]].
      + exact (fine_all _ _ F).
      + apply Forall_inv in H, F. auto.
      + exact (fine_all _ _ (map_settle _ H F)).
    - pose proof (fine_un _ _ _ _ F) as [Fa N]. pose proof (map_settle _ H Fa) as M.
      assert (G : fn (NUn op d (map settle a))).
      { apply fine_all in M as (A & B & C). split; [|split; [exact B|exact C]]. cbn [words]. apply Forall_app. split; [|exact A]. destruct op; try constructor; [exact N|constructor]. }
      destruct op; try exact G; cbn [settle]; (destruct a as [|x [|? ?]]; [exact G| |exact G]); cbn [map] in M; apply Forall_inv in M.
      + now apply negate_fine.
      + exact M.
    - pose proof (fine_bin _ _ _ _ _ F) as (Fl & Fr & N). pose proof (map_settle _ H Fl) as M. pose proof (map_settle _ H0 Fr) as M'. cbn [settle].
      apply fine_all in M as (A & B & C). apply fine_all in M' as (A' & B' & C'). split; [|split; apply Forall_app; auto]. cbn [words]. rewrite !Forall_app. split; [|auto]. destruct op; try constructor; [exact N|constructor].
    - apply fine_tri in F as (F1 & F2 & F3). cbn [settle]. apply fine_mk_tri; now apply map_settle.
    - cbn [settle]. apply fine_expr in F. destruct l as [|x [|y l]].
      + exact (fine_all _ _ F).
      + apply Forall_inv in H, F. auto.
      + exact (fine_all _ _ (map_settle _ H F)).
  Qed.
End Fine.

(** ** The tokens of a text *)
Lemma str_body_self s : forall a b, str_body s = Some (a, b) -> s = (a ++ b)%string /\ a <> "" /\ str_body a = Some (a, "").
Proof.
  remember (String.length s) as n eqn:E. revert s E. induction n as [n IH] using lt_wf_ind. intros s -> a b. destruct s as [|c s]; cbn [str_body]; [discriminate|].
  destruct (Ascii.eqb c dquote) eqn:Q; [intro H; injection H as <- <-; apply Ascii.eqb_eq in Q as ->; split; [reflexivity|split; [discriminate|reflexivity]]|].
  destruct (Ascii.eqb c bslash) eqn:Bs.
  - destruct s as [|d q]; [discriminate|].
    assert (G : forall k, match str_body q with Some (a, b) => Some (String c (String d a), b) | None => None end = Some (a, b) ->
      (forall a', q = (a' ++ b)%string -> a' <> "" -> str_body a' = Some (a', "") -> k a' = Some (String c (String d a'), "")) ->
      exists a', a = String c (String d a') /\ q = (a' ++ b)%string /\ k a' = Some (String c (String d a'), "")).
    { intros k. destruct (str_body q) as [[a' b']|] eqn:Y; [|discriminate]. intros H K. injection H as <- <-. apply IH with (m := String.length q) in Y as (Y1 & Y2 & Y3); [|cbn; lia|reflexivity].
      exists a'. repeat split; auto. }
    assert (Fin : forall k, (exists a', a = String c (String d a') /\ q = (a' ++ b)%string /\ k a' = Some (String c (String d a'), "")) -> (forall a', str_body (String c (String d a')) = k a') ->
      String c (String d q) = (a ++ b)%string /\ a <> "" /\ str_body a = Some (a, "")).
    { intros k (a' & -> & -> & K) S. split; [reflexivity|split; [discriminate|]]. now rewrite S. }
    destruct (existsb _ _ || octal d) eqn:X.
    + intro H. eapply Fin; [apply (G (fun a' => match str_body a' with Some (x, y) => Some (String c (String d x), y) | None => None end) H)|].
      * intros a' _ _ ->. reflexivity.
      * intro a'. cbn [str_body]. rewrite Q, Bs, X. reflexivity.
    + destruct (Ascii.eqb d "x") eqn:Dx.
      * destruct q as [|h q']; [discriminate|]. destruct (hexa h) eqn:Hh; [|discriminate]. intro H.
        eapply Fin; [apply (G (fun a' => match a' with String h _ => if hexa h then match str_body a' with Some (x, y) => Some (String c (String d x), y) | None => None end else None | EmptyString => None end) H)|].
        -- intros a' Ea Na ->. destruct a' as [|h' a']; [congruence|]. cbn [append] in Ea. injection Ea as <- _. now rewrite Hh.
        -- intro a'. cbn [str_body]. rewrite Q, Bs, X, Dx. reflexivity.
      * destruct (Ascii.eqb d cr) eqn:Dc; [|discriminate]. destruct q as [|e q']; [discriminate|]. destruct (Ascii.eqb e lf) eqn:El.
        -- destruct (str_body q') as [[a' b']|] eqn:Y; [|discriminate]. intro H. injection H as <- <-. apply IH with (m := String.length q') in Y as (Y1 & Y2 & Y3); [|cbn; lia|reflexivity].
           split; [cbn [append]; now rewrite Y1|split; [discriminate|]]. cbn [str_body]. rewrite Q, Bs, X, Dx, Dc, El, Y3. reflexivity.
        -- intro H. eapply Fin; [apply (G (fun a' => match a' with String e q' => if Ascii.eqb e lf then match str_body q' with Some (x, y) => Some (String c (String d (String e x)), y) | None => None end
              else match str_body a' with Some (x, y) => Some (String c (String d x), y) | None => None end | EmptyString => None end) H)|].
           ++ intros a' Ea Na ->. destruct a' as [|h' a']; [congruence|]. cbn [append] in Ea. injection Ea as <- _. now rewrite El.
           ++ intro a'. cbn [str_body]. rewrite Q, Bs, X, Dx, Dc. reflexivity.
  - destruct (_ || _) eqn:X; [discriminate|]. destruct (str_body s) as [[a' b']|] eqn:Y; [|discriminate]. intro H. injection H as <- <-.
    apply IH with (m := String.length s) in Y as (Y1 & Y2 & Y3); [|cbn; lia|reflexivity]. split; [cbn [append]; now rewrite Y1|split; [discriminate|]]. cbn [str_body]. now rewrite Q, Bs, X, Y3.
Qed.
Definition good_ltok (t : ltok) : Prop := match t with LId s => ident s | LStr s => literal s | _ => True end.
Lemma lex_string_good p r t q : In p [""; "u8"; "u"; "U"; "L"] -> lex_string p r = Some (Some t, q) -> good_ltok t.
Proof.
  intros P. unfold lex_string. destruct (str_body r) as [[b q0]|] eqn:B; [|discriminate]. destruct (ud_next q0).
  - destruct (take word_char q0) as [w q']. destruct (_ || _); [discriminate|]. intro H. injection H as <- _. exact I.
  - intro H. injection H as <- _. apply str_body_self in B as (_ & _ & B). exists p, b. auto.
Qed.
Lemma float_end_good x r t q : float_end x r = Some (Some t, q) -> good_ltok t.
Proof. unfold float_end. destruct (take word_char r) as [w q0]. destruct (odd_next q0); [discriminate|]. repeat match goal with |- (if ?b then _ else _) = _ -> _ => destruct b end; intro H; injection H as <- _; exact I. Qed.
Lemma lex_number_good s t q : lex_number s = Some (Some t, q) -> good_ltok t.
Proof.
  unfold lex_number. destruct (take digit s) as [d [|c r]].
  - repeat match goal with |- (if ?b then _ else _) = _ -> _ => destruct b end; intro H; try discriminate; injection H as <- _; exact I.
  - destruct (Ascii.eqb c ".").
    + destruct (take digit r) as [f r1]. destruct (exponent r1) as [[e r2]|]; apply float_end_good.
    + destruct (exponent (String c r)) as [[e r2]|]; [apply float_end_good|]. destruct (take word_char (String c r)) as [w r2]. destruct (odd_next r2); [discriminate|].
      repeat match goal with |- (if ?b then _ else _) = _ -> _ => destruct b end; intro H; try discriminate; injection H as <- _; exact I.
Qed.
Lemma lex_sign_good s t q : lex_sign s = Some (Some t, q) -> good_ltok t.
Proof.
  destruct s as [|a s]; cbn [lex_sign]; [discriminate|]. destruct s as [|b s]; [destruct (isin _ _); [intro H; injection H as <- _; exact I|discriminate]|].
  destruct s as [|c s]; repeat (match goal with |- context [isin ?x ?y] => destruct (isin x y) end); intro H; try discriminate; injection H as <- _; exact I.
Qed.
Lemma isin_in s l : isin s l = true -> In s l.
Proof. intro H. apply existsb_exists in H as (x & I & E). apply String.eqb_eq in E as ->. exact I. Qed.
Lemma lex1_good s t q : lex1 s = Some (Some t, q) -> good_ltok t.
Proof.
  destruct s as [|c s]; cbn [lex1]; [discriminate|]. destruct (space c); [discriminate|]. destruct (word_start c) eqn:W.
  - unfold lex_word. cbn [take]. unfold word_char at 1. rewrite W. cbn [orb]. pose proof (take_app word_char s) as T. destruct (take word_char s) as [w r]. destruct T as [_ T].
    assert (P : Some (Some (word_token (String c w)), r) = Some (Some t, q) -> good_ltok t).
    { intro H. injection H as <- _. destruct (word_token (String c w)) as [| k | | | | | | | |] eqn:K; try exact I; try (unfold word_token in K; repeat match type of K with (if ?b then _ else _) = _ => destruct b; [discriminate|] end; destruct (keyword _); discriminate).
      assert (k = String c w) as ->. { unfold word_token in K. repeat match type of K with (if ?b then _ else _) = _ => destruct b; [discriminate|] end. destruct (keyword _); [discriminate|]. now injection K. }
      split; [now split|exact K]. }
    destruct r as [|d r]; [exact P|]. destruct (Ascii.eqb d dquote).
    + destruct (isin (String c w) ["u8"; "u"; "U"; "L"]) eqn:Is; [intro H; eapply lex_string_good; [|exact H]; right; now apply isin_in|]. clear Is. destruct (isin _ _); [discriminate|exact P].
    + destruct (Ascii.eqb d squote); [destruct (isin _ _); [discriminate|exact P]|]. destruct (Ascii.eqb d bslash); [discriminate|exact P].
  - destruct (digit c); [apply lex_number_good|]. destruct (Ascii.eqb c dquote); [intro H; eapply lex_string_good; [now left|exact H]|].
    destruct (Ascii.eqb c "%").
    { unfold lex_percent. destruct s as [|d s]; [apply lex_sign_good|]. destruct (Ascii.eqb d "{").
      - destruct (until _ _ _) as [[b r]|]; [intro H; injection H as <- _; exact I|apply lex_sign_good].
      - destruct (startswith _ _); [intro H; assert (t = LInclude) as -> by congruence; exact I|apply lex_sign_good]. }
    destruct (Ascii.eqb c "/").
    { unfold lex_slash. destruct s as [|d s]; [apply lex_sign_good|]. destruct (Ascii.eqb d "*").
      - destruct (until _ _ _) as [[b r]|]; [discriminate|apply lex_sign_good].
      - destruct (Ascii.eqb d "/"); [discriminate|apply lex_sign_good]. }
    destruct (Ascii.eqb c "." && _); [apply lex_number_good|apply lex_sign_good].
Qed.
Lemma lexf_good f : forall s l, lexf f s = Some l -> Forall good_ltok l.
Proof.
  induction f as [|f IH]; intros s l; [discriminate|]. cbn [lexf]. destruct s as [|c s]; [intro H; injection H as <-; constructor|].
  destruct (lex1 (String c s)) as [[t r]|] eqn:L; [|discriminate]. destruct (lexf f r) as [l'|] eqn:R; [|discriminate]. cbn. intro H. injection H as <-. apply IH in R.
  destruct t as [t|]; [|exact R]. constructor; [eapply lex1_good; exact L|exact R].
Qed.
Lemma good_toks l ts : Forall good_ltok l -> map expr_tok l = map Some ts -> Forall good_tok ts.
Proof.
  revert ts. induction l as [|t l IH]; intros ts G E; destruct ts as [|u ts]; try discriminate; [constructor|]. cbn [map] in E. injection E as E1 E2.
  constructor; [|apply IH; [now apply Forall_inv_tail in G|exact E2]]. apply Forall_inv in G. destruct t; cbn [expr_tok] in E1; try discriminate; try (injection E1 as <-; exact G); try (injection E1 as <-; exact I).
  - destruct (decimal s); [|discriminate]. injection E1 as <-. exact I.
  - destruct (decimal s); [|discriminate]. injection E1 as <-. exact I.
  - injection E1 as <-. repeat match goal with |- context [if ?b then _ else _] => destruct b end; exact I.
Qed.

(** Whatever characters of an instrument file are an expression: once read and held, it is written with characters that are read as an
    expression with the same value.  Of Python's way to write a number it is asked that it gives a decimal number of that value. *)
Theorem C07_read_write_read_characters : forall num s n, text_reads s n -> (forall q, In q (numbers n) -> shown num q) ->
  forall IB IU env v, calls IB IU -> den IB IU env false n = Some v ->
  exists n', text_reads (show num (settle n)) n' /\ den IB IU env false n' = Some v.
Proof.
  intros num s n (l & ts & L & E & R) Q IB IU env v C D.
  assert (F : fine num (settle n)).
  { apply settle_fine. assert (P : proper n).
    { apply reads_at in R as (k & K). destruct (read_proper k) as (RE & _). refine (proj1 (RE 0 ts n [] _ K)). apply (good_toks l); [|exact E]. eapply lexf_good. exact L. }
    destruct P as [P1 P2]. split; [exact P1|split; [exact P2|]]. apply Forall_forall. exact Q. }
  assert (T : tight mc_table plain true (settle n)).
  { apply reads_at in R as (k & K). destruct (read_tight mc_table mc_table_ok k) as (RT & _). destruct (RT 0 ts n [] (Nat.le_0_l _) K) as (T & _). now apply settle_fits in T as (T & _). }
  apply (settle_value IB IU env) in D. destruct (C07_characters_read_back_partial num (settle n) F T IB IU env C) as (n' & R' & D'). exists n'. split; [exact R'|]. now rewrite D'.
Qed.
Print Assumptions C07_read_write_read_characters.

(** decimal digits of the numbers of the example *)
Definition ex_num (q : Qc) : string := if Qc_eqb q (Z2Qc 2) then "2" else if Qc_eqb q (Z2Qc 15 / Z2Qc 10)%Qc then "1.5" else if Qc_eqb q (1 / Z2Qc 100000)%Qc then "1e-05" else "0".
Definition ex_source : string := "2 * - -a+ .15E1 - f( 1e-5,""t\n"") / b // comment".
Ltac shown_by d f e := split; [exists d, f, e; repeat split; try discriminate; try (now left); try (right; eexists; split; reflexivity);
  try (right; reflexivity); try (intros; right; reflexivity)|vm_compute; reflexivity].
Definition ex_toks : list tok := [TNum (Z2Qc 2); TOp "*"; TOp "-"; TOp "-"; TId "a"; TOp "+"; TNum (Q2Qc (15 # 10)); TOp "-"; TId "f"; TL; TNum (Q2Qc (1 # 100000)); TComma; TStr """t\n"""; TR; TOp "/"; TId "b"].
Definition ex_node : node := match pexpr mc_table 40 0 ex_toks with Some (n, _) => n | None => NRaw 0%Qc end.
Example C07_read_write_read_characters_example : text_reads ex_source ex_node /\ (forall q, In q (numbers ex_node) -> shown ex_num q)
  /\ show ex_num (settle ex_node) = "((2 * a + 1.5) - f(1e-05,""t\n"") / b)".
Proof.
  split; [eexists; exists ex_toks; split; [vm_compute; reflexivity|split; [vm_compute; reflexivity|apply (reads_by _ 40); vm_compute; reflexivity]]|split; [|vm_compute; reflexivity]].
  assert (N : numbers ex_node = [Z2Qc 2; Q2Qc (15 # 10); Q2Qc (1 # 100000)]) by (vm_compute; reflexivity). rewrite N. intros q H.
  destruct H as [<-|[<-|[<-|[]]]]; [shown_by "2" "" ""|shown_by "1" ".5" ""|shown_by "1" "" "e-05"].
  right. exists "e"%char, "-", "05". repeat split; [now left|right; now right|discriminate].
Qed.
