(** Facts about InstrChars.v: the tokens of a written instrument, and reading them. *)
From Coq Require Import List String Ascii Bool NArith QArith Qcanon ZArith Arith Lia.
From Verif Require Import PyStr Expr ExprSem Print Signs Properties_Print Lexer ExprChars InstrModel InstrChars.
From Verif Require InstanceText.
Import ListNotations.
Import InstanceText (ci, mkCi, c_name, c_type, c_params, c_removable, c_cpu, c_split, c_when, c_at, c_at_rel, c_rot, c_rot_rel, c_group, c_extend, c_jump, c_meta,
  newline, is_null, add_meta, m_name, requote, int0, blank).
Local Open Scope string_scope.
Local Open Scope list_scope.
Local Open Scope nat_scope.

(** * Cutting a text into tokens *)
(** [p] before a text that does not continue its last token; before any text *)
Definition cuts (p : string) (l : list ltok) : Prop := forall rest, calm rest = true -> lex (p ++ rest) = option_map (app l) (lex rest).
(** proof helper: the text is read as these tokens before any text *)
Definition cutsA (p : string) (l : list ltok) : Prop := forall rest, lex (p ++ rest) = option_map (app l) (lex rest).
Lemma cutsA_weak p l : cutsA p l -> cuts p l. Proof. intros H rest _. apply H. Qed.
Lemma cutsA_app p q l m : cutsA p l -> cutsA q m -> cutsA (p ++ q) (l ++ m).
Proof. intros P Q rest. rewrite string_app_assoc, P, Q. apply option_map_app. Qed.
Lemma cutsA_cuts p q l m : cutsA p l -> cuts q m -> cuts (p ++ q) (l ++ m).
Proof. intros P Q rest C. rewrite string_app_assoc, P, Q by exact C. apply option_map_app. Qed.
Lemma cuts_sep p q l m : cuts p l -> calmly q -> cutsA q m -> cutsA (p ++ q) (l ++ m).
Proof. intros P C Q rest. rewrite string_app_assoc, P by now apply calmly_app. rewrite Q. apply option_map_app. Qed.
Lemma cuts_cuts p q l m : cuts p l -> calmly q -> cuts q m -> cuts (p ++ q) (l ++ m).
Proof. intros P C Q rest R. rewrite string_app_assoc, P by now apply calmly_app. rewrite Q by exact R. apply option_map_app. Qed.
Lemma cutsA_nil : cutsA "" []. Proof. intro rest. cbn [append]. now destruct (lex rest). Qed.
Lemma cuts_nil : cuts "" []. Proof. apply cutsA_weak, cutsA_nil. Qed.
Lemma cutsA_one p t : (forall rest, lex1 (p ++ rest) = Some (Some t, rest)) -> cutsA p [t].
Proof. intros H rest. rewrite (lex_step _ _ _ (H rest)). now destruct (lex rest). Qed.
Lemma cutsA_none p : (forall rest, lex1 (p ++ rest) = Some (None, rest)) -> cutsA p [].
Proof. intros H rest. rewrite (lex_step _ _ _ (H rest)). now destruct (lex rest). Qed.
Lemma cutsA_space : cutsA " " []. Proof. apply cutsA_none. reflexivity. Qed.
Lemma cutsA_newline : cutsA newline []. Proof. apply cutsA_none. reflexivity. Qed.
Lemma cuts_space p l : cuts p l -> cutsA (p ++ " ") l.
Proof. intro H. rewrite <- (app_nil_r l). apply cuts_sep; [exact H|reflexivity|exact cutsA_space]. Qed.
Lemma cuts_newline p l : cuts p l -> cutsA (p ++ newline) l.
Proof. intro H. rewrite <- (app_nil_r l). apply cuts_sep; [exact H|reflexivity|exact cutsA_newline]. Qed.
(** proof helper: a name *)
Definition wordy (s : string) : bool := match s with String c r => word_start c && all word_char r | EmptyString => false end.
Lemma lex1_word s rest : wordy s = true -> calm_id rest = true -> lex1 (s ++ rest) = Some (Some (word_token s), rest).
Proof.
  intros F C. destruct s as [|c r]; [discriminate|]. apply andb_prop in F as [Hc Hr]. cbn [append lex1]. rewrite (word_not_space c Hc), Hc. unfold lex_word.
  change (String c (r ++ rest)) with (String c r ++ rest)%string. rewrite take_exact; [|cbn; unfold word_char at 1; now rewrite Hc|now apply calm_id_stops].
  destruct rest as [|d q]; [reflexivity|]. cbn in C. destruct (Ascii.eqb d dquote), (Ascii.eqb d squote), (Ascii.eqb d bslash); try reflexivity; rewrite ?orb_true_r in C; discriminate.
Qed.
Lemma cuts_word s : wordy s = true -> cuts s [word_token s].
Proof. intros W rest C. rewrite (lex_step _ _ _ (lex1_word s rest W (calm_calm_id _ C))). now destruct (lex rest). Qed.
Lemma cutsA_key k : wordy k = true -> word_token k = LKey k -> cutsA (k ++ " ") [LKey k].
Proof. intros W K. apply cuts_space. rewrite <- K. now apply cuts_word. Qed.
Lemma cuts_id s : ident s -> cuts s [LId s].
Proof. intros H rest C. rewrite (lex_step _ _ _ (lex1_ident s rest H (calm_calm_id _ C))). now destruct (lex rest). Qed.
Lemma cuts_str s : literal s -> cuts s [LStr s].
Proof. intros H rest C. rewrite (lex_step _ _ _ (lex1_literal s rest H (calm_calm_id _ C))). now destruct (lex rest). Qed.
Lemma cutsA_sign a : (a = "(" \/ a = ")" \/ a = ",")%char -> cutsA (String a "") [LSym (String a "")].
Proof. intro H. apply cutsA_one. intro rest. cbn [append]. destruct H as [-> | [-> | ->]]; (rewrite lex1_lone by reflexivity; apply lex_sign1; [reflexivity|]; destruct rest; [exact I|reflexivity]). Qed.
Lemma cutsA_comma : cutsA ", " [LSym ","].
Proof. change ", " with ("," ++ " ")%string. rewrite <- (app_nil_r [LSym ","]). apply cutsA_app; [apply cutsA_sign; auto|exact cutsA_space]. Qed.
Lemma cutsA_equals : cutsA " = " [LSym "="].
Proof. intro rest. cbn [append]. rewrite lex_space. rewrite (lex_step _ (Some (LSym "=")) (String " " rest)) by (now destruct rest). rewrite lex_space. now destruct (lex rest). Qed.
Lemma cuts_equal q l : heads q -> cuts q l -> cuts ("=" ++ q) (LSym "=" :: l).
Proof.
  intros H Q rest C. rewrite string_app_assoc. cbn [append]. rewrite (lex_step _ (Some (LSym "=")) (q ++ rest)).
  - rewrite Q by exact C. now destruct (lex rest).
  - rewrite lex1_lone by reflexivity. apply lex_sign1; [reflexivity|]. destruct q as [|b q]; [destruct H|]. cbn [append].
    assert (X : forall c, (fun c => negb (head_char c) || negb (isin (String "=" (String c "")) pairs)) c = true) by (apply every; vm_compute; reflexivity).
    specialize (X b). cbv beta in X. rewrite H in X. now destruct (isin _ pairs).
Qed.
(** a block *)
Definition closed (s : string) : Prop := until "%" "}" s = None.
Lemma until_step a b x y s : until a b (String x (String y s)) =
  if Ascii.eqb x a && Ascii.eqb y b then Some ("", s) else match until a b (String y s) with Some (u, v) => Some (String x u, v) | None => None end.
Proof. reflexivity. Qed.
Lemma until_block s r : closed s -> until "%" "}" (s ++ newline ++ "%}" ++ r) = Some ((s ++ newline)%string, r).
Proof.
  unfold closed. induction s as [|x s IH]; intro U; [reflexivity|]. destruct s as [|y s].
  - cbn [append until newline]. destruct (Ascii.eqb x "%"); reflexivity.
  - rewrite until_step in U. cbn [append]. rewrite until_step. destruct (Ascii.eqb x "%" && Ascii.eqb y "}"); [discriminate|].
    cbn [append] in IH. destruct (until "%" "}" (String y s)) as [[u v]|] eqn:V; [discriminate|]. rewrite (IH eq_refl). reflexivity.
Qed.
Lemma cutsA_block s : closed s -> cutsA ("%{" ++ s ++ newline ++ "%}") [LBlock (s ++ newline)].
Proof.
  intro C. apply cutsA_one. intro rest. rewrite !string_app_assoc. cbn [append lex1]. change (space "%") with false. change (word_start "%") with false. change (digit "%") with false.
  change (Ascii.eqb "%" dquote) with false. change (Ascii.eqb "%" "%") with true. cbv match. unfold lex_percent. change (Ascii.eqb "{" "{") with true. cbv match.
  pose proof (until_block s rest C) as U. cbn [append] in U. rewrite U. reflexivity.
Qed.

Lemma closed_lf s : closed s -> closed (newline ++ s).
Proof. unfold closed. intro H. cbn [append newline]. destruct s as [|y s]; [reflexivity|]. rewrite until_step. cbn [Ascii.eqb Bool.eqb andb]. now rewrite H. Qed.
Lemma closed_between a b : closed a -> closed b -> closed (a ++ newline ++ b).
Proof.
  unfold closed. intros A B. induction a as [|x a IH]; [exact (closed_lf b B)|]. destruct a as [|y a].
  - change (String x "" ++ newline ++ b)%string with (String x (String lf b)). rewrite until_step.
    assert (E : Ascii.eqb x "%" && Ascii.eqb lf "}" = false) by (apply andb_false_iff; now right). rewrite E.
    pose proof (closed_lf b B) as Z. unfold closed in Z. change (newline ++ b)%string with (String lf b) in Z. now rewrite Z.
  - rewrite until_step in A. cbn [append]. rewrite until_step. destruct (_ && _); [discriminate|]. cbn [append] in IH.
    destruct (until "%" "}" (String y a)) as [[u v]|] eqn:V; [discriminate|]. now rewrite (IH eq_refl).
Qed.
Lemma closed_join l : Forall closed l -> closed (join newline l).
Proof.
  induction l as [|x l IH]; intro H; [reflexivity|]. destruct l as [|y l]; [exact (Forall_inv H)|].
  change (join newline (x :: y :: l)) with (x ++ newline ++ join newline (y :: l))%string. apply closed_between; [exact (Forall_inv H)|apply IH; exact (Forall_inv_tail H)].
Qed.
Definition block_of (l : list string) : string := (newline ++ newline ++ join newline l ++ newline)%string.
(** proof helper: the tokens of a block *)
Definition w_block (k : string) (l : list string) : list ltok := match l with [] => [] | _ => [LKey k; LBlock (block_of l)] end.
Lemma cutsA_blocks k l : wordy k = true -> word_token k = LKey k -> Forall closed l -> cutsA (blocks k l) (w_block k l).
Proof.
  intros W K C. unfold blocks, w_block. destruct l as [|x l]; [exact cutsA_nil|]. remember (x :: l) as L. clear HeqL x l. unfold block.
  change (cutsA (k ++ newline ++ "%{" ++ newline ++ newline ++ join newline L ++ newline ++ "%}" ++ newline ++ newline) [LKey k; LBlock (block_of L)]).
  replace (k ++ newline ++ "%{" ++ newline ++ newline ++ join newline L ++ newline ++ "%}" ++ newline ++ newline)%string
    with ((k ++ newline) ++ ("%{" ++ (newline ++ newline ++ join newline L) ++ newline ++ "%}") ++ (newline ++ newline))%string by (now rewrite !string_app_assoc).
  change [LKey k; LBlock (block_of L)] with ([LKey k] ++ [LBlock (block_of L)] ++ ([] ++ [])). apply cutsA_app; [apply cuts_newline; rewrite <- K; now apply cuts_word|].
  apply cutsA_app; [|apply cutsA_app; exact cutsA_newline].
  replace (block_of L) with ((newline ++ newline ++ join newline L) ++ newline)%string by (unfold block_of; now rewrite !string_app_assoc).
  apply cutsA_block. apply closed_lf, closed_lf, closed_join, C.
Qed.
(** lines *)
Definition unbroken (s : string) : bool := all (fun c => negb (breaks c)) s.
Lemma all_app p a b : all p (a ++ b) = all p a && all p b.
Proof. induction a as [|c a IH]; [reflexivity|]. cbn. now rewrite IH, andb_assoc. Qed.
Lemma unbroken_app a b : unbroken (a ++ b) = unbroken a && unbroken b. Proof. apply all_app. Qed.
Lemma wrap_unbroken s : unbroken s = true -> wrap s = s.
Proof. induction s as [|c s IH]; [reflexivity|]. cbn [unbroken all wrap]. intro H. apply andb_prop in H as [B H]. destruct (breaks c); [discriminate|]. now rewrite IH. Qed.
Lemma word_unbroken s : all word_char s = true -> unbroken s = true.
Proof.
  assert (X : forall c, (fun c => negb (word_char c) || negb (breaks c)) c = true) by (apply every; vm_compute; reflexivity).
  unfold unbroken. induction s as [|c s IH]; [reflexivity|]. cbn [all]. intro H. apply andb_prop in H as [W H]. specialize (X c). cbv beta in X. rewrite W in X. cbn [negb orb] in X. rewrite X. now apply IH.
Qed.
Lemma ident_all s : ident s -> all word_char s = true.
Proof. intros [H _]. destruct s as [|c s]; [destruct H|]. destruct H as [A B]. cbn. unfold word_char at 1. now rewrite A, B. Qed.
Lemma ident_unbroken s : ident s -> unbroken s = true. Proof. intro H. now apply word_unbroken, ident_all. Qed.
Lemma ident_some s : ident s -> or_none s = s.
Proof. intros [H _]. destruct s; [destruct H|reflexivity]. Qed.

(** * Expressions *)
Section Tokens.
  Variable num : Qc -> string.
  Local Notation sh := (show num).
  (** specification: expressions that are read back *)
  Definition good (e : node) : Prop := fine num e /\ tight mc_table plain true e.
  (** proof helper: the tokens of an expression *)
  Definition etok (e : node) : list ltok := match lex (sh e) with Some l => l | None => [] end.
  Lemma cut_expr e : good e -> cuts (sh e) (etok e) /\ map expr_tok (etok e) = map Some (print plain true e).
  Proof.
    intros [F T]. destruct (show_lexes num e F T) as (l & L & E). assert (El : etok e = l).
    { unfold etok. specialize (L "" eq_refl). rewrite string_app_nil_r in L. rewrite L. cbn. now rewrite app_nil_r. }
    rewrite El. split; [exact L|exact E].
  Qed.
  (** specification: an expression read back *)
  Definition again (e : node) : node := match q_expr (etok e) with Some (n, _) => n | None => e end.
  (** an expression can end before this *)
  Definition ends (l : list ltok) : Prop := match l with [] => True | t :: _ => expr_tok t = None \/ expr_tok t = Some TR \/ expr_tok t = Some TComma end.
  Lemma etoks_app l ts rest : map expr_tok l = map Some ts -> etoks (l ++ rest) = ts ++ etoks rest.
  Proof. revert ts. induction l as [|t l IH]; intros [|u ts] E; try discriminate; [reflexivity|]. cbn [map] in E. injection E as E1 E2. cbn [app etoks]. rewrite E1. f_equal. now apply IH. Qed.
  Lemma again_spec e : good e -> reads mc_table (print plain true e) (again e) /\ forall rest, ends rest -> q_expr (etok e ++ rest) = Some (again e, rest).
  Proof.
    intro G. destruct (cut_expr e G) as [_ E]. destruct G as [F T].
    destruct (tight_ok mc_table plain true (fun _ _ _ => None) (fun _ _ => None) (fun _ => None) (fun _ => None)) with (n := e) as (n' & _ & Go); auto; [eexists; reflexivity|apply Forall_forall; reflexivity|].
    assert (Q : forall rest, ends rest -> q_expr (etok e ++ rest) = Some (n', rest)).
    { intros rest R. unfold q_expr. rewrite (etoks_app _ _ rest E).
      destruct (closed_here mc_table plain true (fun _ => None) (fun _ => None) e n' (etoks rest) Go) as (k & K).
      { destruct rest as [|t rest]; [exact I|]. cbn [etoks]. destruct R as [-> | [-> | ->]]; exact I. }
      destruct (enough mc_table k) as (En & _ & _). rewrite (En _ _ _ (K k (le_n _))) by (unfold budget; lia).
      do 2 f_equal. rewrite app_length. replace (List.length (print plain true e) + List.length (etoks rest) - List.length (etoks rest)) with (List.length (etok e)).
      - rewrite skipn_app, skipn_all, Nat.sub_diag. reflexivity.
      - assert (X : List.length (map expr_tok (etok e)) = List.length (map (@Some tok) (print plain true e))) by (now rewrite E). rewrite !map_length in X. lia. }
    assert (A : again e = n').
    { unfold again. specialize (Q [] I). rewrite app_nil_r in Q. now rewrite Q. }
    rewrite A. split; [|exact Q]. destruct (closed_here mc_table plain true (fun _ => None) (fun _ => None) e n' [] Go I) as (k & K). exists k. intros f Hf. specialize (K f Hf). now rewrite app_nil_r in K.
  Qed.
  (** the same value, for every interpretation and assignment *)
  Definition agree (n n' : node) : Prop := forall IB IU env, calls IB IU -> den IB IU env false n' = den IB IU env false n.
  Lemma again_agrees e : good e -> agree e (again e).
  Proof.
    intros G IB IU env C. pose proof (again_spec e G) as [R _]. destruct G as [F T].
    destruct (C07_instrument_reads_the_value_partial e T IB IU env env C (fun _ _ _ => eq_refl)) as (n' & R' & D). now rewrite (reads_unique _ _ _ _ R R').
  Qed.
  Lemma q_again e rest : good e -> ends rest -> q_expr (etok e ++ rest) = Some (again e, rest).
  Proof. intros G R. now apply again_spec. Qed.
  Lemma good_head_of e : good e -> heads (sh e).
  Proof. intros [F T]. exact (good_heads _ _ (show_head num e F T)). Qed.
  Lemma good_some e : good e -> or_none (sh e) = sh e.
  Proof. intro G. apply good_head_of in G. destruct (sh e); [destruct G|reflexivity]. Qed.
End Tokens.

(** * The tokens of an instance *)
Section Instance.
  Variable num : Qc -> string.
  Local Notation sh := (show num).
  Local Notation etok := (etok num).
  Local Notation good := (good num).
  Local Notation again := (again num).
  (** specification: triples that are read back *)
  Definition good3 (t : triple) : Prop := let '(x, y, z) := t in good x /\ good y /\ good z.
  (** specification: a triple read back *)
  Definition again3 (t : triple) : triple := let '(x, y, z) := t in (again x, again y, again z).
  (** proof helper: its tokens *)
  Definition w_triple (t : triple) : list ltok := let '(x, y, z) := t in [LSym "("] ++ etok x ++ [LSym ","] ++ etok y ++ [LSym ","] ++ etok z ++ [LSym ")"].
  (** proof helper: the tokens of a reference *)
  Definition w_ref (r : option string) : list ltok := match r with None => [LKey "ABSOLUTE"] | Some n => [LKey "RELATIVE"; LId n] end.
  (** specification: references that are read back *)
  Definition good_ref (r : option string) : Prop := match r with None => True | Some n => ident n end.
  (** proof helper: the tokens of AT or ROTATED *)
  Definition w_clause (k : string) (t : triple) (r : option string) : list ltok := [LKey k] ++ w_triple t ++ w_ref r.
  (** specification: a clause that is not written *)
  Definition unwritten (t : triple) (r : option string) : bool := is_null t && match r with None => true | _ => false end.
  (** proof helper: the text of AT or ROTATED *)
  Definition clause (kw : string) (t : triple) (r : option string) : string := (kw ++ " " ++ triple_text num t ++ " " ++ ref_text r)%string.

  Lemma cuts_expr e : good e -> cuts (sh e) (etok e). Proof. intro G. exact (proj1 (cut_expr num e G)). Qed.
  Lemma cutsA_before e q m : good e -> calmly q -> cutsA q m -> cutsA (sh e ++ q) (etok e ++ m).
  Proof. intros G C Q. apply cuts_sep; [now apply cuts_expr|exact C|exact Q]. Qed.
  Lemma cutsA_triple t : good3 t -> cutsA (triple_text num t) (w_triple t).
  Proof.
    destruct t as [[x y] z]. intros (X & Y & Z). unfold triple_text, w_triple. apply cutsA_app; [apply cutsA_sign; auto|].
    apply cutsA_before; [exact X|reflexivity|]. apply cutsA_app; [exact cutsA_comma|]. apply cutsA_before; [exact Y|reflexivity|]. apply cutsA_app; [exact cutsA_comma|].
    apply cutsA_before; [exact Z|reflexivity|]. apply cutsA_sign; auto.
  Qed.
  Lemma cuts_ref r : good_ref r -> cuts (ref_text r) (w_ref r).
  Proof.
    destruct r as [n|]; intro G; cbn [ref_text w_ref].
    - change ("RELATIVE " ++ n)%string with (("RELATIVE" ++ " ") ++ n)%string. change [LKey "RELATIVE"; LId n] with ([LKey "RELATIVE"] ++ [LId n]).
      apply cutsA_cuts; [apply cutsA_key; reflexivity|now apply cuts_id].
    - change (LKey "ABSOLUTE") with (word_token "ABSOLUTE"). now apply cuts_word.
  Qed.
  Lemma cuts_clause k t r : wordy k = true -> word_token k = LKey k -> good3 t -> good_ref r -> cuts (clause k t r) (w_clause k t r).
  Proof.
    intros W K T R. unfold clause, w_clause. replace (k ++ " " ++ triple_text num t ++ " " ++ ref_text r)%string with ((k ++ " ") ++ (triple_text num t ++ " ") ++ ref_text r)%string
      by (now rewrite !string_app_assoc).
    apply cutsA_cuts; [now apply cutsA_key|]. apply cutsA_cuts; [apply cuts_space, cutsA_weak; now apply cutsA_triple|now apply cuts_ref].
  Qed.
  (** values of parameters *)
  Definition goodv (e : node) : Prop := good e \/ e = null_node.
  (** specification: a value read back *)
  Definition againv (e : node) : node := match q_value (etok e) with Some (n, _) => n | None => e end.
  Lemma etok_null : etok null_node = [LKey "NULL"]. Proof. reflexivity. Qed.
  Lemma cuts_value e : goodv e -> heads (sh e) /\ cuts (sh e) (etok e).
  Proof.
    intros [G| ->]; [split; [now apply (good_head_of num)|now apply cuts_expr]|]. rewrite etok_null. split; [reflexivity|]. change (LKey "NULL") with (word_token "NULL"). now apply cuts_word.
  Qed.
  Lemma etok_no_key e k t : good e -> q_kw k (etok e ++ t) = None.
  Proof.
    intro G. destruct (cut_expr num e G) as [_ E]. destruct (again_spec num e G) as [R _]. destruct (etok e) as [|u l].
    - exfalso. destruct (print plain true e) as [|v ts]; [|discriminate]. apply reads_at in R as (k' & R). destruct k'; discriminate.
    - destruct u; try reflexivity. destruct (print plain true e); discriminate.
  Qed.
  Lemma q_value_ok e rest : goodv e -> ends rest -> q_value (etok e ++ rest) = Some (againv e, rest).
  Proof.
    intros [G| ->] R; [|reflexivity]. unfold againv, q_value. rewrite etok_no_key by exact G.
    pose proof (etok_no_key e "NULL" [] G) as K. rewrite app_nil_r in K. rewrite K. rewrite q_again by assumption. pose proof (q_again num e [] G I) as Q. rewrite app_nil_r in Q. now rewrite Q.
  Qed.
  (** proof helper: the tokens of a parameter *)
  Definition w_param (p : string * node) : list ltok := [LId (fst p); LSym "="] ++ etok (snd p).
  (** specification: parameters that are read back *)
  Definition good_param (p : string * node) : Prop := ident (fst p) /\ goodv (snd p).
  (** specification: a parameter read back *)
  Definition again_param (p : string * node) : string * node := (fst p, againv (snd p)).
  Lemma cuts_param p : good_param p -> cuts (param_text num p) (w_param p).
  Proof.
    intros [I V]. apply cuts_value in V as [H V]. unfold param_text, w_param. change ([LId (fst p); LSym "="] ++ etok (snd p)) with ([LId (fst p)] ++ LSym "=" :: etok (snd p)).
    apply cuts_cuts; [now apply cuts_id|reflexivity|]. apply cuts_equal; [exact H|exact V].
  Qed.
  (** proof helper: tokens with commas in between *)
  Fixpoint w_commas {A} (w : A -> list ltok) (l : list A) : list ltok := match l with [] => [] | [x] => w x | x :: t => w x ++ [LSym ","] ++ w_commas w t end.
  Lemma cuts_join {A} (f : A -> string) (w : A -> list ltok) l : Forall (fun x => cuts (f x) (w x)) l -> cuts (join ", " (map f l)) (w_commas w l).
  Proof.
    induction l as [|x l IH]; intro H; [exact cuts_nil|]. destruct l as [|y l]; [exact (Forall_inv H)|]. specialize (IH (Forall_inv_tail H)). apply Forall_inv in H.
    change (join ", " (map f (x :: y :: l))) with (f x ++ ", " ++ join ", " (map f (y :: l)))%string. change (w_commas w (x :: y :: l)) with (w x ++ [LSym ","] ++ w_commas w (y :: l)).
    apply cuts_cuts; [exact H|reflexivity|]. apply cutsA_cuts; [exact cutsA_comma|exact IH].
  Qed.
  Lemma q_sym_hit s t : q_sym s (LSym s :: t) = Some t. Proof. cbn. now rewrite String.eqb_refl. Qed.
  Lemma q_list_ok {A} (q : list ltok -> option (A * list ltok)) (w : A -> list ltok) (a : A -> A) l : forall fuel rest, l <> [] ->
    Forall (fun x => w x <> [] /\ forall rest, ends rest -> q (w x ++ rest) = Some (a x, rest)) l -> List.length (w_commas w l) <= fuel ->
    q_list q fuel (w_commas w l ++ LSym ")" :: rest) = Some (map a l, rest).
  Proof.
    induction l as [|x l IH]; intros fuel rest N H F; [congruence|]. destruct (Forall_inv H) as [Nx Hx].
    assert (Fx : exists f, fuel = S f) by (destruct fuel as [|f]; [exfalso; destruct l; cbn [w_commas] in F; rewrite ?app_length in F; destruct (w x); cbn in *; try lia; congruence|now exists f]).
    destruct Fx as (f & ->). destruct l as [|y l]; cbn [q_list].
    - cbn [w_commas]. rewrite Hx by (right; now left). rewrite q_sym_hit. reflexivity.
    - change (w_commas w (x :: y :: l)) with (w x ++ [LSym ","] ++ w_commas w (y :: l)) in *. rewrite <- app_assoc. rewrite Hx by (cbn; auto). cbn [app].
      change (q_sym ")" (LSym "," :: w_commas w (y :: l) ++ LSym ")" :: rest)) with (@None (list ltok)). rewrite q_sym_hit.
      rewrite IH; [reflexivity|discriminate|exact (Forall_inv_tail H)|]. rewrite !app_length in F. cbn [List.length] in F. lia.
  Qed.
  Lemma w_commas_head {A} (w : A -> list ltok) l rest : l <> [] -> Forall (fun x => forall t, q_sym ")" (w x ++ t) = None) l -> q_sym ")" (w_commas w l ++ rest) = None.
  Proof.
    destruct l as [|x l]; [congruence|]. intros _ H. apply Forall_inv in H. destruct l as [|y l]; [apply H|]. change (w_commas w (x :: y :: l)) with (w x ++ [LSym ","] ++ w_commas w (y :: l)).
    rewrite <- app_assoc. apply H.
  Qed.
  Lemma q_brackets_ok {A} (q : list ltok -> option (A * list ltok)) (w : A -> list ltok) (a : A -> A) l rest :
    Forall (fun x => w x <> [] /\ (forall t, q_sym ")" (w x ++ t) = None) /\ forall rest, ends rest -> q (w x ++ rest) = Some (a x, rest)) l ->
    q_brackets q (LSym "(" :: w_commas w l ++ LSym ")" :: rest) = Some (map a l, rest).
  Proof.
    intro H. unfold q_brackets. rewrite q_sym_hit. destruct l as [|x l]; [cbn; reflexivity|].
    rewrite w_commas_head; [|discriminate|eapply Forall_impl; [|exact H]; cbn; intros ? (_ & X & _); exact X].
    apply q_list_ok; [discriminate| |rewrite app_length; lia]. eapply Forall_impl; [|exact H]. cbn. intros ? (X & _ & Y). now split.
  Qed.
  Lemma q_param_ok p rest : good_param p -> ends rest -> q_param (w_param p ++ rest) = Some (fst (again_param p), snd (again_param p), rest).
  Proof.
    intros [I V] R. unfold q_param, w_param. cbn [app q_id]. rewrite q_sym_hit. rewrite q_value_ok by assumption. reflexivity.
  Qed.
  (** triples and references *)
  Lemma q_triple_ok t rest : good3 t -> q_triple (w_triple t ++ rest) = Some (again3 t, rest).
  Proof.
    destruct t as [[x y] z]. intros (X & Y & Z). unfold q_triple, w_triple. cbn [app]. rewrite q_sym_hit. repeat (rewrite <- app_assoc; cbn [app]).
    rewrite q_again; [|exact X|cbn; auto]. rewrite q_sym_hit. rewrite q_again; [|exact Y|cbn; auto]. rewrite q_sym_hit. rewrite q_again; [|exact Z|cbn; auto]. rewrite q_sym_hit. reflexivity.
  Qed.
  Lemma q_reference_ok r rest : q_reference (w_ref r ++ rest) = Some (r, rest). Proof. destruct r; reflexivity. Qed.
  Lemma q_kw_hit k t : q_kw k (LKey k :: t) = Some t. Proof. cbn. now rewrite String.eqb_refl. Qed.
  Lemma q_clause_ok k t r rest : good3 t -> q_clause k (w_clause k t r ++ rest) = Some (again3 t, r, rest).
  Proof.
    intro G. unfold q_clause, w_clause. cbn [app]. rewrite q_kw_hit, <- app_assoc, q_triple_ok by exact G. now rewrite q_reference_ok.
  Qed.
End Instance.

(** * Jumps, metadata, instances *)
Definition written_target (n : string) : string :=
  if has_char "_" n && (startswith "PREVIOUS" n || startswith "NEXT" n) then match split_char "_" n with x :: _ => x | [] => n end else n.
(** the texts that JUMP can be followed by, and read again as they are *)
Definition good_target (n : string) (r : Z) : Prop :=
  (n = "PREVIOUS" /\ r = (-1)%Z) \/ (n = "NEXT" /\ r = 1%Z) \/ (n = "MYSELF" /\ r = 0%Z)
  \/ (r = 0%Z /\ ident n /\ (has_char "_" n = true -> startswith "PREVIOUS" n = false /\ startswith "NEXT" n = false)).
(** a text between quotation marks *)
Definition quoted (s : string) : string := String dquote (s ++ String dquote "").
(** specification: names of metadata that are read back *)
Definition good_name (n : string) : Prop := ident n \/ exists s, n = quoted s /\ literal n /\ has_char " " s = true.
(** proof helper: the token of such a name *)
Definition name_token (n : string) : ltok := match n with String c _ => if Ascii.eqb c dquote then LStr n else LId n | EmptyString => LId n end.
(** specification: metadata that are read back *)
Definition good_meta (m : string * string * string) : Prop := let '(t, n, v) := m in literal (quoted t) /\ good_name n /\ closed v.
(** proof helper: its tokens *)
Definition w_meta (m : string * string * string) : list ltok := let '(t, n, v) := m in [LKey "METADATA"; LStr (quoted t); name_token n; LBlock (newline ++ v ++ newline)].
(** specification: metadata read back *)
Definition pad (m : string * string * string) : string * string * string := let '(t, n, v) := m in (t, n, (newline ++ v ++ newline)%string).

Lemma good_target_written n r : good_target n r -> written_target n = n /\ wordy n = true /\ unbroken n = true /\ or_none n = n /\ (1 <? Z.abs r)%Z = false.
Proof.
  intros [[-> ->] | [[-> ->] | [[-> ->] | (-> & I & U)]]]; try (repeat split; reflexivity).
  split; [|split; [|split; [now apply ident_unbroken|split; [now apply ident_some|reflexivity]]]].
  - unfold written_target. destruct (has_char "_" n); [|reflexivity]. destruct (U eq_refl) as [-> ->]. reflexivity.
  - destruct I as [I _]. destruct n; [destruct I|]. destruct I as [A B]. cbn. now rewrite A, B.
Qed.
Lemma name_token_quoted s : name_token (quoted s) = LStr (quoted s). Proof. reflexivity. Qed.
Lemma name_token_ident n : ident n -> name_token n = LId n.
Proof.
  intros [H _]. destruct n as [|c n]; [destruct H|]. destruct H as [W _]. cbn. destruct (Ascii.eqb c dquote) eqn:E; [|reflexivity]. apply Ascii.eqb_eq in E. subst. discriminate.
Qed.
Lemma cuts_name n : good_name n -> cuts n [name_token n].
Proof. intros [I|(s & -> & L & _)]; [rewrite name_token_ident by exact I; now apply cuts_id|rewrite name_token_quoted; now apply cuts_str]. Qed.
Lemma bare_quoted s : bare (quoted s) = s.
Proof.
  unfold bare, quoted. cbn [String.length]. rewrite string_app_length. cbn [String.length]. replace (S (String.length s + 1) - 2) with (String.length s) by lia.
  cbn [substring]. induction s as [|c s IH]; [reflexivity|]. cbn [append String.length substring]. now rewrite IH.
Qed.
Lemma word_no_space s : all word_char s = true -> has_char " " s = false.
Proof.
  induction s as [|c s IH]; [reflexivity|]. cbn. intro H. apply andb_prop in H as [W H]. rewrite (IH H). destruct (Ascii.eqb c " ") eqn:E; [|reflexivity]. apply Ascii.eqb_eq in E. subst. discriminate.
Qed.
Lemma q_meta_ok m rest : good_meta m -> q_meta (w_meta m ++ rest) = Some (pad m, rest).
Proof.
  destruct m as [[t n] v]. intros (L & N & C). unfold q_meta, w_meta, pad. cbn [app]. rewrite q_kw_hit. cbn [q_word]. rewrite bare_quoted. destruct N as [I|(s & -> & _ & S)].
  - rewrite name_token_ident by exact I. cbn [q_word]. unfold requote. now rewrite (word_no_space n (ident_all n I)).
  - rewrite name_token_quoted. cbn [q_word]. rewrite bare_quoted. unfold requote. rewrite S. reflexivity.
Qed.
Lemma cutsA_meta m : good_meta m -> cutsA (meta_text m) (w_meta m).
Proof.
  destruct m as [[t n] v]. intros (L & N & C). unfold meta_text, w_meta.
  replace ("METADATA " ++ String dquote (t ++ String dquote (" " ++ n ++ " " ++ newline ++ "%{" ++ newline ++ v ++ newline ++ "%}" ++ newline ++ newline)))%string
    with (("METADATA" ++ " ") ++ (quoted t ++ " ") ++ (n ++ " ") ++ newline ++ ("%{" ++ (newline ++ v) ++ newline ++ "%}") ++ newline ++ newline)%string
    by (unfold quoted; rewrite !string_app_assoc; cbn [append]; now rewrite !string_app_assoc).
  change [LKey "METADATA"; LStr (quoted t); name_token n; LBlock (newline ++ v ++ newline)] with ([LKey "METADATA"] ++ [LStr (quoted t)] ++ [name_token n] ++ [] ++ [LBlock ((newline ++ v) ++ newline)] ++ [] ++ []).
  apply cutsA_app; [apply cutsA_key; reflexivity|]. apply cutsA_app; [apply cuts_space; now apply cuts_str|]. apply cutsA_app; [apply cuts_space; now apply cuts_name|].
  apply cutsA_app; [exact cutsA_newline|]. apply cutsA_app; [apply cutsA_block, closed_lf, C|]. apply cutsA_app; exact cutsA_newline.
Qed.
Lemma cutsA_all {A} (f : A -> string) (w : A -> list ltok) l : Forall (fun x => cutsA (f x) (w x)) l -> cutsA (String.concat "" (map f l)) (flat_map w l).
Proof.
  induction l as [|x l IH]; intro H; [exact cutsA_nil|].
  assert (E : String.concat "" (map f (x :: l)) = (f x ++ String.concat "" (map f l))%string) by (destruct l; [cbn; now rewrite string_app_nil_r|reflexivity]).
  rewrite E. cbn [flat_map]. apply cutsA_app; [exact (Forall_inv H)|exact (IH (Forall_inv_tail H))].
Qed.
Lemma at_kw_hit k t : at_kw k (LKey k :: t) = true. Proof. unfold at_kw. now rewrite q_kw_hit. Qed.
Lemma q_many_ok {A} k (q : list ltok -> option (A * list ltok)) (w : A -> list ltok) (a : A -> A) (good_rest : list ltok -> Prop) l : forall fuel rest,
  Forall (fun x => at_kw k (w x) = true /\ forall rest, good_rest rest -> q (w x ++ rest) = Some (a x, rest)) l ->
  (forall x rest, at_kw k (w x) = true -> good_rest (w x ++ rest)) -> good_rest rest -> at_kw k rest = false -> List.length l < fuel ->
  q_many k q fuel (flat_map w l ++ rest) = Some (map a l, rest).
Proof.
  induction l as [|x l IH]; intros fuel rest H G R N F; (destruct fuel as [|f]; [cbn in F; lia|]); cbn [q_many flat_map app].
  - now rewrite N.
  - destruct (Forall_inv H) as [K Q]. rewrite <- app_assoc. assert (K' : forall t, at_kw k (w x ++ t) = true) by (intro t; revert K; destruct (w x) as [|[] ?]; intro K; try discriminate; unfold at_kw, q_kw in *; cbn [app]; destruct (_ =?s k); [reflexivity|discriminate]).
    rewrite K'. rewrite Q.
    + rewrite IH; auto; [exact (Forall_inv_tail H)|cbn in F; lia].
    + destruct l as [|y l]; [exact R|]. cbn [flat_map]. rewrite <- app_assoc. apply G. exact (proj1 (Forall_inv (Forall_inv_tail H))).
Qed.
Lemma flat_len {A} (w : A -> list ltok) l : Forall (fun x => w x <> []) l -> List.length l <= List.length (flat_map w l).
Proof. induction l as [|x l IH]; intro H; [cbn; lia|]. cbn [flat_map List.length]. rewrite app_length. pose proof (Forall_inv H) as X. cbv beta in X. specialize (IH (Forall_inv_tail H)). destruct (w x); [now contradiction X|cbn; lia]. Qed.
Lemma q_all_ok {A} k (q : list ltok -> option (A * list ltok)) (w : A -> list ltok) (a : A -> A) (good_rest : list ltok -> Prop) l rest :
  Forall (fun x => at_kw k (w x) = true /\ forall rest, good_rest rest -> q (w x ++ rest) = Some (a x, rest)) l ->
  (forall x rest, at_kw k (w x) = true -> good_rest (w x ++ rest)) -> good_rest rest -> at_kw k rest = false ->
  q_all k q (flat_map w l ++ rest) = Some (map a l, rest).
Proof.
  intros H G R N. unfold q_all. apply q_many_ok with (good_rest := good_rest); auto. rewrite app_length.
  assert (L : List.length l <= List.length (flat_map w l)); [|lia]. apply flat_len. eapply Forall_impl; [|exact H]. cbn. intros x [K _] E. rewrite E in K. discriminate.
Qed.
(** metadata of different names are kept *)
Lemma add_meta_new l m : ~ In (m_name m) (map m_name l) -> add_meta l m = l ++ [m].
Proof.
  intro N. unfold add_meta. f_equal. induction l as [|x l IH]; [reflexivity|]. cbn [map In filter] in *. destruct (String.eqb_spec (m_name x) (m_name m)) as [E|E]; [exfalso; apply N; now left|].
  cbn [negb]. f_equal. apply IH. tauto.
Qed.
Lemma fold_meta ms : forall l, NoDup (map m_name (l ++ ms)) -> fold_left add_meta ms l = l ++ ms.
Proof.
  induction ms as [|m ms IH]; intros l D; [now rewrite app_nil_r|]. cbn [fold_left]. rewrite add_meta_new.
  - rewrite IH; rewrite <- app_assoc; [reflexivity|exact D].
  - rewrite map_app in D. cbn [map] in D. apply NoDup_remove_2 in D. intro X. apply D. apply in_or_app. now left.
Qed.
Lemma pad_names ms : map m_name (map pad ms) = map m_name ms.
Proof. rewrite map_map. apply map_ext. now intros [[? ?] ?]. Qed.
Lemma blank_app a b : blank (a ++ b) = blank a && blank b.
Proof. induction a as [|c a IH]; [reflexivity|]. cbn. now rewrite IH, andb_assoc. Qed.
(** specification: blocks that are not left out *)
Definition kept (l : list string) : Prop := l <> [] -> blank (join newline l) = false.
(** specification: a block read back *)
Definition padded_block (l : list string) : list string := match l with [] => [] | _ => [block_of l] end.
Lemma q_block_ok k l rest : kept l -> q_kw k rest = None -> q_block k (w_block k l ++ rest) = Some (padded_block l, rest).
Proof.
  intros K R. unfold q_block, w_block, padded_block. destruct l as [|x l]; cbn [app]; [now rewrite R|]. rewrite q_kw_hit. unfold block_of. rewrite !blank_app. rewrite K by discriminate. reflexivity.
Qed.
(** what can stand after something: nothing, or one of these keywords *)
Definition after (ks : list string) (l : list ltok) : Prop := match l with [] => True | LKey k :: _ => In k ks | _ => False end.
Lemma after_kw ks k l : after ks l -> ~ In k ks -> q_kw k l = None.
Proof. destruct l as [|[] l]; try reflexivity. cbn. intros H N. destruct (String.eqb_spec k0 k); [subst; contradiction|reflexivity]. Qed.
Lemma after_at ks k l : after ks l -> ~ In k ks -> at_kw k l = false. Proof. intros H N. unfold at_kw. now rewrite (after_kw ks). Qed.
Lemma after_ends ks l : after ks l -> ends l. Proof. destruct l as [|[] l]; try (intros []); cbn; auto. Qed.
Lemma after_weak ks ks' l : after ks l -> incl ks ks' -> after ks' l. Proof. destruct l as [|[] l]; cbn; auto. Qed.
Ltac not_in := cbn; intuition discriminate.

Section Jumps.
  Variable num : Qc -> string.
  Local Notation sh := (show num).
  Local Notation etok := (etok num).
  Local Notation again := (again num).
  (** specification: jumps that are read back *)
  Definition good_jump (j : jump) : Prop := good_target (j_target j) (j_rel j) /\ good num (j_cond j) /\ unbroken (sh (j_cond j)) = true.
  (** proof helper: its tokens *)
  Definition w_jump (j : jump) : list ltok := [LKey "JUMP"; word_token (j_target j); LKey (if j_iter j then "ITERATE" else "WHEN")] ++ etok (j_cond j).
  (** specification: a jump read back *)
  Definition again_jump (j : jump) : jump := mkJump (j_target j) (j_rel j) (j_iter j) (again (j_cond j)).
  Lemma cutsA_jump j : good_jump j -> cutsA (jump_text num j) (w_jump j).
  Proof.
    intros (T & G & U). destruct (good_target_written _ _ T) as (Wt & Ww & Wu & Wn & Wr). unfold jump_text. fold (written_target (j_target j)). rewrite Wt, Wr. unfold line.
    set (it := if j_iter j then "ITERATE" else "WHEN").
    assert (It : it = "ITERATE" \/ it = "WHEN") by (unfold it; destruct (j_iter j); auto). cbn [map join]. rewrite Wn, (good_some num _ G).
    replace (or_none it) with it by (destruct It as [-> | ->]; reflexivity).
    replace ("JUMP" ++ " " ++ j_target j ++ " " ++ it ++ " " ++ sh (j_cond j))%string with (("JUMP" ++ " ") ++ (j_target j ++ " ") ++ (it ++ " ") ++ sh (j_cond j))%string by (now rewrite !string_app_assoc).
    rewrite wrap_unbroken.
    - apply cuts_newline. unfold w_jump. fold it. change ([LKey "JUMP"; word_token (j_target j); LKey it] ++ etok (j_cond j)) with ([LKey "JUMP"] ++ [word_token (j_target j)] ++ [LKey it] ++ etok (j_cond j)).
      apply cutsA_cuts; [apply cutsA_key; reflexivity|]. apply cutsA_cuts; [apply cuts_space; now apply cuts_word|]. apply cutsA_cuts; [destruct It as [-> | ->]; apply cutsA_key; reflexivity|now apply cuts_expr].
    - rewrite !unbroken_app, U, Wu. destruct It as [-> | ->]; reflexivity.
  Qed.
  Lemma q_jumpname_ok n r it t : good_target n r -> q_jumpname (word_token n :: LKey it :: t) = Some (n, r, LKey it :: t).
  Proof. intros [[-> ->] | [[-> ->] | [[-> ->] | (-> & I & _)]]]; try reflexivity. destruct I as [_ ->]. reflexivity. Qed.
  Lemma q_jump_ok j rest : good_jump j -> ends rest -> q_jump (w_jump j ++ rest) = Some (again_jump j, rest).
  Proof.
    intros (T & G & _) R. unfold q_jump, w_jump. cbn [app]. rewrite q_kw_hit, (q_jumpname_ok _ (j_rel j)) by exact T. unfold again_jump. destruct (j_iter j).
    - change (q_kw "WHEN" (LKey "ITERATE" :: etok (j_cond j) ++ rest)) with (@None (list ltok)). rewrite q_kw_hit, q_again by assumption. reflexivity.
    - rewrite q_kw_hit, q_again by assumption. reflexivity.
  Qed.

  (** ** Instances *)
  Local Notation turned c := (negb (unwritten (c_rot c) (c_rot_rel c))).
  (** what the text can express *)
  Definition fit (c : ci) : Prop :=
    ident (c_name c) /\ ident (c_type c) /\ Forall (good_param num) (c_params c) /\ c_removable c = false /\ c_split c = None
    /\ match c_when c with Some e => good num e | None => True end
    /\ good3 num (c_at c) /\ good_ref (c_at_rel c) /\ good3 num (c_rot c) /\ good_ref (c_rot_rel c)
    /\ (turned c = false -> c_at_rel c = None)
    /\ match c_group c with Some g => ident g | None => True end
    /\ Forall closed (c_extend c) /\ kept (c_extend c)
    /\ Forall good_jump (c_jump c) /\ Forall good_meta (c_meta c) /\ NoDup (map m_name (c_meta c)).
  (** the line of COMPONENT ends without a space or a line break when ROTATED is written: what follows would run into it *)
  Definition apart (c : ci) : Prop := turned c = true -> c_group c = None /\ c_extend c = [] /\ c_jump c = [] /\ c_meta c = [].
  (** specification: instances that are read back *)
  Definition goodi (c : ci) : Prop := fit c /\ apart c.
  (** proof helper: the tokens of the line of COMPONENT *)
  Definition w_head (c : ci) : list ltok :=
    [LKey "COMPONENT"; LId (c_name c); LSym "="; LId (c_type c); LSym "("] ++ w_commas (w_param num) (c_params c) ++ LSym ")" ::
    match c_when c with Some e => LKey "WHEN" :: etok e | None => [] end ++ w_clause num "AT" (c_at c) (c_at_rel c) ++
    (if turned c then w_clause num "ROTATED" (c_rot c) (c_rot_rel c) else []).
  (** proof helper: the tokens of the other lines *)
  Definition w_tail (c : ci) : list ltok :=
    match c_group c with Some g => [LKey "GROUP"; LId g] | None => [] end ++ w_block "EXTEND" (c_extend c) ++ flat_map w_jump (c_jump c) ++ flat_map w_meta (c_meta c).
  (** proof helper: the tokens of an instance *)
  Definition w_inst (c : ci) : list ltok := (if c_cpu c then [LKey "CPU"] else []) ++ w_head c ++ w_tail c.
  (** specification: an instance read back *)
  Definition reread (c : ci) : ci :=
    mkCi (c_name c) (c_type c) (map (again_param num) (c_params c)) false (c_cpu c) None (option_map again (c_when c)) (again3 num (c_at c)) (c_at_rel c)
      (if turned c then again3 num (c_rot c) else (int0, int0, int0)) (c_rot_rel c) (c_group c) (padded_block (c_extend c)) (map again_jump (c_jump c)) (map pad (c_meta c)).

  Lemma clause_text_eq k t r req : clause_text num k t r req = if unwritten t r && negb req then "" else clause num k t r.
  Proof. reflexivity. Qed.
  (** the line of COMPONENT up to ROTATED *)
  Definition upto (c : ci) : string :=
    (("COMPONENT" ++ " ") ++ (c_name c ++ " = ") ++ (c_type c ++ "(") ++ (join ", " (map (param_text num) (c_params c)) ++ ") ") ++
     match c_when c with Some e => ("WHEN " ++ sh e ++ " ")%string | None => "" end ++ (clause num "AT" (c_at c) (c_at_rel c) ++ " "))%string.
  (** proof helper: the tokens up to ROTATED *)
  Definition w_upto (c : ci) : list ltok :=
    [LKey "COMPONENT"] ++ ([LId (c_name c)] ++ [LSym "="]) ++ ([LId (c_type c)] ++ [LSym "("]) ++ (w_commas (w_param num) (c_params c) ++ [LSym ")"]) ++
    match c_when c with Some e => LKey "WHEN" :: etok e | None => [] end ++ w_clause num "AT" (c_at c) (c_at_rel c).
  Lemma cutsA_upto c : fit c -> cutsA (upto c) (w_upto c).
  Proof.
    intros (N & T & P & _ & _ & W & A & Ar & R & Rr & _). unfold upto, w_upto.
    apply cutsA_app; [apply cutsA_key; reflexivity|]. apply cutsA_app; [apply cuts_sep; [now apply cuts_id|reflexivity|exact cutsA_equals]|].
    apply cutsA_app; [apply cuts_sep; [now apply cuts_id|reflexivity|apply cutsA_sign; auto]|]. apply cutsA_app.
    - apply cuts_sep; [|reflexivity|].
      + apply cuts_join. eapply Forall_impl; [|exact P]. apply cuts_param.
      + change ") " with (")" ++ " ")%string. rewrite <- (app_nil_r [LSym ")"]). apply cutsA_app; [apply cutsA_sign; auto|exact cutsA_space].
    - apply cutsA_app; [|apply cuts_space, cuts_clause; auto].
      destruct (c_when c) as [e|]; [|exact cutsA_nil]. change ("WHEN " ++ sh e ++ " ")%string with (("WHEN" ++ " ") ++ (sh e ++ " "))%string.
      change (LKey "WHEN" :: etok e) with ([LKey "WHEN"] ++ etok e). apply cutsA_app; [apply cutsA_key; reflexivity|apply cuts_space; now apply cuts_expr].
  Qed.
  Lemma head_split c : head_text num c = (upto c ++ if turned c then clause num "ROTATED" (c_rot c) (c_rot_rel c) else "")%string.
  Proof.
    unfold head_text, upto. rewrite !clause_text_eq. cbn [negb]. rewrite andb_false_r, andb_true_r. rewrite !string_app_assoc. destruct (unwritten (c_rot c) (c_rot_rel c)); reflexivity.
  Qed.
  Lemma w_head_split c : w_head c = w_upto c ++ if turned c then w_clause num "ROTATED" (c_rot c) (c_rot_rel c) else [].
  Proof. unfold w_head, w_upto. repeat (rewrite <- app_assoc; cbn [app]). reflexivity. Qed.
  Lemma cuts_head c : fit c -> (if turned c then cuts else cutsA) (head_text num c) (w_head c).
  Proof.
    intro F. rewrite head_split, w_head_split. pose proof (cutsA_upto c F) as H. destruct F as (N & T & P & _ & _ & W & A & Ar & R & Rr & _).
    destruct (turned c); [apply cutsA_cuts; [exact H|now apply cuts_clause]|apply cutsA_app; [exact H|exact cutsA_nil]].
  Qed.
  Lemma cutsA_tail c : fit c -> cutsA (tail_text num c) (w_tail c).
  Proof.
    intros (_ & _ & _ & _ & _ & _ & _ & _ & _ & _ & _ & G & E & _ & J & M & _). unfold tail_text, w_tail. apply cutsA_app.
    - destruct (c_group c) as [g|]; [|exact cutsA_nil]. unfold line. cbn [map join]. rewrite ident_some by exact G. change ("GROUP" ++ " " ++ g)%string with (("GROUP" ++ " ") ++ g)%string.
      rewrite wrap_unbroken by (rewrite unbroken_app; apply andb_true_intro; split; [reflexivity|now apply ident_unbroken]).
      apply cuts_newline. change [LKey "GROUP"; LId g] with ([LKey "GROUP"] ++ [LId g]). apply cutsA_cuts; [apply cutsA_key; reflexivity|now apply cuts_id].
    - apply cutsA_app; [apply cutsA_blocks; auto|]. apply cutsA_app; apply cutsA_all; [eapply Forall_impl; [|exact J]; apply cutsA_jump|eapply Forall_impl; [|exact M]; apply cutsA_meta].
  Qed.
  (** a line break follows *)
  Lemma cutsA_inst c : goodi c -> cutsA (inst_text num c ++ newline) (w_inst c).
  Proof.
    intros [G Ap]. unfold inst_text, w_inst. set (cpu := if c_cpu c then line "CPU" [] else ""). set (C := if c_cpu c then [LKey "CPU"] else []).
    assert (H : cutsA cpu C) by (unfold cpu, C; destruct (c_cpu c); [change (line "CPU" []) with ("CPU" ++ " ")%string; apply cutsA_key; reflexivity|exact cutsA_nil]).
    rewrite !string_app_assoc. apply cutsA_app; [exact H|]. pose proof (cuts_head c G) as Hd. pose proof (cutsA_tail c G) as Tl.
    unfold apart in Ap. destruct (turned c).
    - destruct (Ap eq_refl) as (E1 & E2 & E3 & E4). unfold tail_text, w_tail. rewrite E1, E2, E3, E4. cbn [app append map String.concat flat_map blocks w_block]. rewrite app_nil_r. now apply cuts_newline.
    - apply cutsA_app; [exact Hd|]. rewrite <- (app_nil_r (w_tail c)). apply cutsA_app; [exact Tl|exact cutsA_newline].
  Qed.

  (** proof helper: the keywords after an instance *)
  Definition follow : list string := ["COMPONENT"; "REMOVABLE"; "CPU"; "SPLIT"; "SAVE"; "FINALLY"; "END"].
  Lemma q_inst_ok c rest : fit c -> after follow rest -> q_inst (w_inst c ++ rest) = Some (reread c, rest).
  Proof.
    intros (N & T & P & Rm & Sp & W & A & Ar & R & Rr & Rot & G & E & Kp & J & M & D) Hr. unfold q_inst, w_inst, w_head, w_tail.
    rewrite <- !app_assoc.
    set (Sm := flat_map w_meta (c_meta c) ++ rest).
    assert (Hm : after ("METADATA" :: follow) Sm).
    { unfold Sm. destruct (c_meta c) as [|[[? ?] ?] ?]; [eapply after_weak; [exact Hr|]; intros ? ?; now right|now left]. }
    set (Sj := flat_map w_jump (c_jump c) ++ Sm).
    assert (Hj : after ("JUMP" :: "METADATA" :: follow) Sj).
    { unfold Sj. destruct (c_jump c); [eapply after_weak; [exact Hm|]; intros ? ?; now right|now left]. }
    set (Se := w_block "EXTEND" (c_extend c) ++ Sj).
    assert (He : after ("EXTEND" :: "JUMP" :: "METADATA" :: follow) Se).
    { unfold Se, w_block. destruct (c_extend c); [eapply after_weak; [exact Hj|]; intros ? ?; now right|now left]. }
    set (Sg := match c_group c with Some g => [LKey "GROUP"; LId g] | None => [] end ++ Se).
    assert (Hg : after ("GROUP" :: "EXTEND" :: "JUMP" :: "METADATA" :: follow) Sg).
    { unfold Sg. destruct (c_group c); [now left|eapply after_weak; [exact He|]; intros ? ?; now right]. }
    set (Sr := (if turned c then w_clause num "ROTATED" (c_rot c) (c_rot_rel c) else []) ++ Sg).
    set (Sa := w_clause num "AT" (c_at c) (c_at_rel c) ++ Sr).
    set (Sw := match c_when c with Some e => LKey "WHEN" :: etok e | None => [] end ++ Sa).
    match goal with |- context [w_commas (w_param num) (c_params c) ++ ?x] => replace x with (LSym ")" :: Sw)
      by (unfold Sw, Sa, Sr, Sg, Se, Sj, Sm; rewrite <- ?app_assoc; cbn [app]; rewrite <- ?app_assoc; reflexivity) end.
    set (Sp0 := w_commas (w_param num) (c_params c) ++ LSym ")" :: Sw).
    assert (Pre : forall l, opt_kw "REMOVABLE" ((if c_cpu c then [LKey "CPU"] else []) ++ LKey "COMPONENT" :: l) = (false, (if c_cpu c then [LKey "CPU"] else []) ++ LKey "COMPONENT" :: l)
      /\ opt_kw "CPU" ((if c_cpu c then [LKey "CPU"] else []) ++ LKey "COMPONENT" :: l) = (c_cpu c, LKey "COMPONENT" :: l)) by (intro l; destruct (c_cpu c); split; reflexivity).
    cbn [app]. rewrite (proj1 (Pre _)), (proj2 (Pre _)).
    change (q_split (LKey "COMPONENT" :: ?l)) with (@None node, LKey "COMPONENT" :: l). cbv iota. rewrite q_kw_hit. cbn [q_id]. rewrite q_sym_hit. cbn [q_id]. rewrite q_sym_hit.
    assert (Pq : q_brackets (fun l => match q_param l with Some (n, e, t) => Some ((n, e), t) | None => None end) (LSym "(" :: Sp0) = Some (map (again_param num) (c_params c), Sw)).
    { unfold Sp0. apply q_brackets_ok. eapply Forall_impl; [|exact P]. intros p Gp. split; [discriminate|]. split; [reflexivity|]. intros r He'. rewrite (q_param_ok num p r Gp He'). reflexivity. }
    rewrite Pq.
    assert (Wq : opt (fun l => match q_kw "WHEN" l with Some l => q_expr l | None => None end) (at_kw "WHEN" Sw) Sw = Some (option_map again (c_when c), Sa)).
    { unfold Sw. destruct (c_when c) as [e|]; [|reflexivity]. cbn [app]. rewrite at_kw_hit. unfold opt. rewrite q_kw_hit. rewrite q_again; [reflexivity|exact W|now left]. }
    rewrite Wq. unfold Sa. rewrite q_clause_ok by exact A.
    assert (Rq : q_rotated (c_at_rel c) Sr = Some ((if turned c then again3 num (c_rot c) else (int0, int0, int0)), c_rot_rel c, Sg)).
    { unfold q_rotated, Sr. destruct (turned c) eqn:Tu.
      - unfold w_clause at 1. cbn [app]. rewrite at_kw_hit. exact (q_clause_ok num "ROTATED" (c_rot c) (c_rot_rel c) Sg R).
      - cbn [app]. rewrite (after_at _ _ _ Hg) by not_in. rewrite (Rot eq_refl). apply negb_false_iff in Tu. unfold unwritten in Tu. apply andb_prop in Tu as [_ Tu]. destruct (c_rot_rel c); [discriminate|reflexivity]. }
    rewrite Rq.
    assert (Gq : opt (fun l => match q_kw "GROUP" l with Some l => q_id l | None => None end) (at_kw "GROUP" Sg) Sg = Some (c_group c, Se)).
    { unfold Sg. destruct (c_group c); [reflexivity|]. cbn [app]. unfold opt. now rewrite (after_at _ _ _ He) by not_in. }
    rewrite Gq. unfold Se. rewrite q_block_ok; [|exact Kp|apply (after_kw _ _ _ Hj); not_in].
    unfold Sj. rewrite (q_all_ok "JUMP" q_jump w_jump again_jump ends); [| | |exact (after_ends _ _ Hm)|apply (after_at _ _ _ Hm); not_in].
    2: { eapply Forall_impl; [|exact J]. intros j Gj. split; [reflexivity|]. intros r Er. now apply q_jump_ok. }
    2: { intros j r _. now left. }
    unfold Sm. rewrite (q_all_ok "METADATA" q_meta w_meta pad (fun _ => True)); [| | |exact Logic.I|apply (after_at _ _ _ Hr); not_in].
    2: { eapply Forall_impl; [|exact M]. intros m Gm. split; [now destruct m as [[? ?] ?]|]. intros r _. now apply q_meta_ok. }
    2: { intros; exact Logic.I. }
    rewrite fold_meta by (cbn [app]; rewrite pad_names; exact D). reflexivity.
  Qed.
End Jumps.

(** * The whole instrument *)
Lemma cuts_slash u : literal u -> cuts ("/" ++ u) [LSym "/"; LStr u].
Proof.
  intros L rest C. rewrite string_app_assoc. rewrite (lex_step _ (Some (LSym "/")) (u ++ rest)).
  - pose proof (cuts_str u L rest C) as E. rewrite E. now destruct (lex rest).
  - destruct L as (p & b & -> & _ & P). cbn [In] in P. destruct P as [<- | [<- | [<- | [<- | [<- | []]]]]]; cbn [append]; destruct b; try reflexivity; destruct rest; reflexivity.
Qed.
(** a comment *)
Definition no_end (s : string) : Prop := until "*" "/" s = None.
Lemma until_comment s r : no_end s -> until "*" "/" (s ++ "*/" ++ r) = Some (s, r).
Proof.
  unfold no_end. induction s as [|x s IH]; intro U; [reflexivity|]. destruct s as [|y s].
  - cbn [append]. rewrite until_step. replace (Ascii.eqb x "*" && Ascii.eqb "*" "/") with false by (now destruct (Ascii.eqb x "*")). reflexivity.
  - rewrite until_step in U. cbn [append]. rewrite until_step. destruct (Ascii.eqb x "*" && Ascii.eqb y "/"); [discriminate|].
    cbn [append] in IH. destruct (until "*" "/" (String y s)) as [[u v]|] eqn:V; [discriminate|]. rewrite (IH eq_refl). reflexivity.
Qed.
Lemma cutsA_comment s : no_end s -> cutsA ("/* " ++ s ++ "*/") [].
Proof.
  intro N. apply cutsA_none. intro rest. change ("/* " ++ s ++ "*/")%string with (String "/" (String "*" (String " " s ++ "*/"))).
  change (String "/" (String "*" (String " " s ++ "*/")) ++ rest)%string with (String "/" (String "*" ((String " " s ++ "*/") ++ rest))). rewrite string_app_assoc.
  change (lex1 (String "/" (String "*" (String " " s ++ "*/" ++ rest)))) with (match until "*" "/" (String " " s ++ "*/" ++ rest) with Some (_, q) => Some (@None ltok, q) | None => lex_sign (String "/" (String "*" (String " " s ++ "*/" ++ rest))) end).
  rewrite until_comment; [reflexivity|]. unfold no_end in *. destruct s as [|y s]; [reflexivity|]. rewrite until_step. cbn [Ascii.eqb Bool.eqb andb]. now rewrite N.
Qed.
Lemma cutsA_line name key items toks : unbroken (name ++ " " ++ join " " (map or_none items)) = true -> cuts (name ++ " " ++ join " " (map or_none items)) (key ++ toks) ->
  cutsA (line name items ++ newline) (key ++ toks).
Proof. intros U C. unfold line. rewrite wrap_unbroken by exact U. now apply cuts_newline. Qed.

Section Whole.
  Variable num : Qc -> string.
  Local Notation sh := (show num).
  Local Notation etok := (etok num).
  Local Notation again := (again num).
  (** a parameter of the instrument *)
  Definition good_default (k : kind) (e : node) : Prop :=
    constant e = true /\ match k with KStr => e = null_node \/ exists s, e = NVal (PStr s) DStr OValue /\ literal s | _ => good num e end.
  (** specification: instrument parameters that are read back *)
  Definition good_par (p : par) : Prop :=
    ident (p_name p) /\ match p_unit p with Some u => literal u | None => True end /\ match p_value p with Some e => good_default (p_kind p) e | None => True end /\ unbroken (par_text num p) = true.
  (** specification: a default value read back *)
  Definition again_default (k : kind) (e : node) : node := match k with KStr => e | _ => again e end.
  (** specification: an instrument parameter read back *)
  Definition again_par (p : par) : par := mkPar (p_name p) (p_unit p) (p_kind p) (option_map (again_default (p_kind p)) (p_value p)).
  (** proof helper: the tokens of a type *)
  Definition w_kind (k : kind) : list ltok := match k with KStr => [LKey "string"] | KInt => [LKey "int"] | KFloat => [] end.
  (** proof helper: the tokens of a unit *)
  Definition w_unit (u : option string) : list ltok := match u with Some u => [LSym "/"; LStr u] | None => [] end.
  (** proof helper: the tokens of a default value *)
  Definition w_value (v : option node) : list ltok := match v with Some e => LSym "=" :: etok e | None => [] end.
  (** proof helper: the tokens of an instrument parameter *)
  Definition w_par (p : par) : list ltok := w_kind (p_kind p) ++ LId (p_name p) :: w_unit (p_unit p) ++ w_value (p_value p).
  Lemma default_heads k e : good_default k e -> heads (sh e) /\ cuts (sh e) (etok e).
  Proof.
    intros [C G]. destruct k; try (split; [now apply (good_head_of num)|now apply cuts_expr]).
    destruct G as [-> | (s & -> & L)]; [apply (cuts_value num); now right|].
    assert (S : sh (NVal (PStr s) DStr OValue) = s) by reflexivity. unfold InstrCharsFacts.etok. rewrite S. pose proof (cuts_str s L) as X. split.
    - destruct L as (p & b & -> & _ & P). cbn [In] in P. destruct P as [<- | [<- | [<- | [<- | [<- | []]]]]]; reflexivity.
    - pose proof (X "" eq_refl) as Y. rewrite string_app_nil_r in Y. rewrite Y. exact X.
  Qed.
  Lemma cuts_par p : good_par p -> cuts (par_text num p) (w_par p).
  Proof.
    intros (N & U & V & _). unfold par_text, w_par. apply cutsA_cuts; [destruct (p_kind p); [exact cutsA_nil|apply (cutsA_key "int"); reflexivity|apply (cutsA_key "string"); reflexivity]|].
    set (u := match p_unit p with Some u => ("/" ++ u)%string | None => "" end). set (v := match p_value p with Some e => if constant e then ("=" ++ sh e)%string else "" | None => "" end).
    assert (Hv : (v = "" /\ w_value (p_value p) = []) \/ (calmly v /\ cuts v (w_value (p_value p)))).
    { unfold v. destruct (p_value p) as [e|]; [|now left]. right. rewrite (proj1 V). split; [reflexivity|]. destruct (default_heads _ _ V). now apply cuts_equal. }
    assert (Hu : (u = "" /\ w_unit (p_unit p) = []) \/ (calmly u /\ cuts u (w_unit (p_unit p)))).
    { unfold u. destruct (p_unit p); [|now left]. right. split; [reflexivity|]. now apply cuts_slash. }
    change (LId (p_name p) :: w_unit (p_unit p) ++ w_value (p_value p)) with ([LId (p_name p)] ++ w_unit (p_unit p) ++ w_value (p_value p)).
    destruct Hu as [[-> ->] | [Cu Ku]], Hv as [[-> ->] | [Cv Kv]]; cbn [append app]; rewrite ?string_app_nil_r, ?app_nil_r.
    - now apply cuts_id.
    - change (cuts (p_name p ++ v) ([LId (p_name p)] ++ w_value (p_value p))). apply cuts_cuts; [now apply cuts_id|exact Cv|exact Kv].
    - change (cuts (p_name p ++ u) ([LId (p_name p)] ++ w_unit (p_unit p))). apply cuts_cuts; [now apply cuts_id|exact Cu|exact Ku].
    - change (cuts (p_name p ++ u ++ v) ([LId (p_name p)] ++ w_unit (p_unit p) ++ w_value (p_value p))). apply cuts_cuts; [now apply cuts_id|revert Cu; clearbody u; destruct u; [intros []|exact (fun x => x)]|]. apply cuts_cuts; assumption.
  Qed.
  Lemma q_kind_ok k n t : q_kind (w_kind k ++ LId n :: t) = Some (k, LId n :: t). Proof. now destruct k. Qed.
  Lemma etok_literal s : literal s -> etok (NVal (PStr s) DStr OValue) = [LStr s].
  Proof.
    intro L. unfold InstrCharsFacts.etok. change (sh (NVal (PStr s) DStr OValue)) with s. pose proof (cuts_str s L "" eq_refl) as Y. rewrite string_app_nil_r in Y. rewrite Y. reflexivity.
  Qed.
  Lemma separates rest : ends rest -> match rest with [] => True | LSym s :: _ => s = ")" \/ s = "," | _ => True end.
  Proof.
    destruct rest as [|[] rest]; auto. cbn. intros [H|[H|H]]; [discriminate| |].
    - left. repeat match type of H with context [?a =?s ?b] => destruct (String.eqb_spec a b); [subst; try discriminate; auto|] end; try discriminate.
    - right. repeat match type of H with context [?a =?s ?b] => destruct (String.eqb_spec a b); [subst; try discriminate; auto|] end; try discriminate.
  Qed.
  Lemma q_par_ok p rest : good_par p -> ends rest -> q_par (w_par p ++ rest) = Some (again_par p, rest).
  Proof.
    intros (N & U & V & _) R. pose proof (separates rest R) as Sp. unfold q_par, w_par. rewrite <- app_assoc. cbn [app]. rewrite q_kind_ok. cbn [q_id]. rewrite <- app_assoc.
    assert (Qv : q_default (p_kind p) (w_value (p_value p) ++ rest) = Some (option_map (again_default (p_kind p)) (p_value p), rest)).
    { destruct (p_value p) as [e|]; cbn [w_value app option_map].
      - unfold q_default. rewrite q_sym_hit. destruct V as [Ce V]. destruct (p_kind p); cbn [again_default].
        + rewrite q_again by assumption. reflexivity.
        + rewrite q_again by assumption. reflexivity.
        + destruct V as [-> | (s & -> & L)]; [reflexivity|]. rewrite etok_literal by exact L. reflexivity.
      - unfold q_default. destruct rest as [|[] rest]; try reflexivity. destruct Sp as [-> | ->]; reflexivity. }
    assert (Qu : q_unit (w_unit (p_unit p) ++ w_value (p_value p) ++ rest) = Some (p_unit p, w_value (p_value p) ++ rest)).
    { destruct (p_unit p); [reflexivity|]. cbn [w_unit app]. destruct (p_value p); [reflexivity|]. cbn [w_value app]. unfold q_unit. destruct rest as [|[] rest]; try reflexivity. destruct Sp as [-> | ->]; reflexivity. }
    rewrite Qu, Qv. reflexivity.
  Qed.
  (** instances one after the other *)
  Fixpoint backwards (seen : list string) (cs : list ci) : Prop :=
    match cs with
    | [] => True
    | c :: t => ~ In (c_name c) seen /\ (forall n, c_at_rel c = Some n \/ c_rot_rel c = Some n -> In n seen) /\ backwards (c_name c :: seen) t
    end.
  Lemma isin_In x l : isin x l = true <-> In x l.
  Proof.
    unfold isin. rewrite existsb_exists. split; [intros (y & H & E); apply String.eqb_eq in E; now subst|intro H; exists x; split; [exact H|apply String.eqb_refl]].
  Qed.
  Lemma known_in seen r : (forall n, r = Some n -> In n seen) -> known seen r = r.
  Proof. destruct r as [n|]; [|reflexivity]. intro H. cbn. specialize (H n eq_refl). apply isin_In in H. now rewrite H. Qed.
  (** proof helper: the keywords after the instances *)
  Definition final : list string := ["SAVE"; "FINALLY"; "END"].
  Lemma w_inst_starts c rest : after follow (w_inst num c ++ rest) /\ (at_kw "COMPONENT" (w_inst num c ++ rest) || at_kw "REMOVABLE" (w_inst num c ++ rest) || at_kw "CPU" (w_inst num c ++ rest) || at_kw "SPLIT" (w_inst num c ++ rest)) = true.
  Proof. unfold w_inst, w_head. destruct (c_cpu c); split; cbn; auto. Qed.
  Lemma q_trace_ok cs : forall fuel seen rest, Forall (goodi num) cs -> backwards seen cs -> after final rest -> List.length cs < fuel ->
    q_trace fuel seen (flat_map (w_inst num) cs ++ rest) = Some (map (reread num) cs, rest).
  Proof.
    induction cs as [|c cs IH]; intros fuel seen rest G B R F; (destruct fuel as [|f]; [cbn in F; lia|]); cbn [flat_map map q_trace].
    - cbn [app]. rewrite !(after_at _ _ _ R) by not_in. reflexivity.
    - destruct B as (N & Rf & B). rewrite <- app_assoc. rewrite (proj2 (w_inst_starts c _)). rewrite q_inst_ok; [|exact (proj1 (Forall_inv G))|].
      + change (c_name (reread num c)) with (c_name c). destruct (isin (c_name c) seen) eqn:X; [apply isin_In in X; contradiction|].
        rewrite IH; auto; [|exact (Forall_inv_tail G)|cbn in F; lia]. unfold resolve. cbn [reread c_at_rel c_rot_rel].
        rewrite !known_in by (intros n E; apply Rf; auto). reflexivity.
      + destruct cs as [|c' cs]; [eapply after_weak; [exact R|]; intros x; cbn; tauto|]. cbn [flat_map]. rewrite <- app_assoc. apply w_inst_starts.
  Qed.
  (** the flags, which are read as one *)
  Definition flag_text (l : list string) : string := join " " (map or_none l).
  (** specification: flags that are read back *)
  Definition good_flags (l : list string) : Prop := l <> [] -> literal (quoted (flag_text l)) /\ unbroken (flag_text l) = true.
  (** proof helper: their tokens *)
  Definition w_flags (l : list string) : list ltok := match l with [] => [] | _ => [LKey "DEPENDENCY"; LStr (quoted (flag_text l))] end.
  (** specification: flags read back *)
  Definition again_flags (l : list string) : list string := match l with [] => [] | _ => [flag_text l] end.
  (** proof helper: their text *)
  Definition flags_text (l : list string) : string := match l with [] => "" | l => (quoted_line "DEPENDENCY " l ++ newline)%string end.
  Lemma cutsA_flags l : good_flags l -> cutsA (flags_text l) (w_flags l).
  Proof.
    intro G. unfold flags_text, w_flags. destruct l as [|x l]; [exact cutsA_nil|]. remember (x :: l) as L. assert (NL : L <> []) by (subst; discriminate). clear HeqL x l. destruct (G NL) as [Li U].
    unfold quoted_line. fold (flag_text L). change ("DEPENDENCY " ++ " " ++ String dquote (flag_text L ++ String dquote ""))%string with (("DEPENDENCY" ++ " ") ++ " " ++ quoted (flag_text L))%string.
    rewrite wrap_unbroken.
    - apply cuts_newline. change [LKey "DEPENDENCY"; LStr (quoted (flag_text L))] with ([LKey "DEPENDENCY"] ++ [] ++ [LStr (quoted (flag_text L))]). apply cutsA_cuts; [apply cutsA_key; reflexivity|].
      apply cutsA_cuts; [exact cutsA_space|now apply cuts_str].
    - unfold quoted. rewrite !unbroken_app. change (unbroken (String dquote ?x)) with (unbroken x). rewrite unbroken_app, U. reflexivity.
  Qed.
  Lemma q_flags_ok l rest : q_kw "DEPENDENCY" rest = None -> q_flags (w_flags l ++ rest) = Some (again_flags l, rest).
  Proof. intro R. unfold q_flags, w_flags, again_flags. destruct l; cbn [app]; [now rewrite R|]. rewrite q_kw_hit. now rewrite bare_quoted. Qed.

  (** what stands before the components *)
  Definition good_front (i : ins) : Prop :=
    ident (i_name i) /\ Forall good_par (i_pars i) /\ NoDup (map p_name (i_pars i)) /\ Forall good_meta (i_meta i) /\ NoDup (map m_name (i_meta i)) /\ good_flags (i_flags i)
    /\ (Forall closed (i_declare i) /\ kept (i_declare i)) /\ (Forall closed (i_user i) /\ kept (i_user i)) /\ (Forall closed (i_init i) /\ kept (i_init i)).
  (** specification: instruments that are read back *)
  Definition good_ins (i : ins) : Prop :=
    good_front i /\ Forall (goodi num) (i_comps i) /\ backwards [] (i_comps i)
    /\ (Forall closed (i_save i) /\ kept (i_save i)) /\ (Forall closed (i_final i) /\ kept (i_final i)).
  (** specification: an instrument read back *)
  Definition reread_ins (i : ins) : ins :=
    mkIns (i_name i) (map again_par (i_pars i)) (map pad (i_meta i)) (again_flags (i_flags i)) (padded_block (i_declare i)) (padded_block (i_user i)) (padded_block (i_init i))
      (map (reread num) (i_comps i)) (padded_block (i_save i)) (padded_block (i_final i)).
  (** proof helper: the tokens before the instances *)
  Definition w_front (i : ins) : list ltok :=
    ([LKey "DEFINE"; LKey "INSTRUMENT"] ++ [LId (i_name i); LSym "("] ++ w_commas w_par (i_pars i) ++ [LSym ")"]) ++ flat_map w_meta (i_meta i) ++ w_flags (i_flags i) ++
    w_block "DECLARE" (i_declare i) ++ w_block "USERVARS" (i_user i) ++ w_block "INITIALIZE" (i_init i) ++ [LKey "TRACE"].
  (** proof helper: the text before the instances *)
  Definition front_text (notes : string) (i : ins) : string :=
    (("/* " ++ notes ++ "*/") ++ newline ++ (line "DEFINE INSTRUMENT" [(i_name i ++ "(" ++ join ", " (map (par_text num) (i_pars i)) ++ ")")%string] ++ newline) ++
     String.concat "" (map meta_text (i_meta i)) ++ flags_text (i_flags i) ++ blocks "DECLARE" (i_declare i) ++ blocks "USERVARS" (i_user i) ++ blocks "INITIALIZE" (i_init i) ++ ("TRACE" ++ newline))%string.
  (** proof helper: the text of the instances *)
  Definition trace_text (cs : list ci) : string := String.concat "" (map (fun c => (newline ++ inst_text num c ++ newline)%string) cs).
  (** proof helper: the text after the instances *)
  Definition back_text (i : ins) : string := (blocks "SAVE" (i_save i) ++ blocks "FINALLY" (i_final i) ++ ("END" ++ newline))%string.
  (** proof helper: its tokens *)
  Definition w_back (i : ins) : list ltok := w_block "SAVE" (i_save i) ++ w_block "FINALLY" (i_final i) ++ [LKey "END"].
  Lemma text_split notes i : instr_text num notes i = (front_text notes i ++ trace_text (i_comps i) ++ back_text i)%string.
  Proof. unfold instr_text, front_text, trace_text, back_text, flags_text. rewrite !string_app_assoc. now destruct (i_flags i). Qed.
  Lemma unbroken_join l : Forall (fun s => unbroken s = true) l -> unbroken (join ", " l) = true.
  Proof.
    induction l as [|x l IH]; intro H; [reflexivity|]. destruct l as [|y l]; [exact (Forall_inv H)|]. change (join ", " (x :: y :: l)) with (x ++ ", " ++ join ", " (y :: l))%string.
    rewrite !unbroken_app, (Forall_inv H), (IH (Forall_inv_tail H)). reflexivity.
  Qed.
  Lemma cutsA_front notes i : good_front i -> no_end notes -> cutsA (front_text notes i) (w_front i).
  Proof.
    intros (N & P & _ & M & _ & F & [D _] & [U _] & [It _]) Nt. unfold front_text. change (w_front i) with ([] ++ [] ++ w_front i). unfold w_front.
    apply cutsA_app; [now apply cutsA_comment|]. apply cutsA_app; [exact cutsA_newline|]. apply cutsA_app.
    { set (body := (i_name i ++ "(" ++ join ", " (map (par_text num) (i_pars i)) ++ ")")%string).
      assert (Ne : or_none body = body) by (unfold body; destruct (i_name i); [destruct N as [[] _]|reflexivity]). apply cutsA_line; cbn [map join]; rewrite Ne.
      - unfold body. rewrite !unbroken_app, (ident_unbroken _ N), unbroken_join; [reflexivity|]. apply Forall_map. eapply Forall_impl; [|exact P]. intros p (_ & _ & _ & X). exact X.
      - change ("DEFINE INSTRUMENT" ++ " " ++ body)%string with (("DEFINE" ++ " ") ++ ("INSTRUMENT" ++ " ") ++ body)%string.
        change ([LKey "DEFINE"; LKey "INSTRUMENT"] ++ [LId (i_name i); LSym "("] ++ w_commas w_par (i_pars i) ++ [LSym ")"]) with
          ([LKey "DEFINE"] ++ [LKey "INSTRUMENT"] ++ [LId (i_name i)] ++ [LSym "("] ++ w_commas w_par (i_pars i) ++ [LSym ")"]).
        apply cutsA_cuts; [apply cutsA_key; reflexivity|]. apply cutsA_cuts; [apply cutsA_key; reflexivity|]. unfold body. apply cuts_cuts; [now apply cuts_id|reflexivity|].
        apply cutsA_weak. apply cutsA_app; [apply cutsA_sign; auto|]. apply cuts_sep; [|reflexivity|apply cutsA_sign; auto]. apply cuts_join. eapply Forall_impl; [|exact P]. apply cuts_par. }
    apply cutsA_app; [apply cutsA_all; eapply Forall_impl; [|exact M]; apply cutsA_meta|]. apply cutsA_app; [now apply cutsA_flags|].
    apply cutsA_app; [now apply cutsA_blocks|]. apply cutsA_app; [now apply cutsA_blocks|]. apply cutsA_app; [now apply cutsA_blocks|].
    apply cuts_newline; apply (cuts_word "TRACE"); reflexivity.
  Qed.
  Lemma cutsA_trace cs : Forall (goodi num) cs -> cutsA (trace_text cs) (flat_map (w_inst num) cs).
  Proof.
    intro C. apply (cutsA_all (fun c => (newline ++ inst_text num c ++ newline)%string)). eapply Forall_impl; [|exact C]. intros c G. change (w_inst num c) with ([] ++ w_inst num c).
    apply cutsA_app; [exact cutsA_newline|now apply cutsA_inst].
  Qed.
  Lemma lex_ins notes i : good_ins i -> no_end notes -> lex (instr_text num notes i) = Some (w_front i ++ flat_map (w_inst num) (i_comps i) ++ w_back i).
  Proof.
    intros (F & C & _ & [S _] & [Fi _]) Nt.
    assert (A : cutsA (instr_text num notes i) (w_front i ++ flat_map (w_inst num) (i_comps i) ++ w_back i)).
    { rewrite text_split. apply cutsA_app; [now apply cutsA_front|]. apply cutsA_app; [now apply cutsA_trace|]. unfold back_text, w_back.
      apply cutsA_app; [now apply cutsA_blocks|]. apply cutsA_app; [now apply cutsA_blocks|]. apply cuts_newline. apply (cuts_word "END"). reflexivity. }
    specialize (A ""). rewrite string_app_nil_r in A. rewrite A. change (lex "") with (Some (@nil ltok)). cbn [option_map]. now rewrite app_nil_r.
  Qed.
  Lemma distinct_nodup l : NoDup l -> distinct l = true.
  Proof. induction 1 as [|x l N D IH]; [reflexivity|]. cbn. rewrite IH. destruct (isin x l) eqn:E; [apply isin_In in E; contradiction|reflexivity]. Qed.
  Lemma after_block k l rest ks : after ks rest -> after (k :: ks) (w_block k l ++ rest).
  Proof. intro H. destruct l; cbn [w_block app]; [eapply after_weak; [exact H|]; intros ? ?; now right|now left]. Qed.
  (** the instances and what follows them *)
  Definition q_back (i : ins) (l : list ltok) : option ins :=
    match q_trace (S (List.length l)) [] l with
    | Some (cs, l) =>
        match q_block "SAVE" l with
        | Some (sv, l) =>
            match q_block "FINALLY" l with
            | Some (fi, l) =>
                match q_kw "END" l with
                | Some [] => Some (mkIns (i_name i) (map again_par (i_pars i)) (map pad (i_meta i)) (again_flags (i_flags i)) (padded_block (i_declare i)) (padded_block (i_user i)) (padded_block (i_init i)) cs sv fi)
                | _ => None
                end
            | None => None
            end
        | None => None
        end
    | None => None
    end.
  Lemma q_front i rest : good_front i -> q_instr (w_front i ++ rest) = q_back i rest.
  Proof.
    intros (N & P & Dp & M & Dm & F & [_ D] & [_ U] & [_ It]). unfold q_instr, w_front, q_back.
    assert (Hi : after ["INITIALIZE"; "TRACE"] (w_block "INITIALIZE" (i_init i) ++ LKey "TRACE" :: rest)) by (apply after_block; now left).
    set (Si := w_block "INITIALIZE" (i_init i) ++ LKey "TRACE" :: rest) in *.
    assert (Hu : after ["USERVARS"; "INITIALIZE"; "TRACE"] (w_block "USERVARS" (i_user i) ++ Si)) by (now apply after_block).
    set (Su := w_block "USERVARS" (i_user i) ++ Si) in *.
    assert (Hd : after ["DECLARE"; "USERVARS"; "INITIALIZE"; "TRACE"] (w_block "DECLARE" (i_declare i) ++ Su)) by (now apply after_block).
    set (Sd := w_block "DECLARE" (i_declare i) ++ Su) in *.
    assert (Hg : after ["DEPENDENCY"; "DECLARE"; "USERVARS"; "INITIALIZE"; "TRACE"] (w_flags (i_flags i) ++ Sd)).
    { destruct (i_flags i); cbn [w_flags app]; [eapply after_weak; [exact Hd|]; intros ? ?; now right|now left]. }
    set (Sg := w_flags (i_flags i) ++ Sd) in *.
    match goal with |- context [q_kw "DEFINE" ?l] => replace l with (LKey "DEFINE" :: LKey "INSTRUMENT" :: LId (i_name i) :: LSym "(" :: w_commas w_par (i_pars i) ++ LSym ")" :: flat_map w_meta (i_meta i) ++ Sg)
      by (unfold Sg, Sd, Su, Si; cbn [app]; repeat (rewrite <- app_assoc; cbn [app]); reflexivity) end.
    rewrite !q_kw_hit. cbn [q_id].
    rewrite (q_brackets_ok q_par w_par again_par).
    2: { eapply Forall_impl; [|exact P]. intros p Gp. split; [unfold w_par; now destruct (p_kind p)|]. split; [intro t; unfold w_par; now destruct (p_kind p)|]. intros r R. now apply q_par_ok. }
    assert (Dn : distinct (map p_name (map again_par (i_pars i))) = true) by (rewrite map_map; now apply distinct_nodup).
    rewrite Dn. cbn [negb].
    rewrite (q_all_ok "METADATA" q_meta w_meta pad (fun _ => True)); [| | |exact Logic.I|apply (after_at _ _ _ Hg); not_in].
    2: { eapply Forall_impl; [|exact M]. intros m Gm. split; [now destruct m as [[? ?] ?]|]. intros r _. now apply q_meta_ok. }
    2: { intros; exact Logic.I. }
    unfold Sg. rewrite q_flags_ok by (apply (after_kw _ _ _ Hd); not_in).
    unfold Sd. rewrite q_block_ok; [|exact D|apply (after_kw _ _ _ Hu); not_in]. unfold Su. rewrite q_block_ok; [|exact U|apply (after_kw _ _ _ Hi); not_in].
    unfold Si. rewrite q_block_ok; [|exact It|reflexivity]. rewrite q_kw_hit. rewrite fold_meta by (cbn [app]; rewrite pad_names; exact Dm).
    destruct (q_trace _ _ _) as [[cs l]|]; [|reflexivity]. destruct (q_block "SAVE" l) as [[sv l1]|]; [|reflexivity]. destruct (q_block "FINALLY" l1) as [[fi l2]|]; [|reflexivity].
    destruct (q_kw "END" l2) as [[|]|]; reflexivity.
  Qed.
  Theorem reads_again notes i : good_ins i -> no_end notes -> read_instr (instr_text num notes i) = Some (reread_ins i).
  Proof.
    intros G Nt. unfold read_instr. rewrite (lex_ins notes i G Nt). destruct G as (F & C & B & [_ S] & [_ Fi]). rewrite q_front by exact F. unfold q_back, w_back.
    assert (Hf : after ["FINALLY"; "END"] (w_block "FINALLY" (i_final i) ++ [LKey "END"])) by (apply after_block; now left).
    assert (Hs : after final (w_block "SAVE" (i_save i) ++ w_block "FINALLY" (i_final i) ++ [LKey "END"])) by (now apply after_block).
    rewrite q_trace_ok; auto.
    - rewrite q_block_ok; [|exact S|apply (after_kw _ _ _ Hf); not_in]. rewrite q_block_ok; [|exact Fi|reflexivity]. rewrite q_kw_hit. reflexivity.
    - rewrite app_length. assert (L : List.length (i_comps i) <= List.length (flat_map (w_inst num) (i_comps i))); [|lia]. apply flat_len. apply Forall_forall. intros c _. unfold w_inst, w_head. destruct (c_cpu c); discriminate.
  Qed.

  (** ** What follows ROTATED on the same line *)
  Definition stem (r : option string) : string := match r with Some _ => "RELATIVE " | None => "" end.
  (** proof helper: the end of a clause *)
  Definition tip (r : option string) : string := match r with Some n => n | None => "ABSOLUTE" end.
  (** proof helper: the keywords that may follow on the same line *)
  Definition glued : list string := ["GROUP"; "EXTEND"; "JUMP"; "METADATA"].
  (** no instance, section or end of the instrument starts with this *)
  Definition dead (t : ltok) : Prop := match t with LKey k => ~ In k (["GROUP"; "EXTEND"; "JUMP"; "METADATA"; "ROTATED"] ++ follow) | _ => True end.
  Lemma glued_no_keyword n k : In k glued -> n <> "" -> word_token (n ++ k) = LId (n ++ k).
  Proof.
    intros K N. set (ws := "not" :: "and" :: "or" :: map fst keywords).
    assert (X : forall w, In w ws -> (n ++ k =?s w) = false).
    { intros w W. apply String.eqb_neq. intro E. assert (En : endswith k w = true) by (rewrite <- E; apply endswith_spec; now exists n).
      assert (Y : forallb (fun w => forallb (fun k => negb (endswith k w) || (w =?s k)) glued) ws = true) by (vm_compute; reflexivity).
      rewrite forallb_forall in Y. specialize (Y w W). rewrite forallb_forall in Y. specialize (Y k K). rewrite En in Y. cbn [negb orb] in Y. apply String.eqb_eq in Y. subst w.
      assert (L : String.length (n ++ k) = String.length k) by (now rewrite Y). rewrite string_app_length in L. destruct n; [congruence|cbn in L; lia]. }
    unfold word_token. rewrite (X "not"), (X "and"), (X "or") by (unfold ws; cbn [In]; auto). unfold keyword.
    destruct (find (fun p => fst p =?s (n ++ k)%string) keywords) as [p|] eqn:Fd; [|reflexivity]. apply find_some in Fd as [I E]. rewrite String.eqb_sym in E. rewrite X in E; [discriminate|].
    unfold ws. do 3 right. now apply in_map.
  Qed.
  Lemma tail_first c : fit num c -> (c_group c <> None \/ c_extend c <> [] \/ c_jump c <> [] \/ c_meta c <> []) ->
    exists k q t ts, tail_text num c = (k ++ q)%string /\ In k glued /\ calmly q /\ dead t /\ forall rest, lex (q ++ rest) = option_map (app (t :: ts)) (lex rest).
  Proof.
    intros F T. pose proof (cutsA_tail num c F) as A.
    assert (G : exists k q t ts, tail_text num c = (k ++ q)%string /\ In k glued /\ calmly q /\ dead t /\ w_tail num c = LKey k :: t :: ts).
    { destruct F as (_ & _ & _ & _ & _ & _ & _ & _ & _ & _ & _ & G & _ & _ & J & M & _). unfold tail_text, w_tail. destruct (c_group c) as [g|].
      { exists "GROUP". eexists. eexists. eexists. unfold line. cbn [map join]. rewrite ident_some by exact G. change ("GROUP" ++ " " ++ g)%string with (("GROUP" ++ " ") ++ g)%string.
        rewrite wrap_unbroken by (rewrite unbroken_app; apply andb_true_intro; split; [reflexivity|now apply ident_unbroken]).
        split; [rewrite !string_app_assoc; reflexivity|]. split; [now left|]. split; [reflexivity|]. split; [|reflexivity]. exact Logic.I. }
      destruct (c_extend c) as [|x ex].
      2: { exists "EXTEND". eexists. eexists. eexists. unfold blocks, block. cbn [app append]. split; [rewrite !string_app_assoc; reflexivity|]. split; [right; now left|]. split; [reflexivity|]. split; [|reflexivity]. exact Logic.I. }
      destruct (c_jump c) as [|j js].
      2: { exists "JUMP". destruct (Forall_inv J) as (Tg & Gd & U). destruct (good_target_written _ _ Tg) as (Wt & Ww & Wu & Wn & Wr).
           assert (E : exists q, jump_text num j = ("JUMP" ++ " " ++ q)%string).
           { unfold jump_text. fold (written_target (j_target j)). rewrite Wt, Wr. unfold line. eexists. cbn [map append wrap]. reflexivity. }
           destruct E as (q & E). exists (" " ++ q ++ String.concat "" (map (jump_text num) js) ++ String.concat "" (map meta_text (c_meta c)))%string. eexists. eexists.
           assert (Cn : String.concat "" (map (jump_text num) (j :: js)) = (jump_text num j ++ String.concat "" (map (jump_text num) js))%string) by (destruct js; [cbn; now rewrite string_app_nil_r|reflexivity]).
           cbn [blocks append]. rewrite Cn, E. split; [rewrite !string_app_assoc; reflexivity|]. split; [right; right; now left|]. split; [reflexivity|]. split; [|reflexivity].
           destruct Tg as [[-> _] | [[-> _] | [[-> _] | (_ & [_ ->] & _)]]]; cbn; try exact Logic.I; intuition discriminate. }
      destruct (c_meta c) as [|[[mt mn] mv] ms].
      2: { exists "METADATA". assert (Cn : String.concat "" (map meta_text ((mt, mn, mv) :: ms)) = (meta_text (mt, mn, mv) ++ String.concat "" (map meta_text ms))%string) by (destruct ms; [cbn [map String.concat]; now rewrite string_app_nil_r|reflexivity]).
           rewrite Cn. eexists. eexists. eexists. cbn [map String.concat blocks append meta_text]. split; [reflexivity|]. split; [do 3 right; now left|]. split; [reflexivity|]. split; [|reflexivity]. exact Logic.I. }
      destruct T as [T|[T|[T|T]]]; congruence. }
    destruct G as (k & q & t & ts & E & K & C & D & W). exists k, q, t, ts. repeat (split; [assumption|]). intro rest. specialize (A rest). rewrite E, W in A. rewrite string_app_assoc in A.
    assert (Wk : cuts k [LKey k]) by (destruct K as [<- | [<- | [<- | [<- | []]]]]; [apply (cuts_word "GROUP")|apply (cuts_word "EXTEND")|apply (cuts_word "JUMP")|apply (cuts_word "METADATA")]; reflexivity).
    rewrite (Wk (q ++ rest)%string (calmly_app _ _ C)) in A. destruct (lex (q ++ rest)) as [l|], (lex rest) as [m|]; cbn [option_map app] in A; try discriminate; [|reflexivity].
    injection A as ->. reflexivity.
  Qed.
  Lemma q_upto c rest : fit num c ->
    q_inst ((if c_cpu c then [LKey "CPU"] else []) ++ w_upto num c ++ rest) =
    match q_rotated (c_at_rel c) rest with
    | Some (rot, rr, l) =>
        match opt (fun l => match q_kw "GROUP" l with Some l => q_id l | None => None end) (at_kw "GROUP" l) l with
        | Some (g, l) =>
            match q_block "EXTEND" l with
            | Some (ex, l) =>
                match q_all "JUMP" q_jump l with
                | Some (js, l) =>
                    match q_all "METADATA" q_meta l with
                    | Some (ms, l) => Some (mkCi (c_name c) (c_type c) (map (again_param num) (c_params c)) false (c_cpu c) None (option_map again (c_when c)) (again3 num (c_at c)) (c_at_rel c) rot rr g ex js (fold_left add_meta ms []), l)
                    | None => None
                    end
                | None => None
                end
            | None => None
            end
        | None => None
        end
    | None => None
    end.
  Proof.
    intros (N & T & P & Rm & Sp & W & A & _). unfold q_inst, w_upto.
    set (Sa := w_clause num "AT" (c_at c) (c_at_rel c) ++ rest).
    set (Sw := match c_when c with Some e => LKey "WHEN" :: etok e | None => [] end ++ Sa).
    set (Sp0 := w_commas (w_param num) (c_params c) ++ LSym ")" :: Sw).
    match goal with |- context [opt_kw "REMOVABLE" (?x ++ ?y)] => replace y with (LKey "COMPONENT" :: LId (c_name c) :: LSym "=" :: LId (c_type c) :: LSym "(" :: Sp0)
      by (unfold Sp0, Sw, Sa; cbn [app]; repeat (rewrite <- app_assoc; cbn [app]); reflexivity) end.
    assert (Pre : forall l, opt_kw "REMOVABLE" ((if c_cpu c then [LKey "CPU"] else []) ++ LKey "COMPONENT" :: l) = (false, (if c_cpu c then [LKey "CPU"] else []) ++ LKey "COMPONENT" :: l)
      /\ opt_kw "CPU" ((if c_cpu c then [LKey "CPU"] else []) ++ LKey "COMPONENT" :: l) = (c_cpu c, LKey "COMPONENT" :: l)) by (intro l; destruct (c_cpu c); split; reflexivity).
    rewrite (proj1 (Pre _)), (proj2 (Pre _)).
    change (q_split (LKey "COMPONENT" :: ?l)) with (@None node, LKey "COMPONENT" :: l). cbv iota. rewrite q_kw_hit. cbn [q_id]. rewrite q_sym_hit. cbn [q_id]. rewrite q_sym_hit.
    assert (Pq : q_brackets (fun l => match q_param l with Some (n, e, t) => Some ((n, e), t) | None => None end) (LSym "(" :: Sp0) = Some (map (again_param num) (c_params c), Sw)).
    { unfold Sp0. apply q_brackets_ok. eapply Forall_impl; [|exact P]. intros p Gp. split; [discriminate|]. split; [reflexivity|]. intros r He'. rewrite (q_param_ok num p r Gp He'). reflexivity. }
    rewrite Pq.
    assert (Wq : opt (fun l => match q_kw "WHEN" l with Some l => q_expr l | None => None end) (at_kw "WHEN" Sw) Sw = Some (option_map again (c_when c), Sa)).
    { unfold Sw. destruct (c_when c) as [e|]; [|reflexivity]. cbn [app]. rewrite at_kw_hit. unfold opt. rewrite q_kw_hit. rewrite q_again; [reflexivity|exact W|now left]. }
    rewrite Wq. unfold Sa. rewrite q_clause_ok by exact A. reflexivity.
  Qed.
  (** proof helper: the tokens when two words run into each other *)
  Definition w_stuck (c : ci) (k : string) : list ltok :=
    (if c_cpu c then [LKey "CPU"] else []) ++ w_upto num c ++ [LKey "ROTATED"] ++ w_triple num (c_rot c) ++ match c_rot_rel c with Some _ => [LKey "RELATIVE"] | None => [] end ++ [LId (tip (c_rot_rel c) ++ k)].
  Lemma dead_kw k t l : dead t -> In k (["GROUP"; "EXTEND"; "JUMP"; "METADATA"; "ROTATED"] ++ follow) -> q_kw k (t :: l) = None.
  Proof. intros D I. destruct t; try reflexivity. cbn. destruct (String.eqb_spec k0 k); [subst; contradiction|reflexivity]. Qed.
  Lemma stuck c k t l : fit num c -> In k glued -> dead t -> q_inst (w_stuck c k ++ t :: l) = None \/ exists c', q_inst (w_stuck c k ++ t :: l) = Some (c', t :: l).
  Proof.
    intros F K D. unfold w_stuck. rewrite <- !app_assoc. rewrite q_upto by exact F. cbn [app]. unfold q_rotated. rewrite at_kw_hit. unfold q_clause. rewrite q_kw_hit.
    destruct F as (N & T & P & _ & _ & W & A & Ar & R & Rr & _). rewrite q_triple_ok by exact R. destruct (c_rot_rel c) as [n|]; cbn [app tip].
    - right. eexists. unfold q_reference. change (q_kw "ABSOLUTE" (LKey "RELATIVE" :: ?x)) with (@None (list ltok)). rewrite q_kw_hit. cbn [q_kw q_id].
      unfold opt, at_kw, q_block, q_all, q_many, at_kw. rewrite !dead_kw by (exact D || cbn; auto 20). reflexivity.
    - left. unfold q_reference. cbn [q_kw]. reflexivity.
  Qed.
  Lemma lex_stuck c : fit num c -> negb (unwritten (c_rot c) (c_rot_rel c)) = true -> (c_group c <> None \/ c_extend c <> [] \/ c_jump c <> [] \/ c_meta c <> []) ->
    exists k t ts, In k glued /\ dead t /\ forall rest, lex (inst_text num c ++ rest) = option_map (app (w_stuck c k ++ t :: ts)) (lex rest).
  Proof.
    intros F Tu T. destruct (tail_first c F T) as (k & q & t & ts & E & K & C & D & Q). exists k, t, ts. split; [exact K|]. split; [exact D|]. intro rest.
    unfold inst_text. rewrite head_split, Tu, E. pose proof (cutsA_upto num c F) as Up.
    destruct F as (N & Ty & P & _ & _ & W & A & Ar & R & Rr & _). set (cpu := if c_cpu c then line "CPU" [] else "").
    assert (H : cutsA cpu (if c_cpu c then [LKey "CPU"] else [])) by (unfold cpu; destruct (c_cpu c); [change (line "CPU" []) with ("CPU" ++ " ")%string; apply cutsA_key; reflexivity|exact cutsA_nil]).
    assert (Tip : word_token (tip (c_rot_rel c) ++ k) = LId (tip (c_rot_rel c) ++ k) /\ wordy (tip (c_rot_rel c) ++ k) = true).
    { assert (Wk : all word_char k = true) by (destruct K as [<- | [<- | [<- | [<- | []]]]]; reflexivity). destruct (c_rot_rel c) as [n|]; cbn [tip].
      - split; [apply glued_no_keyword; [exact K|intros ->; destruct Rr as [[] _]]|]. destruct Rr as [Rr _]. destruct n as [|c0 n]; [destruct Rr|]. destruct Rr as [R1 R2]. cbn. now rewrite R1, all_app, R2, Wk.
      - split; [now apply glued_no_keyword|]. destruct K as [<- | [<- | [<- | [<- | []]]]]; reflexivity. }
    assert (St : cutsA (stem (c_rot_rel c)) match c_rot_rel c with Some _ => [LKey "RELATIVE"] | None => [] end).
    { destruct (c_rot_rel c); [apply (cutsA_key "RELATIVE"); reflexivity|exact cutsA_nil]. }
    assert (Ref : ref_text (c_rot_rel c) = (stem (c_rot_rel c) ++ tip (c_rot_rel c))%string) by (now destruct (c_rot_rel c)).
    assert (All : cutsA (cpu ++ upto num c ++ ("ROTATED" ++ " ") ++ (triple_text num (c_rot c) ++ " ") ++ stem (c_rot_rel c))
      ((if c_cpu c then [LKey "CPU"] else []) ++ w_upto num c ++ [LKey "ROTATED"] ++ w_triple num (c_rot c) ++ match c_rot_rel c with Some _ => [LKey "RELATIVE"] | None => [] end)).
    { apply cutsA_app; [exact H|]. apply cutsA_app; [exact Up|]. apply cutsA_app; [apply cutsA_key; reflexivity|]. apply cutsA_app; [apply cuts_space, cutsA_weak; now apply cutsA_triple|exact St]. }
    unfold clause. rewrite Ref.
    replace ((cpu ++ (upto num c ++ "ROTATED" ++ " " ++ triple_text num (c_rot c) ++ " " ++ stem (c_rot_rel c) ++ tip (c_rot_rel c)) ++ k ++ q) ++ rest)%string
      with ((cpu ++ upto num c ++ ("ROTATED" ++ " ") ++ (triple_text num (c_rot c) ++ " ") ++ stem (c_rot_rel c)) ++ (tip (c_rot_rel c) ++ k) ++ q ++ rest)%string by (now rewrite !string_app_assoc).
    rewrite All. rewrite (cuts_word _ (proj2 Tip)) by (now apply calmly_app). rewrite (proj1 Tip), Q. rewrite !option_map_app. unfold w_stuck. rewrite <- !app_assoc. reflexivity.
  Qed.
  Lemma w_stuck_starts c k rest : after follow (w_stuck c k ++ rest) /\ (at_kw "COMPONENT" (w_stuck c k ++ rest) || at_kw "REMOVABLE" (w_stuck c k ++ rest) || at_kw "CPU" (w_stuck c k ++ rest) || at_kw "SPLIT" (w_stuck c k ++ rest)) = true.
  Proof. unfold w_stuck, w_upto. destruct (c_cpu c); split; cbn; auto. Qed.
  Lemma q_trace_front cs : forall f seen rest, Forall (goodi num) cs -> backwards seen cs -> after follow rest ->
    exists seen', q_trace (List.length cs + f) seen (flat_map (w_inst num) cs ++ rest) = match q_trace f seen' rest with Some (l, r) => Some (map (reread num) cs ++ l, r) | None => None end.
  Proof.
    induction cs as [|c cs IH]; intros f seen rest G B R; cbn [List.length plus flat_map map app].
    - exists seen. now destruct (q_trace f seen rest) as [[? ?]|].
    - cbn [q_trace]. destruct B as (N & Rf & B). rewrite <- app_assoc. rewrite (proj2 (w_inst_starts c _)). rewrite q_inst_ok; [|exact (proj1 (Forall_inv G))|].
      + change (c_name (reread num c)) with (c_name c). destruct (isin (c_name c) seen) eqn:X; [apply isin_In in X; contradiction|].
        destruct (IH f (c_name c :: seen) rest (Forall_inv_tail G) B R) as (seen' & E). exists seen'. rewrite E. destruct (q_trace f seen' rest) as [[l r]|]; [|reflexivity].
        unfold resolve. cbn [reread c_at_rel c_rot_rel]. rewrite !known_in by (intros n E'; apply Rf; auto). reflexivity.
      + destruct cs as [|c' cs]; [exact R|]. cbn [flat_map]. rewrite <- app_assoc. apply w_inst_starts.
  Qed.
  Theorem stuck_instrument notes i pre c post : i_comps i = pre ++ c :: post -> good_front i -> no_end notes -> Forall (goodi num) pre -> backwards [] pre ->
    fit num c -> negb (unwritten (c_rot c) (c_rot_rel c)) = true -> (c_group c <> None \/ c_extend c <> [] \/ c_jump c <> [] \/ c_meta c <> []) ->
    read_instr (instr_text num notes i) = None.
  Proof.
    intros Ec Gf Nt Gp Bp F Tu T. destruct (lex_stuck c F Tu T) as (k & t & ts & K & D & L). unfold read_instr. rewrite text_split, Ec.
    assert (Tr : trace_text (pre ++ c :: post) = (trace_text pre ++ newline ++ inst_text num c ++ newline ++ trace_text post)%string).
    { unfold trace_text. clear. assert (Cc : forall l, String.concat "" l = fold_right append "" l) by (induction l as [|x l IH]; [reflexivity|]; destruct l; [cbn; now rewrite string_app_nil_r|]; change (String.concat "" (x :: s :: l)) with (x ++ String.concat "" (s :: l))%string; rewrite IH; reflexivity).
      rewrite !Cc. induction pre as [|p pre IH]; [cbn [app map fold_right]; rewrite !string_app_assoc; reflexivity|]. cbn [app map fold_right]. rewrite IH, !string_app_assoc. reflexivity. }
    rewrite Tr, !string_app_assoc.
    rewrite (cutsA_front notes i Gf Nt), (cutsA_trace pre Gp), cutsA_newline, L. destruct (lex (newline ++ trace_text post ++ back_text i)) as [r|]; [|reflexivity]. cbn [option_map app].
    rewrite q_front by exact Gf. rewrite <- app_assoc. cbn [app]. set (X := w_stuck c k ++ t :: ts ++ r). unfold q_back.
    assert (Ex : exists f, S (List.length (flat_map (w_inst num) pre ++ X)) = List.length pre + S f).
    { rewrite app_length. assert (Lp : List.length pre <= List.length (flat_map (w_inst num) pre)) by (apply flat_len; apply Forall_forall; intros c' _; unfold w_inst, w_head; destruct (c_cpu c'); discriminate).
      exists (List.length (flat_map (w_inst num) pre) - List.length pre + List.length X). lia. }
    destruct Ex as (f & ->). destruct (q_trace_front pre (S f) [] X Gp Bp (proj1 (w_stuck_starts c k _))) as (seen' & ->).
    assert (St : q_trace (S f) seen' X = None \/ exists cs, q_trace (S f) seen' X = Some (cs, t :: ts ++ r)).
    { cbn [q_trace]. unfold X. rewrite !(proj2 (w_stuck_starts c k _)). destruct (stuck c k t (ts ++ r) F K D) as [E|(c' & E)].
      - left. now rewrite E.
      - rewrite E. destruct (isin (c_name c') seen'); [now left|]. destruct f as [|f]; [now left|]. right. cbn [q_trace]. unfold at_kw. rewrite !dead_kw by (exact D || cbn; auto 20). cbn [orb]. eexists. reflexivity. }
    destruct St as [-> | (cs & ->)]; [reflexivity|]. unfold q_block. rewrite !dead_kw by (exact D || cbn; auto 20). reflexivity.
  Qed.
End Whole.
