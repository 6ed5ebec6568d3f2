(** Property C73: parameters and particle variables added in Python. *)
From Coq Require Import List String Ascii Bool NArith QArith Qcanon ZArith Arith Lia.
From Verif Require Import PyStr Expr ExprSem Print Signs Lexer ExprChars InstrModel InstrChars InstrCharsFacts Properties_InstrText AsmParam.
From Verif Require InstanceText.
Import ListNotations.
Import InstanceText (newline).
Local Open Scope string_scope.
Local Open Scope list_scope.
Local Open Scope nat_scope.

(** * Specification *)
(** a number, or a text with its quotes; its type in C *)
Inductive plain := Number (q : Qc) | Quoted (s : string).
Inductive is_plain : arg -> plain -> Prop :=
| is_int z : is_plain (AInt z) (Number (Z2Qc z))
| is_float q : is_plain (AFloat q) (Number q)
| is_quoted s : is_plain (AText (String dquote (s ++ String dquote ""))) (Quoted (String dquote (s ++ String dquote ""))).
(** the ways to give a value and a unit: alone, before the unit, or both under their keys *)
Inductive given : arg -> plain -> string -> Prop :=
| alone v p : is_plain v p -> given v p ""
| with_unit v p u : is_plain v p -> given (ASeq [v; AText u]) p u
| under_keys d v p u : is_plain v p -> lookup "value" d = Some v -> lookup "unit" d = Some (AText u) -> given (ADict d) p u.
(** the value of the parameter is [p] *)
Definition holds (a : ap) (p : plain) : Prop :=
  exists n, a_held a = HNode n /\ forall IB IU env, den IB IU env false n = Some [match p with Number q => VN q | Quoted s => VS s end].
Definition typed (a : ap) (p : plain) : Prop :=
  match p with
  | Quoted _ => c_type_name a = Ok "instr_type_string"
  | Number q => c_type_name a = Ok (if Qc_is_int q then "instr_type_int" else "instr_type_double")
  end.
Definition added (kv : string * arg) (a : ap) : Prop :=
  exists p u, given (snd kv) p u /\ a_name a = fst kv /\ a_unit a = Some u /\ holds a p /\ typed a p.

(** * Lemmas *)
Lemma last_char_app s c : last_char (s ++ String c "") = Some c.
Proof. induction s as [|x s IH]; [reflexivity|]. cbn [append last_char]. destruct (s ++ String c "")%string eqn:E; [destruct s; discriminate|]. exact IH. Qed.
Lemma in_quotes_spec s : in_quotes s = true <-> s = String dquote "" \/ exists t, s = String dquote (t ++ String dquote "").
Proof.
  split.
  - destruct s as [|c r]; [discriminate|]. unfold in_quotes. destruct (last_char (String c r)) as [d|] eqn:L; [|discriminate]. intro H. apply andb_prop in H as [C D].
    apply Ascii.eqb_eq in C, D. subst. destruct r as [|x r]; [now left|]. right. change (last_char (String x r) = Some dquote) in L.
    assert (G : exists t, String x r = (t ++ String dquote "")%string); [|destruct G as (t & ->); now exists t].
    revert x L. induction r as [|y r IH]; intros x L; [injection L as ->; now exists ""|]. destruct (IH y L) as (t & E). exists (String x t). now rewrite E.
  - intros [->|(t & ->)]; [reflexivity|]. unfold in_quotes. pose proof (last_char_app (String dquote t) dquote) as L. cbn [append] in L. rewrite L. reflexivity.
Qed.
Lemma is_int_Z z : Qc_is_int (Z2Qc z) = true.
Proof. unfold Qc_is_int, Z2Qc. cbn [this Q2Qc]. pose proof (Qred_identity (inject_Z z)) as R. unfold inject_Z in *. cbn [Qnum Qden] in R. rewrite R; [reflexivity|]. apply Z.gcd_1_r. Qed.
Lemma best_plain v p : is_plain v p -> exists d h, best v = Ok (d, Scalar, h) /\ forall n u, holds (mkAp n u d Scalar h) p /\ typed (mkAp n u d Scalar h) p.
Proof.
  intros [z|q|s].
  - do 2 eexists. split; [reflexivity|]. intros n u. split; [eexists; split; reflexivity|]. unfold typed. now rewrite is_int_Z.
  - unfold best. destruct (Qc_is_int q) eqn:E; (do 2 eexists; split; [reflexivity|]; intros n u; split; [eexists; split; reflexivity|]; unfold typed; now rewrite E).
  - assert (Q : in_quotes (String dquote (s ++ String dquote "")) = true) by (apply in_quotes_spec; right; now exists s).
    unfold best. rewrite Q. do 2 eexists. split; [reflexivity|]. intros n u. split; [eexists; split; reflexivity|reflexivity].
Qed.
Lemma plain_alone v p : is_plain v p -> split_given v = Ok (v, Some ""). Proof. intros [z|q|s]; reflexivity. Qed.
Lemma entry_given name v p u : given v p u -> exists a, entry name v = Ok a /\ a_name a = name /\ a_unit a = Some u /\ holds a p /\ typed a p.
Proof.
  intro G. assert (E : exists v', split_given v = Ok (v', Some u) /\ is_plain v' p).
  { destruct G as [v p P|v p u P|d v p u P V U].
    - exists v. split; [now apply (plain_alone v p)|exact P].
    - exists v. split; [reflexivity|exact P].
    - exists v. cbn. rewrite U, V. split; [reflexivity|exact P]. }
  destruct E as (v' & E & P). destruct (best_plain v' p P) as (d & h & B & H). destruct (H name (Some u)) as [H1 H2].
  exists (mkAp name (Some u) d Scalar h). unfold entry. rewrite E. cbn [rbind fst snd]. rewrite B. cbn [rbind fst snd]. repeat split; auto.
Qed.
Lemma present_spec ps n : present ps n = true <-> In n (map a_name ps).
Proof.
  unfold present. rewrite existsb_exists, in_map_iff. split; intros (p & A & B); exists p.
  - apply String.eqb_eq in B. auto.
  - split; [exact B|]. apply String.eqb_eq. auto.
Qed.
Lemma add_new ignore ps a : ~ In (a_name a) (map a_name ps) -> add ignore ps a = Ok (ps ++ [a]).
Proof. intro N. unfold add. destruct (present ps (a_name a)) eqn:E; [apply present_spec in E; contradiction|reflexivity]. Qed.
Lemma add_old ignore ps a : In (a_name a) (map a_name ps) -> add ignore ps a = if ignore then Ok ps else Raise.
Proof. intro H. unfold add. apply present_spec in H. rewrite H. now destruct ignore. Qed.

(** * C73: what is added *)
(** Parameters given by their names, in any of the three ways, are added behind those there were, in order, under these names, with these units and values; numbers have
    the type int or double in C, texts are strings. *)
Theorem C73_parameters : forall ps pairs,
  Forall (fun kv => exists p u, given (snd kv) p u) pairs -> NoDup (map fst pairs) -> (forall n, In n (map fst pairs) -> ~ In n (map a_name ps)) ->
  exists new, parameters ps [] (map (fun kv => (fst kv, inl (snd kv))) pairs) = (ps ++ new, true) /\ Forall2 added pairs new.
Proof.
  intros ps pairs. unfold parameters. cbn [each]. revert ps. induction pairs as [|[n v] t IH]; intros ps G D N.
  - exists []. rewrite app_nil_r. split; [reflexivity|constructor].
  - destruct (Forall_inv G) as (p & u & Gv). cbn [fst snd] in Gv. destruct (entry_given n v p u Gv) as (a & E & An & Au & H & T). inversion D as [|? ? Dn Dt]; subst.
    cbn [map each keyword_argument fst snd]. rewrite E. cbn [rbind]. rewrite add_new by (apply N; now left).
    destruct (IH (ps ++ [a]) (Forall_inv_tail G) Dt) as (new & X & F).
    { intros m Hm. rewrite map_app, in_app_iff. intros [Y|[Y|[]]]; [apply (N m); [now right|exact Y]|]. subst. cbn in Dn, Hm. contradiction. }
    exists (a :: new). rewrite X, <- app_assoc. split; [reflexivity|]. constructor; [|exact F]. exists p, u. repeat split; auto.
Qed.
Print Assumptions C73_parameters.

(** Whatever is called, and whether or not it raises: the parameters there were stay where and what they were, and names stay different. *)
Inductive call := CParameter (ignore : bool) (p : pos) | CParameters (pars : list pos) (pairs : list (string * (arg + ap))).
Definition after_call (ps : list ap) (c : call) : list ap :=
  match c with
  | CParameter ig p => match parameter ig ps p with Ok ps' => ps' | _ => ps end
  | CParameters pars pairs => fst (parameters ps pars pairs)
  end.
Definition extends (ps ps' : list ap) : Prop := (exists new, ps' = ps ++ new) /\ (NoDup (map a_name ps) -> NoDup (map a_name ps')).
Lemma extends_refl ps : extends ps ps. Proof. split; [exists []; now rewrite app_nil_r|auto]. Qed.
Lemma extends_trans a b c : extends a b -> extends b c -> extends a c.
Proof. intros [(x & ->) Hx] [(y & ->) Hy]. split; [exists (x ++ y); now rewrite app_assoc|auto]. Qed.
Lemma nodup_snoc {A} (l : list A) x : NoDup l -> ~ In x l -> NoDup (l ++ [x]).
Proof.
  intros H N. induction H as [|y l Ny H IH]; cbn; [constructor; [now intros []|constructor]|]. constructor; [|apply IH; intro; apply N; now right].
  rewrite in_app_iff. intros [I|[<-|[]]]; [contradiction|]. apply N. now left.
Qed.
Lemma add_extends ig ps a ps' : add ig ps a = Ok ps' -> extends ps ps'.
Proof.
  unfold add. destruct (present ps (a_name a)) eqn:E; cbn [negb].
  - destruct ig; [|discriminate]. intro H. injection H as <-. apply extends_refl.
  - intro H. injection H as <-. split; [now exists [a]|]. intro D. rewrite map_app. apply nodup_snoc; [exact D|]. intro I. apply present_spec in I. cbn in I. congruence.
Qed.
Lemma each_extends {A} (f : list ap -> A -> res (list ap)) l : (forall ps a ps', f ps a = Ok ps' -> extends ps ps') -> forall ps, extends ps (fst (each f ps l)).
Proof.
  intro F. induction l as [|a l IH]; intro ps; [apply extends_refl|]. cbn [each]. destruct (f ps a) as [ps'| |] eqn:E; try apply extends_refl. eapply extends_trans; [eapply F, E|apply IH].
Qed.
Lemma parameter_extends ig ps p ps' : parameter ig ps p = Ok ps' -> extends ps ps'.
Proof. unfold parameter. destruct (par_of p) as [a| |]; try discriminate. cbn [rbind]. apply add_extends. Qed.
Lemma keyword_extends ps kv ps' : keyword_argument ps kv = Ok ps' -> extends ps ps'.
Proof. unfold keyword_argument. destruct (snd kv) as [v|a]; [|apply add_extends]. destruct (entry (fst kv) v) as [a| |]; try discriminate. cbn [rbind]. apply add_extends. Qed.
Theorem C73_names_stay_different : forall calls ps, NoDup (map a_name ps) ->
  NoDup (map a_name (fold_left after_call calls ps)) /\ exists new, fold_left after_call calls ps = ps ++ new.
Proof.
  intros calls ps D. enough (E : extends ps (fold_left after_call calls ps)) by (destruct E as [N H]; split; [now apply H|exact N]). clear D. revert ps.
  induction calls as [|c calls IH]; intro ps; [apply extends_refl|]. cbn [fold_left]. eapply extends_trans; [|apply IH]. destruct c as [ig p|pars pairs]; cbn [after_call].
  - destruct (parameter ig ps p) as [ps'| |] eqn:E; try apply extends_refl. eapply parameter_extends, E.
  - unfold parameters. pose proof (each_extends (parameter false) pars (parameter_extends false) ps) as X. destruct (each (parameter false) ps pars) as [ps1 ok]. cbn [fst] in X.
    destruct ok; [|exact X]. eapply extends_trans; [exact X|]. apply each_extends. apply keyword_extends.
Qed.
Print Assumptions C73_names_stay_different.

(** A name that is there already: with ignore_repeated nothing changes, whatever the new unit, type and value are; otherwise the call raises. *)
Theorem C73_repeated : forall ignore ps p a, par_of p = Ok a -> In (a_name a) (map a_name ps) ->
  parameter ignore ps p = if ignore then Ok ps else Raise.
Proof. intros ignore ps p a P I. unfold parameter. rewrite P. cbn [rbind]. now apply add_old. Qed.
Print Assumptions C73_repeated.

(** A call that ends without an error has made a parameter of every argument: a repeated name is never passed over. *)
Lemma add_one ps a ps' : add false ps a = Ok ps' -> ps' = ps ++ [a].
Proof. unfold add. destruct (negb (present ps (a_name a))); cbn; congruence. Qed.
Lemma each_count {A} (f : list ap -> A -> res (list ap)) l : (forall ps a ps', f ps a = Ok ps' -> exists x, ps' = ps ++ [x]) ->
  forall ps ps', each f ps l = (ps', true) -> exists new, ps' = ps ++ new /\ List.length new = List.length l.
Proof.
  intro F. induction l as [|a l IH]; intros ps ps' H; cbn [each] in H; [injection H as <-; exists []; now rewrite app_nil_r|].
  destruct (f ps a) as [ps1| |] eqn:E; try discriminate. destruct (F _ _ _ E) as (x & ->). destruct (IH _ _ H) as (new & -> & L). exists (x :: new). rewrite <- app_assoc. cbn. auto.
Qed.
Theorem C73_every_argument : forall ps pars pairs ps', parameters ps pars pairs = (ps', true) ->
  exists new, ps' = ps ++ new /\ List.length new = List.length pars + List.length pairs.
Proof.
  intros ps pars pairs ps' H. unfold parameters in H. destruct (each (parameter false) ps pars) as [ps1 ok] eqn:E. destruct ok; [|discriminate].
  destruct (each_count (parameter false) pars) with (2 := E) as (n1 & -> & L1).
  { intros qs p qs' Q. unfold parameter in Q. destruct (par_of p) as [a| |]; try discriminate. exists a. now apply add_one. }
  destruct (each_count keyword_argument pairs) with (2 := H) as (n2 & -> & L2).
  { intros qs [n [v|a]] qs' Q; unfold keyword_argument in Q; cbn [fst snd] in Q; [destruct (entry n v) as [a| |]; try discriminate|]; exists a; now apply add_one. }
  exists (n1 ++ n2). rewrite app_assoc, app_length. auto.
Qed.
Print Assumptions C73_every_argument.
Example C73_every_argument_example : exists ps', parameters [] [] [("a", inl (AInt 1)); ("b", inl (AInt 2))] = (ps', true) /\ List.length ps' = 2.
Proof. eexists. split; [reflexivity|reflexivity]. Qed.

(** The instrument file has the parameter with the name, unit and value given and with the type it has in C. *)
Theorem C73_written_type : forall n v pl u, given v pl u -> exists a p, entry n v = Ok a /\ to_par a = Some p /\ p_name p = n /\ p_unit p = Some u /\
  c_type_name a = Ok (match p_kind p with KInt => "instr_type_int" | KFloat => "instr_type_double" | KStr => "instr_type_string" end) /\
  exists e, p_value p = Some e /\ forall IB IU env, den IB IU env false e = Some [match pl with Number q => VN q | Quoted s => VS s end].
Proof.
  intros n v pl u G. destruct (entry_given n v pl u G) as (a & E & N & U & (e & A & D) & T).
  assert (SC : a_shape a = Scalar /\ (a_dt a = DInt \/ a_dt a = DFloat \/ a_dt a = DStr /\ is_id (a_held a) = false)).
  { assert (X : exists v', split_given v = Ok (v', Some u) /\ is_plain v' pl).
    { destruct G as [w p P|w p x P|d w p x P V W].
      - exists w. split; [now apply (plain_alone w p)|exact P].
      - exists w. split; [reflexivity|exact P].
      - exists w. cbn. rewrite W, V. split; [reflexivity|exact P]. }
    destruct X as (w & S & P). unfold entry in E. rewrite S in E. cbn [rbind fst snd] in E. destruct P as [z|q|s]; cbn [best] in E.
    - injection E as <-. cbn. auto.
    - destruct (Qc_is_int q); injection E as <-; cbn; auto.
    - assert (Q : in_quotes (String dquote (s ++ String dquote "")) = true) by (apply in_quotes_spec; right; now exists s).
      rewrite Q in E. injection E as <-. cbn. auto. }
  destruct SC as [SC DT]. exists a. eexists. split; [exact E|]. unfold to_par. rewrite SC, A. split; [reflexivity|]. cbn [p_name p_unit p_kind p_value]. split; [auto|]. split; [auto|]. split.
  - unfold c_type_name. rewrite SC. destruct DT as [DT|[DT|[DT I]]]; rewrite DT; cbn [dtype_eqb andb]; [reflexivity|reflexivity|]. rewrite A in I. rewrite I. reflexivity.
  - exists e. auto.
Qed.
Print Assumptions C73_written_type.
Example C73_written_type_example : given (ASeq [AInt 3; AText "m"]) (Number (Z2Qc 3)) "m".
Proof. apply with_unit. apply is_int. Qed.

(** A parameter written as text and read again by InstrumentParameter.parse is the same one: name, unit, type; the default value has the same value.
    [good_par]: the name is an identifier and not a keyword; the unit is absent or a text literal with its quotes; the default value is absent or a constant that can be written. *)
Theorem C73_text_is_read : forall num p, good_par num p -> exists p', parse (par_text num p) = Ok (from_par p') /\ same_par p p'.
Proof.
  intros num p G. exists (again_par num p). split; [|now apply same_reread_par]. unfold parse. pose proof (cuts_par num p G "" eq_refl) as L. rewrite string_app_nil_r in L. rewrite L.
  change (lex "") with (Some (@nil ltok)). cbn [option_map]. pose proof (q_par_ok num p [] G Logic.I) as Q. rewrite Q. reflexivity.
Qed.
Print Assumptions C73_text_is_read.

(** Not everything that is given is used: when the text has several parameters, all but the first are dropped without a word. *)
Theorem C73_more_text_refuted : forall num p rest l, good_par num p -> lex rest = Some l -> parse (par_text num p ++ ", " ++ rest)%string = parse (par_text num p).
Proof.
  intros num p rest l G Lr.
  assert (E : lex (par_text num p ++ ", " ++ rest)%string = Some (w_par num p ++ LSym "," :: l)).
  { rewrite (cuts_par num p G (", " ++ rest)%string) by reflexivity. rewrite (cutsA_comma rest), Lr. reflexivity. }
  unfold parse. rewrite E. rewrite (q_par_ok num p (LSym "," :: l) G) by (right; now right).
  pose proof (cuts_par num p G "" eq_refl) as L. rewrite string_app_nil_r in L. rewrite L. change (lex "") with (Some (@nil ltok)). cbn [option_map]. now rewrite (q_par_ok num p [] G Logic.I).
Qed.
Print Assumptions C73_more_text_refuted.

(** The form that the usage text of the module shows, par2=('m', 100), unit first, is not understood: the unit is empty and the parameter is a vector in C, of a text and a number. *)
Theorem C73_unit_first_refuted : forall n u v p, is_plain v p -> (forall s, v <> AText s) ->
  exists a, entry n (ASeq [AText u; v]) = Ok a /\ a_unit a = Some "" /\ a_held a = HSeq [AText u; v] /\ c_type_name a = Ok "instr_type_vector".
Proof.
  intros n u v p P N. exists (mkAp n (Some "") DFloat Vector (HSeq [AText u; v])). split; [|repeat split]. destruct P; try reflexivity. exfalso. now eapply N.
Qed.
Print Assumptions C73_unit_first_refuted.

(** A float is not always a double: a whole number, such as 3.0, makes an int parameter, which takes no value such as 3.5 when the instrument is run. *)
Theorem C73_whole_float_refuted : forall n z, exists a, entry n (AFloat (Z2Qc z)) = Ok a /\ c_type_name a = Ok "instr_type_int".
Proof.
  intros n z. pose proof (is_int_Z z) as E. eexists. split; [unfold entry; cbn [split_given rbind fst snd best]; rewrite E; reflexivity|]. reflexivity.
Qed.
Print Assumptions C73_whole_float_refuted.

(** A text without quotes as a value: the parameter is added, but no C can be made for it, and the instrument file has no default value for it. *)
Theorem C73_text_without_quotes_refuted : forall n c s, in_quotes (String c s) = false ->
  exists a p, entry n (AText (String c s)) = Ok a /\ c_type_name a = Raise /\ to_par a = Some p /\ forall num, par_text num p = (n ++ "/")%string.
Proof.
  intros n c s Q. do 2 eexists. split; [unfold entry; cbn [split_given rbind fst snd best]; rewrite Q; reflexivity|]. split; [reflexivity|]. split; [reflexivity|].
  intro num. unfold par_text. cbn [p_kind p_name p_unit p_value a_dt a_name a_unit dtype_eqb andb append]. reflexivity.
Qed.
Print Assumptions C73_text_without_quotes_refuted.

(** ** Units without quotes *)
Lemma q_list_stuck {A} (q : list ltok -> option (A * list ltok)) (w : A -> list ltok) (a : A -> A) pre bad :
  Forall (fun x => forall rest, ends rest -> q (w x ++ rest) = Some (a x, rest)) pre -> (forall fuel, q_list q fuel bad = None) ->
  forall fuel, q_list q fuel (flat_map (fun x => w x ++ [LSym ","]) pre ++ bad) = None.
Proof.
  intros H B. induction H as [|x pre Hx H IH]; intro fuel; [apply B|]. destruct fuel as [|f]; [reflexivity|]. cbn [flat_map q_list]. rewrite <- !app_assoc. rewrite Hx by (cbn; auto). cbn [app].
  change (q_sym ")" (LSym "," :: ?r)) with (@None (list ltok)). rewrite q_sym_hit. rewrite IH. reflexivity.
Qed.
Lemma join_split {A} (f : A -> string) pre b post :
  join ", " (map f (pre ++ b :: post)) = (String.concat "" (map (fun x => f x ++ ", ")%string pre) ++ join ", " (map f (b :: post)))%string.
Proof.
  induction pre as [|x pre IH]; [reflexivity|]. assert (N : exists y l, map f (pre ++ b :: post) = y :: l) by (destruct pre; cbn; eauto). destruct N as (y & l & N).
  change (map f ((x :: pre) ++ b :: post)) with (f x :: map f (pre ++ b :: post)). rewrite N in *. change (join ", " (f x :: y :: l)) with (f x ++ ", " ++ join ", " (y :: l))%string. rewrite IH.
  cbn [map]. destruct pre as [|z pre]; [cbn [map String.concat append]; now rewrite !string_app_assoc|].
  change (String.concat "" ((f x ++ ", ")%string :: map (fun x => f x ++ ", ")%string (z :: pre))) with ((f x ++ ", ") ++ String.concat "" (map (fun x => f x ++ ", ")%string (z :: pre)))%string.
  now rewrite !string_app_assoc.
Qed.
(** what follows the name of a parameter with such a unit *)
Definition no_quotes (u : string) : Prop := u = "" \/ wordy u = true.
Lemma lex_slash_word u rest : wordy u = true -> lex1 ("/" ++ u ++ rest)%string = Some (Some (LSym "/"), (u ++ rest)%string).
Proof.
  destruct u as [|c u]; [discriminate|]. intro W. cbn [wordy] in W. apply andb_prop in W as [W _].
  assert (X : forall r, lex1 (String "/" (String c r)) = Some (Some (LSym "/"), String c r)); [|apply X].
  pose proof (every (fun c => implb (word_start c) (negb (Ascii.eqb c "*") && negb (Ascii.eqb c "/") && negb (isin (String "/" (String c "")) pairs)))) as Ev.
  assert (P : implb (word_start c) (negb (Ascii.eqb c "*") && negb (Ascii.eqb c "/") && negb (isin (String "/" (String c "")) pairs)) = true) by (apply Ev; vm_compute; reflexivity).
  rewrite W in P. cbn [implb] in P. apply andb_prop in P as [P P3]. apply andb_prop in P as [P1 P2]. apply negb_true_iff in P1, P2, P3. intro r.
  assert (L : lex1 (String "/" (String c r)) = lex_sign (String "/" (String c r))).
  { change (lex1 (String "/" (String c r))) with (lex_slash (String "/" (String c r))). unfold lex_slash. rewrite P1, P2. reflexivity. }
  rewrite L. apply lex_sign1; [reflexivity|exact P3].
Qed.
Lemma word_token_no_str u : match word_token u with LStr _ => False | _ => True end.
Proof. unfold word_token. destruct (u =?s "not"); [exact Logic.I|]. destruct (u =?s "and"); [exact Logic.I|]. destruct (u =?s "or"); [exact Logic.I|]. now destruct (keyword u). Qed.
(** the tokens of the name and the unit, and of all that follows *)
Lemma lex_opt s t r : lex1 s = Some (Some t, r) -> lex s = option_map (cons t) (lex r).
Proof. intro H. rewrite (lex_step _ _ _ H). reflexivity. Qed.
Definition is_value (v : string) : Prop := v = "" \/ exists x, v = ("=" ++ x)%string.

Definition bad_unit (l : list ltok) : Prop := match l with LSym s :: t => s = "/=" \/ (s = "/" /\ match t with LStr _ :: _ => False | _ => True end) | _ => False end.
Lemma calm_tail c r : (c = "," \/ c = ")" \/ c = "=")%char -> calm_id (String c r) = true. Proof. intros [->|[->| ->]]; reflexivity. Qed.
Lemma lex_bad_unit u v c r l : no_quotes u -> is_value v -> (c = "," \/ c = ")")%char -> lex ("/" ++ u ++ v ++ String c r)%string = Some l -> bad_unit l.
Proof.
  intros U V C.
  assert (Ca : calm_id (v ++ String c r) = true) by (destruct V as [->|(x & ->)]; [apply calm_tail; tauto|reflexivity]).
  destruct U as [->|W].
  - destruct V as [->|(x & ->)]; cbn [append].
    + assert (L1 : lex1 (String "/" (String c r)) = Some (Some (LSym "/"), String c r)) by (destruct C as [->| ->]; destruct r; reflexivity).
      assert (L2 : lex1 (String c r) = Some (Some (LSym (String c "")), r)) by (destruct C as [->| ->]; destruct r as [|? [|? ?]]; reflexivity).
      rewrite (lex_opt _ _ _ L1), (lex_opt _ _ _ L2). destruct (lex r); [|discriminate]. cbn. intro H. injection H as <-. right. now split.
    + assert (L1 : lex1 (String "/" (String "=" (x ++ String c r))) = Some (Some (LSym "/="), (x ++ String c r)%string)) by (destruct (x ++ String c r)%string; reflexivity).
      rewrite (lex_opt _ _ _ L1). destruct (lex _); [|discriminate]. cbn. intro H. injection H as <-. now left.
  - rewrite (lex_opt _ _ _ (lex_slash_word u (v ++ String c r) W)). rewrite (lex_opt _ _ _ (lex1_word u (v ++ String c r) W Ca)).
    destruct (lex (v ++ String c r)); [|discriminate]. cbn. intro H. injection H as <-. right. split; [reflexivity|]. pose proof (word_token_no_str u). now destruct (word_token u).
Qed.
Lemma q_bad k n l : bad_unit l -> forall fuel, q_list q_par fuel (w_kind k ++ LId n :: l) = None.
Proof.
  intros B [|f]; [reflexivity|]. cbn [q_list]. unfold q_par. rewrite q_kind_ok. cbn [q_id]. destruct l as [|[] t]; try destruct B as []; subst.
  - unfold q_unit, q_default. cbn. destruct k; reflexivity.
  - destruct H as [-> H]. cbn. destruct t as [|[] t]; try reflexivity. destruct H.
Qed.

Definition kind_text (k : kind) : string := match k with KStr => "string " | KInt => "int " | KFloat => "" end.
Lemma cutsA_kind k : cutsA (kind_text k) (w_kind k).
Proof. destruct k; [exact cutsA_nil|apply (cutsA_key "int"); reflexivity|apply (cutsA_key "string"); reflexivity]. Qed.
Lemma lex_bad_par num b u c r l : ident (p_name b) -> p_unit b = Some u -> no_quotes u -> (c = "," \/ c = ")")%char ->
  lex (par_text num b ++ String c r)%string = Some l -> q_sym ")" l = None /\ forall fuel, q_list q_par fuel l = None.
Proof.
  intros N U Q C L. set (v := match p_value b with Some e => if constant e then ("=" ++ show num e)%string else "" | None => "" end).
  assert (V : is_value v) by (unfold v; destruct (p_value b) as [e|]; [destruct (constant e); [right; eexists; reflexivity|now left]|now left]).
  assert (E : (par_text num b ++ String c r)%string = (kind_text (p_kind b) ++ p_name b ++ ("/" ++ u ++ v ++ String c r))%string).
  { unfold par_text. rewrite U. fold v. fold (kind_text (p_kind b)). now rewrite !string_app_assoc. }
  rewrite E, (cutsA_kind (p_kind b)) in L. rewrite (cuts_id (p_name b) N) in L by reflexivity.
  destruct (lex ("/" ++ u ++ v ++ String c r)%string) as [t|] eqn:T; [|discriminate]. cbn [option_map] in L. injection L as <-. split; [now destruct (p_kind b)|]. apply q_bad. now apply (lex_bad_unit u v c r).
Qed.
(** Units are meant to be given as in the usage text, without quotes, or not at all; either is stored as it is (C73_parameters).  The instrument file then has [/m] or [/] behind
    the name, where the grammar wants a slash and a text in quotes: the file of such an instrument, whatever else is in it, is not read. *)
Theorem C73_unit_not_read_refuted : forall num notes i pre b u post, i_pars i = pre ++ b :: post -> ident (i_name i) -> Forall (good_par num) pre -> ident (p_name b) ->
  p_unit b = Some u -> no_quotes u -> contains "*/" notes = false -> Forall (fun p => unbroken (par_text num p) = true) (b :: post) ->
  read_instr (instr_text num notes i) = None.
Proof.
  intros num notes i pre b u post E N G Nb U Q Nt Ub.
  assert (T : exists c r, (c = "," \/ c = ")")%char /\ instr_text num notes i =
    (("/* " ++ notes ++ "*/") ++ newline ++ ("DEFINE" ++ " ") ++ ("INSTRUMENT" ++ " ") ++ i_name i ++ "(" ++ String.concat "" (map (fun x => par_text num x ++ ", ")%string pre) ++ par_text num b ++ String c r)%string).
  { rewrite text_split. unfold front_text. set (tail := (_ ++ String.concat "" (map meta_text (i_meta i)) ++ _)%string).
    set (body := (i_name i ++ "(" ++ join ", " (map (par_text num) (i_pars i)) ++ ")")%string).
    assert (Ne : or_none body = body) by (unfold body; destruct (i_name i); [destruct N as [[] _]|reflexivity]).
    assert (Li : line "DEFINE INSTRUMENT" [body] = (("DEFINE" ++ " ") ++ ("INSTRUMENT" ++ " ") ++ body)%string).
    { unfold line. cbn [map join]. rewrite Ne. rewrite wrap_unbroken; [reflexivity|]. unfold body. rewrite !unbroken_app, (ident_unbroken _ N), unbroken_join; [reflexivity|].
      apply Forall_map. rewrite E. apply Forall_app. split; [eapply Forall_impl; [|exact G]; intros p (_ & _ & _ & X); exact X|exact Ub]. }
    assert (Tl : forall x, exists c r, (c = "," \/ c = ")")%char /\ (join ", " (map (par_text num) (b :: post)) ++ ")" ++ x)%string = (par_text num b ++ String c r)%string).
    { intro x. destruct post as [|p post]; [exists ")"%char, x; split; [now right|reflexivity]|]. exists ","%char, (" " ++ join ", " (map (par_text num) (p :: post)) ++ ")" ++ x)%string. split; [now left|].
      change (join ", " (map (par_text num) (b :: p :: post))) with (par_text num b ++ ", " ++ join ", " (map (par_text num) (p :: post)))%string. rewrite !string_app_assoc. reflexivity. }
    match goal with |- exists c r, _ /\ ?lhs = _ => assert (X : exists x, lhs = (("/* " ++ notes ++ "*/") ++ newline ++ line "DEFINE INSTRUMENT" [body] ++ x)%string) by (unfold tail; rewrite ?string_app_assoc; eexists; rewrite ?string_app_assoc; reflexivity) end.
    destruct X as (x & X). rewrite X, Li. destruct (Tl x) as (c & r & C & Tx). exists c, r. split; [exact C|]. unfold body. rewrite E, join_split, <- Tx. rewrite !string_app_assoc. reflexivity. }
  destruct T as (c & r & C & T). unfold read_instr. destruct (lex (instr_text num notes i)) as [l|] eqn:L; [|reflexivity]. rewrite T in L. clear T.
  rewrite (cutsA_comment notes (no_end_contains _ Nt)), cutsA_newline in L. rewrite (cutsA_key "DEFINE" eq_refl eq_refl), (cutsA_key "INSTRUMENT" eq_refl eq_refl) in L.
  rewrite (cuts_id (i_name i) N) in L by reflexivity. rewrite (cutsA_sign "(" (or_introl eq_refl)) in L.
  rewrite (cutsA_all (fun x => par_text num x ++ ", ")%string (fun x => w_par num x ++ [LSym ","]) pre) in L.
  2: { eapply Forall_impl; [|exact G]. intros p Gp. apply cuts_sep; [now apply cuts_par|reflexivity|exact cutsA_comma]. }
  destruct (lex (par_text num b ++ String c r)) as [lb|] eqn:B; [|discriminate]. cbn [option_map app] in L. injection L as <-.
  destruct (lex_bad_par num b u c r lb Nb U Q C B) as [St0 St]. unfold q_instr. rewrite !q_kw_hit. cbn [q_id]. unfold q_brackets. rewrite q_sym_hit.
  assert (Br : q_sym ")" (flat_map (fun x => w_par num x ++ [LSym ","]) pre ++ lb) = None).
  { destruct pre as [|p pre]; [|cbn [flat_map app]; unfold w_par; now destruct (p_kind p)]. exact St0. }
  rewrite Br. rewrite (q_list_stuck q_par (w_par num) (again_par num)); [reflexivity| |exact St]. eapply Forall_impl; [|exact G]. intros p Gp rest R. now apply q_par_ok.
Qed.
Print Assumptions C73_unit_not_read_refuted.

(** * C73: particle variables *)
Definition user_names (declared : string -> list (string * string)) (user : list string) : list string := map fst (flat_map declared user).
Lemma user_names_spec declared user n : existsb (fun b => existsb (fun v : string * string => fst v =?s n) (declared b)) user = true <-> In n (user_names declared user).
Proof.
  unfold user_names. rewrite existsb_exists, in_map_iff. split.
  - intros (b & I & E). apply existsb_exists in E as (v & Iv & Ev). apply String.eqb_eq in Ev. exists v. split; [exact Ev|]. apply in_flat_map. now exists b.
  - intros (v & E & I). apply in_flat_map in I as (b & Ib & Iv). exists b. split; [exact Ib|]. apply existsb_exists. exists v. split; [exact Iv|]. now apply String.eqb_eq.
Qed.
(** A call with one declaration: afterwards the variable is declared, all that was declared still is, and no name is declared twice. *)
Theorem C73_user_variable : forall declared user s n t, declared s = [(n, t)] -> NoDup (user_names declared user) ->
  exists user', ensure_user_var declared user s = Ok user' /\ In n (user_names declared user') /\ NoDup (user_names declared user') /\ (exists new, user' = user ++ new).
Proof.
  intros declared user s n t D Nd. unfold ensure_user_var. rewrite D. destruct (existsb _ user) eqn:E.
  - apply user_names_spec in E. exists user. repeat split; auto. exists []. now rewrite app_nil_r.
  - assert (No : ~ In n (user_names declared user)) by (intro I; apply user_names_spec in I; congruence). exists (user ++ [s]). split; [reflexivity|].
    assert (X : user_names declared (user ++ [s]) = user_names declared user ++ [n]) by (unfold user_names; rewrite flat_map_app, map_app; cbn [flat_map]; now rewrite D).
    rewrite X. split; [apply in_or_app; right; now left|]. split; [now apply nodup_snoc|now exists [s]].
Qed.
Print Assumptions C73_user_variable.

(** Several declarations in one text: only the first is compared with what there is, but the whole text is added.  A later variable that was there is then declared twice in the
    particle structure. *)
Theorem C73_user_variables_refuted : forall declared user s n t rest m, declared s = (n, t) :: rest -> ~ In n (user_names declared user) -> In m (map fst rest) -> In m (user_names declared user) ->
  exists user', ensure_user_var declared user s = Ok user' /\ ~ NoDup (user_names declared user').
Proof.
  intros declared user s n t rest m D No Im Iu. exists (user ++ [s]). unfold ensure_user_var. rewrite D. destruct (existsb _ user) eqn:E; [apply user_names_spec in E; contradiction|]. split; [reflexivity|].
  unfold user_names in *. rewrite flat_map_app, map_app. cbn [flat_map]. rewrite app_nil_r, D. cbn [map fst]. intro Nd. revert Nd. generalize dependent (map fst (flat_map declared user)). intros l _ Iu Nd.
  induction l as [|x l IH]; [destruct Iu|]. cbn in Nd. inversion Nd as [|? ? Nx Nl]; subst. destruct Iu as [->|Iu]; [|now apply IH]. apply Nx. apply in_or_app. right. now right.
Qed.
Print Assumptions C73_user_variables_refuted.

(** A variable of that name but of another type: nothing is added and nothing is raised; the variable asked for does not exist. *)
Theorem C73_user_type_refuted : forall declared user s n t, declared s = [(n, t)] -> In n (user_names declared user) -> ~ In (n, t) (flat_map declared user) ->
  ensure_user_var declared user s = Ok user /\ ~ In (n, t) (flat_map declared user).
Proof.
  intros declared user s n t D I No. split; [|exact No]. unfold ensure_user_var. rewrite D. apply user_names_spec in I. now rewrite I.
Qed.
Print Assumptions C73_user_type_refuted.

(** * Examples *)
Definition half : Qc := Q2Qc (1 # 2).
Definition my_pairs : list (string * arg) :=
  [("par1", AFloat half); ("par2", ASeq [AInt 100; AText "m"]); ("par3", ADict [("value", AFloat half); ("unit", AText "radian")]); ("file", AText (String dquote ("a.lau" ++ String dquote "")))].
Example C73_parameters_example : Forall (fun kv => exists p u, given (snd kv) p u) my_pairs /\ NoDup (map fst my_pairs).
Proof.
  split; [|repeat constructor; cbn; intuition discriminate]. unfold my_pairs. repeat constructor; cbn [snd].
  - exists (Number half), "". constructor. constructor.
  - exists (Number (Z2Qc 100)), "m". constructor. constructor.
  - exists (Number half), "radian". apply (under_keys _ (AFloat half)); [constructor|reflexivity|reflexivity].
  - exists (Quoted (String dquote ("a.lau" ++ String dquote ""))), "". constructor. constructor.
Qed.
(** the parameters and their types; a parameter twice stops the call, what was before it stays *)
Example C73_types_example : map (fun a => (a_name a, a_unit a, c_type_name a)) (fst (parameters [] [] (map (fun kv => (fst kv, inl (snd kv))) my_pairs))) =
  [("par1", Some "", Ok "instr_type_double"); ("par2", Some "m", Ok "instr_type_int"); ("par3", Some "radian", Ok "instr_type_double"); ("file", Some "", Ok "instr_type_string")].
Proof. vm_compute. reflexivity. Qed.
Example C73_stopped_example : map a_name (fst (parameters [] [PText "a"; PText "int b=2"; PText "a=2"; PText "c"] [])) = ["a"; "b"] /\ snd (parameters [] [PText "a"; PText "int b=2"; PText "a=2"; PText "c"] []) = false.
Proof. vm_compute. split; reflexivity. Qed.
(** a name that is there, with another unit and type *)
Example C73_repeated_example : exists a, par_of (PText "int b=2") = Ok a /\ In (a_name a) (map a_name [mkAp "b" (Some "m") DFloat Scalar HNone]) /\
  parameter true [mkAp "b" (Some "m") DFloat Scalar HNone] (PText "int b=2") = Ok [mkAp "b" (Some "m") DFloat Scalar HNone].
Proof. eexists. split; [vm_compute; reflexivity|]. split; [now left|]. vm_compute. reflexivity. Qed.
Definition metre : string := String dquote ("m" ++ String dquote "").
Definition length_par : par := mkPar "L" (Some metre) KFloat (Some k2).
Lemma length_good : good_par two_num length_par.
Proof. split; [is_id|]. split; [exists "", ("m" ++ String dquote "")%string; repeat split; now left|]. split; [split; [reflexivity|exact good_two]|vm_compute; reflexivity]. Qed.
Example C73_text_example : good_par two_num length_par /\ par_text two_num length_par = ("L/" ++ metre ++ "=2")%string /\ lex "a=1" <> None.
Proof. split; [exact length_good|]. split; [vm_compute; reflexivity|vm_compute; discriminate]. Qed.
(** the first parameter with quotes is good, the second has the unit m without *)
Definition without_quotes : par := mkPar "W" (Some "m") KInt (Some k2).
Example C73_unit_not_read_example : no_quotes "m" /\ no_quotes "" /\ good_par two_num length_par /\ par_text two_num without_quotes = "int W/m=2" /\
  read_instr (instr_text two_num "" (mkIns "demo" [length_par; without_quotes] [] [] [] [] [] [] [] [])) = None /\
  read_instr (instr_text two_num "" (mkIns "demo" [length_par] [] [] [] [] [] [] [] [])) <> None.
Proof. split; [now right|]. split; [now left|]. split; [exact length_good|]. split; [vm_compute; reflexivity|]. split; [vm_compute; reflexivity|vm_compute; discriminate]. Qed.
Example C73_quotes_example : in_quotes "NULL" = false /\ is_plain (AInt 100) (Number (Z2Qc 100)) /\ (forall s, AInt 100 <> AText s).
Proof. split; [reflexivity|]. split; [constructor|discriminate]. Qed.
(** blocks with one declaration, and one with two *)
Definition c_blocks (s : string) : list (string * string) :=
  if s =?s "int a;" then [("a", "int")] else if s =?s "double a;" then [("a", "double")] else if s =?s "int b, a;" then [("b", "int"); ("a", "int")] else [].
Example C73_user_example : c_blocks "int a;" = [("a", "int")] /\ NoDup (user_names c_blocks ["int b, a;"]) /\ ensure_user_var c_blocks ["int b, a;"] "int a;" = Ok ["int b, a;"] /\
  ensure_user_var c_blocks ["int a;"] "int b, a;" = Ok ["int a;"; "int b, a;"] /\ ~ In ("a", "double") (flat_map c_blocks ["int a;"]).
Proof. split; [reflexivity|]. split; [repeat constructor; cbn; intuition discriminate|]. split; [reflexivity|]. split; [reflexivity|]. cbn. intuition discriminate. Qed.
