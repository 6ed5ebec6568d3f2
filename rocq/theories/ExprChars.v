(** The characters of a printed expression and what the lexer of instrument files makes of them.

    expression.py:187-192 (_comb), 319-323, 413-447, 556-563, 710-714: the text with its spaces.  Print.v has the same text as a list
    of tokens; here the two are connected by the lexer of Lexer.v.

    Simplification: how Python writes a number is an arbitrary function [num] from the numbers that are not negative; of the numbers in an
    expression it is asked that the text has the form of a decimal number and denotes the number (Literal.v). *)
From Coq Require Import List String Ascii Bool NArith QArith Qcanon ZArith Arith Lia.
From Verif Require Import PyStr Expr Print Lexer.
From Verif Require Literal.
Import ListNotations.
Local Open Scope string_scope.
Local Open Scope list_scope.
Local Open Scope nat_scope.

Section Show.
  Variable num : Qc -> string.
  (** the text of a number; a negative one has a sign *)
  Definition number (q : Qc) : string := if Qc_ltb q 0 then ("-" ++ num (- q)%Qc)%string else num q.
  (** ','.join, expression.py:187-192 *)
  Definition commas (l : list string) : string := join "," l.
  (** the text of a node, with the lines given above *)
  Fixpoint show (n : node) : string :=
    match n with
    | NRaw q => number q
    | NVal (PNum q) _ _ => number q
    | NVal (PStr s) _ _ => s
    | NBox _ l => commas (map show l)
    | NExpr l => commas (map show l)
    | NUn op _ a =>
        let v := commas (map show a) in
        match op with
        | UGroup => ("(" ++ v ++ ")")%string
        | UNot => ("!" ++ v)%string
        | UNeg => ("-" ++ v)%string
        | UPos => ("+" ++ v)%string
        | UAbs => ("abs(" ++ v ++ ")")%string
        | URound => ("round(" ++ v ++ ")")%string
        | UNamed s => (s ++ "(" ++ v ++ ")")%string
        end
    | NBin op _ l r =>
        let x := commas (map show l) in let y := commas (map show r) in
        match op with
        | BCall => (x ++ "(" ++ y ++ ")")%string
        | BStruct => (x ++ "." ++ y)%string
        | BPtr => (x ++ "->" ++ y)%string
        | BItem => (x ++ "[" ++ y ++ "]")%string
        | BAdd | BSub | BMod | BShl | BShr => ("(" ++ x ++ " " ++ sym op ++ " " ++ y ++ ")")%string
        | BMul | BDiv | BFloor | BOr | BAnd => (x ++ " " ++ sym op ++ " " ++ y)%string
        | BNamed s => (s ++ "(" ++ x ++ ", " ++ y ++ ")")%string
        | _ => (x ++ sym op ++ y)%string
        end
    | NTri _ f s t => (commas (map show f) ++ " ? " ++ commas (map show s) ++ " : " ++ commas (map show t))%string
    end.

  (** * What is asked of the names, texts and numbers of an expression *)
  Fixpoint words (n : node) : list string :=
    match n with
    | NVal (PStr s) _ o => if ot_is_id o then [s] else match o with OFunc => [s] | _ => [] end
    | NRaw _ | NVal (PNum _) _ _ => []
    | NBox _ l | NExpr l => flat_map words l
    | NUn op _ l => match op with UNamed s => [s] | _ => [] end ++ flat_map words l
    | NBin op _ l r => match op with BNamed s => [s] | _ => [] end ++ flat_map words l ++ flat_map words r
    | NTri _ f s t => flat_map words f ++ flat_map words s ++ flat_map words t
    end.
  (** specification: the text literals of a tree *)
  Fixpoint literals (n : node) : list string :=
    match n with
    | NVal (PStr s) _ o => if ot_is_id o then [] else match o with OFunc => [] | _ => [s] end
    | NRaw _ | NVal (PNum _) _ _ => []
    | NBox _ l | NExpr l | NUn _ _ l => flat_map literals l
    | NBin _ _ l r => flat_map literals l ++ flat_map literals r
    | NTri _ f s t => flat_map literals f ++ flat_map literals s ++ flat_map literals t
    end.
  (** specification: a number without its sign *)
  Definition magnitude (q : Qc) : Qc := if Qc_ltb q 0 then (- q)%Qc else q.
  (** specification: the numbers of a tree, without signs *)
  Fixpoint numbers (n : node) : list Qc :=
    match n with
    | NRaw q | NVal (PNum q) _ _ => [magnitude q]
    | NVal (PStr _) _ _ => []
    | NBox _ l | NExpr l | NUn _ _ l => flat_map numbers l
    | NBin _ _ l r => flat_map numbers l ++ flat_map numbers r
    | NTri _ f s t => flat_map numbers f ++ flat_map numbers s ++ flat_map numbers t
    end.
End Show.
(** a name that is no keyword *)
Definition ident (s : string) : Prop :=
  match s with String c r => word_start c = true /\ all word_char r = true | EmptyString => False end /\ word_token s = LId s.
(** a text literal, with its quotes *)
Definition literal (s : string) : Prop := exists p b, s = (p ++ String dquote b)%string /\ str_body b = Some (b, "") /\ In p [""; "u8"; "u"; "U"; "L"].
(** digits, possibly with a fraction, possibly with an exponent; a whole number has no leading zero *)
Definition number_form (s : string) : Prop := exists d f e, s = (d ++ f ++ e)%string /\ d <> "" /\ all digit d = true
  /\ (f = "" \/ exists f', f = String "." f' /\ all digit f' = true)
  /\ (e = "" \/ exists c sg x, e = String c (sg ++ x) /\ (c = "e"%char \/ c = "E"%char) /\ (sg = "" \/ sg = "+" \/ sg = "-") /\ x <> "" /\ all digit x = true)
  /\ (f = "" -> e = "" -> d = "0" \/ match d with String c _ => Ascii.eqb c "0" = false | EmptyString => False end).
(** specification: what a decimal text stands for *)
Definition decimal (s : string) : option Qc := option_map Q2Qc (Literal.py_float (map N_of_ascii (list_ascii_of_string s))).
(** specification: a number whose text is a decimal text of its value *)
Definition shown (num : Qc -> string) (q : Qc) : Prop := number_form (num q) /\ decimal (num q) = Some q.
(** specification: names, literals and numbers that the lexer takes as one token *)
Definition fine (num : Qc -> string) (n : node) : Prop := Forall ident (words n) /\ Forall literal (literals n) /\ Forall (shown num) (numbers n).

(** * The tokens of expressions *)
Definition expr_tok (t : ltok) : option tok :=
  match t with
  | LId s => Some (TId s)
  | LZero => Some (TNum 0%Qc)
  | LInt s | LFloat s => option_map TNum (decimal s)
  | LStr s => Some (TStr s)
  | LSym s => Some (if s =?s "(" then TL else if s =?s ")" then TR else if s =?s "[" then TLB else if s =?s "]" then TRB else if s =?s "." then TDot
                    else if s =?s "->" then TArrow else if s =?s "," then TComma else if s =?s "?" then TQ else if s =?s ":" then TColon else TOp s)
  | LKey _ | LUser _ | LBlock _ | LInclude => None
  end.

(** * Boundaries *)
Lemma every (p : ascii -> bool) : forallb p (map ascii_of_nat (seq 0 256)) = true -> forall c, p c = true.
Proof.
  intros H c. rewrite forallb_forall in H. apply H. rewrite <- (ascii_nat_embedding c). apply in_map, in_seq. pose proof (nat_ascii_bounded c). lia.
Qed.
(** proof helper: a text that does not continue a name *)
Definition calm_id (s : string) : bool :=
  match s with EmptyString => true | String c _ => negb (word_char c || Ascii.eqb c dquote || Ascii.eqb c squote || Ascii.eqb c bslash) end.
(** proof helper: a text that does not continue a name or a number *)
Definition calm (s : string) : bool := calm_id s && match s with String c _ => negb (Ascii.eqb c ".") | EmptyString => true end.
Lemma calm_calm_id s : calm s = true -> calm_id s = true.
Proof. intro H. now apply andb_prop in H as [H _]. Qed.
Lemma calm_id_stops s : calm_id s = true -> stopped word_char s = true.
Proof. destruct s as [|c r]; [reflexivity|]. cbn. destruct (word_char c); [discriminate|reflexivity]. Qed.
Lemma stopped_weak p q s : (forall c, q c = true -> p c = true) -> stopped p s = true -> stopped q s = true.
Proof. intros H. destruct s as [|c r]; [reflexivity|]. cbn. specialize (H c). destruct (q c); [rewrite H by reflexivity; discriminate|reflexivity]. Qed.
Lemma digit_word c : digit c = true -> word_char c = true.
Proof. unfold word_char. intros ->. apply orb_true_r. Qed.

Lemma word_not_space c : word_start c = true -> space c = false.
Proof.
  assert (X : forall c, (fun c => negb (word_start c) || negb (space c)) c = true) by (apply every; vm_compute; reflexivity).
  intro H. specialize (X c). cbv beta in X. rewrite H in X. now destruct (space c).
Qed.
Lemma digit_alone c : digit c = true -> space c = false /\ word_start c = false.
Proof.
  assert (X : forall c, (fun c => negb (digit c) || (negb (space c) && negb (word_start c))) c = true) by (apply every; vm_compute; reflexivity).
  intro H. specialize (X c). cbv beta in X. rewrite H in X. destruct (space c), (word_start c); auto; discriminate.
Qed.
Lemma lex1_ident s rest : ident s -> calm_id rest = true -> lex1 (s ++ rest) = Some (Some (LId s), rest).
Proof.
  intros [F W] C. destruct s as [|c r]; [destruct F|]. destruct F as [Hc Hr]. cbn [append lex1]. rewrite (word_not_space c Hc), Hc. unfold lex_word.
  change (String c (r ++ rest)) with (String c r ++ rest)%string. rewrite take_exact; [|cbn; unfold word_char at 1; now rewrite Hc|now apply calm_id_stops]. rewrite W.
  destruct rest as [|d q]; [reflexivity|]. cbn in C. destruct (Ascii.eqb d dquote), (Ascii.eqb d squote), (Ascii.eqb d bslash); try reflexivity; rewrite ?orb_true_r in C; discriminate.
Qed.
Lemma str_body_app r : forall s a b, str_body s = Some (a, b) -> str_body (s ++ r) = Some (a, (b ++ r)%string).
Proof.
  intro s. remember (String.length s) as n eqn:E. revert s E. induction n as [n IH] using lt_wf_ind. intros s -> a b. destruct s as [|c s]; cbn [str_body append]; [discriminate|].
  destruct (Ascii.eqb c dquote); [intro H; injection H as <- <-; reflexivity|]. destruct (Ascii.eqb c bslash).
  - destruct s as [|d q]; cbn [append]; [discriminate|].
    assert (G : forall x, match str_body q with Some (a, b) => Some (String c (String d a), b) | None => None end = Some x ->
                match str_body (q ++ r) with Some (a, b) => Some (String c (String d a), b) | None => None end = Some (fst x, (snd x ++ r)%string)).
    { intro x. destruct (str_body q) as [[a' b']|] eqn:Q; [|discriminate]. intro H. injection H as <-. apply IH with (m := String.length q) in Q; [|cbn; lia|reflexivity]. now rewrite Q. }
    destruct (existsb _ _ || octal d); [exact (G (a, b))|]. destruct (Ascii.eqb d "x").
    + destruct q as [|h q']; cbn [append]; [discriminate|]. destruct (hexa h); [exact (G (a, b))|discriminate].
    + destruct (Ascii.eqb d cr); [|discriminate]. destruct q as [|e q']; cbn [append]; [discriminate|]. destruct (Ascii.eqb e lf); [|exact (G (a, b))].
      destruct (str_body q') as [[a' b']|] eqn:Q; [|discriminate]. intro H. injection H as <- <-. apply IH with (m := String.length q') in Q; [|cbn; lia|reflexivity]. now rewrite Q.
  - destruct (_ || _); [discriminate|]. destruct (str_body s) as [[a' b']|] eqn:Q; [|discriminate]. intro H. injection H as <- <-. apply IH with (m := String.length s) in Q; [|cbn; lia|reflexivity]. now rewrite Q.
Qed.
Lemma calm_no_ud s : calm_id s = true -> ud_next s = false.
Proof.
  destruct s as [|c r]; [reflexivity|]. cbn. unfold word_char. destruct (word_start c); [discriminate|]. destruct (Ascii.eqb c bslash); [rewrite !orb_true_r; discriminate|reflexivity].
Qed.
Lemma lex_string_whole p b rest : str_body b = Some (b, "") -> calm_id rest = true -> lex_string p (b ++ rest) = Some (Some (LStr (p ++ String dquote b)), rest).
Proof. intros B C. unfold lex_string. rewrite (str_body_app rest b b "" B). cbn [append]. now rewrite calm_no_ud. Qed.
Lemma lex1_literal s rest : literal s -> calm_id rest = true -> lex1 (s ++ rest) = Some (Some (LStr s), rest).
Proof.
  intros (p & b & -> & B & P) C. rewrite string_app_assoc. cbn [append]. destruct P as [<-|P].
  - change (lex1 ("" ++ String dquote (b ++ rest))) with (lex_string "" (b ++ rest)). exact (lex_string_whole "" b rest B C).
  - assert (W : lex1 (p ++ String dquote (b ++ rest)) = lex_string p (b ++ rest)) by (repeat (destruct P as [<-|P]; [reflexivity|]); destruct P).
    rewrite W. exact (lex_string_whole p b rest B C).
Qed.
Lemma append_cons c s t : (String c s ++ t)%string = String c (s ++ t). Proof. reflexivity. Qed.
Lemma calm_odd s : calm_id s = true -> odd_next s = false.
Proof. destruct s as [|c r]; [reflexivity|]. cbn. destruct (Ascii.eqb c squote), (Ascii.eqb c bslash); try reflexivity; rewrite ?orb_true_r; discriminate. Qed.
Lemma float_end_calm t rest : calm_id rest = true -> float_end t rest = Some (Some (LFloat t), rest).
Proof.
  intro C. unfold float_end. change rest with ("" ++ rest)%string at 1. rewrite take_exact by (auto; now apply calm_id_stops). now rewrite calm_odd.
Qed.
Lemma calm_digit s : calm_id s = true -> stopped digit s = true.
Proof. intro H. eapply stopped_weak; [exact digit_word|now apply calm_id_stops]. Qed.
Lemma exponent_form c sg x rest : (c = "e"%char \/ c = "E"%char) -> (sg = "" \/ sg = "+" \/ sg = "-") -> x <> "" -> all digit x = true -> calm_id rest = true ->
  exponent (String c (sg ++ x ++ rest)) = Some (String c (sg ++ x), rest).
Proof.
  intros Hc Hs Hx Dx C. pose proof (take_exact digit x rest Dx (calm_digit _ C)) as T.
  assert (X : x =?s "" = false) by (destruct x; [congruence|reflexivity]).
  assert (D : match x with String y _ => Ascii.eqb y "+" || Ascii.eqb y "-" | EmptyString => false end = false).
  { destruct x as [|y x]; [reflexivity|]. cbn in Dx. apply andb_prop in Dx as [Dy _]. destruct (Ascii.eqb_spec y "+") as [->|]; [discriminate|]. destruct (Ascii.eqb_spec y "-") as [->|]; [discriminate|reflexivity]. }
  unfold exponent. destruct Hc as [-> | ->]; cbn [Ascii.eqb Bool.eqb orb]; destruct Hs as [-> | [-> | ->]]; cbn [append].
  all: try (cbn [Ascii.eqb Bool.eqb orb]; rewrite T, X; reflexivity).
  all: destruct x as [|y x]; [congruence|]; cbn [append]; rewrite D; cbn [append] in T; rewrite T; reflexivity.
Qed.
Lemma no_exponent s : calm_id s = true -> exponent s = None.
Proof.
  destruct s as [|c r]; [reflexivity|]. intro C. cbn [exponent]. destruct (Ascii.eqb_spec c "e") as [->|]; [discriminate|]. destruct (Ascii.eqb_spec c "E") as [->|]; [discriminate|reflexivity].
Qed.
Lemma lex1_number s : number_form s ->
  exists t, ((t = LZero /\ s = "0") \/ t = LInt s \/ t = LFloat s) /\ forall rest, calm rest = true -> lex1 (s ++ rest) = Some (Some t, rest).
Proof.
  intros (d & f & e & -> & Nd & Dd & Hf & He & Z).
  assert (L : forall rest, lex1 ((d ++ f ++ e) ++ rest) = lex_number (d ++ f ++ e ++ rest)).
  { intro rest. rewrite !string_app_assoc. destruct d as [|c d]; [congruence|]. cbn [append lex1]. cbn in Dd. apply andb_prop in Dd as [Dc _]. destruct (digit_alone c Dc) as [-> ->]. now rewrite Dc. }
  assert (Fe : forall t rest, calm rest = true ->
    match exponent (e ++ rest) with Some (e', r) => float_end (t ++ e')%string r | None => float_end t (e ++ rest)%string end = Some (Some (LFloat (t ++ e)%string), rest)).
  { intros t rest C. pose proof (calm_calm_id _ C) as Ci. destruct He as [-> | (c & sg & x & -> & Hc & Hs & Hx & Dx)].
    - cbn [append]. rewrite no_exponent, float_end_calm by exact Ci. now rewrite string_app_nil_r.
    - cbn [append]. rewrite string_app_assoc, exponent_form by assumption. now rewrite float_end_calm by exact Ci. }
  destruct Hf as [-> | (f' & -> & Df)].
  - cbn [append] in *. destruct He as [-> | (c & sg & x & -> & Hc & Hs & Hx & Dx)].
    + clear Fe. cbn [append] in *. rewrite string_app_nil_r in *. specialize (Z eq_refl eq_refl).
      assert (I : d =?s "0" = false -> int_word d = true).
      { intro N. destruct Z as [-> |Z]; [discriminate|]. destruct d as [|c d]; [destruct Z|]. cbn [int_word]. rewrite Z. cbn in Dd. apply andb_prop in Dd as [-> Dd].
        rewrite <- (string_app_nil_r d) at 1. rewrite take_exact by auto. reflexivity. }
      exists (if d =?s "0" then LZero else LInt d). split; [destruct (String.eqb_spec d "0"); auto|]. intros rest C. pose proof (calm_calm_id _ C) as Ci. rewrite L. unfold lex_number.
      rewrite take_exact by (auto; now apply calm_digit). destruct rest as [|c q].
      * destruct (d =?s "0"); [reflexivity|]. now rewrite I.
      * assert (Dot : Ascii.eqb c "." = false) by (apply andb_prop in C as [_ C]; now destruct (Ascii.eqb c ".")).
        rewrite Dot, no_exponent by exact Ci. change (String c q) with ("" ++ String c q)%string at 1. rewrite take_exact by (auto; now apply calm_id_stops). rewrite calm_odd by exact Ci.
        rewrite string_app_nil_r. change ("" =?s "") with true. cbn [andb]. destruct (d =?s "0"); [reflexivity|]. now rewrite I.
    + exists (LFloat (d ++ String c (sg ++ x))). split; [auto|]. intros rest C. rewrite L. unfold lex_number.
      assert (St : stopped digit (String c (sg ++ x) ++ rest) = true) by (destruct Hc as [-> | ->]; reflexivity).
      rewrite take_exact by auto. specialize (Fe d rest C). cbn [append] in *. assert (Dot : Ascii.eqb c "." = false) by (destruct Hc as [-> | ->]; reflexivity). rewrite Dot.
      rewrite string_app_assoc in *. rewrite exponent_form in * by (auto; now apply calm_calm_id). exact Fe.
  - exists (LFloat (d ++ String "." f' ++ e)). split; [auto|]. intros rest C. rewrite L. unfold lex_number. rewrite take_exact by (auto; reflexivity). cbn [append Ascii.eqb Bool.eqb].
    rewrite take_exact; [|exact Df|destruct He as [-> | (c & sg & x & -> & Hc & _)]; [cbn [append]; now apply calm_digit, calm_calm_id|destruct Hc as [-> | ->]; reflexivity]].
    rewrite Fe by exact C. now rewrite string_app_assoc.
Qed.
(** ** Signs *)
Definition pairs : list string := signs2 ++ [".."].
Lemma no_triple a b c : isin (String a (String b "")) pairs = false -> isin (String a (String b (String c ""))) signs3 = false.
Proof.
  intro H. destruct (isin _ signs3) eqn:E; [|reflexivity]. exfalso. apply existsb_exists in E as (x & I & E). apply String.eqb_eq in E.
  cbn in I. destruct I as [<-|[<-|[<-|[<-|[]]]]]; injection E as -> -> ->; discriminate.
Qed.
Lemma lex_sign1 a r : isin (String a "") signs1 = true -> match r with String b _ => isin (String a (String b "")) pairs = false | EmptyString => True end ->
  lex_sign (String a r) = Some (Some (LSym (String a "")), r).
Proof.
  intros A B. cbn [lex_sign]. rewrite A. destruct r as [|b r]; [reflexivity|]. assert (B2 : isin (String a (String b "")) signs2 = false).
  { destruct (isin (String a (String b "")) signs2) eqn:E; [|reflexivity]. rewrite <- B. symmetry. apply existsb_exists in E as (x & I & E). apply existsb_exists. exists x. split; [apply in_or_app; now left|exact E]. }
  rewrite B2. destruct r as [|c r]; [reflexivity|]. now rewrite no_triple.
Qed.
Lemma lex_sign2 a b r : isin (String a (String b "")) signs2 = true -> match r with String c _ => isin (String a (String b (String c ""))) signs3 = false | EmptyString => True end ->
  lex_sign (String a (String b r)) = Some (Some (LSym (String a (String b ""))), r).
Proof. intros A B. cbn [lex_sign]. rewrite A. destruct r as [|c r]; [reflexivity|]. now rewrite B. Qed.

(** * The characters make the tokens *)
(** [p] followed by anything that does not continue its last token is read as the tokens [ts] followed by what is read in the rest *)
Definition lexes (p : string) (ts : list tok) : Prop :=
  exists l, (forall rest, calm rest = true -> lex (p ++ rest) = option_map (app l) (lex rest)) /\ map expr_tok l = map Some ts.
(** proof helper: the same, of a text that is not empty *)
Definition calmly (q : string) : Prop := match q with String _ _ => calm q = true | EmptyString => False end.
Lemma calmly_app q rest : calmly q -> calm (q ++ rest) = true. Proof. destruct q; [intros []|exact (fun x => x)]. Qed.
Lemma option_map_app {A} (a b : list A) o : option_map (app a) (option_map (app b) o) = option_map (app (a ++ b)) o.
Proof. destruct o; cbn; [now rewrite app_assoc|reflexivity]. Qed.
Lemma lexes_app p q ts us : lexes p ts -> calmly q -> lexes q us -> lexes (p ++ q) (ts ++ us).
Proof.
  intros (a & A & EA) C (b & B & EB). exists (a ++ b). split; [|now rewrite !map_app, EA, EB]. intros rest R. rewrite string_app_assoc, A by now apply calmly_app. rewrite B by exact R. apply option_map_app.
Qed.
Lemma lex_space r : lex (String " " r) = lex r. Proof. rewrite (lex_step _ None r) by reflexivity. now destruct (lex r). Qed.
Lemma lexes_sp q us : lexes q us -> lexes (String " " q) us.
Proof. intros (b & B & EB). exists b. split; [|exact EB]. intros rest R. cbn [append]. rewrite lex_space. now apply B. Qed.
Lemma lexes_one p t u : (forall rest, calm rest = true -> lex1 (p ++ rest) = Some (Some t, rest)) -> expr_tok t = Some u -> lexes p [u].
Proof.
  intros H E. exists [t]. split; [|cbn; now rewrite E]. intros rest R. rewrite (lex_step _ _ _ (H rest R)). now destruct (lex rest).
Qed.
Lemma lexes_before p t u q us : (forall rest, lex1 (p ++ q ++ rest) = Some (Some t, (q ++ rest)%string)) -> expr_tok t = Some u -> lexes q us -> lexes (p ++ q) (u :: us).
Proof.
  intros H E (b & B & EB). exists (t :: b). split; [|cbn; now rewrite E, EB]. intros rest R. rewrite string_app_assoc, (lex_step _ _ _ (H rest)), B by exact R. now destruct (lex rest).
Qed.
(** proof helper: a character that starts no longer token than itself *)
Definition lone (a : ascii) : bool := negb (space a || word_start a || digit a || Ascii.eqb a dquote || Ascii.eqb a "%" || Ascii.eqb a "/" || Ascii.eqb a ".").
Lemma lex1_lone a r : lone a = true -> lex1 (String a r) = lex_sign (String a r).
Proof.
  unfold lone. cbn [lex1]. destruct (space a), (word_start a), (digit a), (Ascii.eqb a dquote), (Ascii.eqb a "%"), (Ascii.eqb a "/"), (Ascii.eqb a "."); try discriminate; reflexivity.
Qed.
(** the characters an expression can start with *)
Definition head_char (c : ascii) : bool := word_char c || Ascii.eqb c dquote || isin (String c "") ["("; "-"; "+"; "!"].
(** proof helper: a text that an expression can start with *)
Definition heads (s : string) : Prop := match s with String c _ => head_char c = true | EmptyString => False end.
(** proof helper: a sign that the next character does not extend *)
Definition parts (a : ascii) (q : string) : Prop := match q with String b _ => isin (String a (String b "")) pairs = false | EmptyString => False end.
Lemma lexes_sign1 a u q us : lone a = true -> isin (String a "") signs1 = true -> expr_tok (LSym (String a "")) = Some u -> parts a q -> lexes q us -> lexes (String a q) (u :: us).
Proof.
  intros L I E P Q. change (String a q) with (String a "" ++ q)%string. apply (lexes_before _ (LSym (String a ""))); auto. intro rest. cbn [append]. rewrite lex1_lone by exact L.
  apply lex_sign1; [exact I|]. destruct q as [|b q]; [destruct P|]. exact P.
Qed.
Lemma lexes_sign2 a b u q us : lone a = true -> isin (String a (String b "")) signs2 = true -> expr_tok (LSym (String a (String b ""))) = Some u ->
  match q with String c _ => isin (String a (String b (String c ""))) signs3 = false | EmptyString => False end -> lexes q us -> lexes (String a (String b q)) (u :: us).
Proof.
  intros L I E P Q. change (String a (String b q)) with (String a (String b "") ++ q)%string. apply (lexes_before _ (LSym (String a (String b "")))); auto. intro rest. cbn [append]. rewrite lex1_lone by exact L.
  apply lex_sign2; [exact I|]. destruct q as [|c q]; [destruct P|]. exact P.
Qed.
Lemma lexes_close a u : (a = ")" \/ a = "]")%char -> expr_tok (LSym (String a "")) = Some u -> lexes (String a "") [u].
Proof.
  intros H E. apply (lexes_one _ (LSym (String a ""))); [|exact E]. intros rest _. cbn [append]. destruct H as [-> | ->]; (rewrite lex1_lone by reflexivity; apply lex_sign1; [reflexivity|]; destruct rest; [exact I|reflexivity]).
Qed.
Lemma lexes_percent q us : lexes q us -> lexes (String "%" (String " " q)) (TOp "%" :: us).
Proof.
  intro Q. change (String "%" (String " " q)) with ("%" ++ String " " q)%string. apply (lexes_before _ (LSym "%")); [|reflexivity|now apply lexes_sp]. intro rest. cbn [append]. now destruct (q ++ rest)%string.
Qed.
Lemma lexes_slash q us : lexes q us -> lexes (String "/" (String " " q)) (TOp "/" :: us).
Proof.
  intro Q. change (String "/" (String " " q)) with ("/" ++ String " " q)%string. apply (lexes_before _ (LSym "/")); [|reflexivity|now apply lexes_sp]. intro rest. cbn [append]. now destruct (q ++ rest)%string.
Qed.
Lemma lexes_id s : ident s -> lexes s [TId s].
Proof. intro H. apply (lexes_one _ (LId s)); [|reflexivity]. intros rest R. apply lex1_ident; [exact H|now apply calm_calm_id]. Qed.
Lemma lexes_id_before s q us : ident s -> (match q with String _ _ => calm_id q = true | EmptyString => False end) -> lexes q us -> lexes (s ++ q) (TId s :: us).
Proof.
  intros H C Q. apply (lexes_before _ (LId s)); [|reflexivity|exact Q]. intro rest. apply lex1_ident; [exact H|]. destruct q; [destruct C|exact C].
Qed.
Lemma lexes_literal s : literal s -> lexes s [TStr s].
Proof. intro H. apply (lexes_one _ (LStr s)); [|reflexivity]. intros rest R. apply lex1_literal; [exact H|now apply calm_calm_id]. Qed.
Lemma lexes_num num q : shown num q -> lexes (num q) [TNum q].
Proof.
  intros [F D]. destruct (lex1_number _ F) as (t & X & L). apply (lexes_one _ t); [exact L|]. destruct X as [[-> E]|[-> | ->]]; cbn [expr_tok].
  - rewrite E in D. do 2 f_equal. cbn in D. injection D as <-. apply Qc_is_canon. reflexivity.
  - now rewrite D.
  - now rewrite D.
Qed.

(** ** What a text starts with *)
Lemma starts_sign s ts : starts s (sign true s ts).
Proof.
  unfold sign. cbn [negb]. destruct ts as [|[q|t|t|t| | | | | | | | |] r]; cbn; auto. destruct (t =?s s); cbn; auto. destruct (t =?s _); cbn; auto.
Qed.
Lemma sign_apart s ts : ~ starts s ts -> sign true s ts = TOp s :: ts.
Proof.
  intro H. unfold sign. cbn [negb]. destruct ts as [|[q|t|t|t| | | | | | | | |] r]; try reflexivity. cbn in H.
  destruct (String.eqb_spec t s) as [->|]; [tauto|]. destruct (String.eqb_spec t (s ++ s)) as [->|]; [tauto|reflexivity].
Qed.
Lemma starts_app s a b : starts s a -> starts s (a ++ b).
Proof. destruct a as [|x a]; [intros []|exact (fun x => x)]. Qed.
(** proof helper: how a text starts and with which token *)
Definition good_head (s : string) (ts : list tok) : Prop :=
  match s with EmptyString => False | String c _ => head_char c = true /\ (c = "-"%char -> starts "-" ts) /\ (c = "+"%char -> starts "+" ts) end.
Lemma good_app s ts q us : good_head s ts -> good_head (s ++ q) (ts ++ us).
Proof. destruct s as [|c s]; [intros []|]. cbn [append good_head]. intros (H & A & B). repeat split; auto; intro E; apply starts_app; auto. Qed.
Lemma word_head c : word_char c = true -> head_char c = true /\ c <> "-"%char /\ c <> "+"%char.
Proof. intro H. unfold head_char. rewrite H. repeat split; intros ->; discriminate. Qed.
Lemma good_ident s ts : ident s -> good_head s ts.
Proof.
  intros [F _]. destruct s as [|c r]; [destruct F|]. destruct F as [F _]. destruct (word_head c) as (A & B & C); [unfold word_char; now rewrite F|]. repeat split; [exact A|congruence|congruence].
Qed.
Lemma good_num num q ts : shown num q -> good_head (num q) ts.
Proof.
  intros [(d & f & e & -> & Nd & Dd & _) _]. destruct d as [|c d]; [congruence|]. cbn in Dd. apply andb_prop in Dd as [Dc _]. apply digit_word in Dc. destruct (word_head c Dc) as (A & B & C).
  repeat split; [exact A|congruence|congruence].
Qed.
Lemma good_number num q : shown num (magnitude q) -> good_head (number num q) (num_toks q).
Proof.
  unfold number, num_toks, magnitude. destruct (Qc_ltb q 0).
  - intros _. repeat split; [now left|discriminate].
  - apply good_num.
Qed.
Lemma fine_list num l : Forall ident (flat_map words l) /\ Forall literal (flat_map literals l) /\ Forall (shown num) (flat_map numbers l) -> Forall (fine num) l.
Proof.
  induction l as [|x l IH]; [constructor|]. cbn [flat_map]. rewrite !Forall_app. intros ((A & A') & (B & B') & (C & C')). constructor; [repeat split; assumption|]. apply IH. auto.
Qed.
Lemma fine_one num x : Forall (fine num) [x] -> fine num x. Proof. apply Forall_inv. Qed.
Lemma fine_box num d l : fine num (NBox d l) -> Forall (fine num) l. Proof. apply fine_list. Qed.
Lemma fine_expr num l : fine num (NExpr l) -> Forall (fine num) l. Proof. apply fine_list. Qed.
Lemma fine_un num op d l : fine num (NUn op d l) -> Forall (fine num) l /\ match op with UNamed s => ident s | _ => True end.
Proof.
  intros (A & B & C). cbn [words literals numbers] in *. apply Forall_app in A as [A A']. split; [apply fine_list; auto|]. destruct op; try exact I. now apply Forall_inv in A.
Qed.
Lemma fine_bin num op d l r : fine num (NBin op d l r) -> Forall (fine num) l /\ Forall (fine num) r /\ match op with BNamed s => ident s | _ => True end.
Proof.
  intros (A & B & C). cbn [words literals numbers] in *. rewrite !Forall_app in *. destruct A as (A & A1 & A2), B as [B1 B2], C as [C1 C2]. split; [|split]; [apply fine_list; auto|apply fine_list; auto|].
  destruct op; try exact I. now apply Forall_inv in A.
Qed.
Lemma fine_tri num d f s t : fine num (NTri d f s t) -> Forall (fine num) f /\ Forall (fine num) s /\ Forall (fine num) t.
Proof.
  intros (A & B & C). cbn [words literals numbers] in *. rewrite !Forall_app in *. destruct A as (A & A1 & A2), B as (B & B1 & B2), C as (C & C1 & C2). split; [|split]; apply fine_list; auto.
Qed.
Lemma fine_word num s d o : fine num (NVal (PStr s) d o) -> ot_is_id o = true \/ o = OFunc -> ident s.
Proof. intros (A & _) H. cbn [words] in A. destruct H as [H| ->]; [rewrite H in A|]; now apply Forall_inv in A. Qed.
Lemma fine_literal num s d : fine num (NVal (PStr s) d OValue) -> literal s.
Proof. intros (_ & A & _). now apply Forall_inv in A. Qed.

Section Chars.
  Variable num : Qc -> string.
  Notation sh := (show num).
  Notation pr := (print plain true).
  Notation tg := (tight mc_table plain true).
  Lemma tight_all l : (fix all l := match l with [] => True | x :: t => tg x /\ all t end) l -> Forall tg l.
  Proof. induction l as [|x l IH]; [constructor|]. intros [A B]. constructor; [exact A|now apply IH]. Qed.
  Lemma show_head n : fine num n -> tg n -> good_head (sh n) (pr n).
  Proof.
    induction n using node_ind'; intros F T.
    - apply good_number. destruct F as (_ & _ & F). now apply Forall_inv in F.
    - destruct p as [q|s].
      + apply good_number. destruct F as (_ & _ & F). now apply Forall_inv in F.
      + cbn [show]. destruct T as [T| ->]; [apply good_ident; eapply fine_word; eauto|]. apply fine_literal in F as (p & b & -> & _ & P). repeat (destruct P as [<-|P]; [repeat split; discriminate|]). destruct P.
    - destruct l as [|x [|? ?]]; try (destruct T; fail). apply Forall_inv in H. apply fine_box, fine_one in F. exact (H F T).
    - destruct a as [|x [|? ?]]; try (destruct T; fail). apply fine_un in F as [_ Fs]. destruct op; cbn [show print commas map join joined];
        try (repeat split; try discriminate; intro; apply starts_sign); try (cbn [append]; repeat split; discriminate).
      apply (good_app _ [TId s]). now apply good_ident.
    - apply fine_bin in F as (Fl & Fr & Fs).
      assert (X : forall x q us, l = [x] -> tg x -> good_head (commas (map sh l) ++ q) (joined (map pr l) ++ us)).
      { intros x q us -> Tx. apply good_app. apply Forall_inv in H. apply H; [now apply fine_one|exact Tx]. }
      destruct op; cbn [show print]; try (repeat split; discriminate);
        try (destruct l as [|x [|? ?]]; try (destruct T; fail); destruct r as [|y [|? ?]]; try (destruct T; fail); destruct T as (_ & Tx & _); exact (X x _ _ eq_refl Tx)).
      + destruct l as [|[|[|g] ? []| | | | |] [|? ?]]; destruct r; try (destruct T; fail). apply good_app. apply good_ident. apply Forall_inv in Fl. eapply fine_word; [exact Fl|now right].
      + destruct l as [|[|[|g] ? o| | | | |] [|? ?]]; try (destruct T; fail). destruct r as [|[|[|h] ? o'| | | | |] [|? ?]]; try (destruct T; fail).
        destruct T as (O & _). apply good_app, good_ident. apply Forall_inv in Fl. eapply fine_word; [exact Fl|now left].
      + destruct l as [|[|[|g] ? o| | | | |] [|? ?]]; try (destruct T; fail). destruct r as [|[|[|h] ? o'| | | | |] [|? ?]]; try (destruct T; fail).
        destruct T as (O & _). apply good_app, good_ident. apply Forall_inv in Fl. eapply fine_word; [exact Fl|now left].
      + destruct l as [|[|[|g] ? o| | | | |] [|? ?]]; try (destruct T; fail). destruct r as [|y [|? ?]]; try (destruct T; fail).
        destruct T as (O & _). apply good_app, good_ident. apply Forall_inv in Fl. eapply fine_word; [exact Fl|now left].
      + now apply (good_app s [TId s]), good_ident.
    - destruct f as [|x [|? ?]]; try (destruct T; fail). destruct s as [|y [|? ?]]; try (destruct T; fail). destruct t as [|z [|? ?]]; try (destruct T; fail).
      cbn [tight] in T. destruct T as (_ & _ & _ & Tx & _). apply fine_tri in F as (F & _). cbn [show print map]. apply good_app. apply Forall_inv in H. apply H; [now apply fine_one|exact Tx].
    - destruct l as [|x [|? ?]]; try (destruct T; fail). apply Forall_inv in H. apply fine_expr, fine_one in F. exact (H F T).
  Qed.
  Lemma good_heads s ts : good_head s ts -> heads s. Proof. destruct s; [intros []|now intros [H _]]. Qed.
  (** which signs a text that starts an expression does not join *)
  Lemma joins_not a : forallb (fun c => negb (head_char c) || negb (isin (String a (String c "")) pairs)) (map ascii_of_nat (seq 0 256)) = true -> forall q, heads q -> parts a q.
  Proof.
    intros H q Q. destruct q as [|c q]; [destruct Q|]. cbn [heads parts] in *. pose proof (every _ H c) as E. cbv beta in E. rewrite Q in E. now destruct (isin _ _).
  Qed.
  Lemma joins_not2 a b : forallb (fun c => negb (head_char c) || negb (isin (String a (String b (String c ""))) signs3)) (map ascii_of_nat (seq 0 256)) = true ->
    forall q, heads q -> match q with String c _ => isin (String a (String b (String c ""))) signs3 = false | EmptyString => False end.
  Proof.
    intros H q Q. destruct q as [|c q]; [destruct Q|]. cbn [heads parts] in *. pose proof (every _ H c) as E. cbv beta in E. rewrite Q in E. now destruct (isin _ _).
  Qed.
  Lemma lexes_number q : shown num (magnitude q) -> lexes (number num q) (num_toks q).
  Proof.
    unfold number, num_toks, magnitude. destruct (Qc_ltb q 0); intro F; [|now apply lexes_num]. apply (lexes_sign1 "-"); try reflexivity; [|now apply lexes_num].
    pose proof (good_num num _ [] F) as G. destruct (num (- q)%Qc) as [|c r]; [destruct G|]. destruct G as (G & N & _). cbn [parts]. destruct (isin _ pairs) eqn:E; [|reflexivity]. exfalso.
    assert (X : forallb (fun c => negb (head_char c) || Ascii.eqb c "-" || negb (isin (String "-" (String c "")) pairs)) (map ascii_of_nat (seq 0 256)) = true) by (vm_compute; reflexivity).
    pose proof (every _ X c) as Y. cbv beta in Y. rewrite G, E in Y. destruct (Ascii.eqb_spec c "-") as [->|]; [|discriminate]. now apply N.
  Qed.
  Lemma sign_joins a s ts : (a = "-" \/ a = "+")%char -> good_head s ts -> ~ starts (String a "") ts -> parts a s.
  Proof.
    intros A G N. destruct s as [|c r]; [destruct G|]. destruct G as (G & M & P). cbn [parts]. destruct (isin _ pairs) eqn:E; [|reflexivity]. exfalso.
    assert (X : forallb (fun c => negb (head_char c) || Ascii.eqb c a || negb (isin (String a (String c "")) pairs)) (map ascii_of_nat (seq 0 256)) = true) by (destruct A as [-> | ->]; vm_compute; reflexivity).
    pose proof (every _ X c) as Y. cbv beta in Y. rewrite G, E in Y. destruct (Ascii.eqb_spec c a) as [->|]; [|discriminate]. destruct A as [-> | ->]; apply N; auto.
  Qed.
  Lemma lexes_list l : Forall (fun n => lexes (sh n) (pr n)) l -> Forall (fun n => heads (sh n)) l -> l <> [] -> lexes (commas (map sh l)) (joined (map pr l)).
  Proof.
    intros H D _. induction H as [|x l Hx Hl IH]; [exists []; split; [intros rest _; cbn [map commas join append]; destruct (lex rest); reflexivity|reflexivity]|]. destruct l as [|y l]; [exact Hx|].
    change (commas (map sh (x :: y :: l))) with (sh x ++ String "," (commas (map sh (y :: l))))%string. change (joined (map pr (x :: y :: l))) with (pr x ++ TComma :: joined (map pr (y :: l))).
    apply Forall_inv_tail in D. apply lexes_app; [exact Hx|reflexivity|]. apply lexes_sign1; try reflexivity; [|now apply IH]. apply joins_not; [vm_compute; reflexivity|].
    apply Forall_inv in D. cbn [map commas]. destruct l as [|z l]; [exact D|]. cbn [map join]. unfold commas. destruct (sh y); [destruct D|exact D].
  Qed.
  Ltac sep := apply joins_not; [vm_compute; reflexivity|].
  (** an operator between spaces, and one without *)
  Lemma lexes_spaced s y ys : In s ["+"; "-"; "%"; "<<"; ">>"; "*"; "/"; "||"; "&&"] -> lexes y ys -> lexes (" " ++ s ++ " " ++ y) (TOp s :: ys).
  Proof.
    intros H Y. cbn [append]. apply lexes_sp. pose proof (lexes_sp _ _ Y) as Y'. cbn [In] in H.
    destruct H as [<-|[<-|[<-|[<-|[<-|[<-|[<-|[<-|[<-|[]]]]]]]]]]; cbn [append].
    - exact (lexes_sign1 "+" (TOp "+") (String " " y) ys eq_refl eq_refl eq_refl eq_refl Y').
    - exact (lexes_sign1 "-" (TOp "-") (String " " y) ys eq_refl eq_refl eq_refl eq_refl Y').
    - exact (lexes_percent y ys Y).
    - exact (lexes_sign2 "<" "<" (TOp "<<") (String " " y) ys eq_refl eq_refl eq_refl eq_refl Y').
    - exact (lexes_sign2 ">" ">" (TOp ">>") (String " " y) ys eq_refl eq_refl eq_refl eq_refl Y').
    - exact (lexes_sign1 "*" (TOp "*") (String " " y) ys eq_refl eq_refl eq_refl eq_refl Y').
    - exact (lexes_slash y ys Y).
    - exact (lexes_sign2 "|" "|" (TOp "||") (String " " y) ys eq_refl eq_refl eq_refl eq_refl Y').
    - exact (lexes_sign2 "&" "&" (TOp "&&") (String " " y) ys eq_refl eq_refl eq_refl eq_refl Y').
  Qed.
  Lemma lexes_bare s y ys : In s ["^"; "<"; ">"; "<="; ">="; "!="; "=="] -> heads y -> lexes y ys -> lexes (s ++ y) (TOp s :: ys) /\ calmly (s ++ y).
  Proof.
    intros H D Y. cbn [In] in H. destruct H as [<-|[<-|[<-|[<-|[<-|[<-|[<-|[]]]]]]]]; (split; [|reflexivity]); cbn [append].
    - refine (lexes_sign1 "^" (TOp "^") y ys eq_refl eq_refl eq_refl _ Y). sep. exact D.
    - refine (lexes_sign1 "<" (TOp "<") y ys eq_refl eq_refl eq_refl _ Y). sep. exact D.
    - refine (lexes_sign1 ">" (TOp ">") y ys eq_refl eq_refl eq_refl _ Y). sep. exact D.
    - refine (lexes_sign2 "<" "=" (TOp "<=") y ys eq_refl eq_refl eq_refl _ Y). apply joins_not2; [vm_compute; reflexivity|exact D].
    - refine (lexes_sign2 ">" "=" (TOp ">=") y ys eq_refl eq_refl eq_refl _ Y). apply joins_not2; [vm_compute; reflexivity|exact D].
    - refine (lexes_sign2 "!" "=" (TOp "!=") y ys eq_refl eq_refl eq_refl _ Y). apply joins_not2; [vm_compute; reflexivity|exact D].
    - refine (lexes_sign2 "=" "=" (TOp "==") y ys eq_refl eq_refl eq_refl _ Y). apply joins_not2; [vm_compute; reflexivity|exact D].
  Qed.
  Lemma lexes_round x ts : heads x -> lexes x ts -> lexes ("(" ++ x ++ ")") (TL :: ts ++ [TR]).
  Proof.
    intros D X. cbn [append]. refine (lexes_sign1 "(" TL (x ++ ")") (ts ++ [TR]) eq_refl eq_refl eq_refl _ _).
    - sep. destruct x; [destruct D|exact D].
    - apply lexes_app; [exact X|reflexivity|]. apply lexes_close; [now left|reflexivity].
  Qed.
  Lemma lexes_square x ts : heads x -> lexes x ts -> lexes ("[" ++ x ++ "]") (TLB :: ts ++ [TRB]).
  Proof.
    intros D X. cbn [append]. refine (lexes_sign1 "[" TLB (x ++ "]") (ts ++ [TRB]) eq_refl eq_refl eq_refl _ _).
    - sep. destruct x; [destruct D|exact D].
    - apply lexes_app; [exact X|reflexivity|]. apply lexes_close; [now right|reflexivity].
  Qed.
  Lemma heads_app x y : heads x -> heads (x ++ y). Proof. destruct x; [intros []|exact (fun x => x)]. Qed.
  Lemma lexes_dot h hs : ident h -> lexes h hs -> lexes ("." ++ h) (TDot :: hs).
  Proof.
    intros I H. apply (lexes_before "." (LSym ".")); [|reflexivity|exact H]. intro rest. destruct I as [I _]. destruct h as [|c h]; [destruct I|]. destruct I as [I _]. cbn [append].
    assert (D : digit c = false) by (destruct (digit c) eqn:E; [|reflexivity]; apply digit_alone in E as [_ E]; congruence).
    unfold lex1. change (space ".") with false. change (word_start ".") with false. change (digit ".") with false. change (Ascii.eqb "." dquote) with false. change (Ascii.eqb "." "%") with false.
    change (Ascii.eqb "." "/") with false. cbv match. rewrite D, andb_false_r. apply lex_sign1; [reflexivity|].
    change (parts "." (String c h)). apply (joins_not "."); [vm_compute; reflexivity|]. cbn [heads]. unfold head_char, word_char. now rewrite I.
  Qed.
  Lemma heads_ident h : ident h -> heads h. Proof. intro H. exact (good_heads _ _ (good_ident h [] H)). Qed.
  Theorem show_lexes n : fine num n -> tg n -> lexes (sh n) (pr n).
  Proof.
    induction n using node_ind'; intros F T.
    - apply lexes_number. destruct F as (_ & _ & F). now apply Forall_inv in F.
    - destruct p as [q|s].
      + apply lexes_number. destruct F as (_ & _ & F). now apply Forall_inv in F.
      + cbn [show print]. destruct T as [T| ->]; [rewrite T; apply lexes_id; eapply fine_word; eauto|]. apply fine_literal in F. now apply lexes_literal.
    - destruct l as [|x [|? ?]]; try (destruct T; fail). apply Forall_inv in H. apply fine_box, fine_one in F. exact (H F T).
    - destruct a as [|x [|? ?]]; try (destruct T; fail). apply fine_un in F as [F Fs]. apply fine_one in F. apply Forall_inv in H. cbn [tight] in T. destruct T as [T U].
      specialize (H F T). pose proof (show_head x F T) as G. pose proof (good_heads _ _ G) as D.
      destruct op; try (destruct U; fail); cbn [show print map commas join joined].
      + destruct U as [_ U]. specialize (U eq_refl ltac:(discriminate)). rewrite sign_apart by exact U. refine (lexes_sign1 "-" (TOp "-") (sh x) (pr x) eq_refl eq_refl eq_refl _ H).
        exact (sign_joins "-" _ _ (or_introl eq_refl) G U).
      + destruct U as [_ U]. specialize (U eq_refl ltac:(discriminate)). rewrite sign_apart by exact U. refine (lexes_sign1 "+" (TOp "+") (sh x) (pr x) eq_refl eq_refl eq_refl _ H).
        exact (sign_joins "+" _ _ (or_intror eq_refl) G U).
      + now apply lexes_round.
      + refine (lexes_sign1 "!" (TOp "!") (sh x) (pr x) eq_refl eq_refl eq_refl _ H). sep. exact D.
      + apply lexes_id_before; [exact Fs|reflexivity|]. now apply lexes_round.
    - apply fine_bin in F as (Fl & Fr & Fs).
      assert (X : forall x y, l = [x] -> r = [y] -> tg x -> tg y -> lexes (sh x) (pr x) /\ lexes (sh y) (pr y) /\ heads (sh x) /\ heads (sh y)).
      { intros x y -> -> Tx Ty. apply Forall_inv in H, H0, Fl, Fr. split; [now apply H|split; [now apply H0|split; [apply (good_heads _ (pr x))|apply (good_heads _ (pr y))]; now apply show_head]]. }
      assert (Br : forall x y s, lexes (sh x) (pr x) -> lexes (sh y) (pr y) -> heads (sh x) -> In s ["+"; "-"; "%"; "<<"; ">>"; "*"; "/"; "||"; "&&"] ->
                lexes ("(" ++ sh x ++ " " ++ s ++ " " ++ sh y ++ ")") (TL :: pr x ++ TOp s :: pr y ++ [TR])).
      { intros x y s Lx Ly Dx I. change (TOp s :: pr y ++ [TR]) with ((TOp s :: pr y) ++ [TR]). rewrite app_assoc.
        replace (sh x ++ " " ++ s ++ " " ++ sh y ++ ")")%string with ((sh x ++ (" " ++ s ++ " " ++ sh y)) ++ ")")%string by (rewrite !string_app_assoc; reflexivity).
        apply lexes_round; [now apply heads_app|]. apply lexes_app; [exact Lx|reflexivity|now apply lexes_spaced]. }
      assert (Sp : forall x y s, lexes (sh x) (pr x) -> lexes (sh y) (pr y) -> In s ["+"; "-"; "%"; "<<"; ">>"; "*"; "/"; "||"; "&&"] ->
                lexes (sh x ++ " " ++ s ++ " " ++ sh y) (pr x ++ TOp s :: pr y)).
      { intros x y s Lx Ly I. apply lexes_app; [exact Lx|reflexivity|now apply lexes_spaced]. }
      assert (Ba : forall x y s, lexes (sh x) (pr x) -> lexes (sh y) (pr y) -> heads (sh y) -> In s ["^"; "<"; ">"; "<="; ">="; "!="; "=="] ->
                lexes (sh x ++ s ++ sh y) (pr x ++ TOp s :: pr y)).
      { intros x y s Lx Ly D I. destruct (lexes_bare s _ _ I D Ly) as [A B]. now apply lexes_app. }
      destruct op; cbn [show print sym];
        try (destruct l as [|x [|? ?]]; try (destruct T; fail); destruct r as [|y [|? ?]]; try (destruct T; fail); destruct T as (_ & Tx & Ty); destruct (X x y eq_refl eq_refl Tx Ty) as (Lx & Ly & Dx & Dy); cbn [map commas join joined];
             first [apply Br | apply Sp | apply Ba]; auto; cbn [In]; tauto).
      + destruct l as [|[|[|g] ? []| | | | |] [|? ?]]; destruct r as [|a0 r]; try (destruct T; fail). cbn [tight] in T. apply (tight_all (a0 :: r)) in T. apply Forall_inv in Fl. remember (a0 :: r) as r0 eqn:Er.
        apply lexes_id_before; [eapply fine_word; [exact Fl|now right]|reflexivity|].
        assert (A : Forall (fun n => lexes (sh n) (pr n)) r0 /\ Forall (fun n => heads (sh n)) r0).
        { clear Er X Br Sp Ba. induction r0 as [|z r0 IH]; [split; constructor|]. pose proof (Forall_inv H0) as Hz. pose proof (Forall_inv Fr) as Fz. pose proof (Forall_inv T) as Tz.
          destruct (IH (Forall_inv_tail H0) (Forall_inv_tail Fr) (Forall_inv_tail T)) as [A B]. split; constructor; auto. apply (good_heads _ (pr z)). now apply show_head. }
        destruct A as [A B]. apply lexes_round; [|apply lexes_list; [exact A|exact B|congruence]]. rewrite Er in *. apply Forall_inv in B. cbn [map commas join]. destruct r; [exact B|]. now apply heads_app.
      + destruct l as [|[|[|g] ? o| | | | |] [|? ?]]; try (destruct T; fail). destruct r as [|[|[|h] ? o'| | | | |] [|? ?]]; try (destruct T; fail). destruct T as (O & O' & _).
        apply Forall_inv in Fl, Fr. cbn [show print map commas join joined]. rewrite O, O'. apply lexes_id_before; [eapply fine_word; [exact Fl|now left]|reflexivity|].
        assert (Ih : ident h) by (eapply fine_word; [exact Fr|now left]). apply lexes_dot; [exact Ih|now apply lexes_id].
      + destruct l as [|[|[|g] ? o| | | | |] [|? ?]]; try (destruct T; fail). destruct r as [|[|[|h] ? o'| | | | |] [|? ?]]; try (destruct T; fail). destruct T as (O & O' & _).
        apply Forall_inv in Fl, Fr. cbn [show print map commas join joined]. rewrite O, O'. apply lexes_id_before; [eapply fine_word; [exact Fl|now left]|reflexivity|].
        assert (Ih : ident h) by (eapply fine_word; [exact Fr|now left]). refine (lexes_sign2 "-" ">" TArrow h [TId h] eq_refl eq_refl eq_refl _ (lexes_id h Ih)).
        apply joins_not2; [vm_compute; reflexivity|]. now apply heads_ident.
      + destruct l as [|[|[|g] ? o| | | | |] [|? ?]]; try (destruct T; fail). destruct r as [|y [|? ?]]; try (destruct T; fail). destruct T as (O & Ty). apply Forall_inv in Fl, Fr, H0.
        cbn [show print map commas join joined]. rewrite O. apply lexes_id_before; [eapply fine_word; [exact Fl|now left]|reflexivity|]. apply lexes_square; [|now apply H0].
        apply (good_heads _ (pr y)). now apply show_head.
      + destruct l as [|x [|? ?]]; try (destruct T; fail). destruct r as [|y [|? ?]]; try (destruct T; fail). destruct T as (Tx & Ty). destruct (X x y eq_refl eq_refl Tx Ty) as (Lx & Ly & Dx & Dy). cbn [map commas join joined].
        apply lexes_id_before; [exact Fs|reflexivity|]. change (TComma :: pr y ++ [TR]) with ((TComma :: pr y) ++ [TR]). rewrite app_assoc.
        replace (sh x ++ ", " ++ sh y ++ ")")%string with ((sh x ++ (", " ++ sh y)) ++ ")")%string by (rewrite !string_app_assoc; reflexivity).
        apply lexes_round; [now apply heads_app|]. apply lexes_app; [exact Lx|reflexivity|]. exact (lexes_sign1 "," TComma (String " " (sh y)) (pr y) eq_refl eq_refl eq_refl eq_refl (lexes_sp _ _ Ly)).
    - destruct f as [|x [|? ?]]; try (destruct T; fail). destruct s as [|y [|? ?]]; try (destruct T; fail). destruct t as [|z [|? ?]]; try (destruct T; fail).
      cbn [tight] in T. destruct T as (_ & _ & _ & Tx & Ty & Tz). apply fine_tri in F as (Fx & Fy & Fz). apply Forall_inv in H, H0, H1, Fx, Fy, Fz. cbn [show print map commas join joined].
      apply lexes_app; [now apply H|reflexivity|]. cbn [append]. apply lexes_sp.
      refine (lexes_sign1 "?" TQ (String " " (sh y ++ String " " (String ":" (String " " (sh z))))) _ eq_refl eq_refl eq_refl eq_refl _). apply lexes_sp.
      apply lexes_app; [now apply H0|reflexivity|]. apply lexes_sp. exact (lexes_sign1 ":" TColon (String " " (sh z)) (pr z) eq_refl eq_refl eq_refl eq_refl (lexes_sp _ _ (H1 Fz Tz))).
    - destruct l as [|x [|? ?]]; try (destruct T; fail). apply Forall_inv in H. apply fine_expr, fine_one in F. exact (H F T).
  Qed.
End Chars.
