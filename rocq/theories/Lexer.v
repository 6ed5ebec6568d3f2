(** The lexer of instrument files: /repo/src/grammar/c99.g4, McCommon.g4:77-128 and the literals of the rules of McCommon.g4, McInstr.g4.

    A rule of the grammar that matches the longest piece of the text makes the next token, the earlier rule on a tie.  One [ascii] is one
    character.  Where the text has a raw string, a character literal, a universal character name, a quote mark between digits, a line
    that starts with a hash sign or a character that starts no token, [lex] gives no result (some of these are read by the real lexer). *)
From Coq Require Import List String Ascii Bool NArith ZArith Arith Lia.
From Verif Require Import PyStr.
Import ListNotations.
Local Open Scope string_scope.
Local Open Scope list_scope.
Local Open Scope nat_scope.

Inductive ltok :=
| LKey (k : string)        (* keyword, in capital letters; keywords of C as they are *)
| LId (s : string)         (* Identifier *)
| LZero                    (* the literal '0' of the rules of the parser *)
| LInt (s : string)        (* IntegerLiteral *)
| LFloat (s : string)      (* FloatingLiteral *)
| LStr (s : string)        (* StringLiteral, with its quotes *)
| LUser (s : string)       (* UserDefinedLiteral *)
| LBlock (s : string)      (* UnparsedBlock, what is between its ends *)
| LInclude
| LSym (s : string).

(** * Characters *)
Definition code (c : ascii) : nat := nat_of_ascii c.
(** DIGIT, c99.g4:164 *)
Definition digit (c : ascii) : bool := (48 <=? code c) && (code c <=? 57).
(** NONDIGIT and DIGIT, c99.g4:163-164 *)
Definition word_start (c : ascii) : bool := ((65 <=? code c) && (code c <=? 90)) || ((97 <=? code c) && (code c <=? 122)) || (code c =? 95).
(** characters of a name after the first, c99.g4:163-164 *)
Definition word_char (c : ascii) : bool := word_start c || digit c.
(** OCTALDIGIT, c99.g4:170 *)
Definition octal (c : ascii) : bool := (48 <=? code c) && (code c <=? 55).
(** HEXADECIMALDIGIT, c99.g4:171 *)
Definition hexa (c : ascii) : bool := digit c || ((65 <=? code c) && (code c <=? 70)) || ((97 <=? code c) && (code c <=? 102)).
(** BINARYDIGIT, c99.g4:172 *)
Definition binary (c : ascii) : bool := (code c =? 48) || (code c =? 49).
(** carriage return *)
Definition cr : ascii := "013".
(** line feed *)
Definition lf : ascii := "010".
(** the backslash *)
Definition bslash : ascii := "\".
(** the double quote *)
Definition dquote : ascii := """".
(** the single quote *)
Definition squote : ascii := "'".
(** Whitespace and Newline, c99.g4:237-238 *)
Definition space (c : ascii) : bool := (code c =? 32) || (code c =? 9) || (code c =? 13) || (code c =? 10).
(** the longest run of such characters *)
Fixpoint take (p : ascii -> bool) (s : string) : string * string :=
  match s with
  | EmptyString => ("", "")
  | String c r => if p c then let '(a, b) := take p r in (String c a, b) else ("", s)
  end.
(** a text of such characters *)
Fixpoint all (p : ascii -> bool) (s : string) : bool := match s with EmptyString => true | String c r => p c && all p r end.
(** the text before and behind the first [a] followed by [b] *)
Fixpoint until (a b : ascii) (s : string) : option (string * string) :=
  match s with
  | EmptyString => None
  | String x r => match r with
                  | String y r' => if Ascii.eqb x a && Ascii.eqb y b then Some ("", r')
                                   else match until a b r with Some (u, v) => Some (String x u, v) | None => None end
                  | EmptyString => None
                  end
  end.
(** the operator in of Python on lists *)
Definition isin (s : string) (l : list string) : bool := existsb (String.eqb s) l.

(** * Words *)
(** McCommon.g4:82-128; c99.g4:16, 29-106 *)
Definition keywords : list (string * string) :=
  flat_map (fun p => map (fun v => (v, fst p)) (snd p))
  [("ABSOLUTE", ["ABSOLUTE"; "Absolute"; "absolute"]); ("AT", ["AT"; "At"; "at"]); ("CATEGORY", ["CATEGORY"; "Category"; "category"]);
   ("COMPONENT", ["COMPONENT"; "Component"; "component"]); ("USERVARS", ["USERVARS"; "UserVars"; "uservars"]); ("DEFINE", ["DEFINE"; "Define"; "define"]);
   ("DECLARE", ["DECLARE"; "Declare"; "declare"]); ("DEFINITION", ["DEFINITION"; "Definition"; "definition"]); ("END", ["END"; "End"; "end"]);
   ("MCDISPLAY", ["MCDISPLAY"; "DISPLAY"; "McDisplay"; "mcdisplay"; "Display"; "display"]); ("FINALLY", ["FINALLY"; "Finally"; "finally"]);
   ("INITIALIZE", ["INITIALIZE"; "INITIALISE"; "Initialize"; "initialize"; "Initialise"; "initialise"]); ("INSTRUMENT", ["INSTRUMENT"; "Instrument"; "instrument"]);
   ("OUTPUT", ["OUTPUT"; "Output"; "output"]); ("PRIVATE", ["PRIVATE"; "Private"; "private"]); ("PARAMETERS", ["PARAMETERS"; "Parameters"; "parameters"]);
   ("RELATIVE", ["RELATIVE"; "Relative"; "relative"]); ("ROTATED", ["ROTATED"; "Rotated"; "rotated"]); ("PREVIOUS", ["PREVIOUS"; "Previous"; "previous"]);
   ("SETTING", ["SETTING"; "Setting"; "setting"]); ("TRACE", ["TRACE"; "Trace"; "trace"]); ("SHARE", ["SHARE"; "Share"; "share"]);
   ("EXTEND", ["EXTEND"; "Extend"; "extend"]); ("GROUP", ["GROUP"; "Group"; "group"]); ("SAVE", ["SAVE"; "Save"; "save"]); ("JUMP", ["JUMP"; "Jump"; "jump"]);
   ("WHEN", ["WHEN"; "When"; "when"]); ("NEXT", ["NEXT"; "Next"; "next"]); ("ITERATE", ["ITERATE"; "Iterate"; "iterate"]); ("MYSELF", ["MYSELF"; "Myself"; "myself"]);
   ("COPY", ["COPY"; "Copy"; "copy"]); ("SPLIT", ["SPLIT"; "Split"; "split"]); ("REMOVABLE", ["REMOVABLE"; "Removabel"; "removable"]); ("CPU", ["CPU"; "cpu"]);
   ("NOACC", ["NOACC"; "NoACC"; "NoAcc"; "noacc"]); ("DEPENDENCY", ["DEPENDENCY"; "Dependency"; "dependency"]); ("SHELL", ["SHELL"; "Shell"; "shell"]);
   ("SEARCH", ["SEARCH"; "Search"; "search"]); ("METADATA", ["METADATA"; "MetaData"; "metadata"]);
   ("string", ["string"]); ("vector", ["vector"]); ("symbol", ["symbol"]); ("NULL", ["NULL"])]
  ++ map (fun k => (k, k))
  ["asm"; "auto"; "_Bool"; "break"; "case"; "char"; "_Complex"; "const"; "continue"; "default"; "do"; "double"; "else"; "enum"; "extern"; "false"; "float"; "for";
   "goto"; "if"; "_Imaginary"; "inline"; "int"; "long"; "register"; "return"; "short"; "signed"; "sizeof"; "static"; "struct"; "switch"; "true"; "typedef"; "union";
   "unsigned"; "void"; "volatile"; "while"].
(** the token of a keyword, McCommon.g4:82-128 *)
Definition keyword (w : string) : option string := option_map snd (find (fun p => fst p =?s w) keywords).
(** operators that are words: c99.g4:123, 141-142 *)
Definition word_token (w : string) : ltok :=
  if w =?s "not" then LSym "!" else if w =?s "and" then LSym "&&" else if w =?s "or" then LSym "||"
  else match keyword w with Some k => LKey k | None => LId w end.

(** * Texts *)
Definition ud_next (r : string) : bool := match r with String c _ => word_start c || Ascii.eqb c bslash | EmptyString => false end.
(** Schar and the closing quote, c99.g4:15, 221-224, 185-208 *)
Fixpoint str_body (s : string) : option (string * string) :=
  let go c r := match str_body r with Some (a, b) => Some (String c a, b) | None => None end in
  match s with
  | EmptyString => None
  | String c r =>
    if Ascii.eqb c dquote then Some (String dquote "", r)
    else if Ascii.eqb c bslash then
      match r with
      | EmptyString => None
      | String d q =>
        let go2 := match str_body q with Some (a, b) => Some (String c (String d a), b) | None => None end in
        if existsb (Ascii.eqb d) [squote; dquote; "?"%char; bslash; "a"%char; "b"%char; "f"%char; "n"%char; "r"%char; "t"%char; "v"%char; lf] || octal d then go2
        else if Ascii.eqb d "x" then match q with String h _ => if hexa h then go2 else None | EmptyString => None end
        else if Ascii.eqb d cr then
          match q with
          | String e q' => if Ascii.eqb e lf then match str_body q' with Some (a, b) => Some (String c (String d (String e a)), b) | None => None end else go2
          | EmptyString => None
          end
        else None
      end
    else if Ascii.eqb c cr || Ascii.eqb c lf then None
    else go c r
  end.
(** StringLiteral and UserDefinedStringLiteral, c99.g4:15, 234; [r] is the text behind the opening quote *)
Definition lex_string (prefix r : string) : option (option ltok * string) :=
  match str_body r with
  | None => None
  | Some (b, q) => let t := (prefix ++ String dquote b)%string in
                   if ud_next q then let '(w, q') := take word_char q in if ud_next q' || (w =?s "") then None else Some (Some (LUser (t ++ w)%string), q') else Some (Some (LStr t), q)
  end.
(** names, keywords and texts with a prefix, c99.g4:15-16, 29-106 *)
Definition lex_word (s : string) : option (option ltok * string) :=
  let '(w, r) := take word_char s in
  let plain := Some (Some (word_token w), r) in
  match r with
  | String c q =>
    if Ascii.eqb c dquote then if isin w ["u8"; "u"; "U"; "L"] then lex_string w q else if isin w ["R"; "u8R"; "uR"; "UR"; "LR"] then None else plain
    else if Ascii.eqb c squote then if isin w ["u"; "U"; "L"] then None else plain
    else if Ascii.eqb c bslash then None else plain
  | EmptyString => plain
  end.

(** * Numbers *)
(** IntegerSuffix, c99.g4:173-180 *)
Definition int_suffix (w : string) : bool :=
  isin w [""; "u"; "U"; "ul"; "uL"; "Ul"; "UL"; "ull"; "uLL"; "Ull"; "ULL"; "l"; "L"; "lu"; "lU"; "Lu"; "LU"; "ll"; "LL"; "llu"; "llU"; "LLu"; "LLU"].
(** IntegerLiteral, c99.g4:4-9, 165-172 *)
Definition int_word (s : string) : bool :=
  match s with
  | String c r =>
    if Ascii.eqb c "0" then
      let '(_, q) := take octal r in int_suffix q
      || match r with String x h => if Ascii.eqb x "x" || Ascii.eqb x "X" then let '(d, q) := take hexa h in negb (d =?s "") && int_suffix q
                                    else if Ascii.eqb x "b" || Ascii.eqb x "B" then let '(d, q) := take binary h in negb (d =?s "") && int_suffix q else false
         | EmptyString => false end
    else digit c && let '(_, q) := take digit r in int_suffix q
  | EmptyString => false
  end.
(** ExponentPart, c99.g4:213-217 *)
Definition exponent (s : string) : option (string * string) :=
  match s with
  | String e r =>
    if Ascii.eqb e "e" || Ascii.eqb e "E" then
      let '(sg, q) := match r with String c q => if Ascii.eqb c "+" || Ascii.eqb c "-" then (String c "", q) else ("", r) | EmptyString => ("", r) end in
      let '(x, q') := take digit q in if x =?s "" then None else Some (String e (sg ++ x)%string, q')
    else None
  | EmptyString => None
  end.
(** digit separators and line continuations, which are outside the model *)
Definition odd_next (r : string) : bool := match r with String c _ => Ascii.eqb c squote || Ascii.eqb c bslash | EmptyString => false end.
(** FloatingSuffix, or what makes the number a user defined literal, c99.g4:219, 226-233 *)
Definition float_end (t r : string) : option (option ltok * string) :=
  let '(w, q) := take word_char r in
  if odd_next q then None
  else if w =?s "" then Some (Some (LFloat t), q) else if isin w ["f"; "l"; "F"; "L"] then Some (Some (LFloat (t ++ w)%string), q) else Some (Some (LUser (t ++ w)%string), q).
(** c99.g4:213-233 *)
Definition lex_number (s : string) : option (option ltok * string) :=
  let '(d, r) := take digit s in
  match r with
  | String c q =>
    if Ascii.eqb c "." then
      let '(f, r) := take digit q in
      let m := (d ++ String c f)%string in
      match exponent r with Some (e, r) => float_end (m ++ e)%string r | None => float_end m r end
    else match exponent r with
         | Some (e, r) => float_end (d ++ e)%string r
         | None =>
           let '(w, r) := take word_char r in
           if odd_next r then None
           else if (w =?s "") && (d =?s "0") then Some (Some LZero, r)
           else if int_word (d ++ w)%string then Some (Some (LInt (d ++ w)%string), r)
           else if negb (w =?s "") && (int_word d) then Some (Some (LUser (d ++ w)%string), r) else None
         end
  | EmptyString => if d =?s "0" then Some (Some LZero, r) else if int_word d then Some (Some (LInt d), r) else None
  end.

(** * Signs *)
(** c99.g4:107-154 and the literals of McCommon.g4:39-68 *)
Definition signs3 : list string := ["<<="; ">>="; "->*"; "..."].
(** signs of two characters, c99.g4:107-154 *)
Definition signs2 : list string :=
  ["+="; "-="; "*="; "/="; "%="; "^="; "&="; "|="; "=="; "!="; "<="; ">="; "&&"; "||"; "++"; "--"; "->"; "::"; ".*"; "<<"; ">>"].
(** signs of one character, c99.g4:107-154 *)
Definition signs1 : list string := ["("; ")"; "["; "]"; "{"; "}"; "+"; "-"; "*"; "/"; "%"; "^"; "&"; "|"; "~"; "!"; "="; "<"; ">"; ","; "?"; ":"; ";"; "."].
(** the longest sign, c99.g4:107-154 *)
Definition lex_sign (s : string) : option (option ltok * string) :=
  match s with
  | EmptyString => None
  | String a r =>
    let one := if isin (String a "") signs1 then Some (Some (LSym (String a "")), r) else None in
    match r with
    | EmptyString => one
    | String b r2 =>
      let two := if isin (String a (String b "")) signs2 then Some (Some (LSym (String a (String b ""))), r2) else one in
      match r2 with
      | EmptyString => two
      | String c r3 => if isin (String a (String b (String c ""))) signs3 then Some (Some (LSym (String a (String b (String c "")))), r3) else two
      end
    end
  end.
(** UnparsedBlock, Include, McCommon.g4:125-126 *)
Definition lex_percent (s : string) : option (option ltok * string) :=
  match s with
  | String _ (String c r) =>
    if Ascii.eqb c "{" then match until "%" "}" r with Some (b, q) => Some (Some (LBlock b), q) | None => lex_sign s end
    else if startswith "%include" s then Some (Some LInclude, substring 8 (String.length s - 8) s)
    else lex_sign s
  | _ => lex_sign s
  end.
(** BlockComment, LineComment, c99.g4:239-240 *)
Definition lex_slash (s : string) : option (option ltok * string) :=
  match s with
  | String _ (String c r) =>
    if Ascii.eqb c "*" then match until "*" "/" r with Some (_, q) => Some (None, q) | None => lex_sign s end
    else if Ascii.eqb c "/" then Some (None, snd (take (fun x => negb (Ascii.eqb x cr || Ascii.eqb x lf)) r))
    else lex_sign s
  | _ => lex_sign s
  end.

(** * Tokens *)
Definition lex1 (s : string) : option (option ltok * string) :=
  match s with
  | EmptyString => None
  | String c r =>
    if space c then Some (None, r)
    else if word_start c then lex_word s
    else if digit c then lex_number s
    else if Ascii.eqb c dquote then lex_string "" r
    else if Ascii.eqb c "%" then lex_percent s
    else if Ascii.eqb c "/" then lex_slash s
    else if Ascii.eqb c "." && match r with String d _ => digit d | EmptyString => false end then lex_number s
    else lex_sign s
  end.
(** a token that is kept, or one that is skipped *)
Definition put (t : option ltok) (l : list ltok) : list ltok := match t with Some t => t :: l | None => l end.
(** token after token *)
Fixpoint lexf (fuel : nat) (s : string) : option (list ltok) :=
  match fuel with
  | O => None
  | S f => match s with
           | EmptyString => Some []
           | _ => match lex1 s with Some (t, r) => option_map (put t) (lexf f r) | None => None end
           end
  end.
(** the tokens of a text *)
Definition lex (s : string) : option (list ltok) := lexf (S (String.length s)) s.

(** * Facts *)
Local Notation len := String.length.
Lemma take_app p s : let '(a, b) := take p s in s = (a ++ b)%string /\ all p a = true.
Proof.
  induction s as [|c r IH]; cbn [take]; [now split|]. destruct (p c) eqn:E; [|now split]. destruct (take p r) as [a b]. destruct IH as [-> H]. split; [reflexivity|]. cbn. now rewrite E, H.
Qed.
Lemma take_len p s : len (snd (take p s)) <= len s.
Proof. pose proof (take_app p s) as H. destruct (take p s) as [a b]. destruct H as [-> _]. rewrite string_app_length. cbn [snd]. lia. Qed.
Lemma take_hit p c r : p c = true -> len (snd (take p (String c r))) <= len r.
Proof. intro H. cbn [take]. rewrite H. pose proof (take_len p r). now destruct (take p r). Qed.
(** proof helper: the text does not go on with such a character *)
Definition stopped (p : ascii -> bool) (s : string) : bool := match s with EmptyString => true | String c _ => negb (p c) end.
Lemma take_exact p a rest : all p a = true -> stopped p rest = true -> take p (a ++ rest) = (a, rest).
Proof.
  induction a as [|c a IH]; cbn [append all]; intros H S.
  - destruct rest as [|c r]; [reflexivity|]. cbn in *. now destruct (p c).
  - apply andb_prop in H as [Hc Ha]. cbn [take]. now rewrite Hc, IH.
Qed.
Lemma until_len a b s u v : until a b s = Some (u, v) -> len v < len s.
Proof.
  revert u v. induction s as [|x s IH]; intros u v; cbn [until]; [discriminate|]. destruct s as [|y s']; [discriminate|]. destruct (_ && _).
  - intro H. injection H as <- <-. cbn. lia.
  - destruct (until a b (String y s')) as [[u' v']|]; [|discriminate]. intro H. injection H as <- <-. specialize (IH u' v' eq_refl). cbn in *. lia.
Qed.
Lemma str_body_len s : forall a b, str_body s = Some (a, b) -> len b < len s.
Proof.
  remember (len s) as n eqn:E. revert s E. induction n as [n IH] using lt_wf_ind. intros s -> a b. destruct s as [|c r]; cbn [str_body]; [discriminate|].
  destruct (Ascii.eqb c dquote); [intro H; injection H as <- <-; cbn; lia|]. destruct (Ascii.eqb c bslash).
  - destruct r as [|d q]; [discriminate|].
    assert (G : forall x, match str_body q with Some (a, b) => Some (String c (String d a), b) | None => None end = Some x -> len (snd x) < len (String c (String d q))).
    { intros x. destruct (str_body q) as [[a' b']|] eqn:Q; [|discriminate]. intro H. injection H as <-. cbn [snd]. apply IH with (m := len q) in Q; cbn; try lia. }
    destruct (existsb _ _ || octal d); [intro H; apply (G (a, b) H)|]. destruct (Ascii.eqb d "x").
    + destruct q as [|h q']; [discriminate|]. destruct (hexa h); [intro H; apply (G (a, b) H)|discriminate].
    + destruct (Ascii.eqb d cr); [|discriminate]. destruct q as [|e q']; [discriminate|]. destruct (Ascii.eqb e lf); [|intro H; apply (G (a, b) H)].
      destruct (str_body q') as [[a' b']|] eqn:Q; [|discriminate]. intro H. injection H as <- <-. apply IH with (m := len q') in Q; cbn; lia.
  - destruct (_ || _); [discriminate|]. destruct (str_body r) as [[a' b']|] eqn:Q; [|discriminate]. intro H. injection H as <- <-. apply IH with (m := len r) in Q; cbn; lia.
Qed.
Lemma lex_string_len p r t q : lex_string p r = Some (t, q) -> len q < len r.
Proof.
  unfold lex_string. destruct (str_body r) as [[b q0]|] eqn:E; [|discriminate]. apply str_body_len in E. destruct (ud_next q0).
  - pose proof (take_len word_char q0) as L. destruct (take word_char q0) as [w q']. cbn [snd] in L. destruct (_ || _); [discriminate|]. intro H. injection H as <- <-. lia.
  - intro H. injection H as <- <-. lia.
Qed.
Lemma exponent_len s e r : exponent s = Some (e, r) -> len r < len s.
Proof.
  destruct s as [|c s]; cbn [exponent]; [discriminate|]. destruct (_ || _); [|discriminate].
  assert (G : forall sg q, len q <= len s -> (let '(x, q') := take digit q in if x =?s "" then None else Some (String c (sg ++ x)%string, q')) = Some (e, r) -> len r < len (String c s)).
  { intros sg q L. pose proof (take_len digit q) as L2. destruct (take digit q) as [x q']. cbn [snd] in L2. destruct (x =?s ""); [discriminate|]. intro H. injection H as <- <-. cbn. lia. }
  destruct s as [|d q]; [intro H; apply (G "" ""); [reflexivity|exact H]|]. destruct (_ || _); intro H; [apply (G (String d "") q); [cbn; lia|exact H]|apply (G "" (String d q)); [reflexivity|exact H]].
Qed.
Lemma float_end_len t r x q : float_end t r = Some (x, q) -> len q <= len r.
Proof.
  unfold float_end. pose proof (take_len word_char r) as L. destruct (take word_char r) as [w q0]. cbn [snd] in L. destruct (odd_next q0); [discriminate|].
  repeat match goal with |- (if ?b then _ else _) = _ -> _ => destruct b end; intro H; injection H as <- <-; exact L.
Qed.
Lemma lex_number_len s t r : (match s with String c q => digit c = true \/ Ascii.eqb c "." = true | EmptyString => False end) -> lex_number s = Some (t, r) -> len r < len s.
Proof.
  intros H. unfold lex_number. pose proof (take_app digit s) as T. destruct (take digit s) as [d r0] eqn:E. destruct T as [Es Ed].
  assert (G : len r0 <= len s) by (rewrite Es, string_app_length; lia).
  destruct r0 as [|c q].
  - destruct s as [|c0 s0]; [destruct H|]. destruct (d =?s "0"); [intro X; injection X as <- <-; cbn; lia|]. destruct (int_word d); [intro X; injection X as <- <-; cbn; lia|discriminate].
  - assert (Z : Ascii.eqb c "." = false -> len (String c q) < len s).
    { intro C. destruct s as [|c0 s0]; [destruct H|]. cbn [take] in E. destruct (digit c0) eqn:D.
      - pose proof (take_len digit s0) as L. destruct (take digit s0) as [a b]. injection E as <- <-. cbn in *. lia.
      - injection E as <- <- <-. destruct H; congruence. }
    destruct (Ascii.eqb c ".") eqn:C.
    + pose proof (take_len digit q) as L. destruct (take digit q) as [f r1]. cbn [snd] in L. destruct (exponent r1) as [[e r2]|] eqn:X; intro Y.
      * apply exponent_len in X. apply float_end_len in Y. cbn in G. lia.
      * apply float_end_len in Y. cbn in G. lia.
    + specialize (Z eq_refl). destruct (exponent (String c q)) as [[e r2]|] eqn:X.
      * intro Y. apply exponent_len in X. apply float_end_len in Y. lia.
      * pose proof (take_len word_char (String c q)) as L. destruct (take word_char (String c q)) as [w r2]. cbn [snd] in L. destruct (odd_next r2); [discriminate|].
        repeat match goal with |- (if ?b then _ else _) = _ -> _ => destruct b end; intro Y; try discriminate; injection Y as <- <-; lia.
Qed.
Lemma lex_sign_len s t r : lex_sign s = Some (t, r) -> len r < len s.
Proof.
  destruct s as [|a s]; cbn [lex_sign]; [discriminate|]. destruct s as [|b s]; [destruct (isin _ _); [intro H; injection H as <- <-; cbn; lia|discriminate]|].
  destruct s as [|c s]; repeat (match goal with |- context [isin ?x ?y] => destruct (isin x y) end); intro H; try discriminate; injection H as <- <-; cbn; lia.
Qed.
Lemma substring_len n m s : len (substring n m s) <= len s - n.
Proof.
  revert n m. induction s as [|c s IH]; intros n m; [destruct n, m; cbn; lia|]. destruct n as [|n]; [|cbn; apply IH].
  destruct m as [|m]; cbn [substring String.length]; [lia|]. specialize (IH 0 m). lia.
Qed.
Lemma lex1_len s t r : lex1 s = Some (t, r) -> len r < len s.
Proof.
  destruct s as [|c s]; cbn [lex1]; [discriminate|]. destruct (space c); [intro H; injection H as <- <-; cbn; lia|]. destruct (word_start c) eqn:W.
  - unfold lex_word. pose proof (take_hit word_char c s) as L. destruct (take word_char (String c s)) as [w q]. cbn [snd] in L.
    assert (L' : len q <= len s) by (apply L; unfold word_char; now rewrite W).
    assert (P : Some (Some (word_token w), q) = Some (t, r) -> len r < len (String c s)) by (intro H; injection H as <- <-; cbn; lia).
    destruct q as [|d q]; [exact P|]. destruct (Ascii.eqb d dquote); [|destruct (Ascii.eqb d squote); [destruct (isin _ _); [discriminate|exact P]|destruct (Ascii.eqb d bslash); [discriminate|exact P]]].
    destruct (isin _ _); [intro H; apply lex_string_len in H; cbn in *; lia|]. destruct (isin _ _); [discriminate|exact P].
  - destruct (digit c) eqn:D; [intro H; apply lex_number_len in H; [exact H|now left]|]. destruct (Ascii.eqb c dquote); [intro H; apply lex_string_len in H; cbn; lia|].
    destruct (Ascii.eqb c "%").
    { unfold lex_percent. destruct s as [|d s]; [apply lex_sign_len|]. destruct (Ascii.eqb d "{").
      - destruct (until "%" "}" s) as [[b q]|] eqn:U; [|apply lex_sign_len]. intro H. injection H as <- <-. apply until_len in U. cbn. lia.
      - destruct (startswith _ _) eqn:St; [|apply lex_sign_len]. intro H. assert (Hr : r = substring 8 (len (String c (String d s)) - 8) (String c (String d s))) by congruence. rewrite Hr.
        eapply Nat.le_lt_trans; [apply substring_len|]. cbn [String.length]. lia. }
    destruct (Ascii.eqb c "/").
    { unfold lex_slash. destruct s as [|d s]; [apply lex_sign_len|]. destruct (Ascii.eqb d "*").
      - destruct (until "*" "/" s) as [[b q]|] eqn:U; [|apply lex_sign_len]. intro H. injection H as <- <-. apply until_len in U. cbn. lia.
      - destruct (Ascii.eqb d "/"); [|apply lex_sign_len]. intro H. injection H as <- <-. pose proof (take_len (fun x => negb (Ascii.eqb x cr || Ascii.eqb x lf)) s). cbn in *. lia. }
    destruct (Ascii.eqb c "." && _) eqn:Dt; [|apply lex_sign_len]. intro H. apply lex_number_len in H; [exact H|]. right. now apply andb_prop in Dt as [-> _].
Qed.
Lemma lexf_enough s : forall f g, len s < f -> len s < g -> lexf f s = lexf g s.
Proof.
  remember (len s) as n eqn:E. revert s E. induction n as [n IH] using lt_wf_ind. intros s -> [|f] [|g] F G; try lia. cbn [lexf]. destruct s as [|c s]; [reflexivity|].
  destruct (lex1 (String c s)) as [[t r]|] eqn:L; [|reflexivity]. apply lex1_len in L. f_equal. apply (IH (len r)); lia.
Qed.
Lemma lex_nil : lex "" = Some []. Proof. reflexivity. Qed.
Lemma lex_step s t r : lex1 s = Some (t, r) -> lex s = option_map (put t) (lex r).
Proof.
  intro L. destruct s as [|c s]; [discriminate|]. transitivity (option_map (put t) (lexf (len (String c s)) r)).
  - unfold lex. cbn [lexf]. now rewrite L.
  - f_equal. apply lex1_len in L. apply lexf_enough; [exact L|apply Nat.lt_succ_diag_r].
Qed.
