(** Property C60: the table of instrument parameters. *)
From Coq Require Import List String Ascii Bool NArith QArith Qcanon ZArith Arith Lia.
From Verif Require Import PyStr Expr ExprSem Print Lexer ExprChars InstrChars ParamTable.
Import ListNotations.
Local Open Scope string_scope.
Local Open Scope list_scope.
Local Open Scope nat_scope.

(** * Specification: how C reads a row *)
(** a string literal: what stands between the quotes, and the rest *)
Fixpoint c_chars (s : string) : option (string * string) :=
  match s with
  | EmptyString => None
  | String c r =>
      if Ascii.eqb c """" then Some ("", r)
      else if Ascii.eqb c "010" || Ascii.eqb c "013" then None
      else if Ascii.eqb c "\" then match r with String d q => match c_chars q with Some (a, b) => Some (String c (String d a), b) | None => None end | EmptyString => None end
      else match c_chars r with Some (a, b) => Some (String c a, b) | None => None end
  end.
Definition c_literal (s : string) : option (string * string) := match s with String c r => if Ascii.eqb c """" then c_chars r else None | EmptyString => None end.
Fixpoint expect (p s : string) : option string :=
  match p, s with EmptyString, _ => Some s | String a p, String b s => if Ascii.eqb a b then expect p s else None | _, _ => None end.
Definition bind {A B} (o : option A) (f : A -> option B) : option B := match o with Some a => f a | None => None end.
(** name, member of the parameter structure, type, default text, unit *)
Record entry := mkEntry { e_name : string; e_member : string; e_type : string; e_default : string; e_unit : string }.
Definition c_row (s : string) : option entry :=
  bind (expect "  {" s) (fun s => bind (c_literal s) (fun '(n, s) => bind (expect ", &(_instrument_var._parameters." s) (fun s =>
  bind (split_once ")" s) (fun '(m, s) => bind (expect ", " s) (fun s => bind (split_once "," s) (fun '(t, s) => bind (expect " " s) (fun s =>
  bind (c_literal s) (fun '(v, s) => bind (expect ", " s) (fun s => bind (c_literal s) (fun '(u, s) => bind (expect "}," s) (fun s =>
  match s with EmptyString => Some (mkEntry n m t v u) | _ => None end))))))))))).
(** texts that need no quoting; string literals with nothing in front of the quote *)
Definition unquoted (s : string) : Prop := forall c, In c [""""%char; "\"%char; "010"%char; "013"%char] -> has_char c s = false.
Inductive content : string -> string -> Prop :=
| c_plain s : unquoted s -> content s s
| c_quoted s b : c_literal s = Some (b, "") -> content s b.
(** the value of a number that is the default *)
Definition read_number (s : string) : option Qc := match s with String c r => if Ascii.eqb c "-" then option_map Qcopp (decimal r) else decimal s | EmptyString => None end.

(** * Lemmas *)
Lemma unquoted_chars s r : unquoted s -> c_chars (s ++ String """" r) = Some (s, r).
Proof.
  induction s as [|c s IH]; intro U; [reflexivity|].
  assert (U' : unquoted s) by (intros d D; specialize (U d D); cbn [has_char] in U; now apply orb_false_iff in U). specialize (IH U').
  assert (N : forall d, In d [""""%char; "\"%char; "010"%char; "013"%char] -> Ascii.eqb c d = false) by (intros d D; specialize (U d D); cbn [has_char] in U; apply orb_false_iff in U as [U _]; exact U).
  cbn [append c_chars]. rewrite (N """"%char), (N "010"%char), (N "013"%char), (N "\"%char) by (cbn; auto 10). cbn [orb]. now rewrite IH.
Qed.
Lemma chars_more : forall n s a b t, String.length s <= n -> c_chars s = Some (a, b) -> c_chars (s ++ t) = Some (a, (b ++ t)%string).
Proof.
  induction n as [|n IH]; intros s a b t L H; (destruct s as [|c r]; [discriminate|]); cbn in L; [lia|]. cbn [append]. cbn [c_chars] in *.
  destruct (Ascii.eqb c """"); [injection H as <- <-; reflexivity|]. destruct (Ascii.eqb c "010" || Ascii.eqb c "013"); [discriminate|]. destruct (Ascii.eqb c "\").
  - destruct r as [|d q]; [discriminate|]. cbn [append]. destruct (c_chars q) as [[a' b']|] eqn:E; [|discriminate]. injection H as <- <-. cbn in L. rewrite (IH q a' b' t ltac:(lia) E). reflexivity.
  - destruct (c_chars r) as [[a' b']|] eqn:E; [|discriminate]. injection H as <- <-. rewrite (IH r a' b' t ltac:(lia) E). reflexivity.
Qed.
Lemma expect_app p s : expect p (p ++ s) = Some s.
Proof. induction p as [|c p IH]; [reflexivity|]. cbn. now rewrite Ascii.eqb_refl. Qed.
(** the text of a literal ends in a quote and is more than one quote *)
Lemma chars_last : forall n s a, String.length s <= n -> c_chars s = Some (a, "") -> last_is dquote s = true.
Proof.
  induction n as [|n IH]; intros s a L H; (destruct s as [|c r]; [discriminate|]); cbn in L; [lia|]. cbn [c_chars] in H.
  destruct (Ascii.eqb_spec c """") as [->|X]; [injection H as <- ->; reflexivity|]. destruct (Ascii.eqb c "010" || Ascii.eqb c "013"); [discriminate|]. destruct (Ascii.eqb c "\").
  - destruct r as [|d q]; [discriminate|]. destruct (c_chars q) as [[a' b']|] eqn:E; [|discriminate]. injection H as <- ->. cbn in L. specialize (IH q a' ltac:(lia) E). destruct q; [discriminate|]. exact IH.
  - destruct (c_chars r) as [[a' b']|] eqn:E; [|discriminate]. injection H as <- ->. specialize (IH r a' ltac:(lia) E). destruct r; [discriminate|]. exact IH.
Qed.
Lemma nps_content s b : content s b -> forall t, c_literal (nps (Some s) ++ t) = Some (b, t).
Proof.
  intros [u U|u v E] t.
  - assert (Q : has_char """" u = false) by (apply U; now left). unfold nps. assert (N : u =?s dq = false) by (apply String.eqb_neq; intros ->; discriminate). rewrite N.
    assert (F : first_is dquote u = false) by (destruct u as [|c u]; [reflexivity|]; cbn [has_char] in Q; apply orb_false_iff in Q as [Q _]; cbn [first_is]; first [exact Q|rewrite Ascii.eqb_sym; exact Q]). rewrite F, andb_false_r. cbn [andb].
    unfold dq. cbn [append c_literal]. change (Ascii.eqb dquote """") with true. cbv iota. rewrite string_app_assoc. cbn [append]. now apply unquoted_chars.
  - unfold nps. destruct (String.eqb_spec u dq) as [->|N]; [discriminate|]. destruct u as [|c r]; [discriminate|]. cbn [c_literal] in E. destruct (Ascii.eqb c """") eqn:C; [|discriminate].
    cbn [first_is]. change dquote with """"%char at 1. rewrite C. assert (L : last_is dquote (String c r) = true) by (pose proof (chars_last _ r v (Nat.le_refl _) E) as X; destruct r; [discriminate|exact X]). rewrite L.
    cbn [String.eqb negb andb]. cbn [append c_literal]. rewrite C. exact (chars_more _ r v "" t (Nat.le_refl _) E).
Qed.
Lemma ident_unquoted n : ident n -> unquoted n /\ has_char ")" n = false.
Proof.
  intros [W _]. destruct n as [|c r]; [destruct W|]. destruct W as [C R].
  assert (X : forall d s, word_char d = false -> all word_char s = true -> has_char d s = false).
  { intros d s D. induction s as [|x s IH]; intro A; [reflexivity|]. cbn [all] in A. apply andb_true_iff in A as [A B]. cbn [has_char]. rewrite IH by exact B. rewrite orb_false_r. apply Ascii.eqb_neq. intros ->. congruence. }
  assert (Y : forall d, word_start d = false -> word_char d = false -> has_char d (String c r) = false).
  { intros d D D'. cbn [has_char]. rewrite (X d r D' R), orb_false_r. apply Ascii.eqb_neq. intros ->. congruence. }
  split; [|now apply Y]. intros d [<-|[<-|[<-|[<-|[]]]]]; now apply Y.
Qed.
Lemma name_literal n t : unquoted n -> c_literal (dq ++ n ++ dq ++ t) = Some (n, t).
Proof. intro U. exact (unquoted_chars n t U). Qed.
Lemma row_reads num p t v u : ident (p_name p) -> type_name p = Ok t -> has_char "," t = false -> content (value_str num p) v -> content (match p_unit p with Some u => u | None => "" end) u ->
  exists r, row num p = Ok r /\ c_row r = Some (mkEntry (p_name p) (p_name p) t v u).
Proof.
  intros I T C V U. unfold row. rewrite T. cbn [rbind]. eexists. split; [reflexivity|]. apply ident_unquoted in I as [I J].
  unfold c_row. rewrite expect_app. cbn [bind]. rewrite name_literal by exact I. cbn [bind].
  rewrite (expect_app ", &(_instrument_var._parameters."). cbn [bind].
  match goal with |- context [split_once ")" ?x] => assert (E : split_once ")" x = Some (p_name p, (", " ++ t ++ ", " ++ nps (Some (value_str num p)) ++ ", " ++ nps (p_unit p) ++ "},")%string)) by (apply split_once_some; split; [reflexivity|exact J]) end.
  rewrite E. cbn [bind]. rewrite (expect_app ", "). cbn [bind].
  match goal with |- context [split_once "," ?x] => assert (E2 : split_once "," x = Some (t, (" " ++ nps (Some (value_str num p)) ++ ", " ++ nps (p_unit p) ++ "},")%string)) by (apply split_once_some; split; [reflexivity|exact C]) end.
  rewrite E2. cbn [bind]. rewrite (expect_app " "). cbn [bind]. rewrite (nps_content _ _ V). cbn [bind]. rewrite (expect_app ", "). cbn [bind].
  assert (N : nps (p_unit p) = nps (Some match p_unit p with Some u => u | None => "" end)) by (destruct (p_unit p); reflexivity). rewrite N, (nps_content _ _ U). cbn [bind]. change "},"%string with ("}," ++ "")%string. rewrite (expect_app "},"). reflexivity.
Qed.

(** * Theorems *)
(** the value in an Expr *)
Definition atom (e : node) : node := match e with NExpr [n] => n | n => n end.
Definition c_type (k : kind) : string := match k with KFloat => "instr_type_double" | KInt => "instr_type_int" | KStr => "instr_type_string" end.
(** a parameter with a constant default, a number or a string literal, and a unit without special characters or written as a string literal *)
Definition regular (num : Qc -> string) (p : par) : Prop :=
  ident (p_name p) /\ match p_unit p with Some u => exists b, content u b | None => True end
  /\ match option_map atom (p_value p) with
     | Some (NVal (PNum q) _ OValue) => p_kind p <> KStr /\ shown num (if Qc_ltb q 0 then (- q)%Qc else q)
     | Some (NVal (PStr s) _ OValue) => p_kind p = KStr /\ exists b, c_literal s = Some (b, "")
     | _ => False
     end.
(** what its row has to say *)
Definition describes (p : par) (e : entry) : Prop :=
  e_name e = p_name p /\ e_member e = p_name p /\ e_type e = c_type (p_kind p)
  /\ match option_map atom (p_value p) with
     | Some (NVal (PNum q) _ _) => read_number (e_default e) = Some q
     | Some (NVal (PStr s) _ _) => c_literal s = Some (e_default e, "")
     | _ => False
     end
  /\ match p_unit p with Some u => content u (e_unit e) | None => e_unit e = "" end.

Lemma all_digit_not c s : digit c = false -> all digit s = true -> has_char c s = false.
Proof. intros C. induction s as [|x s IH]; intro A; [reflexivity|]. cbn [all] in A. apply andb_true_iff in A as [A B]. cbn [has_char]. rewrite IH by exact B. rewrite orb_false_r. apply Ascii.eqb_neq. intros ->. congruence. Qed.
Lemma form_unquoted s : number_form s -> unquoted s /\ exists c r, s = String c r /\ digit c = true.
Proof.
  intros (d & f & e & -> & N & D & F & E & _). split.
  - intros c Hc. assert (Dc : digit c = false) by (destruct Hc as [<-|[<-|[<-|[<-|[]]]]]; reflexivity). rewrite !has_char_app. rewrite (all_digit_not c d Dc D). cbn [orb].
    assert (F' : has_char c f = false).
    { destruct F as [->|(g & -> & G)]; [reflexivity|]. cbn [has_char]. rewrite (all_digit_not c g Dc G), orb_false_r. destruct Hc as [<-|[<-|[<-|[<-|[]]]]]; reflexivity. }
    rewrite F'. cbn [orb]. destruct E as [->|(x & sg & y & -> & X & Sg & _ & Y)]; [reflexivity|]. cbn [has_char]. rewrite has_char_app, (all_digit_not c y Dc Y), orb_false_r.
    destruct X as [->| ->]; destruct Sg as [->|[->| ->]]; destruct Hc as [<-|[<-|[<-|[<-|[]]]]]; reflexivity.
  - destruct d as [|c d]; [congruence|]. cbn [all] in D. apply andb_true_iff in D as [D _]. exists c, (d ++ f ++ e)%string. split; [reflexivity|exact D].
Qed.
Lemma number_reads num q : shown num (if Qc_ltb q 0 then (- q)%Qc else q) -> unquoted (number num q) /\ read_number (number num q) = Some q.
Proof.
  unfold number. destruct (Qc_ltb q 0); intros [F D]; apply form_unquoted in F as [U (c & r & E & C)].
  - split; [intros x X; cbn [append has_char]; rewrite (U x X), orb_false_r; destruct X as [<-|[<-|[<-|[<-|[]]]]]; reflexivity|]. cbn [append read_number]. change (Ascii.eqb "-" "-") with true. cbv iota. rewrite D. cbn. now rewrite Qcopp_involutive.
  - split; [exact U|]. rewrite E in *. cbn [read_number]. destruct (Ascii.eqb_spec c "-") as [->|]; [discriminate|exact D].
Qed.
(** C60: for parameters with constant default values, C reads from the table one row for every parameter, in order, with its name twice, its type, its default value and its unit, and the number of rows.
    Partial: without default value, with a computed one, or with quotes inside see the refutations. *)
Theorem C60_table_partial : forall num l, Forall (regular num) l ->
  exists rs, table num l = Ok (("int numipar = " ++ str_nat (List.length l) ++ ";")%string :: "struct mcinputtable_struct mcinputtable[] = {" :: rs ++ ["  {NULL, NULL, instr_type_double, """", """"}"; "};"])
    /\ Forall2 (fun p r => exists e, c_row r = Some e /\ describes p e) l rs.
Proof.
  intros num l F. assert (G : exists rs, rows num l = Ok rs /\ Forall2 (fun p r => exists e, c_row r = Some e /\ describes p e) l rs).
  { induction F as [|p l R F IH]; [exists []; split; [reflexivity|constructor]|]. destruct IH as (rs & E & H). destruct R as (I & U & V).
    assert (Ux : exists u, content match p_unit p with Some u => u | None => "" end u /\ match p_unit p with Some x => content x u | None => u = "" end).
    { destruct (p_unit p) as [u|]; [destruct U as [b U]; exists b; split; exact U|]. exists "". split; [|reflexivity]. apply c_plain. intros c _. reflexivity. }
    destruct Ux as (u & U1 & U2).
    assert (Vx : exists t v, type_name p = Ok t /\ t = c_type (p_kind p) /\ content (value_str num p) v /\ match option_map atom (p_value p) with
       | Some (NVal (PNum q) _ _) => read_number v = Some q | Some (NVal (PStr s) _ _) => c_literal s = Some (v, "") | _ => False end).
    { unfold type_name, value_str. destruct (p_value p) as [e|]; [|destruct V]. cbn [option_map] in *. exists (c_type (p_kind p)).
      assert (A : exists a d, atom e = NVal a d OValue /\ show num e = show num (NVal a d OValue) /\ match e with NVal _ _ _ | NExpr [NVal _ _ _] => True | _ => False end).
      { destruct e as [|[q|s] d []| | | | |[|n [|]]]; cbn [atom] in *; try contradiction; try (do 2 eexists; repeat split; reflexivity).
        destruct n as [|[q|s] d []| | | | |]; cbn [atom] in *; try contradiction; do 2 eexists; repeat split; reflexivity. }
      destruct A as (a & d & A & Sh & T). rewrite A in *. rewrite Sh.
      assert (Ty : match e with NVal _ _ _ | NExpr [NVal _ _ _] => Ok (kind_name (p_kind p)) | _ => Raise end = Ok (c_type (p_kind p))) by (destruct e as [| | | | | |[|[] []]]; try destruct T; destruct (p_kind p); reflexivity).
      destruct a as [q|s].
      - destruct V as [_ V]. apply number_reads in V as [V1 V2]. exists (number num q). split; [exact Ty|]. split; [reflexivity|]. split; [apply c_plain; exact V1|exact V2].
      - destruct V as [_ [b V]]. exists b. split; [exact Ty|]. split; [reflexivity|]. split; [apply c_quoted; exact V|exact V]. }
    destruct Vx as (t & v & T & -> & V1 & V2).
    destruct (row_reads num p _ v u I T ltac:(destruct (p_kind p); reflexivity) V1 U1) as (r & Er & Rr). exists (r :: rs). cbn [rows]. rewrite Er. cbn [rbind]. rewrite E. cbn [rbind]. split; [reflexivity|].
    constructor; [|exact H]. eexists. split; [exact Rr|]. split; [reflexivity|]. split; [reflexivity|]. split; [reflexivity|]. split; [exact V2|exact U2]. }
  destruct G as (rs & E & H). exists rs. unfold table. rewrite E. cbn [rbind]. split; [reflexivity|exact H].
Qed.
Print Assumptions C60_table_partial.
(** double E0 with unit meV and default -5, string file with a quote inside, int n=3 *)
Definition two (q : Qc) : string := if Qc_eq_bool q (Z2Qc 5) then "5" else "3".
Definition table_pars : list par :=
  [mkPar "E0" (Some """meV""") KFloat (Some (NExpr [NVal (PNum (Z2Qc (-5))) DFloat OValue])); mkPar "file" None KStr (Some (NVal (PStr """a\""b""") DStr OValue)); mkPar "n" (Some "counts") KInt (Some (NVal (PNum (Z2Qc 3)) DInt OValue))].
Lemma unquoted_b s : forallb (fun c => negb (has_char c s)) [""""%char; "\"%char; "010"%char; "013"%char] = true -> unquoted s.
Proof. intros H c C. rewrite forallb_forall in H. specialize (H c C). now apply negb_true_iff in H. Qed.
Example table_pars_regular : Forall (regular two) table_pars.
Proof.
  repeat (apply Forall_cons || apply Forall_nil).
  - split; [split; [now split|reflexivity]|]. split; [exists "meV"; now apply c_quoted|]. cbn [option_map p_value atom]. split; [discriminate|]. split; [|vm_compute; f_equal; apply Qc_is_canon; reflexivity].
    exists "5", "", "". split; [reflexivity|]. split; [discriminate|]. split; [reflexivity|]. split; [now left|]. split; [now left|]. right. reflexivity.
  - split; [split; [now split|reflexivity]|]. split; [exact Logic.I|]. cbn [option_map p_value atom]. split; [reflexivity|]. eexists. reflexivity.
  - split; [split; [now split|reflexivity]|]. split; [exists "counts"; apply c_plain; now apply unquoted_b|]. cbn [option_map p_value atom]. split; [discriminate|]. split; [|vm_compute; f_equal; apply Qc_is_canon; reflexivity].
    exists "3", "", "". split; [reflexivity|]. split; [discriminate|]. split; [reflexivity|]. split; [now left|]. split; [now left|]. right. reflexivity.
Qed.
Example table_rows : rows two table_pars = Ok
  ["  {""E0"", &(_instrument_var._parameters.E0), instr_type_double, ""-5"", ""meV""},"; "  {""file"", &(_instrument_var._parameters.file), instr_type_string, ""a\""b"", """"},";
   "  {""n"", &(_instrument_var._parameters.n), instr_type_int, ""3"", ""counts""},"].
Proof. vm_compute. reflexivity. Qed.

(** * Findings *)
Definition unit_content (p : par) (u : string) : Prop := content (match p_unit p with Some x => x | None => "" end) u.
(** A parameter without default value has the text None in the table, as if None had been given, not an empty text: str of a missing value. *)
Theorem C60_no_default_refuted : forall num p u, ident (p_name p) -> p_value p = None -> unit_content p u ->
  exists r, row num p = Ok r /\ c_row r = Some (mkEntry (p_name p) (p_name p) (c_type (p_kind p)) "None" u).
Proof.
  intros num p u I V U. apply row_reads; [exact I|unfold type_name; rewrite V; destruct (p_kind p); reflexivity|destruct (p_kind p); reflexivity| |exact U].
  unfold value_str. rewrite V. apply c_plain. now apply unquoted_b.
Qed.
Print Assumptions C60_no_default_refuted.
Example no_default : row two (mkPar "E0" None KFloat None) = Ok "  {""E0"", &(_instrument_var._parameters.E0), instr_type_double, ""None"", """"},".
Proof. reflexivity. Qed.

(** A default value that is a name is not evaluated: the table has the characters of the name (double x = PI has the default text PI). *)
Theorem C60_named_default_refuted : forall num p d o s u, ident (p_name p) -> p_value p = Some (NVal (PStr s) d o) -> ident s -> unit_content p u ->
  exists r, row num p = Ok r /\ c_row r = Some (mkEntry (p_name p) (p_name p) (c_type (p_kind p)) s u).
Proof.
  intros num p d o s u I V Is U. apply row_reads; [exact I|unfold type_name; rewrite V; destruct (p_kind p); reflexivity|destruct (p_kind p); reflexivity| |exact U].
  unfold value_str. rewrite V. apply c_plain. now apply ident_unquoted in Is.
Qed.
Print Assumptions C60_named_default_refuted.
Example named_default : row two (mkPar "x" None KFloat (Some (NVal (PStr "PI") DFloat OId))) = Ok "  {""x"", &(_instrument_var._parameters.x), instr_type_double, ""PI"", """"},".
Proof. reflexivity. Qed.

(** A default value that is computed, as double x = 2 * PI, ends the translation of the whole instrument: operations have no C type name. *)
Theorem C60_computed_default_refuted : forall num l p, In p l ->
  (exists o d a b, p_value p = Some (NBin o d a b) \/ p_value p = Some (NExpr [NBin o d a b])) \/ (exists o d a, p_value p = Some (NUn o d a) \/ p_value p = Some (NExpr [NUn o d a])) -> table num l = Raise.
Proof.
  intros num l p P H. assert (T : type_name p = Raise) by (unfold type_name; destruct H as [(o & d & a & b & [->| ->])|(o & d & a & [->| ->])]; reflexivity).
  unfold table. assert (R : rows num l = Raise); [|now rewrite R]. induction l as [|x l IH]; [destruct P|]. destruct P as [->|P]; [cbn [rows]; unfold row; rewrite T; reflexivity|]. cbn [rows]. rewrite (IH P).
  unfold row. destruct (type_name x) eqn:E; try reflexivity. unfold type_name in E. destruct (p_value x) as [[]|]; try discriminate. destruct l0 as [|[] []]; discriminate.
Qed.
Print Assumptions C60_computed_default_refuted.
Example computed_default : table two [mkPar "x" None KFloat (Some (NExpr [NBin BMul DFloat [NVal (PNum (Z2Qc 2)) DInt OValue] [NVal (PStr "PI") DUndef OId]]))] = Raise.
Proof. reflexivity. Qed.

(** A unit that contains a quote but is not one literal is not protected: with the unit a quote alone (inches), or with one inside, the row is no C.  The code that means to escape a lone quote replaces it by itself. *)
Theorem C60_quote_in_unit_refuted : forall num p v a b, ident (p_name p) -> type_name p = Ok (c_type (p_kind p)) -> content (value_str num p) v ->
  (p_unit p = Some """" \/ p_unit p = Some (a ++ String """" b)%string /\ a <> "" /\ unquoted a /\ startswith "}," b = false) -> exists r, row num p = Ok r /\ c_row r = None.
Proof.
  intros num p v a b I T V U. unfold row. rewrite T. cbn [rbind]. eexists. split; [reflexivity|]. apply ident_unquoted in I as [I J].
  unfold c_row. rewrite expect_app. cbn [bind]. rewrite name_literal by exact I. cbn [bind].
  rewrite (expect_app ", &(_instrument_var._parameters."). cbn [bind]. set (t := c_type (p_kind p)). assert (C : has_char "," t = false) by (unfold t; destruct (p_kind p); reflexivity).
  match goal with |- context [split_once ")" ?x] => assert (E : split_once ")" x = Some (p_name p, (", " ++ t ++ ", " ++ nps (Some (value_str num p)) ++ ", " ++ nps (p_unit p) ++ "},")%string)) by (apply split_once_some; split; [reflexivity|exact J]) end.
  rewrite E. cbn [bind]. rewrite (expect_app ", "). cbn [bind].
  match goal with |- context [split_once "," ?x] => assert (E2 : split_once "," x = Some (t, (" " ++ nps (Some (value_str num p)) ++ ", " ++ nps (p_unit p) ++ "},")%string)) by (apply split_once_some; split; [reflexivity|exact C]) end.
  rewrite E2. cbn [bind]. rewrite (expect_app " "). cbn [bind]. rewrite (nps_content _ _ V). cbn [bind]. rewrite (expect_app ", "). cbn [bind].
  destruct U as [->|(-> & Na & Ua & S)]; [reflexivity|].
  assert (N : nps (Some (a ++ String """" b)%string) = (dq ++ (a ++ String """" b) ++ dq)%string).
  { unfold nps. destruct a as [|c a]; [congruence|]. assert (Q : Ascii.eqb c """" = false) by (specialize (Ua """"%char ltac:(now left)); cbn [has_char] in Ua; now apply orb_false_iff in Ua).
    assert (X : (String c a ++ String """" b)%string =?s dq = false) by (apply String.eqb_neq; intro H; unfold dq in H; cbn in H; injection H as -> _; discriminate). rewrite X. cbn [append first_is]. change dquote with """"%char at 1. rewrite Q. rewrite andb_false_r. reflexivity. }
  rewrite N. rewrite !string_app_assoc. change (c_literal (dq ++ a ++ ?x)) with (c_chars (a ++ x)). cbn [append]. rewrite unquoted_chars by exact Ua. cbn [bind].
  assert (K : expect "}," (b ++ dq ++ "},") = None).
  { destruct b as [|x b]; [reflexivity|]. cbn [append expect]. cbn [startswith] in S. destruct (Ascii.eqb "}" x) eqn:X; [|reflexivity]. cbn [andb] in S. destruct b as [|y b]; [reflexivity|]. cbn [append startswith] in *. now destruct (Ascii.eqb "," y). }
  change (String dquote "},") with (dq ++ "},")%string. rewrite K. reflexivity.
Qed.
Print Assumptions C60_quote_in_unit_refuted.
Example quote_in_unit : row two (mkPar "d" (Some """") KFloat (Some (NVal (PNum (Z2Qc 5)) DFloat OValue))) = Ok "  {""d"", &(_instrument_var._parameters.d), instr_type_double, ""5"", ""},".
Proof. vm_compute. reflexivity. Qed.

(** A text literal with a prefix (u8, u, U, L), which the grammar accepts, gets a second pair of quotes around it, and the row is no C. *)
Theorem C60_prefix_refuted : forall num p d o x b, ident (p_name p) -> In x ["u8"; "u"; "U"; "L"] -> startswith ", " b = false -> p_value p = Some (NVal (PStr (x ++ String """" (b ++ """"))) d o) ->
  exists r, row num p = Ok r /\ c_row r = None.
Proof.
  intros num p d o x b I X S V. unfold row. assert (T : type_name p = Ok (c_type (p_kind p))) by (unfold type_name; rewrite V; destruct (p_kind p); reflexivity). rewrite T. cbn [rbind]. eexists. split; [reflexivity|].
  apply ident_unquoted in I as [I J]. unfold c_row. rewrite expect_app. cbn [bind]. rewrite name_literal by exact I. cbn [bind].
  rewrite (expect_app ", &(_instrument_var._parameters."). cbn [bind]. set (t := c_type (p_kind p)). assert (C : has_char "," t = false) by (unfold t; destruct (p_kind p); reflexivity).
  match goal with |- context [split_once ")" ?x] => assert (E : split_once ")" x = Some (p_name p, (", " ++ t ++ ", " ++ nps (Some (value_str num p)) ++ ", " ++ nps (p_unit p) ++ "},")%string)) by (apply split_once_some; split; [reflexivity|exact J]) end.
  rewrite E. cbn [bind]. rewrite (expect_app ", "). cbn [bind].
  match goal with |- context [split_once "," ?x] => assert (E2 : split_once "," x = Some (t, (" " ++ nps (Some (value_str num p)) ++ ", " ++ nps (p_unit p) ++ "},")%string)) by (apply split_once_some; split; [reflexivity|exact C]) end.
  rewrite E2. cbn [bind]. rewrite (expect_app " "). cbn [bind]. unfold value_str. rewrite V. cbn [show].
  assert (N : forall y, c_literal (nps (Some (x ++ String """" (b ++ """"))%string) ++ y) = Some (x, ((b ++ """") ++ dq ++ y)%string)).
  { intro y. assert (Nx : nps (Some (x ++ String """" (b ++ """"))%string) = (dq ++ (x ++ String """" (b ++ """")) ++ dq)%string) by (destruct X as [<-|[<-|[<-|[<-|[]]]]]; reflexivity).
    rewrite Nx, !string_app_assoc. destruct X as [<-|[<-|[<-|[<-|[]]]]]; cbn [append]; rewrite ?string_app_assoc; reflexivity. }
  rewrite N. cbn [bind].
  assert (K : forall y, expect ", " ((b ++ """") ++ y) = None).
  { intro y. destruct b as [|c b]; [reflexivity|]. cbn [append expect]. cbn [startswith] in S. destruct (Ascii.eqb "," c) eqn:Y; [|reflexivity]. cbn [andb] in S. destruct b as [|e b]; [reflexivity|]. cbn [append startswith] in *. now destruct (Ascii.eqb " " e). }
  now rewrite K.
Qed.
Print Assumptions C60_prefix_refuted.
Example prefix_literal : row two (mkPar "s" None KStr (Some (NVal (PStr "u8""abc""") DStr OValue))) = Ok "  {""s"", &(_instrument_var._parameters.s), instr_type_string, ""u8""abc"""", """"},".
Proof. vm_compute. reflexivity. Qed.
