(** C80: the HTML view of an instrument *)
From Coq Require Import List String Ascii Bool Arith ZArith QArith Qcanon Lia.
From Verif Require Import PyStr Expr Print Lexer ExprChars InstrModel InstrChars HtmlView.
From Verif Require InstanceText.
Import ListNotations.
Import InstanceText (ci, mkCi, c_name, c_type, c_params, c_removable, c_cpu, c_split, c_when, c_at, c_at_rel, c_rot, c_rot_rel, c_group, c_extend, c_jump, c_meta,
  newline, is_null).
Local Open Scope string_scope.
Local Open Scope list_scope.
Local Open Scope nat_scope.
Local Infix "+++" := String.append (right associativity, at level 60).

(** * What a browser shows
    A tag starts with a less-than sign before a letter, a slash, an exclamation or a question mark and goes to the next greater-than sign;
    of the character references those of five characters are known. *)
Definition opens (s : string) : bool :=
  match s with
  | String c _ => let n := nat_of_ascii c in ((65 <=? n) && (n <=? 90)) || ((97 <=? n) && (n <=? 122)) || (n =? 47) || (n =? 33) || (n =? 63)
  | EmptyString => false
  end.
Definition references : list (string * ascii) := [("&amp;", "&"%char); ("&lt;", "<"%char); ("&gt;", ">"%char); ("&quot;", """"%char); ("&#x27;", "'"%char)].
Definition reference (s : string) : option (string * ascii) := find (fun e => startswith (fst e) s) references.
(** [tag]: inside a tag; [k]: characters of a reference that are still to be passed over *)
Fixpoint shown (tag : bool) (k : nat) (s : string) : string :=
  match s with
  | EmptyString => ""
  | String c r =>
    match k with
    | S k' => shown tag k' r
    | O => if tag then shown (negb (Ascii.eqb c ">")) 0 r
           else if Ascii.eqb c "<" && opens r then shown true 0 r
           else match reference s with
                | Some (e, d) => String d (shown false (String.length e - 1) r)
                | None => String c (shown false 0 r)
                end
    end
  end.
Definition page (s : string) : string := shown false 0 s.
(** line breaks and blanks do not count *)
Definition white (c : ascii) : bool := Ascii.eqb c " " || Ascii.eqb c (ascii_of_nat 9) || breaks c.
Fixpoint dense (s : string) : string := match s with EmptyString => "" | String c r => if white c then dense r else String c (dense r) end.
(** text that means the same in HTML *)
Definition plain (s : string) : Prop := has_char "<" s = false /\ has_char "&" s = false.
Definition item (s : string) : Prop := plain s /\ s <> "".

(** * Facts *)
Lemma dense_app a b : dense (a +++ b) = dense a +++ dense b.
Proof. induction a as [|c a IH]; cbn; [reflexivity|]. destruct (white c); [exact IH|]. cbn. now rewrite IH. Qed.
Lemma dense_wrap s : dense (wrap s) = dense s.
Proof.
  induction s as [|c r IH]; [reflexivity|]. cbn [wrap]. destruct (breaks c) eqn:B.
  - assert (W : white c = true) by (unfold white; rewrite B; apply orb_true_r). cbn [dense]. rewrite W, dense_app, IH.
    destruct r as [|d r]; [reflexivity|]. destruct (_ && _); reflexivity.
  - cbn [dense]. now rewrite IH.
Qed.
(** what [h] shows, whatever follows, is [t] *)
Definition shows (h t : string) : Prop := forall x, dense (page (h +++ x)) = dense t +++ dense (page x).
Lemma shows_app h t h' t' : shows h t -> shows h' t' -> shows (h +++ h') (t +++ t').
Proof. intros A B x. rewrite string_app_assoc, A, B, dense_app, string_app_assoc. reflexivity. Qed.
Lemma shows_nil : shows "" "".
Proof. intro x. reflexivity. Qed.
Lemma shows_dense h t t' : shows h t -> dense t = dense t' -> shows h t'.
Proof. intros A E x. now rewrite A, E. Qed.
Lemma reference_other c r : Ascii.eqb c "&" = false -> reference (String c r) = None.
Proof.
  intro N. unfold reference, references. cbn [find fst startswith].
  assert (E : Ascii.eqb "&" c = false) by (rewrite Ascii.eqb_sym; exact N). now rewrite ?E.
Qed.
Lemma page_plain s x : plain s -> page (s +++ x) = s +++ page x.
Proof.
  intros [A B]. induction s as [|c s IH]; [reflexivity|]. cbn [has_char] in A, B. apply orb_false_iff in A as [A1 A2]. apply orb_false_iff in B as [B1 B2].
  cbn [String.append]. unfold page in *. cbn [shown]. rewrite A1, (reference_other c _ B1). cbn [andb]. now rewrite (IH A2 B2).
Qed.
Lemma shows_plain s : plain s -> shows s s.
Proof. intros P x. now rewrite (page_plain s x P), dense_app. Qed.
Lemma page_escape s x : page (escape s +++ x) = s +++ page x.
Proof.
  induction s as [|c s IH]; [reflexivity|]. cbn [escape String.append]. rewrite string_app_assoc. rewrite <- IH. unfold escape_char.
  destruct (Ascii.eqb_spec c "&") as [->|N1]; [reflexivity|]. destruct (Ascii.eqb_spec c "<") as [->|N2]; [reflexivity|].
  destruct (Ascii.eqb_spec c ">") as [->|N3]; [reflexivity|]. destruct (Ascii.eqb_spec c """") as [->|N4]; [reflexivity|].
  destruct (Ascii.eqb_spec c "'") as [->|N5]; [reflexivity|]. cbn [String.append]. unfold page. cbn [shown].
  rewrite (proj2 (Ascii.eqb_neq _ _) N2), (reference_other c) by now apply Ascii.eqb_neq. reflexivity.
Qed.
Lemma shows_escape s : shows (escape s) s.
Proof. intro x. now rewrite page_escape, dense_app. Qed.
Lemma in_tag u x : has_char ">" u = false -> shown true 0 (u +++ x) = shown true 0 x.
Proof.
  induction u as [|c u IH]; [reflexivity|]. cbn [has_char String.append shown]. intro H. apply orb_false_iff in H as [H1 H2]. rewrite H1. now apply IH.
Qed.
Ltac tag := intro x; reflexivity.

Section Facts.
Variable num : Qc -> string.
Variable uid : string -> string.
Hypothesis uid_ok : forall s, has_char ">" (uid s) = false.
Local Notation sh := (show num).

Lemma shows_bold w : plain w -> shows (h_bold w) w.
Proof.
  intro P. unfold h_bold. apply (shows_app "<b style=""font-size:small"">" "" (w +++ "</b>") w); [tag|].
  rewrite <- (string_app_nil_r w) at 2. apply shows_app; [now apply shows_plain|tag].
Qed.
Lemma shows_hide s t : shows s t -> shows (h_hide uid s) t.
Proof.
  intro H. unfold h_hide. destruct (s =?s ""); [exact H|].
  assert (A : forall k, shows ("<span class=""hider"" data-id=""g-" +++ uid k +++ """>") "").
  { intros k x. rewrite string_app_assoc. unfold page. cbn [String.append]. cbn. rewrite string_app_assoc, (in_tag (uid k)) by apply uid_ok. reflexivity. }
  assert (B : forall k, shows ("<span class=""hidden"" id=""g-" +++ uid k +++ """>") "").
  { intros k x. rewrite string_app_assoc. unfold page. cbn [String.append]. cbn. rewrite string_app_assoc, (in_tag (uid k)) by apply uid_ok. reflexivity. }
  assert (C : shows ("</span>" +++ "</span>") "") by tag.
  pose proof (shows_app _ _ _ _ (A s) (shows_app _ _ _ _ (B s) (shows_app _ _ _ _ H C))) as R. rewrite string_app_nil_r in R. cbn [String.append] in R |- *.
  rewrite !string_app_assoc in R. exact R.
Qed.
Lemma tag_b : shows "<b>" "". Proof. tag. Qed.
Lemma tag_be : shows "</b> " " ". Proof. tag. Qed.
Lemma tag_br : shows "<br>" "". Proof. tag. Qed.
Lemma tag_pre : shows "<pre>" "". Proof. tag. Qed.
Lemma tag_pree : shows "</pre><br>" "". Proof. tag. Qed.
Lemma tag_var : shows "<var>" "". Proof. tag. Qed.
Lemma tag_vare : shows "</var>" "". Proof. tag. Qed.
Lemma tag_code : shows "<code>" "". Proof. tag. Qed.
Lemma tag_codee : shows "</code>" "". Proof. tag. Qed.
Lemma tag_details : shows "<details><summary>" "". Proof. tag. Qed.
Lemma tag_summarye : shows "</summary>" "". Proof. tag. Qed.
Lemma tag_detailse : shows "</details>" "". Proof. tag. Qed.
Lemma tag_ul : shows "<ul> TRACE" " TRACE". Proof. tag. Qed.
Lemma tag_ule : shows "</ul> END" " END". Proof. tag. Qed.
Lemma tag_li : shows "<li>" "". Proof. tag. Qed.
Lemma tag_lie : shows "</li>" "". Proof. tag. Qed.
Lemma tag_ae : shows "</a>" "". Proof. tag. Qed.
Ltac closed s := match s with EmptyString => idtac | String _ ?r => closed r end.
Ltac dn := unfold newline; rewrite ?dense_app; repeat match goal with |- context [dense ?s] => closed s; let v := eval vm_compute in (dense s) in change (dense s) with v end;
  cbn [String.append]; rewrite ?string_app_nil_r; try reflexivity.
Ltac lit := apply shows_plain; split; reflexivity.
Ltac piece := first [exact tag_b|exact tag_be|exact tag_br|exact tag_pre|exact tag_pree|exact tag_var|exact tag_vare|exact tag_code|exact tag_codee|exact tag_details|exact tag_summarye
  |exact tag_detailse|exact tag_ul|exact tag_ule|exact tag_li|exact tag_lie|exact tag_ae|lit|apply shows_escape|apply shows_bold; split; reflexivity|apply shows_plain; assumption].
Ltac pieces := repeat (apply shows_app; [solve [piece]|]); try solve [piece].

Lemma shows_join sep hs ts : plain sep -> Forall2 shows hs ts -> shows (join sep hs) (join sep ts).
Proof.
  intros P. induction 1 as [|h t hs ts H F IH]; [apply shows_nil|]. destruct F as [|h' t' hs ts H' F]; [exact H|].
  change (join sep (h :: h' :: hs)) with (h +++ sep +++ join sep (h' :: hs)). change (join sep (t :: t' :: ts)) with (t +++ sep +++ join sep (t' :: ts)).
  apply shows_app; [exact H|]. apply shows_app; [now apply shows_plain|exact IH].
Qed.
Lemma shows_map {A} (f g : A -> string) l : (forall a, In a l -> shows (f a) (g a)) -> Forall2 shows (map f l) (map g l).
Proof. induction l as [|a l IH]; intro H; constructor; [apply H; now left|apply IH; intros; apply H; now right]. Qed.
Lemma shows_concat hs ts : Forall2 shows hs ts -> shows (String.concat "" hs) (String.concat "" ts).
Proof.
  induction 1 as [|h t hs ts H F IH]; [apply shows_nil|]. destruct F as [|h' t' hs ts H' F]; [exact H|].
  change (String.concat "" (h :: h' :: hs)) with (h +++ "" +++ String.concat "" (h' :: hs)). change (String.concat "" (t :: t' :: ts)) with (t +++ "" +++ String.concat "" (t' :: ts)).
  apply shows_app; [exact H|]. apply shows_app; [apply shows_nil|exact IH].
Qed.
Lemma or_none_id l : Forall (fun t => t <> "") l -> map or_none l = l.
Proof.
  induction 1 as [|t l H F IH]; [reflexivity|]. cbn. rewrite IH. unfold or_none. destruct (String.eqb_spec t ""); [contradiction|reflexivity].
Qed.
Lemma shows_line name hs ts : plain name -> Forall2 shows hs ts -> Forall (fun t => t <> "") ts -> shows (h_line name hs) (line name ts).
Proof.
  intros P F N. unfold h_line, line. eapply shows_dense.
  - pieces. apply shows_app; [|piece]. apply shows_join; [split; reflexivity|exact F].
  - rewrite dense_wrap, (or_none_id ts N). dn.
Qed.
Lemma items_shows l : Forall item l -> Forall2 shows l l /\ Forall (fun t => t <> "") l.
Proof. induction 1 as [|t l [P N] F [IH1 IH2]]; split; constructor; auto. now apply shows_plain. Qed.
Lemma plain_app a b : plain a -> plain b -> plain (a +++ b).
Proof. intros [A B] [C D]. split; rewrite has_char_app; [now rewrite A, C|now rewrite B, D]. Qed.
Lemma plain_join sep l : plain sep -> Forall plain l -> plain (join sep l).
Proof.
  intros P. induction 1 as [|a l H F IH]; [split; reflexivity|]. destruct l as [|b l]; [exact H|].
  change (join sep (a :: b :: l)) with (a +++ sep +++ join sep (b :: l)). apply plain_app; [exact H|]. now apply plain_app.
Qed.
Lemma plain_newline : plain newline. Proof. split; reflexivity. Qed.
Lemma shows_blocks name l : plain name -> Forall plain l -> shows (h_blocks uid name l) (blocks name l).
Proof.
  intros P F. unfold h_blocks, blocks. destruct l as [|a l]; [apply shows_nil|]. set (c := join newline (a :: l)).
  assert (C : plain c) by (apply plain_join; [apply plain_newline|exact F]). unfold h_block, block. rewrite !string_app_assoc. eapply shows_dense.
  - apply shows_app; [now apply shows_bold|]. pieces. apply shows_app; [|pieces; lit]. apply shows_hide. pieces.
  - dn.
Qed.
Lemma shows_param p : plain (fst p) -> shows (h_param num p) (param_text num p).
Proof.
  intro P. unfold h_param, param_text, h_parameter, h_value. rewrite !string_app_assoc. eapply shows_dense; [pieces|]. dn.
Qed.
Lemma shows_clause kw t r b : plain kw -> plain (triple_text num t) -> (forall n, r = Some n -> plain n) -> shows (h_clause num kw t r b) (clause_text num kw t r b).
Proof.
  intros K P R. unfold h_clause, clause_text. destruct (_ && _ && _); [apply shows_nil|]. unfold ref_text. apply shows_app; [now apply shows_bold|].
  pieces. destruct r as [n|]; [|piece]. specialize (R n eq_refl). change ("RELATIVE " ++ n)%string with ("RELATIVE" +++ " " +++ n). pieces.
Qed.
Lemma shows_jump j : item (jump_name j) -> item (sh (j_cond j)) -> shows (h_jump num j) (jump_text num j).
Proof.
  intros A B. unfold h_jump, jump_text. fold (jump_name j). apply shows_app; [|lit].
  assert (F : Forall item [jump_name j; if j_iter j then "ITERATE" else "WHEN"; sh (j_cond j)]).
  { repeat constructor; try (apply A); try (apply B); destruct (j_iter j); try reflexivity; discriminate. }
  apply items_shows in F as [F G]. apply shows_line; [split; reflexivity|exact F|exact G].
Qed.
Lemma shows_par p : plain (p_name p) -> (forall u, p_unit p = Some u -> plain u) -> shows (h_par num p) (par_text num p).
Proof.
  intros P U. unfold h_par, par_text, h_parameter, h_value. rewrite !string_app_assoc. eapply shows_dense.
  - apply shows_app; [piece|]. apply shows_app; [apply (shows_plain (match p_kind p with KStr => "string " | KInt => "int " | KFloat => "" end)); destruct (p_kind p); split; reflexivity|]. pieces. apply shows_app.
    + instantiate (1 := match p_unit p with Some u => "/" +++ u | None => "" end). destruct (p_unit p) as [u|]; [|apply shows_nil]. specialize (U u eq_refl). pieces.
    + instantiate (1 := match p_value p with Some e => if constant e then "=" +++ sh e else "" | None => "" end). destruct (p_value p) as [e|]; [|apply shows_nil]. destruct (constant e); [|apply shows_nil].
      eapply shows_dense; [pieces|]. dn.
  - dn.
Qed.

(** the parts of an instance and of an instrument that are written as they are mean the same in HTML; there is no metadata.  Nothing is
    asked of the values of parameters and of WHEN expressions. *)
Definition plain_inst (c : ci) : Prop :=
  plain (c_name c) /\ plain (c_type c) /\ Forall (fun p => plain (fst p)) (c_params c) /\
  plain (triple_text num (c_at c)) /\ (forall n, c_at_rel c = Some n -> plain n) /\ plain (triple_text num (c_rot c)) /\ (forall n, c_rot_rel c = Some n -> plain n) /\
  (forall g, c_group c = Some g -> item g) /\ Forall plain (c_extend c) /\ Forall (fun j => item (jump_name j) /\ item (sh (j_cond j))) (c_jump c) /\ c_meta c = [].
Definition plain_instr (i : ins) : Prop :=
  plain (i_name i) /\ Forall (fun p => plain (p_name p) /\ forall u, p_unit p = Some u -> plain u) (i_pars i) /\ i_meta i = [] /\ Forall item (i_flags i) /\
  Forall plain (i_declare i) /\ Forall plain (i_user i) /\ Forall plain (i_init i) /\ Forall plain_inst (i_comps i) /\ Forall plain (i_save i) /\ Forall plain (i_final i).
Definition plain_registry (r : string * list (string * string * bool)) : Prop :=
  plain (fst r) /\ Forall (fun x => let '(k, v, u) := x in plain k /\ (u = true -> plain v /\ has_char ">" v = false)) (snd r).

Lemma shows_inst c : plain_inst c -> shows (h_inst num uid c) (inst_text num c).
Proof.
  intros (N & T & P & A & AR & B & BR & G & E & J & M). unfold h_inst, inst_text. apply shows_app; [|apply shows_app].
  - destruct (c_cpu c); [|apply shows_nil]. apply shows_line; [split; reflexivity|constructor|constructor].
  - unfold h_head, head_text. change ("COMPONENT " ++ ?x)%string with ("COMPONENT" +++ " " +++ x).
    eapply shows_dense; [|shelve]. apply shows_app; [piece|]. pieces.
    apply shows_app; [apply shows_hide, shows_join; [split; reflexivity|]; apply (shows_map (h_param num) (param_text num)); intros p Hp; rewrite Forall_forall in P; apply shows_param, P, Hp|].
    pieces. apply shows_app.
    { instantiate (1 := match c_when c with Some e => "WHEN " +++ sh e +++ " " | None => "" end). destruct (c_when c) as [e|]; [|apply shows_nil].
      change ("WHEN " +++ sh e +++ " ") with ("WHEN" +++ " " +++ sh e +++ " "). pieces. }
    apply shows_app; [apply shows_clause; [split; reflexivity|exact A|exact AR]|]. pieces. apply shows_app; [apply shows_clause; [split; reflexivity|exact B|exact BR]|piece].
    Unshelve. dn.
  - unfold h_tail, tail_text. rewrite M. cbn [map String.concat]. rewrite !string_app_nil_r. apply shows_app; [|apply shows_app].
    + destruct (c_group c) as [g|]; [|apply shows_nil]. destruct (items_shows [g] ltac:(constructor; [now apply G|constructor])) as [X Y].
      apply shows_app; [apply shows_line; [split; reflexivity|exact X|exact Y]|lit].
    + apply shows_blocks; [split; reflexivity|exact E].
    + apply shows_concat, shows_map. intros j Hj. rewrite Forall_forall in J. destruct (J j Hj) as [J1 J2]. now apply shows_jump.
Qed.
Lemma page_end h t : shows h t -> dense (page h) = dense t.
Proof. intro H. specialize (H ""). rewrite string_app_nil_r in H. rewrite H. cbn. now rewrite string_app_nil_r. Qed.
Lemma shows_registry r : plain_registry r -> shows (h_registry r) (t_registry r +++ newline).
Proof.
  intros [A B]. unfold h_registry, t_registry. apply shows_app; [|lit]. apply shows_line; [exact A| |constructor; [discriminate|constructor]]. constructor; [|constructor].
  pieces. apply shows_app; [|piece]. apply shows_join; [split; reflexivity|].
  apply (shows_map (fun x => let '(k, v, u) := x in (h_parameter k ++ "=" ++ if u : bool then h_link v else h_value v)%string) (fun x => let '(k, v, _) := x in (k ++ "=" ++ v)%string)).
  intros [[k v] u] I. rewrite Forall_forall in B. specialize (B _ I) as (B1 & B2). unfold h_parameter, h_value, h_link. rewrite !string_app_assoc. eapply shows_dense.
  - pieces. instantiate (1 := v). destruct u.
    + destruct (B2 eq_refl) as [V W]. assert (X : shows ("<a href=""" +++ v +++ """>") "").
      { intros x. rewrite !string_app_assoc. unfold page. cbn. rewrite (in_tag v) by exact W. reflexivity. }
      pose proof (shows_app _ _ _ _ X (shows_app _ _ _ _ (shows_plain v V) tag_ae)) as R. rewrite string_app_nil_r in R. cbn [String.append] in R |- *. rewrite !string_app_assoc in R. exact R.
    + eapply shows_dense; [pieces|dn].
  - dn.
Qed.

(** * Theorems *)
(** Leaving out blanks and line breaks, the page shows the text of the instrument, with its first comment as comment. *)
Theorem C80_page_shows_text_partial : forall source included names regs i, plain_instr i ->
  plain (match source with Some s => s | None => "" end) -> Forall plain included -> Forall item names -> Forall plain_registry regs ->
  dense (instr_text num (head_comment (i_name i) source included names (map t_registry regs)) i) =
  "/*" +++ dense (page (h_comment (i_name i) source included names regs)) +++ "*/" +++ dense (page (h_body num uid i)).
Proof.
  intros source included names regs i (N & P & M & F & D & U & I & C & S & E) So In Na Re.
  assert (H1 : dense (page (h_comment (i_name i) source included names regs)) = dense (head_comment (i_name i) source included names (map t_registry regs))).
  { apply page_end. unfold h_comment, head_comment. change ("Instrument " ++ ?x)%string with ("Instrument " +++ x).
    assert (O : forall s, plain s -> item (or_none s)) by (intros s Hs; unfold or_none; destruct (String.eqb_spec s ""); [repeat split; discriminate|split; assumption]).
    assert (L : forall n s, plain n -> item s -> shows (h_line n [s]) (line n [s])).
    { intros n s Hn Hs. destruct (items_shows [s] ltac:(constructor; [exact Hs|constructor])) as [X Y]. now apply shows_line. }
    eapply shows_dense; [|shelve]. pieces. apply shows_app; [apply L; [split; reflexivity|now apply O]|]. pieces.
    apply shows_app; [apply L; [split; reflexivity|destruct source; [now apply O|repeat split; discriminate]]|]. pieces.
    apply shows_app; [apply shows_line; [split; reflexivity| |]|].
    { apply (shows_map (fun s => ("""" ++ "%include " ++ s ++ """")%string) (fun s => String dquote ("%include " ++ s ++ String dquote ""))). intros s Hs. rewrite Forall_forall in In. apply shows_plain.
      change (plain ("""%include " +++ s +++ """")). apply plain_app; [split; reflexivity|]. apply plain_app; [now apply In|split; reflexivity]. }
    { apply Forall_forall. intros t Ht. apply in_map_iff in Ht as (s & <- & _). discriminate. }
    pieces. destruct (items_shows names Na) as [X Y]. apply shows_app; [apply shows_line; [split; reflexivity|exact X|exact Y]|]. pieces.
    apply shows_app; [|pieces]. apply shows_concat. apply (shows_map h_registry (fun r => t_registry r +++ newline)). intros r Hr. rewrite Forall_forall in Re. now apply shows_registry, Re.
    Unshelve. rewrite map_map. dn. }
  assert (H2 : dense (page (h_body num uid i)) = dense (line "DEFINE INSTRUMENT" [(i_name i ++ "(" ++ join ", " (map (par_text num) (i_pars i)) ++ ")")%string] ++ newline ++
    String.concat "" (map meta_text (i_meta i)) ++
    match i_flags i with [] => "" | l => quoted_line "DEPENDENCY " l ++ newline end ++
    blocks "DECLARE" (i_declare i) ++ blocks "USERVARS" (i_user i) ++ blocks "INITIALIZE" (i_init i) ++
    "TRACE" ++ newline ++ String.concat "" (map (fun c => (newline ++ inst_text num c ++ newline)%string) (i_comps i)) ++
    blocks "SAVE" (i_save i) ++ blocks "FINALLY" (i_final i) ++ "END" ++ newline)%string).
  { apply page_end. unfold h_body. rewrite M. cbn [map String.concat]. change ("" ++ ?x)%string with x.
    apply shows_app.
    { apply shows_line; [split; reflexivity| |constructor; [destruct (i_name i); discriminate|constructor]]. constructor; [|constructor]. pieces. apply shows_app; [|piece].
      apply shows_hide, shows_join; [split; reflexivity|]. apply shows_map. intros p Hp. rewrite Forall_forall in P. destruct (P p Hp). now apply shows_par. }
    pieces. apply shows_app.
    { destruct (i_flags i) as [|f fl]; [apply shows_nil|]. destruct (items_shows (f :: fl) F) as [X Y]. apply shows_app; [|lit]. unfold h_quoted_line, quoted_line. rewrite (or_none_id _ Y).
      eapply shows_dense; [pieces; apply shows_app; [apply (shows_join " "); [split; reflexivity|exact X]|pieces]|]. rewrite dense_wrap. change (String dquote ?x) with ("""" +++ x). dn. }
    apply shows_app; [apply shows_blocks; [split; reflexivity|exact D]|]. apply shows_app; [apply shows_blocks; [split; reflexivity|exact U]|]. apply shows_app; [apply shows_blocks; [split; reflexivity|exact I]|].
    eapply shows_dense; [|shelve]. pieces. apply shows_app.
    { apply shows_concat. apply (shows_map (fun c => ("<li>" ++ newline ++ h_inst num uid c ++ "</li>" ++ newline)%string) (fun c => (newline ++ inst_text num c ++ newline)%string)).
      intros c Hc. rewrite Forall_forall in C. eapply shows_dense; [pieces; apply shows_app; [now apply shows_inst, C|pieces]|dn]. }
    apply shows_app; [apply shows_blocks; [split; reflexivity|exact S]|]. apply shows_app; [apply shows_blocks; [split; reflexivity|exact E]|]. pieces.
    Unshelve. dn. }
  rewrite H1, H2. unfold instr_text. rewrite !dense_app. dn.
Qed.


(** a value is shown as it is, whatever its characters and whatever follows *)
Theorem C80_value_shown : forall v x, page (h_value v +++ x) = v +++ page x.
Proof.
  intros v x. unfold h_value. rewrite !string_app_assoc. unfold page at 1. cbn. change (shown false 0 ?s) with (page s). rewrite page_escape. f_equal. unfold page. reflexivity.
Qed.

(** The statement without the conditions on the C code is false: of a block with a less-than sign before a letter the page shows the text before it,
    and nothing of the block from there to the next greater-than sign. *)
Theorem C80_block_refuted : forall name a b d, plain name -> plain a -> opens b = true -> has_char ">" b = false -> plain d ->
  dense (page (h_block uid name (a +++ "<" +++ b +++ ">" +++ d))) = dense (name +++ "%{" +++ a +++ d +++ "%}") /\
  dense (page (h_block uid name (a +++ "<" +++ b))) = dense (name +++ "%{" +++ a +++ "%}").
Proof.
  intros name a b d N A O B D.
  assert (O' : forall y, opens (b +++ y) = true) by (intro y; destruct b; [discriminate O|exact O]).
  assert (T : shows ("<" +++ b +++ ">") "").
  { intro y. rewrite !string_app_assoc. unfold page. cbn [String.append shown]. rewrite O'. cbn [Ascii.eqb Bool.eqb andb]. rewrite (in_tag b) by exact B. reflexivity. }
  assert (T' : shows ("<" +++ b +++ "</pre><br>") "").
  { intro y. rewrite !string_app_assoc. unfold page. change ("<" +++ ?x) with (String "<" x). cbn [shown]. rewrite O'. cbn [Ascii.eqb Bool.eqb andb].
    rewrite (in_tag b) by exact B. reflexivity. }
  split; (eapply page_end; unfold h_block; eapply shows_dense; [apply shows_app; [now apply shows_bold|]; pieces; apply shows_app; [apply shows_hide|pieces]|]).
  - rewrite !string_app_assoc. apply shows_app; [piece|]. apply shows_app; [now apply shows_plain|]. rewrite <- (string_app_assoc b), <- (string_app_assoc "<"). apply shows_app; [exact T|]. pieces.
  - dn; rewrite ?string_app_assoc; reflexivity.
  - rewrite !string_app_assoc. apply shows_app; [piece|]. apply shows_app; [now apply shows_plain|]. exact T'.
  - dn; rewrite ?string_app_assoc; reflexivity.
Qed.

(** The statement with metadata is false: each group of metadata is shown with one quote more than its text has. *)
Theorem C80_metadata_quote_refuted : forall mime n v, plain mime -> plain n -> plain v ->
  dense (meta_text (mime, n, v)) = dense ("METADATA""" +++ mime +++ """" +++ n +++ "%{" +++ v +++ "%}") /\
  dense (page (h_meta (mime, n, v))) = dense ("METADATA""" +++ mime +++ """""" +++ n +++ "%{" +++ v +++ "%}") /\
  dense (page (h_meta (mime, n, v))) <> dense (meta_text (mime, n, v)).
Proof.
  intros mime n v M N V.
  assert (E1 : dense (meta_text (mime, n, v)) = dense ("METADATA""" +++ mime +++ """" +++ n +++ "%{" +++ v +++ "%}")).
  { transitivity (dense ("METADATA """ +++ mime +++ """ " +++ n +++ " " +++ newline +++ "%{" +++ newline +++ v +++ newline +++ "%}" +++ newline +++ newline)); [reflexivity|]. dn. }
  assert (E2 : dense (page (h_meta (mime, n, v))) = dense ("METADATA""" +++ mime +++ """""" +++ n +++ "%{" +++ v +++ "%}")).
  { apply page_end. unfold h_meta. change ("</b> <code>" ++ ?x)%string with ("</b> " +++ "<code>" +++ x). change (" <var>" ++ ?x)%string with (" " +++ "<var>" +++ x).
    change ("</var> %{<pre>" ++ ?x)%string with ("</var>" +++ " %{" +++ "<pre>" +++ x).
    assert (R : shows "</pre>%}" "%}") by tag. eapply shows_dense; [pieces; apply shows_app; [exact R|pieces]|dn]. }
  split; [exact E1|]. split; [exact E2|]. rewrite E1, E2. intro H. apply (f_equal String.length) in H. rewrite !dense_app, !string_app_length in H.
  change (String.length (dense """""")) with 2 in H. change (String.length (dense """")) with 1 in H. lia.
Qed.
End Facts.
Print Assumptions C80_page_shows_text_partial.
Print Assumptions C80_value_shown.
Print Assumptions C80_block_refuted.
Print Assumptions C80_metadata_quote_refuted.

(** * Examples *)
Definition small_num (q : Qc) : string := if Qc_eqb q (Z2Qc 2) then "2" else "0".
Definition id_of (s : string) : node := NExpr [NVal (PStr s) DFloat OId].
Definition zero : node := NExpr [NVal (PNum (Z2Qc 0)) DInt OValue].
Definition two : node := NExpr [NVal (PNum (Z2Qc 2)) DInt OValue].
Definition less : node := NExpr [NBin BLt DInt [NVal (PStr "a") DFloat OId] [NVal (PStr "b") DFloat OId]].
Definition example_c (block : string) : ci :=
  mkCi "src" "Source" [("E0", less); ("file", NVal (PStr """a&b""") DStr OValue)] false true None (Some less) (zero, zero, two) None (zero, two, zero) (Some "PREVIOUS") (Some "g")
    [block] [mkJump "src" 0%Z false (id_of "E")] [].
Definition example_i (block : string) : ins :=
  mkIns "demo" [mkPar "E" (Some """meV""") KFloat (Some two); mkPar "n" None KInt None] [] ["-lm"; "-O2"] ["double x;"] [] ["x = 2;"] [example_c block] [] ["done();"].
Definition example_r : string * list (string * string * bool) := ("RemoteRegistry", [("name", "mcstas", false); ("url", "https://a.b/c", true)]).
Example C80_page_shows_text_partial_example : plain_instr small_num (example_i "x += 1;") /\ plain "demo.instr" /\ Forall plain ["other.instr"] /\ Forall item ["mcstas"] /\ Forall plain_registry [example_r] /\
  dense (page (h_inst small_num (fun _ => "1") (example_c "x += 1;"))) =
  "CPUCOMPONENTsrc=Source(E0=a<b,file=""a&b"")WHENa<bAT(0,0,2)ABSOLUTEROTATED(0,2,0)RELATIVEPREVIOUSGROUPgEXTEND%{x+=1;%}JUMPsrcWHENE".
Proof.
  assert (I : forall g, Some "g" = Some g -> item g) by (intros g [= <-]; repeat split; discriminate).
  split; [|vm_compute; repeat split; try (repeat constructor; discriminate)].
  - repeat (split; [solve [repeat (constructor; try (intros ? [= <-])); try discriminate]|]). repeat constructor.
Qed.
Example C80_value_shown_example : page (h_value "a<b && c[""x""]>'d'" +++ "; &lt;") = "a<b && c[""x""]>'d'; <".
Proof. vm_compute. reflexivity. Qed.
(** the loop of C code, and the instance of before with it: the end of the block and the JUMP line stand, the loop does not *)
Example C80_block_refuted_example : plain "EXTEND" /\ plain "for(i=0;i" /\ opens "n;i++) s+=i;" = true /\ has_char ">" "n;i++) s+=i;" = false /\ plain " 0) t;" /\
  dense (page (h_block (fun _ => "1") "EXTEND" ("for(i=0;i" +++ "<" +++ "n;i++) s+=i;"))) = "EXTEND%{for(i=0;i%}" /\
  dense (inst_text small_num (example_c "for(i=0;i<n;i++) s+=i;")) <> dense (page (h_inst small_num (fun _ => "1") (example_c "for(i=0;i<n;i++) s+=i;"))).
Proof. vm_compute. repeat split; discriminate. Qed.
(** the condition of a JUMP and the place of an instance are written without escape, too *)
Example C80_jump_refuted_example : let j := mkJump "src" 0%Z false less in
  dense (jump_text small_num j) = "JUMPsrcWHENa<b" /\ dense (page (h_jump small_num j)) = "JUMPsrcWHENa" /\
  dense (page (h_clause small_num "AT" (less, zero, zero) None true +++ " next")) <> dense (clause_text small_num "AT" (less, zero, zero) None true +++ " next").
Proof. vm_compute. repeat split; discriminate. Qed.
Example C80_metadata_quote_refuted_example : plain "text/plain" /\ plain "note" /\ plain "hello" /\
  dense (page (h_meta ("text/plain", "note", "hello"))) = "METADATA""text/plain""""note%{hello%}".
Proof. vm_compute. repeat split. Qed.
