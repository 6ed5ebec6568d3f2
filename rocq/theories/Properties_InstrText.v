(** Properties C26, continued, and C58: the characters of written instances and instruments. *)
From Coq Require Import List String Ascii Bool NArith QArith Qcanon ZArith Arith Lia.
From Verif Require Import PyStr Expr ExprSem Print Signs Properties_Print Lexer ExprChars InstrModel InstrChars InstrCharsFacts.
From Verif Require InstanceText.
Import ListNotations.
Import InstanceText (ci, mkCi, c_name, c_type, c_params, c_removable, c_cpu, c_split, c_when, c_at, c_at_rel, c_rot, c_rot_rel, c_group, c_extend, c_jump, c_meta,
  newline, is_null, add_meta, m_name, requote, int0, blank).
Local Open Scope string_scope.
Local Open Scope list_scope.
Local Open Scope nat_scope.

(** * Specification: what has to be kept *)
(** [same_value n n']: the same value, for every interpretation of functions and every assignment to the names; [same_number]: if it is a number *)
Definition same_value (n n' : node) : Prop := forall IB IU env, calls IB IU -> den IB IU env false n' = den IB IU env false n.
Definition same_number (n n' : node) : Prop := forall IB IU env q, calls IB IU -> den IB IU env false n = Some [VN q] -> den IB IU env false n' = Some [VN q].
Definition all3 (P : node -> node -> Prop) (t t' : triple) : Prop := let '(x, y, z) := t in let '(x', y', z') := t' in P x x' /\ P y y' /\ P z z'.
Definition optional {A} (P : A -> A -> Prop) (a a' : option A) : Prop := match a, a' with Some x, Some y => P x y | None, None => True | _, _ => False end.
(** blocks of C: all in one, one after the other on lines of their own *)
Definition same_blocks (l l' : list string) : Prop :=
  match l with [] => l' = [] | _ => exists b, l' = [b] /\ b = (newline ++ newline ++ join newline l ++ newline)%string end.
Definition same_meta (m m' : string * string * string) : Prop := let '(t, n, v) := m in let '(t', n', v') := m' in t' = t /\ n' = n /\ v' = (newline ++ v ++ newline)%string.
Definition same_param (p p' : string * node) : Prop := fst p' = fst p /\ same_value (snd p) (snd p') /\ (snd p = null_node -> snd p' = null_node).
Definition same_jump (j j' : jump) : Prop := j_target j' = j_target j /\ j_rel j' = j_rel j /\ j_iter j' = j_iter j /\ same_value (j_cond j) (j_cond j').
Definition same_instance (c c' : ci) : Prop :=
  c_name c' = c_name c /\ c_type c' = c_type c /\ Forall2 same_param (c_params c) (c_params c') /\ c_removable c' = c_removable c /\ c_cpu c' = c_cpu c /\ c_split c' = c_split c
  /\ optional same_value (c_when c) (c_when c') /\ all3 same_value (c_at c) (c_at c') /\ c_at_rel c' = c_at_rel c /\ all3 same_number (c_rot c) (c_rot c') /\ c_rot_rel c' = c_rot_rel c
  /\ c_group c' = c_group c /\ same_blocks (c_extend c) (c_extend c') /\ Forall2 same_jump (c_jump c) (c_jump c') /\ Forall2 same_meta (c_meta c) (c_meta c').
Definition same_par (p p' : par) : Prop := p_name p' = p_name p /\ p_unit p' = p_unit p /\ p_kind p' = p_kind p /\ optional same_value (p_value p) (p_value p').
Definition same_instrument (i i' : ins) : Prop :=
  i_name i' = i_name i /\ Forall2 same_par (i_pars i) (i_pars i') /\ Forall2 same_meta (i_meta i) (i_meta i')
  /\ join " " (i_flags i') = join " " (i_flags i) /\ same_blocks (i_declare i) (i_declare i') /\ same_blocks (i_user i) (i_user i') /\ same_blocks (i_init i) (i_init i')
  /\ Forall2 same_instance (i_comps i) (i_comps i') /\ same_blocks (i_save i) (i_save i') /\ same_blocks (i_final i) (i_final i').

(** * Lemmas *)
Lemma closed_contains s : contains "%}" s = false -> closed s.
Proof.
  unfold closed. induction s as [|x s IH]; intro H; [reflexivity|]. destruct s as [|y s]; [reflexivity|]. rewrite until_step.
  assert (E : contains "%}" (String x (String y s)) = startswith "%}" (String x (String y s)) || contains "%}" (String y s)) by reflexivity. rewrite E in H. apply orb_false_elim in H as [H1 H2].
  cbn [startswith prefix] in H1. rewrite (IH H2). unfold startswith, prefix in H1. destruct (Ascii.eqb x "%") eqn:X; [|reflexivity]. apply Ascii.eqb_eq in X. subst. destruct (Ascii.eqb y "}") eqn:Y; [|reflexivity].
  apply Ascii.eqb_eq in Y. subst. destruct s; discriminate.
Qed.
Lemma no_end_contains s : contains "*/" s = false -> no_end s.
Proof.
  unfold no_end. induction s as [|x s IH]; intro H; [reflexivity|]. destruct s as [|y s]; [reflexivity|]. rewrite until_step.
  assert (E : contains "*/" (String x (String y s)) = startswith "*/" (String x (String y s)) || contains "*/" (String y s)) by reflexivity. rewrite E in H. apply orb_false_elim in H as [H1 H2].
  rewrite (IH H2). unfold startswith, prefix in H1. destruct (Ascii.eqb x "*") eqn:X; [|reflexivity]. apply Ascii.eqb_eq in X. subst. destruct (Ascii.eqb y "/") eqn:Y; [|reflexivity].
  apply Ascii.eqb_eq in Y. subst. destruct s; discriminate.
Qed.
Lemma forall2_map {A} (P : A -> A -> Prop) (Q : A -> Prop) f l : Forall Q l -> (forall x, Q x -> P x (f x)) -> Forall2 P l (map f l).
Proof. intros H F. induction H; cbn; constructor; auto. Qed.
Lemma same_blocks_pad l : same_blocks l (padded_block l).
Proof. destruct l; [reflexivity|]. eexists. split; reflexivity. Qed.
Lemma same_meta_pad m : same_meta m (pad m). Proof. destruct m as [[? ?] ?]. repeat split. Qed.
Lemma same_again num e : good num e -> same_value e (again num e). Proof. exact (again_agrees num e). Qed.
Lemma same_refl e : same_value e e. Proof. intros IB IU env _. reflexivity. Qed.
Lemma same_again3 num t : good3 num t -> all3 same_value t (again3 num t).
Proof. destruct t as [[x y] z]. intros (X & Y & Z). split; [|split]; now apply same_again. Qed.
Lemma number_again num e : good num e -> same_number e (again num e).
Proof. intros G IB IU env q C D. now rewrite (same_again num e G IB IU env C). Qed.
Lemma number_again3 num t : good3 num t -> all3 same_number t (again3 num t).
Proof. destruct t as [[x y] z]. intros (X & Y & Z). split; [|split]; now apply number_again. Qed.
Lemma number_null t : is_null t = true -> all3 same_number t (int0, int0, int0).
Proof.
  destruct t as [[x y] z]. unfold is_null, InstanceText.null1. intro H. apply andb_prop in H as [H Hz]. apply andb_prop in H as [Hx Hy].
  assert (N : forall n, (match is_zero n with Ok b => b | _ => false end) = true -> same_number n int0).
  { intros n E IB IU env q C D. destruct (is_zero n) as [[]| |] eqn:Z; try discriminate. now rewrite (is_zero_sound IB IU env n Z q D). }
  split; [|split]; now apply N.
Qed.
Lemma same_reread num c : fit num c -> same_instance c (reread num c).
Proof.
  intros (N & T & P & Rm & Sp & W & A & Ar & R & Rr & Rot & G & E & Kp & J & M & D).
  split; [reflexivity|]. split; [reflexivity|]. split.
  { apply (forall2_map _ (good_param num)); [exact P|]. intros p [_ V]. split; [reflexivity|]. unfold again_param. cbn [snd]. destruct V as [V| ->].
    - pose proof (etok_no_key num (snd p) "NULL" [] V) as K. rewrite app_nil_r in K. pose proof (q_again num (snd p) [] V Logic.I) as Q. rewrite app_nil_r in Q.
      assert (X : againv num (snd p) = again num (snd p)) by (unfold againv, q_value; now rewrite K, Q). rewrite X. split; [now apply same_again|].
      intro Nl. rewrite Nl in K. rewrite etok_null in K. discriminate.
    - split; [apply same_refl|reflexivity]. }
  split; [symmetry; exact Rm|]. split; [reflexivity|]. split; [symmetry; exact Sp|]. split; [cbn; destruct (c_when c); cbn; [now apply same_again|exact Logic.I]|].
  split; [now apply same_again3|]. split; [reflexivity|]. split.
  { cbn [reread c_rot]. unfold unwritten. destruct (is_null (c_rot c) && _) eqn:X; cbn [negb]; [apply andb_prop in X as [X _]; now apply number_null|now apply number_again3]. }
  split; [reflexivity|]. split; [reflexivity|]. split; [apply same_blocks_pad|]. split.
  - apply (forall2_map _ (good_jump num)); [exact J|]. intros j (_ & Gd & _). split; [reflexivity|]. split; [reflexivity|]. split; [reflexivity|]. now apply same_again.
  - apply (forall2_map _ good_meta); [exact M|]. intros m _. apply same_meta_pad.
Qed.

(** * C26: an instance *)
(** The characters written for an instance that the text can express are cut into tokens that are read as an instance of the same name and type, with the same parameters, place,
    references, jumps and so on; expressions have the same value.  [fit]: the names are identifiers and not keywords; expressions can be written (C07); the instance is neither REMOVABLE nor SPLIT; the rotation is
    written or there is no reference; blocks of C are not blank and do not contain percent and closing brace; jumps are to PREVIOUS, NEXT, MYSELF or an identifier that
    does not start with the first two; metadata have different names.  [apart]: with ROTATED there are no GROUP, EXTEND, JUMP, METADATA.
    Missing: other instances, see the refutations here and in Properties_Text.v. *)
Theorem C26_instance_characters_partial : forall num c, fit num c -> apart c ->
  exists l c', lex (inst_text num c ++ newline) = Some l /\ q_inst l = Some (c', []) /\ same_instance c c'.
Proof.
  intros num c F A. exists (w_inst num c), (reread num c). split; [|split; [|now apply same_reread]].
  - pose proof (cutsA_inst num c (conj F A) "") as L. rewrite string_app_nil_r in L. rewrite L. change (lex "") with (Some (@nil ltok)). cbn. now rewrite app_nil_r.
  - pose proof (q_inst_ok num c [] F Logic.I) as Q. now rewrite app_nil_r in Q.
Qed.
Print Assumptions C26_instance_characters_partial.

(** * C58: an instrument *)
Lemma same_reread_par num p : good_par num p -> same_par p (again_par num p).
Proof.
  intros (_ & _ & V & _). split; [reflexivity|]. split; [reflexivity|]. split; [reflexivity|]. cbn. destruct (p_value p) as [e|]; [|exact Logic.I]. cbn. destruct V as [_ V].
  destruct (p_kind p); cbn; try (now apply same_again). apply same_refl.
Qed.
Lemma flags_kept l : Forall (fun s => s <> "") l -> join " " (again_flags l) = join " " l.
Proof.
  intro H. assert (E : map or_none l = l).
  { induction H as [|y t N _ IH]; [reflexivity|]. cbn. rewrite IH. unfold or_none. destruct (String.eqb_spec y ""); [contradiction|reflexivity]. }
  destruct l as [|x l]; [reflexivity|]. unfold again_flags, flag_text. rewrite E. reflexivity.
Qed.
(** An instrument that was written is read as the same instrument: name, parameters with their types, units and default values, metadata, flags, blocks of C, and components in
    the same order.  [good_ins] asks of every part what C26 asks of instances; and that component names differ and references go to earlier components, that default values are
    constants and nothing has line breaks in front of the first block.
    Missing: instruments of other forms, see the refutations. *)
Theorem C58_instrument_characters_partial : forall num notes i, good_ins num i -> Forall (fun s => s <> "") (i_flags i) -> contains "*/" notes = false ->
  exists i', read_instr (instr_text num notes i) = Some i' /\ same_instrument i i'.
Proof.
  intros num notes i G Fl N. exists (reread_ins num i). split; [apply reads_again; [exact G|now apply no_end_contains]|].
  destruct G as ((Nm & P & _ & M & _) & C & _). split; [reflexivity|]. split; [apply (forall2_map _ (good_par num)); [exact P|apply same_reread_par]|].
  split; [apply (forall2_map _ good_meta); [exact M|intros; apply same_meta_pad]|]. split; [now apply flags_kept|].
  split; [apply same_blocks_pad|]. split; [apply same_blocks_pad|]. split; [apply same_blocks_pad|]. split; [|split; apply same_blocks_pad].
  apply (forall2_map _ (goodi num)); [exact C|]. intros c [F _]. now apply same_reread.
Qed.
Print Assumptions C58_instrument_characters_partial.

(** False in general: when ROTATED is written, the writer puts neither a space nor a line break behind it, and GROUP, EXTEND, JUMP or METADATA runs into the name of the reference
    (or into ABSOLUTE).  An instrument with such a component cannot be read, whatever else it contains. *)
Theorem C58_rotated_runs_on_refuted : forall num notes i pre c post,
  i_comps i = pre ++ c :: post -> good_front num i -> contains "*/" notes = false -> Forall (goodi num) pre -> backwards [] pre -> fit num c ->
  is_null (c_rot c) = false \/ c_rot_rel c <> None ->
  c_group c <> None \/ c_extend c <> [] \/ c_jump c <> [] \/ c_meta c <> [] ->
  read_instr (instr_text num notes i) = None.
Proof.
  intros num notes i pre c post E Gf N Gp B F R T. apply (stuck_instrument num notes i pre c post); auto; [now apply no_end_contains|].
  unfold unwritten. destruct R as [-> | R]; [reflexivity|]. destruct (is_null _); [|reflexivity]. destruct (c_rot_rel c); [reflexivity|congruence].
Qed.
Print Assumptions C58_rotated_runs_on_refuted.

(** * Examples *)
Definition two_num (q : Qc) : string := if Qc_eqb q (Z2Qc 2) then "2" else "0".
Definition k2 : node := NExpr [NVal (PNum (Z2Qc 2)) DInt OValue].
Definition var (s : string) : node := NExpr [NVal (PStr s) DFloat OId].
Ltac is_id := split; [split; reflexivity|reflexivity].
Ltac is_literal := match goal with |- literal (String _ ?b) => exists "", b; split; [reflexivity|split; [reflexivity|now left]] | |- literal (quoted ?b) => exists "", (b ++ String dquote "")%string; split; [reflexivity|split; [reflexivity|now left]] end.
Lemma good_var s : ident s -> good two_num (var s).
Proof. intro H. split; [|left; reflexivity]. split; [constructor; [exact H|constructor]|split; constructor]. Qed.
Lemma good_zero : good two_num int0.
Proof.
  split; [|reflexivity]. split; [constructor|split; [constructor|]]. constructor; [|constructor]. split; [exists "0", "", ""; repeat split; try discriminate; auto|vm_compute; reflexivity].
Qed.
Lemma good_two : good two_num k2.
Proof.
  split; [|reflexivity]. split; [constructor|split; [constructor|]]. constructor; [|constructor]. split; [exists "2", "", ""; repeat split; try discriminate; auto|vm_compute; reflexivity].
Qed.
Definition first_c : ci :=
  mkCi "src" "Source" [("E0", var "E"); ("file", null_node)] false true None (Some (var "n")) (int0, int0, int0) None (int0, int0, int0) None (Some "g")
    ["x += 1;"; "y = x;"] [mkJump "PREVIOUS" (-1)%Z true (var "n"); mkJump "src" 0%Z false (var "E")] [("text/plain", "note", "hello"); ("text/plain", quoted "long name", "")].
Definition second_c (g : option string) : ci := mkCi "arm" "Arm" [] false false None None (int0, int0, k2) (Some "src") (int0, k2, int0) (Some "src") g [] [] [].
Definition demo (g : option string) : ins :=
  mkIns "demo" [mkPar "E" (Some (quoted "meV")) KFloat (Some k2); mkPar "n" None KInt None; mkPar "file" None KStr (Some (NVal (PStr (quoted "out")) DStr OValue))]
    [("application/json", "conf", "{}")] ["-lm"; "-O2"] ["double x;"] [] ["x = 2;"] [first_c; second_c g] [] ["done();"].
Lemma first_fit : fit two_num first_c.
Proof.
  split; [is_id|]. split; [is_id|]. split; [constructor; [split; [is_id|left; apply good_var; is_id]|constructor; [split; [is_id|now right]|constructor]]|].
  split; [reflexivity|]. split; [reflexivity|]. split; [apply good_var; is_id|]. split; [split; [|split]; exact good_zero|]. split; [exact Logic.I|]. split; [split; [|split]; exact good_zero|].
  split; [exact Logic.I|]. split; [reflexivity|]. split; [is_id|]. split; [repeat constructor|]. split; [intros _; reflexivity|]. split.
  { constructor; [|constructor; [|constructor]]; (split; [|split; [apply good_var; is_id|reflexivity]]); [left; split; reflexivity|]. do 3 right. split; [reflexivity|]. split; [is_id|discriminate]. }
  split.
  { constructor; [|constructor; [|constructor]].
    - split; [is_literal|]. split; [left; is_id|reflexivity].
    - split; [is_literal|]. split; [right; exists "long name"; split; [reflexivity|split; [is_literal|reflexivity]]|reflexivity]. }
  repeat constructor; cbn; intuition discriminate.
Qed.
Lemma first_good : goodi two_num first_c.
Proof. split; [exact first_fit|]. intro H. exfalso. vm_compute in H. discriminate. Qed.
Lemma second_fit g : (forall n, g = Some n -> ident n) -> fit two_num (second_c g).
Proof.
  intro G. split; [is_id|]. split; [is_id|]. split; [constructor|]. split; [reflexivity|]. split; [reflexivity|]. split; [exact Logic.I|]. split; [split; [exact good_zero|split; [exact good_zero|exact good_two]]|].
  split; [is_id|]. split; [split; [exact good_zero|split; [exact good_two|exact good_zero]]|]. split; [is_id|]. split; [intro H; exfalso; vm_compute in H; discriminate|].
  split; [cbn; destruct g; [now apply G|exact Logic.I]|]. split; [constructor|]. split; [intro H; now contradiction H|]. repeat split; constructor.
Qed.
Lemma demo_front g : good_front two_num (demo g).
Proof.
  split; [is_id|]. split.
  { constructor; [|constructor; [|constructor; [|constructor]]].
    - split; [is_id|]. split; [cbn; is_literal|]. split; [split; [reflexivity|exact good_two]|vm_compute; reflexivity].
    - split; [is_id|]. split; [exact Logic.I|]. split; [exact Logic.I|reflexivity].
    - split; [is_id|]. split; [exact Logic.I|]. split; [split; [reflexivity|right; eexists; split; [reflexivity|is_literal]]|reflexivity]. }
  split; [repeat constructor; cbn; intuition discriminate|]. split; [constructor; [split; [is_literal|split; [left; is_id|reflexivity]]|constructor]|]. split; [repeat constructor; cbn; intuition|].
  split; [intros _; split; [is_literal|reflexivity]|]. split; [split; [repeat constructor|intros _; reflexivity]|]. split; [split; [constructor|intro H; now contradiction H]|]. split; [repeat constructor|intros _; reflexivity].
Qed.
Lemma demo_backwards g : backwards [] [first_c; second_c g].
Proof. split; [intros []|]. split; [cbn; intros n [H|H]; discriminate|]. split; [cbn; intuition discriminate|]. split; [|exact Logic.I]. cbn. intros n [H|H]; injection H as <-; now left. Qed.
Example C26_instance_characters_partial_example : fit two_num first_c /\ apart first_c /\ inst_text two_num first_c =
  ("CPU COMPONENT src = Source(E0=E, file=NULL) WHEN n AT (0, 0, 0) ABSOLUTE GROUP g" ++ newline ++ "EXTEND" ++ newline ++ "%{" ++ newline ++ newline ++ "x += 1;" ++ newline ++ "y = x;" ++ newline ++ "%}" ++ newline ++ newline ++
   "JUMP PREVIOUS ITERATE n" ++ newline ++ "JUMP src WHEN E" ++ newline ++ "METADATA " ++ quoted "text/plain" ++ " note " ++ newline ++ "%{" ++ newline ++ "hello" ++ newline ++ "%}" ++ newline ++ newline ++
   "METADATA " ++ quoted "text/plain" ++ " " ++ quoted "long name" ++ " " ++ newline ++ "%{" ++ newline ++ newline ++ "%}" ++ newline ++ newline)%string.
Proof. split; [exact first_fit|]. split; [exact (proj2 first_good)|]. vm_compute. reflexivity. Qed.
Example C58_instrument_characters_partial_example : good_ins two_num (demo None) /\ Forall (fun s => s <> "") (i_flags (demo None)) /\
  contains "*/" (head_comment "demo" (Some "demo.instr") [] ["mcstas"] []) = false.
Proof.
  split; [|split; [repeat constructor; discriminate|vm_compute; reflexivity]]. split; [apply demo_front|]. split; [constructor; [exact first_good|constructor; [split; [now apply second_fit|intros _; repeat split]|constructor]]|].
  split; [apply demo_backwards|]. split; [split; [constructor|intro H; now contradiction H]|]. split; [repeat constructor|intros _; reflexivity].
Qed.
Example C58_rotated_runs_on_example : i_comps (demo (Some "g")) = [first_c] ++ second_c (Some "g") :: [] /\ good_front two_num (demo (Some "g")) /\ Forall (goodi two_num) [first_c] /\ backwards [] [first_c]
  /\ fit two_num (second_c (Some "g")) /\ c_rot_rel (second_c (Some "g")) <> None /\ c_group (second_c (Some "g")) <> None
  /\ inst_text two_num (second_c (Some "g")) = ("COMPONENT arm = Arm() AT (0, 0, 2) RELATIVE src ROTATED (0, 2, 0) RELATIVE srcGROUP g" ++ newline)%string.
Proof.
  split; [reflexivity|]. split; [apply demo_front|]. split; [constructor; [exact first_good|constructor]|]. split; [split; [intros []|split; [cbn; intros n [H|H]; discriminate|exact Logic.I]]|].
  split; [apply second_fit; intros n H; injection H as <-; is_id|]. split; [discriminate|]. split; [discriminate|]. vm_compute. reflexivity.
Qed.

(** * Further refutations *)
(** The comment in front holds the name of the source file: with the end of a comment in it, the instrument cannot be read. *)
Theorem C58_comment_refuted : exists i source, good_ins two_num i /\ read_instr (instr_text two_num (head_comment (i_name i) (Some source) [] [] []) i) = None.
Proof. exists (demo None), "data*/demo.instr". split; [exact (proj1 C58_instrument_characters_partial_example)|]. vm_compute. reflexivity. Qed.
Print Assumptions C58_comment_refuted.
(** a name, alone, or an operation *)
Definition not_written (e : node) : Prop :=
  (exists p d o, (o = OId \/ o = OParam) /\ (e = NVal p d o \/ e = NExpr [NVal p d o])) \/ (exists o d l r, e = NBin o d l r \/ e = NExpr [NBin o d l r]) \/ (exists o d l, e = NUn o d l \/ e = NExpr [NUn o d l]).
(** A default value that is not a constant -- an identifier or an operation -- is not written, and the parameter read has none. *)
Theorem C58_default_dropped_refuted : forall num n u k e, not_written e -> par_text num (mkPar n u k (Some e)) = par_text num (mkPar n u k None).
Proof.
  intros num n u k e H. assert (C : constant e = false) by (destruct H as [(p & d & o & [->| ->] & [->| ->])|[(o & d & l & r & [->| ->])|(o & d & l & [->| ->])]]; reflexivity).
  unfold par_text. cbn [p_kind p_name p_unit p_value]. now rewrite C.
Qed.
Print Assumptions C58_default_dropped_refuted.
Example C58_default_dropped_example : not_written (NExpr [NBin BMul DFloat [NVal (PNum (Z2Qc 2)) DInt OValue] [NVal (PStr "PI") DUndef OId]]) /\ not_written (NExpr [NVal (PStr "PI") DUndef OId]).
Proof. split; [right; left; do 4 eexists; right; reflexivity|left; do 3 eexists; split; [left; reflexivity|right; reflexivity]]. Qed.
Definition named (s : string) : ci := mkCi s "Arm" [] false false None None (int0, int0, int0) None (int0, int0, int0) None None [] [] [].
Definition plain_ins (l : list ci) : ins := mkIns "demo" [] [] [] [] [] [] l [] [].
(** A name that is also a keyword, in any of its spellings, is accepted for components made in Python and written as it is; the text cannot be read. *)
Theorem C58_keyword_name_refuted : forall n k, In n (map fst keywords) -> k = plain_ins [named n] -> read_instr (instr_text two_num "" k) = None.
Proof.
  intros n k H ->.
  assert (X : forallb (fun n => match read_instr (instr_text two_num "" (plain_ins [named n])) with None => true | Some _ => false end) (map fst keywords) = true) by (vm_compute; reflexivity).
  rewrite forallb_forall in X. specialize (X n H). cbv beta in X. destruct (read_instr _); [discriminate|reflexivity].
Qed.
Print Assumptions C58_keyword_name_refuted.
Example C58_keyword_name_example : In "display" (map fst keywords) /\ In "end" (map fst keywords) /\ read_instr (instr_text two_num "" (plain_ins [named "exit"])) <> None.
Proof. split; [vm_compute; auto 200|]. split; [vm_compute; auto 200|]. vm_compute. discriminate. Qed.
(** A block of C that contains percent and closing brace ends there. *)
Theorem C58_block_end_refuted : forall a b, closed a -> forall rest, lex (block "DECLARE" (a ++ newline ++ "%}" ++ b) ++ rest) =
  option_map (app [LKey "DECLARE"; LBlock (newline ++ newline ++ a ++ newline)]) (lex (b ++ newline ++ "%}" ++ newline ++ newline ++ rest)).
Proof.
  intros a b C rest. unfold block.
  replace (("DECLARE" ++ newline ++ "%{" ++ newline ++ newline ++ (a ++ newline ++ "%}" ++ b) ++ newline ++ "%}" ++ newline ++ newline) ++ rest)%string
    with (("DECLARE" ++ newline) ++ ("%{" ++ (newline ++ newline ++ a) ++ newline ++ "%}") ++ (b ++ newline ++ "%}" ++ newline ++ newline ++ rest))%string by (now rewrite !string_app_assoc).
  rewrite (cuts_newline _ _ (cuts_word "DECLARE" eq_refl)). rewrite (cutsA_block (newline ++ newline ++ a)) by (now apply closed_lf, closed_lf). rewrite option_map_app. rewrite !string_app_assoc. reflexivity.
Qed.
Print Assumptions C58_block_end_refuted.
