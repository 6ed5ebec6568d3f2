(** Properties of the text written into C sources: C44 (macros), C45 (string literals), C51 (lookup by name). *)
From Coq Require Import List String Ascii Bool NArith Arith Lia.
From Verif Require Import PyStr CText.
Import ListNotations.

(** * C45 Text embedded in generated C strings survives *)
Section C45.
Local Open Scope N_scope.
(** what a text is as a C string *)
Definition bytes (s : list N) : list N := flat_map utf8 s.
(** a text of Python: code points *)
Definition text (s : list N) : Prop := Forall (fun c => c <= 1114111) s.
(** no two question marks before one of = / ' ( ) ! < > - *)
Definition no_trigraph (s : list N) : Prop := forall a x b, s = a ++ 63 :: 63 :: x :: b -> ~ In x [61; 47; 39; 40; 41; 33; 60; 62; 45].
Definition hex_digit (c : N) : Prop := 48 <= c <= 57 \/ 65 <= c <= 70 \/ 97 <= c <= 102.
Definition control_character (c : N) : Prop := c < 32 /\ c <> 9 /\ c <> 10 /\ c <> 13 \/ c = 127.
Definition survives (s : list N) : Prop :=
  Forall (fun c => ~ (128 <= c <= 255) /\ ~ (55296 <= c <= 57343)) s /\ (forall a c d b, s = a ++ c :: d :: b -> control_character c -> ~ hex_digit d).

Lemma trig_in x : trig x <> None <-> In x [61; 47; 39; 40; 41; 33; 60; 62; 45].
Proof.
  unfold trig. split.
  - repeat match goal with |- context [if ?a =? ?b then _ else _] => destruct (N.eqb_spec a b) as [->|]; [intros _; cbn; tauto|] end. intro H. now contradiction H.
  - intro H. repeat (destruct H as [<-|H]; [discriminate|]). destruct H.
Qed.
Lemma no_trigraph_free s : no_trigraph s <-> trigraph_free s = true.
Proof.
  split.
  - induction s as [|a t IH]; [reflexivity|]. intro H. cbn [trigraph_free]. rewrite IH by (intros p x b ->; exact (H (a :: p) x b eq_refl)). rewrite andb_true_r.
    destruct t as [|b [|x r]]; auto. destruct (N.eqb_spec a 63) as [->|]; [|reflexivity]. destruct (N.eqb_spec b 63) as [->|]; [|reflexivity]. cbn [andb]. destruct (trig x) eqn:E; [|reflexivity].
    exfalso. apply (H [] x r eq_refl). apply trig_in. congruence.
  - intros H p. revert s H. induction p as [|a p IH]; intros s H x b ->.
    + cbn [app] in H. cbn [trigraph_free] in H. apply andb_prop in H as [H _]. change (63 =? 63) with true in H. cbn [andb] in H. rewrite <- trig_in. destruct (trig x); [discriminate|]. auto.
    + cbn [app trigraph_free] in H. apply andb_prop in H as [_ H]. exact (IH _ H x b eq_refl).
Qed.
Lemma hexdigit_spec d : hexdigit d = true <-> hex_digit d.
Proof.
  unfold hexdigit, unhex, hex_digit. destruct (N.leb_spec 48 d), (N.leb_spec d 57), (N.leb_spec 97 d), (N.leb_spec d 102), (N.leb_spec 65 d), (N.leb_spec d 70); cbn [andb]; split; intro; try discriminate; try reflexivity; lia.
Qed.
Lemma control_spec c : control c = true <-> control_character c.
Proof.
  unfold control, control_character. destruct (N.ltb_spec c 32), (N.eqb_spec c 9), (N.eqb_spec c 10), (N.eqb_spec c 13), (N.eqb_spec c 127); cbn; split; intro; try discriminate; try reflexivity; lia.
Qed.
Lemma separated_spec s : separated s = true <-> forall a c d b, s = a ++ c :: d :: b -> control_character c -> ~ hex_digit d.
Proof.
  split.
  - intros H p. revert s H. induction p as [|a p IH]; intros s H c d b -> C D.
    + cbn [app separated] in H. apply andb_prop in H as [H _]. apply control_spec in C. apply hexdigit_spec in D. rewrite C, D in H. discriminate.
    + cbn [app separated] in H. apply andb_prop in H as [_ H]. exact (IH _ H c d b eq_refl C D).
  - induction s as [|a t IH]; [reflexivity|]. intro H. cbn [separated]. rewrite IH by (intros p c d b ->; exact (H (a :: p) c d b eq_refl)). rewrite andb_true_r. destruct t as [|d t]; [reflexivity|].
    destruct (control a) eqn:C; [|reflexivity]. destruct (hexdigit d) eqn:D; [|reflexivity]. exfalso. apply control_spec in C. apply hexdigit_spec in D. exact (H [] a d t eq_refl C D).
Qed.
Lemma faithful_spec s : text s -> (forallb faithful s = true <-> Forall (fun c => ~ (128 <= c <= 255) /\ ~ (55296 <= c <= 57343)) s).
Proof.
  unfold text. induction 1 as [|c s Hc Hs IH]; [split; auto|]. cbn [forallb]. rewrite andb_true_iff, IH. split.
  - intros [F G]. constructor; [|exact G]. unfold faithful in F. destruct (N.ltb_spec c 128), (N.ltb_spec 255 c), (N.leb_spec 55296 c), (N.leb_spec c 57343); cbn in F; try discriminate; lia.
  - intro F. inversion_clear F as [|? ? F1 F2]. split; [|exact F2]. unfold faithful. rewrite (proj2 (N.leb_le c 1114111) Hc), andb_true_r. destruct (N.ltb_spec c 128), (N.ltb_spec 255 c), (N.leb_spec 55296 c), (N.leb_spec c 57343); cbn; try reflexivity; lia.
Qed.

(** The literal is read as the text exactly for the texts without characters from 128 to 255, without lone surrogates and without a control character before a hexadecimal digit.
    Partial: such texts exist (refutations below), and a text with trigraphs is only covered by a refutation. *)
Theorem C45_literal_reads_as_text_partial : forall s, text s -> no_trigraph s -> (c_reads (literal s) = Some (bytes s) <-> survives s).
Proof.
  intros s P T. apply no_trigraph_free in T. unfold survives. rewrite <- (faithful_spec s P), <- separated_spec. split.
  - unfold c_reads, literal. assert (T' : trigraph_free (34 :: escape s ++ [34]) = true).
    { change (34 :: escape s ++ [34]) with ([34] ++ (escape s ++ [34])). rewrite free_skip by (repeat constructor; discriminate). now rewrite escape_free. }
    rewrite (trigraphs_free _ T'). change (34 =? 34) with true. cbv iota. intro H. destruct (chars_shorter _ s _ _ P (le_n _) H) as [_ A]. exact (A eq_refl).
  - intros [A B]. now apply reads_literal.
Qed.
Print Assumptions C45_literal_reads_as_text_partial.
(** a, double quote, b, backslash, c, newline, tab, euro sign, treble clef, \x01 and a blank *)
Example C45_nonvacuous : let s := [97; 34; 98; 92; 99; 10; 9; 8364; 119070; 1; 32] in
  text s /\ no_trigraph s /\ survives s /\ c_reads (literal s) = Some [97; 34; 98; 92; 99; 10; 9; 226; 130; 172; 240; 157; 132; 158; 1; 32].
Proof.
  cbv zeta. assert (P : text [97; 34; 98; 92; 99; 10; 9; 8364; 119070; 1; 32]) by (repeat (constructor; [lia|]); constructor). split; [exact P|].
  assert (T : no_trigraph [97; 34; 98; 92; 99; 10; 9; 8364; 119070; 1; 32]) by (apply no_trigraph_free; reflexivity). split; [exact T|]. split; [|reflexivity]. apply (proj1 (C45_literal_reads_as_text_partial _ P T)). reflexivity.
Qed.

(** Every ASCII text without control characters other than tab, newline and carriage return, and without trigraphs, survives. *)
Theorem C45_ascii_text_survives : forall s, Forall (fun c => c = 9 \/ c = 10 \/ c = 13 \/ 32 <= c < 127) s -> no_trigraph s -> c_reads (literal s) = Some s.
Proof.
  intros s H T. assert (P : text s) by (eapply Forall_impl; [|exact H]; cbn; intros; lia).
  assert (B : bytes s = s).
  { unfold bytes. clear T P. induction H as [|c s Hc Hs IH]; [reflexivity|]. cbn [flat_map]. rewrite IH. unfold utf8. rewrite (proj2 (N.ltb_lt c 128)) by lia. reflexivity. }
  rewrite <- B at 2. apply (C45_literal_reads_as_text_partial s P T). split; [eapply Forall_impl; [|exact H]; cbn; intros; lia|].
  intros a c d b -> C. apply Forall_app in H as [_ H]. inversion_clear H as [|? ? Hc _]. unfold control_character in C. lia.
Qed.
Print Assumptions C45_ascii_text_survives.
Example C45_ascii_nonvacuous : c_reads (literal [92; 110; 34; 10; 63; 63; 34]) = Some [92; 110; 34; 10; 63; 63; 34].
Proof. apply C45_ascii_text_survives; [repeat (constructor; [lia|]); constructor|]. apply no_trigraph_free. reflexivity. Qed.

(** Every character from 128 to 255 (all accented Latin letters) is read as one byte, which is not its encoding: metadata written with an umlaut come back as invalid UTF-8. *)
Theorem C45_latin_letters_refuted : forall c, 128 <= c <= 255 -> c_reads (literal [c]) = Some [c] /\ bytes [c] <> [c].
Proof.
  intros c H. split.
  - unfold c_reads, literal, escape. cbn [flat_map]. rewrite app_nil_r. unfold esc.
    repeat match goal with |- context [if c =? ?b then _ else _] => rewrite (proj2 (N.eqb_neq c b)) by lia end.
    rewrite (proj2 (N.ltb_ge c 127)) by lia. rewrite andb_false_r. rewrite (proj2 (N.ltb_lt c 256)) by lia.
    rewrite trigraphs_free. 2:{ change (34 :: (92 :: 120 :: hex 2 c) ++ [34]) with ([34; 92; 120] ++ hex 2 c ++ [34]). rewrite free_skip by (repeat constructor; discriminate). rewrite free_skip by apply hex_not. reflexivity. }
    change (34 =? 34) with true. cbv iota. cbn [app List.length chars]. change (92 =? 34) with false. change (92 =? 10) with false. change (92 =? 92) with true. change (120 =? 120) with true. cbv iota.
    rewrite (digits_hex_none 2 c) by (change (16 ^ N.of_nat 2) with 256; lia). rewrite digits_stop by reflexivity. change ((0 + 2 =? 0)%nat) with false. replace (0 * 16 ^ N.of_nat 2 + c) with c by lia. rewrite (proj2 (N.ltb_ge 255 c)) by lia. cbn [orb].
    reflexivity.
  - unfold bytes. cbn [flat_map]. rewrite app_nil_r. unfold utf8. rewrite (proj2 (N.ltb_ge c 128)) by lia. rewrite (proj2 (N.ltb_lt c 2048)) by lia. discriminate.
Qed.
Print Assumptions C45_latin_letters_refuted.
(** A control character before a hexadecimal digit: the escape takes in the digit. ESC followed by a 3 does not even compile, a NUL followed by 1 is read as one character. *)
Theorem C45_control_before_digit_refuted : c_reads (literal [27; 51]) = None /\ c_reads (literal [0; 49]) = Some [1] /\ bytes [0; 49] = [0; 49].
Proof. repeat split. Qed.
Print Assumptions C45_control_before_digit_refuted.
(** Trigraphs, which -std=c99 switches on: a??/b (the slash makes a backslash) and a text ending in ??! are changed. *)
Theorem C45_trigraph_refuted : c_reads (literal [63; 63; 33]) = Some [124] /\ c_reads (literal [97; 63; 63; 47; 98]) = Some [97; 8] /\ bytes [63; 63; 33] = [63; 63; 33] /\ c_reads (literal [63; 63; 47]) = None.
Proof. repeat split. Qed.
Print Assumptions C45_trigraph_refuted.
(** A lone surrogate, which Python uses for an undecodable byte of a file name, gives an invalid literal. *)
Theorem C45_surrogate_refuted : c_reads (literal [56553]) = None.
Proof. reflexivity. Qed.
Print Assumptions C45_surrogate_refuted.

(** The table of parameters: a value or unit of characters that stand for themselves is read unchanged, and one that is already a literal (a text parameter) is kept. *)
Theorem C45_parameter_table_partial : forall z, Forall (fun c => 32 <= c < 127 /\ c <> 34 /\ c <> 92) z -> no_trigraph z -> c_reads (nps z) = Some z /\ c_reads (nps (34 :: z ++ [34])) = Some z.
Proof.
  intros z H T. apply no_trigraph_free in T. assert (I : forallb itself z = true).
  { apply forallb_forall. intros c Hc. rewrite Forall_forall in H. specialize (H c Hc). unfold itself. rewrite (proj2 (N.leb_le 32 c)), (proj2 (N.ltb_lt c 127)), (proj2 (N.eqb_neq c 34)), (proj2 (N.eqb_neq c 92)) by lia. reflexivity. }
  assert (L : List.last (34 :: z ++ [34]) 0 = 34) by (change (34 :: z ++ [34]) with ((34 :: z) ++ [34]); apply last_last). split.
  - destruct z as [|c z]; [reflexivity|]. unfold nps. inversion_clear H as [|? ? Hc _]. rewrite (proj2 (N.eqb_neq c 34)) by lia. cbn [andb]. now apply itself_literal.
  - unfold nps. rewrite L. cbn [andb]. change ((34 =? 34) && (34 =? 34)) with true. cbv iota. now apply itself_literal.
Qed.
Print Assumptions C45_parameter_table_partial.
Example C45_parameter_nonvacuous : c_reads (nps [49; 46; 53]) = Some [49; 46; 53] /\ c_reads (nps [34; 65; 108; 34]) = Some [65; 108].
Proof. split; reflexivity. Qed.
(** A unit written with one double quote (inches) is written as it is, which is not a literal; so is a text with a quote inside. *)
Theorem C45_quote_in_unit_refuted : c_reads (nps [34]) = None /\ c_reads (nps [97; 34; 98]) = None /\ c_reads (nps [92]) = None.
Proof. repeat split. Qed.
Print Assumptions C45_quote_in_unit_refuted.
End C45.

(** * C44 Component macros are always undone *)
Local Open Scope string_scope.
Local Open Scope list_scope.
Local Open Scope nat_scope.

(** the macro that stands for a parameter of the component at hand *)
Definition component_macro (n : string) : string := "(_comp->_parameters." +++ n +++ ")".
Lemma own_not_user n m : own n <> user m. Proof. discriminate. Qed.
Lemma lookup_In l n b : lookup l n = Some b -> In (n, b) l.
Proof. unfold lookup. destruct (find _ l) as [[x c]|] eqn:E; [|discriminate]. apply find_some in E as [E1 E2]. cbn in *. apply String.eqb_eq in E2. intro H. injection H as <-. now subst. Qed.
Lemma drop_some (b : bool) (a : option string) v : (if b then None else a) = Some v -> a = Some v.
Proof. destruct b; [discriminate|auto]. Qed.
Definition clean (e : env) : Prop := forall n, e n <> Some (own n).
Lemma trace_macro_clean m n b : lookup (trace_macros m) n = Some b -> b <> own n.
Proof. intro H. apply lookup_In in H. destruct m; cbn in H; repeat (destruct H as [H|H]; [injection H as <- <-; discriminate|]); destruct H. Qed.
Lemma shapes_clean n b : lookup shapes n = Some b -> b <> own n.
Proof. intro H. apply lookup_In in H. cbn in H; repeat (destruct H as [H|H]; [injection H as <- <-; discriminate|]); destruct H. Qed.
Lemma clean_init so e : clean e -> clean (after_init so e).
Proof. intros H n. rewrite after_init_eq. destruct (_ || _); [discriminate|apply H]. Qed.
Lemma clean_in_trace so e : clean e -> clean (in_trace so e).
Proof. intros H n. rewrite in_trace_eq. destruct (lookup _ n) eqn:E; [apply trace_macro_clean in E; congruence|now apply clean_init]. Qed.
Lemma clean_after_trace so e : clean e -> clean (after_trace so e).
Proof. intros H n. rewrite after_trace_eq. destruct (inb _ _); [discriminate|now apply clean_in_trace]. Qed.
Lemma clean_ray so e : clean e -> clean (after_ray so e).
Proof. intros H n. rewrite after_ray_eq. destruct (_ || _); [discriminate|now apply clean_after_trace]. Qed.
Lemma clean_save so e : clean e -> clean (after_save so e).
Proof. intros H n. rewrite after_save_eq. destruct (_ || _); [discriminate|now apply clean_ray]. Qed.
Lemma clean_final so e : clean e -> clean (after_final so e).
Proof. intros H n. rewrite after_final_eq. destruct (_ || _); [discriminate|now apply clean_save]. Qed.
Lemma clean_display so e : clean e -> clean (in_display so e).
Proof. intros H n. rewrite in_display_eq. destruct (lookup _ n) eqn:E; [apply shapes_clean in E; congruence|now apply clean_final]. Qed.

(** the component type whose code is at a place *)
Definition type_at (so : source) (p : place) : option ctype := match p with PComp _ k | PExtend k => nth_error (so_types so) k | _ => None end.
Definition parameters_of (c : ctype) : list string := ct_define c ++ ct_setting c ++ ct_output c ++ ct_declares c.

(** No macro of a component reaches code of another component or of the instrument: for every instrument, without conditions on names. *)
Theorem C44_no_component_macro_leaks : forall so e p e' n, (forall m, e m <> Some (component_macro m)) ->
  In (p, e') (seen e (file so)) -> e' n = Some (component_macro n) -> exists c, type_at so p = Some c /\ In n (parameters_of c).
Proof.
  intros so e p e' n C H E. change (clean e) in C.
  assert (K : forall s k0 a, clean a -> k0 = 0 -> In (p, e') (seen a (each (comp_class s) k0 (so_types so))) -> exists c, type_at so p = Some c /\ In n (parameters_of c)).
  { intros s k0 a Ca -> X. apply class_seen in X as (j & c & N & -> & Q). exists c. split; [exact N|]. rewrite Q in E. destruct (inb n (ct_pars c)) eqn:I; [now apply inb_In in I|]. apply drop_some in E. now apply Ca in E. }
  assert (I : forall s a, clean a -> In (p, e') (seen a (instr_code so s)) -> False).
  { intros s a Ca X. apply instr_seen in X as [_ Q]. rewrite Q in E. destruct (inb n (so_parameters so)); [destruct s; discriminate|]. now apply Ca in E. }
  assert (L : forall s a, clean a -> clean (leaves a (each (comp_class s) 0 (so_types so)))).
  { intros s a Ca m. rewrite class_leaves. destruct (inb _ _); [discriminate|apply Ca]. }
  apply file_seen in H as [H|[H|[H|[H|[H|[H|[H|[H|H]]]]]]]].
  - now apply (K Init 0 e).
  - exfalso. apply (I Init _ (L Init e C) H).
  - apply trace_seen in H as (j & c & N & Q). exists c. cbn [Nat.add] in Q. destruct Q as [[-> Q]|[-> Q]]; (split; [exact N|]); rewrite Q in E.
    + destruct (inb n (ct_pars c)) eqn:B; [now apply inb_In in B|]. apply drop_some in E. now apply (clean_in_trace so e C) in E.
    + destruct (inb n (so_uservars so ++ ct_uservars c)); [discriminate|]. destruct (inb n (ct_pars c)) eqn:B; [now apply inb_In in B|]. apply drop_some in E. now apply (clean_in_trace so e C) in E.
  - destruct H as [_ Q]. rewrite Q in E. destruct (inb n (all_uservars so)); [discriminate|]. now apply (clean_after_trace so e C) in E.
  - apply (K Save 0 (after_ray so e)); auto. now apply clean_ray.
  - exfalso. apply (I Save _ (L Save _ (clean_ray so e C)) H).
  - apply (K Final 0 (after_save so e)); auto. now apply clean_save.
  - exfalso. apply (I Final _ (L Final _ (clean_save so e C)) H).
  - apply (K Display 0 (in_display so e)); auto. now apply clean_display.
Qed.
Print Assumptions C44_no_component_macro_leaks.

(** Each block of a component sees all parameters of its component, each block of the instrument (but for SAVE, see below) those of the instrument, an EXTEND block the user variables: again without conditions on names. *)
Theorem C44_own_names_are_visible : forall so e p e', In (p, e') (seen e (file so)) ->
  match p with
  | PComp _ k => exists c, nth_error (so_types so) k = Some c /\ forall n, In n (parameters_of c) -> e' n = Some (component_macro n)
  | PExtend k => exists c, nth_error (so_types so) k = Some c /\ (forall n, In n (so_uservars so) \/ In n (ct_uservars c) -> e' n = Some ("(_particle->" +++ n +++ ")"))
                           /\ forall n, In n (parameters_of c) -> ~ In n (so_uservars so) -> ~ In n (ct_uservars c) -> e' n = Some (component_macro n)
  | PInstr s => s <> Save -> forall n, In n (so_parameters so) -> e' n = Some ("(instrument->_parameters." +++ n +++ ")")
  | PRay => forall n, In n (so_uservars so) \/ (exists c, In c (so_types so) /\ In n (ct_uservars c)) -> e' n = Some ("(_particle->" +++ n +++ ")")
  end.
Proof.
  intros so e p e' H.
  assert (K : forall s a, In (p, e') (seen a (each (comp_class s) 0 (so_types so))) -> match p with PComp _ k => exists c, nth_error (so_types so) k = Some c /\ forall n, In n (parameters_of c) -> e' n = Some (component_macro n) | _ => False end).
  { intros s a X. apply class_seen in X as (j & c & N & -> & Q). exists c. split; [exact N|]. intros n I. rewrite Q. apply inb_In in I. change (inb n (ct_pars c) = true) in I. rewrite I. reflexivity. }
  assert (J : forall s a, In (p, e') (seen a (instr_code so s)) -> match p with PInstr s => s <> Save -> forall n, In n (so_parameters so) -> e' n = Some ("(instrument->_parameters." +++ n +++ ")") | _ => False end).
  { intros s a X. apply instr_seen in X as [-> Q]. intros S n I. rewrite Q. apply inb_In in I. rewrite I. destruct s; try reflexivity. contradiction. }
  apply file_seen in H as [H|[H|[H|[H|[H|[H|[H|[H|H]]]]]]]]; try (apply K in H; destruct p; tauto); try (apply J in H; destruct p; tauto).
  - apply trace_seen in H as (j & c & N & Q). cbn [Nat.add] in Q. destruct Q as [[-> Q]|[-> Q]]; exists c; (split; [exact N|]).
    + intros n I. rewrite Q. apply inb_In in I. change (inb n (ct_pars c) = true) in I. now rewrite I.
    + split.
      * intros n I. rewrite Q. replace (inb n (so_uservars so ++ ct_uservars c)) with true; [reflexivity|]. symmetry. apply inb_In. apply in_or_app. exact I.
      * intros n I A B. rewrite Q. replace (inb n (so_uservars so ++ ct_uservars c)) with false; [|symmetry; apply inb_not; intro X; apply in_app_or in X; tauto]. apply inb_In in I. change (inb n (ct_pars c) = true) in I. now rewrite I.
  - destruct H as [-> Q]. intros n I. rewrite Q. replace (inb n (all_uservars so)) with true; [reflexivity|]. symmetry. apply inb_In. unfold all_uservars. apply in_or_app. rewrite in_flat_map. exact I.
Qed.
Print Assumptions C44_own_names_are_visible.

(** ** Nothing else changes *)
(** macros that the generated code itself relies on *)
Definition reserved (m : bool) (n : string) : Prop := In n (runtime_parameters m) \/ In n ["SCATTERED"; "RESTORE"; "ABSORBED"; restore_name m; "mcget_run_num"; "ABSORB"; "ABSORB0"; "STORE_NEUTRON"].
Definition named (so : source) (n : string) : Prop := In n (so_parameters so) \/ In n (so_uservars so) \/ exists c, In c (so_types so) /\ (In n (parameters_of c) \/ In n (ct_uservars c)).
(** names of the instrument and its components are neither macros of the libraries nor of the generated code *)
Definition names_apart (so : source) (e : env) : Prop := forall n, named so n -> e n = None /\ ~ reserved (so_mcstas so) n /\ ~ In n (map fst shapes).
Definition libraries_apart (so : source) (e : env) : Prop := forall n, reserved (so_mcstas so) n \/ In n (map fst shapes) -> e n = None.
Lemma lookup_none l n : ~ In n (map fst l) -> lookup l n = None.
Proof. intro H. unfold lookup. destruct (find _ l) as [[x b]|] eqn:E; [|reflexivity]. apply find_some in E as [E1 E2]. cbn in E2. apply String.eqb_eq in E2. subst x. exfalso. apply H. change n with (fst (n, b)). now apply in_map. Qed.
Lemma lookup_some l n : In n (map fst l) -> exists b, lookup l n = Some b.
Proof.
  intro H. unfold lookup. destruct (find _ l) as [[x b]|] eqn:E; [eexists; reflexivity|]. apply in_map_iff in H as ([x b] & <- & I). apply (find_none _ _ E) in I. cbn in I. rewrite String.eqb_refl in I. discriminate.
Qed.
Lemma reserved_trace m n : In n (map fst (trace_macros m)) -> reserved m n.
Proof. unfold reserved. destruct m; cbn; intro H; repeat (destruct H as [H|H]; [subst n; tauto|]); destruct H. Qed.
Lemma undefined_reserved m n : reserved m n -> n <> "mcget_run_num" -> inb n (undefined_trace m) = true.
Proof. intros H N. apply inb_In. unfold undefined_trace, reserved in *. apply in_or_app. destruct H as [H|H]; [now left|right]. cbn in *. intuition. Qed.
Lemma undone_In s l n : inb n (undone s l) = true -> exists c, In c l /\ In n (parameters_of c).
Proof. intro H. apply inb_In in H. unfold undone in H. apply in_flat_map in H as (c & A & B). exists c. split; [exact A|]. destruct (ct_has c s); [exact B|destruct B]. Qed.
Lemma firstn_In' {A} (x : A) k l : In x (firstn k l) -> In x l.
Proof. revert l. induction k as [|k IH]; intros [|y l] H; cbn in H; try destruct H; [now left|right; auto]. Qed.
Lemma undone_named so s j n : inb n (undone s (firstn j (so_types so))) = true -> named so n.
Proof. intro H. apply undone_In in H as (c & A & B). right. right. exists c. split; [now apply firstn_In' in A|now left]. Qed.
Lemma undone_named' so s n : inb n (undone s (so_types so)) = true -> named so n.
Proof. intro H. apply (undone_named so s (List.length (so_types so))). now rewrite firstn_all. Qed.
Lemma undone_trace_named so j n : inb n (undone_trace so (firstn j (so_types so))) = true -> named so n.
Proof.
  intro H. apply inb_In in H. unfold undone_trace in H. apply in_flat_map in H as (c & A & B). apply firstn_In' in A. unfold traced in B. destruct (_ || _); [|destruct B]. apply in_app_or in B as [B|B].
  - destruct (ct_extended c); [|destruct B]. apply in_app_or in B as [B|B]; [right; now left|]. right. right. exists c. tauto.
  - right. right. exists c. tauto.
Qed.
Lemma all_uservars_named so n : inb n (all_uservars so) = true -> named so n.
Proof. intro H. apply inb_In in H. unfold all_uservars in H. apply in_app_or in H as [H|H]; [right; now left|]. apply in_flat_map in H as (c & A & B). right. right. exists c. tauto. Qed.

(** the macros a piece of code may count on: those of the libraries, in TRACE the particle, in DISPLAY the shapes *)
Definition ambient (so : source) (e : env) (s : section) (n : string) : option string :=
  match s with
  | Trace => match lookup (trace_macros (so_mcstas so)) n with Some b => Some b | None => e n end
  | Display => match lookup shapes n with Some b => Some b | None => e n end
  | _ => e n
  end.
Definition section_of (p : place) : section := match p with PInstr s | PComp s _ => s | PExtend _ | PRay => Trace end.
Definition own_name (so : source) (p : place) (n : string) : Prop :=
  match p with
  | PInstr _ => In n (so_parameters so)
  | PComp _ k => exists c, nth_error (so_types so) k = Some c /\ In n (parameters_of c)
  | PExtend k => exists c, nth_error (so_types so) k = Some c /\ (In n (parameters_of c) \/ In n (so_uservars so) \/ In n (ct_uservars c))
  | PRay => In n (so_uservars so) \/ exists c, In c (so_types so) /\ In n (ct_uservars c)
  end.
Section Steady.
Variable so : source.
Variable e : env.
Hypothesis NA : names_apart so e.
Hypothesis LA : libraries_apart so e.
Lemma steady_drop (b : bool) n (a : option string) : (b = true -> named so n) -> a = e n -> (if b then None else a) = e n.
Proof. intros B ->. destruct b; [|reflexivity]. symmetry. now apply NA, B. Qed.
Lemma steady_init n : after_init so e n = e n.
Proof. rewrite after_init_eq. apply steady_drop; [|reflexivity]. intro H. apply orb_prop in H as [H|H]; [now apply undone_named' in H|]. apply andb_prop in H as [_ H]. apply inb_In in H. now left. Qed.
Lemma steady_in_trace n : in_trace so e n = ambient so e Trace n.
Proof. rewrite in_trace_eq. cbn [ambient]. now rewrite steady_init. Qed.
Lemma named_trace n : named so n -> lookup (trace_macros (so_mcstas so)) n = None.
Proof. intro H. apply lookup_none. intro X. apply reserved_trace in X. destruct (NA n H) as (_ & R & _). exact (R X). Qed.
Lemma steady_after_trace n : after_trace so e n = ambient so e Trace n.
Proof.
  rewrite after_trace_eq, steady_in_trace. destruct (inb n (undone_trace so (so_types so))) eqn:B; [|reflexivity]. rewrite <- (firstn_all (so_types so)) in B. apply undone_trace_named in B. cbn [ambient]. rewrite (named_trace n B). symmetry. now apply NA.
Qed.
Lemma steady_ray n : n <> "mcget_run_num" -> after_ray so e n = e n.
Proof.
  intro N. rewrite after_ray_eq, steady_after_trace. destruct (inb n (undefined_trace (so_mcstas so))) eqn:U.
  - symmetry. apply LA. left. apply inb_In in U. unfold undefined_trace in U. apply in_app_or in U as [U|U]; [now left|right]. cbn in *. intuition.
  - cbn [orb]. destruct (inb n (all_uservars so)) eqn:V; [apply all_uservars_named in V; symmetry; now apply NA|]. cbn [ambient]. rewrite lookup_none; [reflexivity|]. intro X. apply reserved_trace in X. rewrite (undefined_reserved _ _ X N) in U. discriminate.
Qed.
Lemma steady_save n : n <> "mcget_run_num" -> after_save so e n = e n.
Proof. intro N. rewrite after_save_eq. apply steady_drop; [|now apply steady_ray]. intro H. apply orb_prop in H as [H|H]; [now apply undone_named' in H|]. apply andb_prop in H as [_ H]. apply inb_In in H. now left. Qed.
Lemma steady_final n : n <> "mcget_run_num" -> after_final so e n = e n.
Proof. intro N. rewrite after_final_eq. apply steady_drop; [|now apply steady_save]. intro H. apply orb_prop in H as [H|H]; [now apply undone_named' in H|]. apply andb_prop in H as [_ H]. apply inb_In in H. now left. Qed.
Lemma steady_display n : n <> "mcget_run_num" -> in_display so e n = ambient so e Display n.
Proof. intro N. rewrite in_display_eq. cbn [ambient]. now rewrite steady_final. Qed.
Lemma steady_class s a p e' n : (forall m, m = n -> a m = ambient so e s m) -> In (p, e') (seen a (each (comp_class s) 0 (so_types so))) -> ~ own_name so p n -> e' n = ambient so e (section_of p) n.
Proof.
  intros A H O. apply class_seen in H as (j & c & N & -> & Q). rewrite Q. cbn [section_of Nat.add] in *. destruct (inb n (ct_pars c)) eqn:I; [exfalso; apply O; exists c; split; [exact N|now apply inb_In in I]|].
  destruct (inb n (undone s (firstn j (so_types so)))) eqn:U; [|now apply A]. apply undone_named in U. destruct (NA n U) as (E & R & S). assert (X : lookup shapes n = None) by now apply lookup_none. assert (Y := named_trace n U).
  destruct s; cbn [ambient]; rewrite ?X, ?Y; symmetry; exact E.
Qed.
Lemma steady_instr s a p e' n : s = Init \/ s = Save \/ s = Final -> (forall m, m = n -> a m = e m) -> In (p, e') (seen (leaves a (each (comp_class s) 0 (so_types so))) (instr_code so s)) -> ~ own_name so p n -> e' n = ambient so e (section_of p) n.
Proof.
  intros S A H O. apply instr_seen in H as [-> Q]. rewrite Q. cbn [section_of own_name] in *. apply inb_not in O. rewrite O, class_leaves. assert (E : ambient so e s n = e n) by (destruct S as [->|[->| ->]]; reflexivity). rewrite E.
  apply steady_drop; [|now apply A]. apply undone_named'.
Qed.
End Steady.

(** Apart from its own names, every piece of code sees exactly the macros of its section; and after the whole file the macros are those of the libraries.
    Partial: names must not clash with the macros of the generated code or of libraries, and one macro, mcget_run_num, is left (refutations below). *)
Theorem C44_nothing_else_changes_partial : forall so e, names_apart so e -> libraries_apart so e ->
  (forall p e' n, In (p, e') (seen e (file so)) -> ~ own_name so p n -> section_of p = Init \/ section_of p = Trace \/ n <> "mcget_run_num" -> e' n = ambient so e (section_of p) n) /\
  (forall n, n <> "mcget_run_num" -> leaves e (file so) n = e n).
Proof.
  intros so e NA LA. split.
  - intros p e' n H O S.
    apply file_seen in H as [H|[H|[H|[H|[H|[H|[H|[H|H]]]]]]]].
    + refine (steady_class so e NA Init e p e' n _ H O). reflexivity.
    + refine (steady_instr so e NA Init e p e' n _ _ H O); [auto|reflexivity].
    + apply trace_seen in H as (j & c & N & Q). cbn [Nat.add] in Q.
      assert (U : (if inb n (undone_trace so (firstn j (so_types so))) then None else in_trace so e n) = ambient so e Trace n).
      { rewrite (steady_in_trace so e NA). destruct (inb n (undone_trace so (firstn j (so_types so)))) eqn:B; [|reflexivity]. apply undone_trace_named in B. cbn [ambient]. rewrite (named_trace so e NA n B). symmetry. now apply NA. }
      destruct Q as [[-> Q]|[-> Q]]; rewrite Q, U; cbn [section_of].
      * destruct (inb n (ct_pars c)) eqn:I; [|reflexivity]. exfalso. apply O. exists c. split; [exact N|now apply inb_In in I].
      * destruct (inb n (so_uservars so ++ ct_uservars c)) eqn:V; [exfalso; apply O; exists c; split; [exact N|apply inb_In in V; apply in_app_or in V; tauto]|].
        destruct (inb n (ct_pars c)) eqn:I; [|reflexivity]. exfalso. apply O. exists c. split; [exact N|left; now apply inb_In in I].
    + destruct H as [-> Q]. rewrite Q. destruct (inb n (all_uservars so)) eqn:V.
      * exfalso. apply O. apply inb_In in V. unfold all_uservars in V. apply in_app_or in V as [V|V]; [now left|right]. now apply in_flat_map in V.
      * now apply steady_after_trace.
    + assert (P : section_of p = Save) by (apply class_seen in H as (j & c & _ & -> & _); reflexivity). rewrite P in S. refine (steady_class so e NA Save _ p e' n _ H O). intros m ->. apply steady_ray; auto. destruct S as [S|[S|S]]; [discriminate..|exact S].
    + assert (P : section_of p = Save) by (apply instr_seen in H as [-> _]; reflexivity). rewrite P in S. refine (steady_instr so e NA Save _ p e' n _ _ H O); [auto|]. intros m ->. apply steady_ray; auto. destruct S as [S|[S|S]]; [discriminate..|exact S].
    + assert (P : section_of p = Final) by (apply class_seen in H as (j & c & _ & -> & _); reflexivity). rewrite P in S. refine (steady_class so e NA Final _ p e' n _ H O). intros m ->. apply steady_save; auto. destruct S as [S|[S|S]]; [discriminate..|exact S].
    + assert (P : section_of p = Final) by (apply instr_seen in H as [-> _]; reflexivity). rewrite P in S. refine (steady_instr so e NA Final _ p e' n _ _ H O); [auto|]. intros m ->. apply steady_save; auto. destruct S as [S|[S|S]]; [discriminate..|exact S].
    + assert (P : section_of p = Display) by (apply class_seen in H as (j & c & _ & -> & _); reflexivity). rewrite P in S. refine (steady_class so e NA Display _ p e' n _ H O). intros m ->. apply steady_display; auto. destruct S as [S|[S|S]]; [discriminate..|exact S].
  - intros n N. rewrite file_leaves. destruct (inb n (map fst shapes)) eqn:D; [symmetry; apply LA; right; now apply inb_In in D|]. cbn [orb]. apply (steady_drop so e NA); [apply undone_named'|].
    rewrite (steady_display so e NA LA n N). cbn [ambient]. apply inb_not in D. now rewrite (lookup_none _ _ D).
Qed.
Print Assumptions C44_nothing_else_changes_partial.

Definition ex_source : CText.ctype := CType ["n"] ["width"; "height"] [] ["data"] ["flag2"] (fun _ => true) true.
Definition ex_mon : CText.ctype := CType [] ["width"; "bins"] [] [] [] (fun _ => true) false.
Definition ex_so : source := Source true ["energy"] (fun _ => true) ["flag"] [ex_source; ex_mon].
Definition ex_env : env := fun n => if String.eqb n "PI" then Some "3.14159" else None.
Example C44_nonvacuous : names_apart ex_so ex_env /\ libraries_apart ex_so ex_env /\
  (exists e, In (PComp Save 1, e) (seen ex_env (file ex_so)) /\ e "width" = Some "(_comp->_parameters.width)" /\ e "height" = None /\ e "PI" = Some "3.14159") /\
  (exists e, In (PExtend 0, e) (seen ex_env (file ex_so)) /\ e "flag2" = Some "(_particle->flag2)" /\ e "height" = Some (component_macro "height") /\ e "vx" = Some "(_particle->vx)").
Proof.
  split; [|split; [|split]].
  - intros n [H|[H|(c & [<-|[<-|[]]] & [H|H])]]; cbn in H; repeat (destruct H as [<-|H]; [split; [reflexivity|]; split; [unfold reserved; cbn; intuition discriminate|cbn; intuition discriminate]|]); destruct H.
  - intros n [[H|H]|H]; cbn in H; repeat (destruct H as [<-|H]; [reflexivity|]); destruct H.
  - eexists. split; [unfold file, sec_init, sec_trace, sec_ray, sec_save; cbn - [upd]; do 8 right; left; reflexivity|]. repeat split.
  - eexists. split; [unfold file, sec_init, sec_trace, sec_ray, sec_save; cbn - [upd]; do 4 right; left; reflexivity|]. repeat split.
Qed.

(** mcget_run_num is defined for TRACE and never undefined: whatever the instrument, all code of SAVE, FINALLY and DISPLAY sees it as a reference to a particle that does not exist there. *)
Theorem C44_run_num_leaks_refuted : forall so e, ~ named so "mcget_run_num" ->
  (forall p e', In (p, e') (seen e (file so)) -> section_of p = Save \/ section_of p = Final \/ section_of p = Display -> e' "mcget_run_num" = Some "_particle->_uid") /\
  leaves e (file so) "mcget_run_num" = Some "_particle->_uid".
Proof.
  intros so e N. set (n := "mcget_run_num") in *.
  assert (D : forall (b : bool) (a : option string), (b = true -> named so n) -> (if b then None else a) = a) by (intros [|] a B; [contradiction (N (B eq_refl))|reflexivity]).
  assert (IP : forall s, so_has so s && inb n (so_parameters so) = true -> named so n) by (intros s H; apply andb_prop in H as [_ H]; left; now apply inb_In in H).
  assert (UP : forall s, inb n (undone s (so_types so)) || so_has so s && inb n (so_parameters so) = true -> named so n) by (intros s H; apply orb_prop in H as [H|H]; [now apply undone_named' in H|now apply (IP s)]).
  assert (T : after_trace so e n = Some "_particle->_uid").
  { rewrite after_trace_eq, D by (intro H; rewrite <- (firstn_all (so_types so)) in H; now apply undone_trace_named in H). rewrite in_trace_eq. destruct (so_mcstas so); reflexivity. }
  assert (R : after_ray so e n = Some "_particle->_uid").
  { rewrite after_ray_eq. replace (inb n (undefined_trace (so_mcstas so))) with false by (destruct (so_mcstas so); reflexivity). cbn [orb]. rewrite D by apply all_uservars_named. exact T. }
  assert (S : after_save so e n = Some "_particle->_uid") by (rewrite after_save_eq, (D _ _ (UP Save)); exact R).
  assert (F : after_final so e n = Some "_particle->_uid") by (rewrite after_final_eq, (D _ _ (UP Final)); exact S).
  assert (X : in_display so e n = Some "_particle->_uid") by (rewrite in_display_eq; change (lookup shapes n) with (@None string); exact F).
  assert (K : forall s a p e', a n = Some "_particle->_uid" -> In (p, e') (seen a (each (comp_class s) 0 (so_types so))) -> e' n = Some "_particle->_uid").
  { intros s a p e' A H. apply class_seen in H as (j & c & Nc & _ & Q). rewrite Q. destruct (inb n (ct_pars c)) eqn:I; [exfalso; apply N; right; right; exists c; split; [now apply nth_error_In in Nc|left; now apply inb_In in I]|]. rewrite D by apply undone_named. exact A. }
  assert (J : forall s a p e', a n = Some "_particle->_uid" -> In (p, e') (seen (leaves a (each (comp_class s) 0 (so_types so))) (instr_code so s)) -> e' n = Some "_particle->_uid").
  { intros s a p e' A H. apply instr_seen in H as [_ Q]. rewrite Q. destruct (inb n (so_parameters so)) eqn:I; [exfalso; apply N; left; now apply inb_In in I|]. rewrite class_leaves, D by apply undone_named'. exact A. }
  split.
  - intros p e' H P. apply file_seen in H as [H|[H|[H|[H|[H|[H|[H|[H|H]]]]]]]]; try (now apply (K _ _ _ _ R H) || now apply (J _ _ _ _ R H) || now apply (K _ _ _ _ S H) || now apply (J _ _ _ _ S H) || now apply (K _ _ _ _ X H)); exfalso.
    + apply class_seen in H as (j & c & _ & -> & _). cbn in P. intuition discriminate.
    + apply instr_seen in H as [-> _]. cbn in P. intuition discriminate.
    + apply trace_seen in H as (j & c & _ & [[-> _]|[-> _]]); cbn in P; intuition discriminate.
    + destruct H as [-> _]. cbn in P. intuition discriminate.
  - rewrite file_leaves. change (inb n (map fst shapes)) with false. cbn [orb]. rewrite D by apply undone_named'. exact X.
Qed.
Print Assumptions C44_run_num_leaks_refuted.
Example C44_run_num_nonvacuous : ~ named ex_so "mcget_run_num" /\ exists e, In (PComp Save 1, e) (seen ex_env (file ex_so)).
Proof.
  split; [|eexists; unfold file, sec_init, sec_trace, sec_ray, sec_save; cbn - [upd]; do 8 right; left; reflexivity].
  intros [H|[H|(c & [<-|[<-|[]]] & [H|H])]]; cbn in H; intuition discriminate.
Qed.

(** A component parameter named like a particle coordinate: the component after it in TRACE has lost the macro of the coordinate. *)
Theorem C44_parameter_named_like_coordinate_refuted : exists so e', In (PComp Trace 1, e') (seen (fun _ => None) (file so)) /\ (forall c, nth_error (so_types so) 1 = Some c -> parameters_of c = []) /\ e' "t" = None.
Proof.
  exists (Source true [] (fun _ => false) [] [CType [] ["t"] [] [] [] (fun _ => true) false; CType [] [] [] [] [] (fun _ => true) false]).
  eexists. split; [unfold file, sec_init, sec_trace; cbn - [upd]; do 3 right; left; reflexivity|]. split; [|reflexivity]. intros c H. injection H as <-. reflexivity.
Qed.
Print Assumptions C44_parameter_named_like_coordinate_refuted.

(** ** Parentheses *)
Fixpoint balance (depth : nat) (s : string) : bool :=
  match s with
  | EmptyString => Nat.eqb depth 0
  | String a t => if Ascii.eqb a "(" then balance (S depth) t else if Ascii.eqb a ")" then match depth with O => false | S d => balance d t end else balance depth t
  end.
Definition balanced (s : string) : Prop := balance 0 s = true.
Definition no_parens (n : string) : Prop := has_char "(" n = false /\ has_char ")" n = false.
Lemma balance_skip n : forall d r, no_parens n -> balance d (n +++ r) = balance d r.
Proof. induction n as [|a n IH]; intros d r [A B]; [reflexivity|]. cbn [has_char] in A, B. apply orb_false_iff in A as [A A'], B as [B B']. cbn [append balance]. rewrite A, B. now apply IH. Qed.
(** Every body of a macro, other than those written for the code of SAVE in the instrument, has matching parentheses. *)
Theorem C44_definitions_balanced_partial : forall so n b, (forall m, named so m -> no_parens m) -> In (Def n b) (file so) ->
  (so_has so Save = true -> ~ In n (so_parameters so)) -> balanced b.
Proof.
  intros so n b P H HS.
  assert (O : forall m, no_parens m -> balanced (own m)) by (intros m M; change (balance 1 (m +++ ")") = true); now rewrite (balance_skip m 1 ")" M)).
  assert (U : forall m, no_parens m -> balanced (user m)) by (intros m M; change (balance 1 (m +++ ")") = true); now rewrite (balance_skip m 1 ")" M)).
  assert (DP : forall c, In c (so_types so) -> In (Def n b) (parameter_define c) -> balanced b).
  { intros c Hc X. unfold parameter_define in X. apply in_map_iff in X as (m & E & I). injection E as <- <-. apply O. apply P. right. right. exists c. tauto. }
  assert (NU : forall l, ~ In (Def n b) (map Undef l)) by (intros l X; apply in_map_iff in X as (m & E & _); discriminate).
  assert (K : forall s k l, (forall c, In c l -> In c (so_types so)) -> In (Def n b) (each (comp_class s) k l) -> balanced b).
  { intros s k l. revert k. induction l as [|c l IH]; intros k L X; [destruct X|]. cbn [each] in X. apply in_app_or in X as [X|X].
    - unfold comp_class in X. destruct (ct_has c s); [|destruct X]. apply in_app_or in X as [X|X]; [apply (DP c); [apply L; now left|exact X]|]. destruct X as [X|X]; [discriminate|]; cbn [app] in X. now apply NU in X.
    - apply (IH (S k)); [|exact X]. intros c' Hc'. apply L. now right. }
  assert (T : forall k l, (forall c, In c l -> In c (so_types so)) -> In (Def n b) (each (comp_trace so) k l) -> balanced b).
  { intros k l. revert k. induction l as [|c l IH]; intros k L X; [destruct X|]. cbn [each] in X. apply in_app_or in X as [X|X].
    - unfold comp_trace in X. destruct (ct_extended c || ct_has c Trace); [|destruct X]. apply in_app_or in X as [X|X]; [apply (DP c); [apply L; now left|exact X]|]. destruct X as [X|X]; [discriminate|]; cbn [app] in X. apply in_app_or in X as [X|X]; [|now apply NU in X].
      destruct (ct_extended c); [|destruct X]. apply in_app_or in X as [X|X].
      + apply in_map_iff in X as (m & E & I). injection E as <- <-. apply U. apply P. apply in_app_or in I as [I|I]; [right; now left|]. right. right. exists c. split; [apply L; now left|now right].
      + destruct X as [X|X]; [discriminate|]; cbn [app] in X. now apply NU in X.
    - apply (IH (S k)); [|exact X]. intros c' Hc'. apply L. now right. }
  assert (J : forall s, In (Def n b) (instr_code so s) -> balanced b).
  { intros s X. unfold instr_code in X. destruct (so_has so s) eqn:B; [|destruct X]. apply in_app_or in X as [X|X].
    - apply in_map_iff in X as (m & E & I). injection E as -> <-. assert (M : no_parens n) by (apply P; now left). destruct s; try (change (balance 1 (n +++ ")") = true); now rewrite (balance_skip n 1 ")" M)). now apply HS in B.
    - destruct X as [X|X]; [discriminate|]; cbn [app] in X. now apply NU in X. }
  unfold file, sec_init, sec_trace, sec_ray, sec_save, sec_final, sec_display in H. repeat rewrite in_app_iff in H.
  destruct H as [[H|H]|[[H|H]|[[H|[H|[H|H]]]|[[H|H]|[[H|H]|[H|[H|H]]]]]]].
  - apply (K Init 0 (so_types so)); auto.
  - now apply (J Init).
  - unfold def_trace in H. apply in_map_iff in H as ([x y] & E & I). injection E as <- <-. destruct (so_mcstas so); cbn in I; repeat (destruct I as [I|I]; [injection I as <- <-; reflexivity|]); destruct I.
  - apply (T 0 (so_types so)); auto.
  - apply in_map_iff in H as (m & E & I). injection E as <- <-. apply U. apply P. apply all_uservars_named. now apply inb_In.
  - destruct H as [H|[]]. discriminate.
  - now apply NU in H.
  - unfold undef_trace in H. now apply NU in H.
  - apply (K Save 0 (so_types so)); auto.
  - now apply (J Save).
  - apply (K Final 0 (so_types so)); auto.
  - now apply (J Final).
  - apply in_map_iff in H as ([x y] & E & I). injection E as <- <-. cbn in I; repeat (destruct I as [I|I]; [injection I as <- <-; reflexivity|]); destruct I.
  - apply (K Display 0 (so_types so)); auto.
  - apply in_map_iff in H as ([x y] & E & I). discriminate.
Qed.
Print Assumptions C44_definitions_balanced_partial.
Example C44_balanced_nonvacuous : (forall m, named ex_so m -> no_parens m) /\ In (Def "data" "(_comp->_parameters.data)") (file ex_so) /\ ~ In "data" (so_parameters ex_so).
Proof.
  split; [|split].
  - intros n [H|[H|(c & [<-|[<-|[]]] & [H|H])]]; cbn in H; repeat (destruct H as [<-|H]; [split; reflexivity|]); destruct H.
  - unfold file, sec_init. cbn. tauto.
  - cbn. intuition discriminate.
Qed.
(** Every instrument with code in SAVE and a parameter: the macro of each parameter lacks its closing parenthesis. *)
Theorem C44_save_definitions_refuted : forall so e p e' n, so_has so Save = true -> In (p, e') (seen e (file so)) -> p = PInstr Save -> In n (so_parameters so) -> no_parens n ->
  exists b, e' n = Some b /\ ~ balanced b.
Proof.
  intros so e p e' n S H -> I P.
  assert (X : forall s a, In (PInstr Save, e') (seen a (instr_code so s)) -> e' n = Some ("(instrument->_parameters." +++ n)).
  { intros s a X. apply instr_seen in X as [E Q]. injection E as <-. rewrite Q. apply inb_In in I. rewrite I. now rewrite string_app_nil_r. }
  assert (E : e' n = Some ("(instrument->_parameters." +++ n)).
  { apply file_seen in H as [H|[H|[H|[H|[H|[H|[H|[H|H]]]]]]]]; try (now apply X in H).
    - apply class_seen in H as (j & c & _ & E & _). discriminate.
    - apply trace_seen in H as (j & c & _ & [[E _]|[E _]]); discriminate.
    - destruct H as [E _]. discriminate.
    - apply class_seen in H as (j & c & _ & E & _). discriminate.
    - apply class_seen in H as (j & c & _ & E & _). discriminate.
    - apply class_seen in H as (j & c & _ & E & _). discriminate. }
  eexists. split; [exact E|]. unfold balanced. change (balance 1 n <> true). rewrite <- (string_app_nil_r n), (balance_skip n 1 "" P). discriminate.
Qed.
Print Assumptions C44_save_definitions_refuted.
Example C44_save_nonvacuous : exists e, In (PInstr Save, e) (seen ex_env (file ex_so)) /\ e "energy" = Some "(instrument->_parameters.energy".
Proof. eexists. split; [unfold file, sec_init, sec_trace, sec_ray, sec_save; cbn - [upd]; do 9 right; left; reflexivity|reflexivity]. Qed.

(** * C51 Component lookup by name in generated code *)
Definition identifier_like (n : string) : Prop := has_char """" n = false /\ has_char "\" n = false /\ has_char ";" n = false.
Lemma str_nat_plain k : has_char ";" (str_nat k) = false.
Proof.
  unfold str_nat. generalize (Nat.to_uint k). intro d. assert (H : forall d, has_char ";" (DecimalString.NilEmpty.string_of_uint d) = false) by (induction d0; cbn; auto).
  destruct d; try reflexivity; exact (H _).
Qed.
Lemma index_lookup names x : Forall identifier_like names -> call "compname" x (getcompindex names) = Some (entry x (map (fun '(i, n) => (n, str_nat (1 + i))) (number 0 names)) "-1").
Proof.
  intro H. unfold getcompindex. cbn [app call String.eqb Ascii.eqb Bool.eqb].
  replace (map (fun '(i, n) => if_line "compname" n (str_nat (1 + i))) (number 0 names)) with (map (fun '(n, r) => if_line "compname" n r) (map (fun '(i, n) => (n, str_nat (1 + i))) (number 0 names))) by (rewrite map_map; apply map_ext; now intros [? ?]).
  apply (body_table "compname" x _ "-1" ["}"; ""]); [|reflexivity]. apply Forall_forall. intros [n r] I. apply in_map_iff in I as ([i m] & E & I). injection E as <- <-. split; [|apply str_nat_plain].
  rewrite Forall_forall in H. apply H. rewrite <- (number_snd names 0). change m with (snd (i, m)). now apply in_map.
Qed.
Lemma index_names names : map fst (map (fun (p : nat * string) => let (i, n) := p in (n, str_nat (1 + i))) (number 0 names)) = names.
Proof. rewrite map_map. rewrite <- (number_snd names 0) at 2. apply map_ext. now intros [? ?]. Qed.
(** The generated function gives for the name of the component number i (counted from zero) the text of 1+i, and -1 for every other text. *)
Theorem C51_index_of_component : forall names, NoDup names -> Forall identifier_like names ->
  (forall i n, nth_error names i = Some n -> call "compname" n (getcompindex names) = Some (str_nat (1 + i))) /\
  (forall x, ~ In x names -> call "compname" x (getcompindex names) = Some "-1").
Proof.
  intros names U P. split.
  - intros i n E. rewrite (index_lookup names n P). f_equal. apply (entry_nth _ "-1") with (i := i); [now rewrite index_names|]. rewrite nth_error_map, (number_nth names 0 i n E). reflexivity.
  - intros x N. rewrite (index_lookup names x P). f_equal. apply entry_none. now rewrite index_names.
Qed.
Print Assumptions C51_index_of_component.
Example C51_index_nonvacuous : NoDup ["Origin"; "Source"; "Mon"] /\ Forall identifier_like ["Origin"; "Source"; "Mon"] /\ call "compname" "Mon" (getcompindex ["Origin"; "Source"; "Mon"]) = Some "3" /\ call "compname" "mon" (getcompindex ["Origin"; "Source"; "Mon"]) = Some "-1".
Proof. split; [repeat (constructor; [cbn; intuition discriminate|]); constructor|]. split; [repeat (constructor; [repeat split|]); constructor|]. split; reflexivity. Qed.
(** hence different components have different indices, and an index is never that of no component *)
Theorem C51_index_identifies : forall names, NoDup names -> Forall identifier_like names ->
  forall x y, In x names -> call "compname" x (getcompindex names) = call "compname" y (getcompindex names) -> x = y.
Proof.
  intros names U P x y Hx E. destruct (C51_index_of_component names U P) as [A B]. apply In_nth_error in Hx as [i Hi]. rewrite (A i x Hi) in E.
  destruct (in_dec string_dec y names) as [Hy|Hy].
  - apply In_nth_error in Hy as [j Hj]. rewrite (A j y Hj) in E. injection E as E. apply str_nat_inj in E. injection E as <-. congruence.
  - rewrite (B y Hy) in E. injection E as E. exfalso. assert (D : forall d, DecimalString.NilZero.string_of_uint d <> "-1"). { intro d. destruct d; discriminate. } exact (D _ E).
Qed.
Print Assumptions C51_index_identifies.
(** The functions for component parameters and user variables of the particle give the address of the variable of that name, and a null pointer for every other text. *)
Theorem C51_address_of_component_parameters : forall names, NoDup names -> Forall identifier_like names -> forall x,
  call "compname" x (getvarpars names) = Some (if in_dec string_dec x names then "(void *) &(_" +++ x +++ "_var._parameters)" else "0").
Proof.
  intros names U P x. unfold getvarpars. cbn [app call String.eqb Ascii.eqb Bool.eqb].
  assert (S : forall l t, body "compname" x ("  #ifdef OPENACC" :: "    #define strcmp(a,b) str_comp(a,b)" :: "  #endif" :: l ++ t) = body "compname" x (l ++ t)) by reflexivity. rewrite S.
  set (f := fun n => (n, "(void *) &(_" +++ n +++ "_var._parameters)")).
  replace (map (fun n => if_line "compname" n ("(void *) &(_" +++ n +++ "_var._parameters)")) names) with (map (fun '(n, r) => if_line "compname" n r) (map f names)) by (rewrite map_map; reflexivity).
  transitivity (Some (entry x (map f names) "0")); [apply (body_table "compname" x (map f names) "0" ["}"; ""]); [apply Forall_forall|reflexivity]|].
  2:{ f_equal. assert (F : map fst (map f names) = names) by (rewrite map_map; apply map_id). destruct (in_dec string_dec x names) as [I|N].
    + apply In_nth_error in I as [i I]. apply (entry_nth _ "0") with (i := i); [now rewrite F|]. rewrite nth_error_map, I. reflexivity.
    + apply entry_none. now rewrite F. }
  intros [n r] I. apply in_map_iff in I as (m & E & I). injection E as <- <-. rewrite Forall_forall in P. specialize (P m I). split; [exact P|]. change (has_char ";" (m +++ "_var._parameters)") = false). rewrite has_char_app. destruct P as (_ & _ & C). rewrite C. reflexivity.
Qed.
Print Assumptions C51_address_of_component_parameters.
Theorem C51_address_of_user_variable : forall names, NoDup names -> Forall identifier_like names -> forall x,
  call "token" x (getparticlevar names) = Some (if in_dec string_dec x names then "(void *) &(p->" +++ x +++ ")" else "0").
Proof.
  intros names U P x. unfold getparticlevar. cbn [app call String.eqb Ascii.eqb Bool.eqb].
  set (f := fun n => (n, "(void *) &(p->" +++ n +++ ")")).
  replace (map (fun n => if_line "token" n ("(void *) &(p->" +++ n +++ ")")) names) with (map (fun '(n, r) => if_line "token" n r) (map f names)) by (rewrite map_map; reflexivity).
  transitivity (Some (entry x (map f names) "0")); [apply (body_table "token" x (map f names) "0" ["}"; ""]); [apply Forall_forall|reflexivity]|].
  2:{ f_equal. assert (F : map fst (map f names) = names) by (rewrite map_map; apply map_id). destruct (in_dec string_dec x names) as [I|N].
    + apply In_nth_error in I as [i I]. apply (entry_nth _ "0") with (i := i); [now rewrite F|]. rewrite nth_error_map, I. reflexivity.
    + apply entry_none. now rewrite F. }
  intros [n r] I. apply in_map_iff in I as (m & E & I). injection E as <- <-. rewrite Forall_forall in P. specialize (P m I). split; [exact P|]. change (has_char ";" (m +++ ")") = false). rewrite has_char_app. destruct P as (_ & _ & C). rewrite C. reflexivity.
Qed.
Print Assumptions C51_address_of_user_variable.
Example C51_address_nonvacuous : call "compname" "Source" (getvarpars ["Origin"; "Source"]) = Some "(void *) &(_Source_var._parameters)" /\ call "token" "flag" (getparticlevar ["flag"]) = Some "(void *) &(p->flag)" /\ call "token" "x" (getparticlevar ["flag"]) = Some "0".
Proof. repeat split. Qed.
