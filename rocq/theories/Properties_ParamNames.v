(** C92: the generated C program takes exactly those names for instrument parameters that are *)
From Coq Require Import List String Ascii Bool QArith Qcanon Lia.
From Verif Require Import PyStr Expr ExprFacts ParamNames.
Import ListNotations.
Local Open Scope list_scope.
Local Open Scope string_scope.
Local Open Scope list_scope.

(** * What is meant *)
(** a variable of the C program: that of the instrument parameter of this name, if there is one *)
Definition variable (names : list string) (s : string) : string :=
  if in_dec string_dec s names then ("_instrument_var._parameters." ++ s)%string else s.
(** the names of an expression as they are meant: each is a variable, save for the members of a structure *)
Fixpoint meant (names : list string) (e : source) : list string :=
  match e with
  | SNumber _ => []
  | SName s => [variable names s]
  | SMember _ s m => [variable names s; m]
  | SItem s e => variable names s :: meant names e
  | SCall _ e | SUnary _ e => meant names e
  | SBinary _ a b => meant names a ++ meant names b
  | SChoice a b c => meant names a ++ meant names b ++ meant names c
  end.
(** no parameter is accessed like a structure or an array, which none can be, and no member has the name of a parameter *)
Fixpoint clear (names : list string) (e : source) : Prop :=
  match e with
  | SNumber _ | SName _ => True
  | SMember _ s m => ~ In s names /\ ~ In m names
  | SItem s e => ~ In s names /\ clear names e
  | SCall _ e | SUnary _ e => clear names e
  | SBinary _ a b => clear names a /\ clear names b
  | SChoice a b c => clear names a /\ clear names b /\ clear names c
  end.
(** the variables of an expression that are not accessed *)
Fixpoint variables (e : source) : list string :=
  match e with
  | SNumber _ | SMember _ _ _ => []
  | SName s => [s]
  | SItem _ e | SCall _ e | SUnary _ e => variables e
  | SBinary _ a b => variables a ++ variables b
  | SChoice a b c => variables a ++ variables b ++ variables c
  end.
(** of the parameters there are in the end, an expression names only those *)
Definition covered (final seen : list string) (e : source) : Prop := forall s, In s (variables e) -> In s final -> In s seen.

(** * Marks *)
(** the names of a visited expression with their marks *)
Fixpoint marks (f : string -> bool) (e : source) : list (string * bool) :=
  match e with
  | SNumber _ => []
  | SName s => [(s, f s)]
  | SMember _ s m => [(s, false); (m, f m)]
  | SItem s e => (s, false) :: marks f e
  | SCall _ e | SUnary _ e => marks f e
  | SBinary _ a b => marks f a ++ marks f b
  | SChoice a b c => marks f a ++ marks f b ++ marks f c
  end.
Lemma idents_visit names e : idents (visit names e) = marks (known names) e.
Proof.
  induction e; cbn; rewrite ?app_nil_r; unfold named; cbn; try reflexivity; try congruence.
  - destruct (known names s); reflexivity.
  - destruct (known names m); reflexivity.
Qed.
Lemma known_spec names s : known names s = true <-> In s names.
Proof. unfold known. rewrite existsb_exists. split; [intros (x & I & E); apply String.eqb_eq in E; now subst|intro I; exists s; split; [exact I|apply String.eqb_refl]]. Qed.
Lemma known_not names s : ~ In s names -> known names s = false.
Proof. intro N. destruct (known names s) eqn:E; [apply known_spec in E; contradiction|reflexivity]. Qed.
(** how a marked name is written *)
Definition show (p : string * bool) : string := if snd p then ("_instrument_var._parameters." ++ fst p)%string else fst p.
Lemma show_variable names s b : (b = true <-> In s names) -> show (s, b) = variable names s.
Proof. unfold show, variable. cbn [fst snd]. intro E. destruct (in_dec string_dec s names) as [I|N]; [now rewrite (proj2 E I)|]. destruct b; [destruct (N (proj1 E eq_refl))|reflexivity]. Qed.
Lemma show_bare names s : ~ In s names -> s = variable names s.
Proof. unfold variable. destruct (in_dec string_dec s names); [contradiction|reflexivity]. Qed.
Lemma shown final (f : string -> bool) e : clear final e -> (forall s, In s (variables e) -> (f s = true <-> In s final)) -> (forall m, ~ In m final -> f m = false) ->
  map show (marks f e) = meant final e.
Proof.
  intros C V M. revert C V. induction e; cbn [marks map meant clear variables]; intros C V; auto.
  - rewrite (show_variable final s (f s)); [reflexivity|apply V; now left].
  - destruct C as [Cs Cm]. rewrite (M m Cm). unfold show. cbn [fst snd]. now rewrite <- (show_bare final s Cs).
  - destruct C as [Cs C]. rewrite (IHe C V). unfold show at 1. cbn [fst snd]. now rewrite <- (show_bare final s Cs).
  - destruct C as [C1 C2]. rewrite map_app, (IHe1 C1), (IHe2 C2); [reflexivity| |]; intros s I; apply V; apply in_or_app; auto.
  - destruct C as (C1 & C2 & C3). rewrite !map_app, (IHe1 C1), (IHe2 C2), (IHe3 C3); [reflexivity| | |]; intros s I; apply V; rewrite !in_app_iff; auto.
Qed.
Lemma written_visit final seen e : incl seen final -> clear final e -> covered final seen e -> written (visit seen e) = meant final e.
Proof.
  intros S C V. unfold written. rewrite idents_visit. change (map show (marks (known seen) e) = meant final e). apply shown; [exact C| |].
  - intros s I. rewrite known_spec. split; [apply S|apply V, I].
  - intros m N. apply known_not. intro I. apply N, S, I.
Qed.
Lemma relabel_marks names f e : clear names e -> map (relabel names) (marks f e) = marks (fun s => f s || known names s) e.
Proof.
  assert (B : forall s, ~ In s names -> relabel names (s, false) = (s, false)) by (intros s N; unfold relabel; cbn [fst snd]; fold (known names s); now rewrite (known_not _ _ N)).
  induction e; cbn [marks map clear]; intro C; auto.
  - destruct C as [Cs Cm]. now rewrite (B s Cs).
  - destruct C as [Cs C]. now rewrite (B s Cs), (IHe C).
  - destruct C as [C1 C2]. now rewrite map_app, IHe1, IHe2.
  - destruct C as (C1 & C2 & C3). now rewrite !map_app, IHe1, IHe2, IHe3.
Qed.
Lemma written_verified final seen e : incl seen final -> clear final e -> written (verify final (visit seen e)) = meant final e.
Proof.
  intros S C. unfold written. rewrite verify_idents, idents_visit, (relabel_marks _ _ _ C). change (map show (marks (fun s => known seen s || known final s) e) = meant final e).
  assert (T : forall s, known seen s || known final s = true <-> In s final) by (intro s; rewrite orb_true_iff, !known_spec; split; [intros [I|I]; [apply S, I|exact I]|auto]).
  apply shown; [exact C|intros s _; apply T|]. intros m N. destruct (known seen m || known final m) eqn:E; [apply T in E; contradiction|reflexivity].
Qed.
Lemma clear_incl a b e : incl a b -> clear b e -> clear a e.
Proof. intro I. induction e; cbn [clear]; try tauto; intros; repeat match goal with H : _ /\ _ |- _ => destruct H end; repeat split; auto; intro K; match goal with H : ~ _ |- _ => now apply H, I end. Qed.
Lemma written_checked final seen e : incl seen final -> clear final e -> covered final seen e -> written (check_expr seen (parse e)) = meant final e.
Proof.
  intros S C V. unfold check_expr, parse, written. rewrite verify_idents, idents_visit, (relabel_marks _ _ _ (clear_incl _ _ _ S C)). change (map show (marks (fun s => known [] s || known seen s) e) = meant final e).
  apply shown; [exact C| |].
  - intros s I. cbn [known existsb orb]. rewrite known_spec. split; [apply S|apply V, I].
  - intros m N. cbn [known existsb orb]. apply known_not. intro I. apply N, S, I.
Qed.
(** all names of an expression as they are in the text *)
Definition plain : source -> list string := meant [].
Lemma written_parse e : written (parse e) = plain e.
Proof.
  unfold parse, written, plain. rewrite idents_visit. change (map show (marks (known []) e) = meant [] e).
  induction e; cbn in *; rewrite ?map_app; try congruence. 
Qed.

(** * Instances *)
(** the parameters there are in the end *)
Lemma fold_add ns l s : In s (fold_left add_parameter ns l) <-> In s l \/ In s ns.
Proof.
  revert l. induction ns as [|n ns IH]; intro l; cbn [fold_left]; [cbn; tauto|]. rewrite IH. unfold add_parameter. destruct (known l n) eqn:K.
  - apply known_spec in K. cbn. split; [tauto|intros [I|[<-|I]]; auto].
  - rewrite in_app_iff. cbn. tauto.
Qed.
(** the instances of a file with the parameters known where they are: those of the file and of the files included before, or those of the
    included file *)
Fixpoint placed (seen : list string) (l : list item) : list (list string * inst source) :=
  match l with
  | [] => []
  | Component i :: t => (seen, i) :: placed seen t
  | Include ns is_ :: t => map (fun i => (ns, i)) is_ ++ placed (seen ++ ns) t
  end.
(** all parameters of the instrument that a file describes *)
Definition parameters (own : list string) (l : list item) : list string := own ++ flat_map (fun it => match it with Include ns _ => ns | _ => [] end) l.
(** positions, orientations, SPLIT, WHEN and JUMP *)
Definition others {A} (i : inst A) : list A := at_ i ++ rotated i ++ splits i ++ whens i ++ jumps i.
(** the C program has the names that are meant *)
Definition right (final : list string) (i : inst source) (o : inst node) : Prop :=
  map written (values o) = map (meant final) (values i) /\ map written (at_ o) = map (meant final) (at_ i) /\ map written (rotated o) = map (meant final) (rotated i) /\
  map written (splits o) = map (meant final) (splits i) /\ map written (whens o) = map (meant final) (whens i) /\ map written (jumps o) = map (meant final) (jumps i).

Lemma variable_ext a b s : (forall x, In x a <-> In x b) -> variable a s = variable b s.
Proof. intro E. unfold variable. destruct (in_dec string_dec s a) as [I|N], (in_dec string_dec s b) as [J|M]; auto; [apply E in I|apply E in J]; contradiction. Qed.
Lemma visit_ext a b e : (forall x, In x a <-> In x b) -> visit a e = visit b e.
Proof.
  intro E. assert (K : forall s, known a s = known b s).
  { intro s. destruct (known b s) eqn:B; [apply known_spec, E, known_spec, B|]. apply known_not. intro I. apply E, known_spec in I. congruence. }
  induction e; cbn [visit]; unfold named; rewrite ?K; congruence.
Qed.
Lemma verify_ext a b n : (forall x, In x a <-> In x b) -> verify a n = verify b n.
Proof.
  intro E. assert (K : forall s, existsb (String.eqb s) a = existsb (String.eqb s) b).
  { intro s. change (known a s = known b s). destruct (known b s) eqn:B; [apply known_spec, E, known_spec, B|]. apply known_not. intro I. apply E, known_spec in I. congruence. }
  assert (L : forall l, Forall (fun n => verify a n = verify b n) l -> map (verify a) l = map (verify b) l) by (induction 1; cbn; congruence).
  induction n using node_ind'; cbn [verify]; try reflexivity; try (now rewrite ?L by assumption).
  destruct p; [reflexivity|]. now rewrite K.
Qed.
Lemma visit_inst_ext a b i : (forall x, In x a <-> In x b) -> visit_inst a i = visit_inst b i.
Proof. intro E. unfold visit_inst. f_equal; apply map_ext; intro e; now apply visit_ext. Qed.
Lemma read_spec l own s : (forall x, In x (names_of s) <-> In x own) ->
  (forall x, In x (names_of (fold_left read_item l s)) <-> In x (parameters own l)) /\
  insts_of (fold_left read_item l s) = insts_of s ++ map (fun p => visit_inst (fst p) (snd p)) (placed own l).
Proof.
  revert own s. induction l as [|it l IH]; intros own s E; cbn [fold_left placed map]; [split; [unfold parameters; cbn; rewrite app_nil_r; exact E|now rewrite app_nil_r]|].
  destruct it as [i|ns is_].
  - destruct (IH own (read_item s (Component i)) E) as [N I]. split; [exact N|]. rewrite I. cbn [read_item insts_of map fst snd]. rewrite <- app_assoc. cbn [app]. now rewrite (visit_inst_ext _ _ i E).
  - destruct (IH (own ++ ns) (read_item s (Include ns is_))) as [N I].
    { intro x. cbn [read_item names_of]. rewrite fold_add, in_app_iff, E. tauto. }
    split; [intro x; rewrite N; unfold parameters; cbn [flat_map]; rewrite !in_app_iff; tauto|]. rewrite I. cbn [read_item insts_of]. rewrite map_app, map_map. cbn [fst snd]. now rewrite <- app_assoc.
Qed.
Lemma placed_known own l V i : In (V, i) (placed own l) -> incl V (parameters own l).
Proof.
  revert own. induction l as [|it l IH]; intros own I; [destruct I|]. destruct it as [j|ns is_]; cbn [placed] in I.
  - destruct I as [E|I]; [injection E as -> ->; intros x X; apply in_or_app; now left|]. exact (IH own I).
  - apply in_app_or in I as [I|I].
    + apply in_map_iff in I as (j & E & _). injection E as -> ->. intros x X. unfold parameters. cbn. rewrite !in_app_iff. auto.
    + intros x X. apply (IH _ I) in X. unfold parameters in *. cbn [flat_map]. rewrite !in_app_iff in *. tauto.
Qed.
Lemma Forall2_maps {A B C} (R : B -> C -> Prop) (f : A -> B) (g : A -> C) l : (forall x, In x l -> R (f x) (g x)) -> Forall2 R (map f l) (map g l).
Proof. induction l; intro H; constructor; [apply H; now left|apply IHl; intros; apply H; now right]. Qed.

(** * Files *)
(** in the C program of a file, in the values of parameters as in positions, orientations, SPLIT, WHEN and JUMP, exactly the instrument
    parameters are written as such, provided that no member of a structure has the name of one and that positions and the like name
    parameters of their own file only, or of files included before *)
Theorem C92_file own l : let final := parameters own l in
  (forall V i e, In (V, i) (placed own l) -> In e (values i ++ others i) -> clear final e) ->
  (forall V i e, In (V, i) (placed own l) -> In e (others i) -> covered final V e) ->
  Forall2 (right final) (map snd (placed own l)) (translated (read_file own l)).
Proof.
  intros final C V. unfold read_file, translated. destruct (read_spec l own (mkInstr own [])) as [N I]; [reflexivity|]. rewrite I. cbn [insts_of app]. rewrite map_map. apply Forall2_maps.
  intros [W i] P. cbn [fst snd]. pose proof (placed_known _ _ _ _ P) as K. unfold right, verify_inst, visit_inst. cbn [values at_ rotated splits whens jumps].
  assert (O : forall e, In e (others i) -> written (visit W e) = meant final e).
  { intros e E. apply written_visit; [exact K|apply (C W i e P); apply in_or_app; auto|apply (V W i e P E)]. }
  unfold others in O. repeat split; try (rewrite map_map; apply map_ext_in; intros e E; apply O; rewrite !in_app_iff; tauto).
  rewrite map_map, map_map. apply map_ext_in. intros e E. rewrite (verify_ext _ _ _ N). apply written_verified; [exact K|]. apply (C W i e P). apply in_or_app. auto.
Qed.
Print Assumptions C92_file.
(** an instance for the examples *)
Definition one (v a w : list source) : inst source := mkInst v a [] [] w [].
Example C92_file_example : let l := [Component (one [SBinary BMul (SName "E") (SItem "table" (SName "n"))] [SName "d"] [SBinary BGt (SName "E") (SMember true "_particle" "p")])] in
  (forall V i e, In (V, i) (placed ["E"; "n"] l) -> In e (values i ++ others i) -> clear (parameters ["E"; "n"] l) e) /\
  (forall V i e, In (V, i) (placed ["E"; "n"] l) -> In e (others i) -> covered (parameters ["E"; "n"] l) V e) /\
  map (fun o => (map written (values o), map written (whens o))) (translated (read_file ["E"; "n"] l)) =
    [([["_instrument_var._parameters.E"; "table"; "_instrument_var._parameters.n"]], [["_instrument_var._parameters.E"; "_particle"; "p"]])].
Proof.
  cbn. split; [|split; [|reflexivity]]; intros V i e [E|[]] I; injection E as <- <-; cbn in I.
  - repeat destruct I as [<-|I]; cbn; try destruct I; intuition discriminate.
  - intros s S F. exact F.
Qed.
(** a member of a structure that has the name of an instrument parameter is written as the parameter, so that the C program has a name
    with two structures *)
Theorem C92_member_refuted own a w p s m : In m own ->
  exists o, translated (read_file own [Component (one [] a (SMember p s m :: w))]) = [o] /\ hd [] (map written (whens o)) = [s; ("_instrument_var._parameters." ++ m)%string] /\ meant own (SMember p s m) = [variable own s; m].
Proof.
  intro I. eexists. split; [reflexivity|]. split; [|reflexivity]. cbn [verify_inst visit_inst whens one map hd]. unfold written. rewrite idents_visit. cbn [marks map fst snd].
  cbn [read_item names_of]. apply known_spec in I. now rewrite I.
Qed.
Print Assumptions C92_member_refuted.
Example C92_member_example : In "n" ["E"; "n"] /\ map (fun o => map written (whens o)) (translated (read_file ["E"; "n"] [Component (one [] [] [SMember false "table" "n"])])) = [[["table"; "_instrument_var._parameters.n"]]].
Proof. split; [cbn; auto|reflexivity]. Qed.
(** in an included file, a parameter of the including file alone is a mere name in a position or a condition, though not in the value of
    a parameter *)
Theorem C92_included_refuted own ns s : In s own -> ~ In s ns ->
  exists o, translated (read_file own [Include ns [one [SName s] [SName s] [SName s]]]) = [o] /\
  map written (values o) = [["_instrument_var._parameters." ++ s]]%string /\ map written (at_ o) = [[s]] /\ map written (whens o) = [[s]] /\
  meant (parameters own [Include ns [one [SName s] [SName s] [SName s]]]) (SName s) = ["_instrument_var._parameters." ++ s]%string.
Proof.
  intros I N. eexists. split; [reflexivity|]. cbn [verify_inst visit_inst values at_ whens one map visit]. unfold written, named. rewrite (known_not _ _ N). split; [|split; [reflexivity|split; [reflexivity|]]].
  - rewrite verify_idents. cbn [idents map relabel fst snd]. assert (K : known (fold_left add_parameter ns own) s = true) by (apply known_spec, fold_add; now left). unfold known in K. cbn [map fst snd]. unfold relabel. cbn [fst snd orb]. cbn [read_file fold_left read_item names_of]. now rewrite K.
  - cbn [meant]. unfold variable. destruct (in_dec string_dec s _) as [_|M]; [reflexivity|]. destruct M. unfold parameters. apply in_or_app. now left.
Qed.
Print Assumptions C92_included_refuted.
Example C92_included_example : In "E" ["E"] /\ ~ In "E" ["d"].
Proof. cbn. intuition discriminate. Qed.

(** * Programs *)
(** the components that a program adds, with the parameters added before *)
Fixpoint added (seen : list string) (l : list step) : list (list string * inst source) :=
  match l with
  | [] => []
  | AddParameter s :: t => added (seen ++ [s]) t
  | AddComponent i :: t => (seen, i) :: added seen t
  end.
(** all parameters that a program adds *)
Definition all_parameters (l : list step) : list string := flat_map (fun st => match st with AddParameter s => [s] | _ => [] end) l.
(** the component that Assembler.component makes *)
Lemma assemble_spec l seen s : (forall x, In x (names_of s) <-> In x seen) ->
  (forall x, In x (names_of (fold_left assemble_step l s)) <-> In x (seen ++ all_parameters l)) /\
  insts_of (fold_left assemble_step l s) = insts_of s ++ map (fun p => let i := snd p in mkInst (map parse (values i)) (map (fun e => check_expr (fst p) (parse e)) (at_ i))
    (map (fun e => check_expr (fst p) (parse e)) (rotated i)) (map parse (splits i)) (map parse (whens i)) (map parse (jumps i))) (added seen l).
Proof.
  revert seen s. induction l as [|st l IH]; intros seen s E; cbn [fold_left added map]; [split; [cbn; rewrite app_nil_r; exact E|now rewrite app_nil_r]|].
  destruct st as [p|i].
  - destruct (IH (seen ++ [p]) (assemble_step s (AddParameter p))) as [N I].
    { intro x. cbn [assemble_step names_of]. pose proof (fold_add [p] (names_of s) x) as F. cbn [fold_left] in F. rewrite F, in_app_iff, E. tauto. }
    split; [intro x; rewrite N; unfold all_parameters; cbn [flat_map]; rewrite !in_app_iff; tauto|exact I].
  - destruct (IH seen (assemble_step s (AddComponent i)) E) as [N I]. split; [exact N|]. rewrite I. cbn [assemble_step insts_of map fst snd]. rewrite <- app_assoc. cbn [app]. f_equal. f_equal. f_equal; apply map_ext; intro e; unfold check_expr; now apply verify_ext.
Qed.
Lemma added_known l seen V i : In (V, i) (added seen l) -> incl V (seen ++ all_parameters l).
Proof.
  revert seen. induction l as [|st l IH]; intros seen I; [destruct I|]. destruct st as [p|j]; cbn [added] in I.
  - intros x X. apply (IH _ I) in X. unfold all_parameters in *. cbn [flat_map]. rewrite !in_app_iff in *. tauto.
  - destruct I as [E|I]; [injection E as -> ->; intros x X; apply in_or_app; now left|exact (IH seen I)].
Qed.
(** in the C program of an instrument that was put together with an Assembler, exactly the instrument parameters are written as such in
    the values of parameters, whenever they were added, and in positions and orientations if they were added before the component.
    Missing: SPLIT, WHEN and JUMP, for which it is false *)
Theorem C92_assembled_partial l : let final := all_parameters l in
  (forall V i e, In (V, i) (added [] l) -> In e (values i ++ at_ i ++ rotated i) -> clear final e) ->
  (forall V i e, In (V, i) (added [] l) -> In e (at_ i ++ rotated i) -> covered final V e) ->
  Forall2 (fun i o => map written (values o) = map (meant final) (values i) /\ map written (at_ o) = map (meant final) (at_ i) /\ map written (rotated o) = map (meant final) (rotated i))
    (map snd (added [] l)) (translated (assemble l)).
Proof.
  intros final C V. unfold assemble, translated. destruct (assemble_spec l [] (mkInstr [] [])) as [N I]; [reflexivity|]. rewrite I. cbn [insts_of app]. rewrite map_map. apply Forall2_maps.
  intros [W i] P. cbn [fst snd]. pose proof (added_known _ _ _ _ P) as K. cbn [app] in K, N. unfold verify_inst. cbn [values at_ rotated].
  split; [|split].
  - rewrite map_map, map_map. apply map_ext_in. intros e E. rewrite (verify_ext _ _ _ N). apply (written_verified final []); [intros x []|]. apply (C W i e P). apply in_or_app. auto.
  - rewrite map_map. apply map_ext_in. intros e E. apply written_checked; [exact K|apply (C W i e P); rewrite !in_app_iff; auto|apply (V W i e P); rewrite !in_app_iff; auto].
  - rewrite map_map. apply map_ext_in. intros e E. apply written_checked; [exact K|apply (C W i e P); rewrite !in_app_iff; auto|apply (V W i e P); rewrite !in_app_iff; auto].
Qed.
Print Assumptions C92_assembled_partial.
Example C92_assembled_example : let l := [AddParameter "d"; AddComponent (one [SName "E"] [SName "d"] []); AddParameter "E"] in
  (forall V i e, In (V, i) (added [] l) -> In e (values i ++ at_ i ++ rotated i) -> clear (all_parameters l) e) /\
  (forall V i e, In (V, i) (added [] l) -> In e (at_ i ++ rotated i) -> covered (all_parameters l) V e) /\
  map (fun o => (map written (values o), map written (at_ o))) (translated (assemble l)) = [([["_instrument_var._parameters.E"]], [["_instrument_var._parameters.d"]])].
Proof.
  cbn. split; [|split; [|reflexivity]]; intros V i e [E|[]] I; injection E as <- <-; cbn in I.
  - repeat destruct I as [<-|I]; cbn; try destruct I; exact Logic.I.
  - destruct I as [<-|[]]. intros s [<-|[]] _. cbn. auto.
Qed.
(** an instrument parameter in SPLIT, WHEN or JUMP of a component that was added with an Assembler is a mere name in the C program,
    whenever it was added *)
Theorem C92_conditions_refuted l :
  Forall2 (fun i o => map written (splits o) = map plain (splits i) /\ map written (whens o) = map plain (whens i) /\ map written (jumps o) = map plain (jumps i))
    (map snd (added [] l)) (translated (assemble l)).
Proof.
  unfold assemble, translated. destruct (assemble_spec l [] (mkInstr [] [])) as [N I]; [reflexivity|]. rewrite I. cbn [insts_of app]. rewrite map_map. apply Forall2_maps.
  intros [W i] P. cbn [fst snd verify_inst splits whens jumps]. repeat split; rewrite map_map; apply map_ext; intro e; apply written_parse.
Qed.
Print Assumptions C92_conditions_refuted.
Example C92_conditions_example : let l := [AddParameter "E"; AddComponent (one [] [] [SBinary BGt (SName "E") (SNumber 0)])] in
  map (fun o => map written (whens o)) (translated (assemble l)) = [[["E"]]] /\ meant (all_parameters l) (SBinary BGt (SName "E") (SNumber 0)) = ["_instrument_var._parameters.E"].
Proof. split; reflexivity. Qed.
(** a position that names a parameter which is added after the component is a mere name in the C program *)
Theorem C92_late_refuted l s : ~ In s (all_parameters l) -> added [] l = [] ->
  exists o, translated (assemble (l ++ [AddComponent (one [] [SName s] []); AddParameter s])) = [o] /\ map written (at_ o) = [[s]] /\
  meant (all_parameters (l ++ [AddComponent (one [] [SName s] []); AddParameter s])) (SName s) = ["_instrument_var._parameters." ++ s]%string.
Proof.
  intros N A. unfold assemble, translated. rewrite fold_left_app. destruct (assemble_spec l [] (mkInstr [] [])) as [M I]; [reflexivity|]. rewrite A in I. cbn [map insts_of app] in I, M.
  set (r := fold_left assemble_step l (mkInstr [] [])) in *. cbn [fold_left assemble_step insts_of names_of]. rewrite I. cbn [app map]. eexists. split; [reflexivity|]. cbn [verify_inst at_ one map]. split.
  - unfold written, check_expr. rewrite verify_idents. cbn [parse visit named known existsb idents map relabel fst snd orb]. fold (known (names_of r) s). rewrite (known_not (names_of r) s); [reflexivity|]. intro J. now apply N, M.
  - cbn [meant]. unfold variable. destruct (in_dec string_dec s _) as [_|Q]; [reflexivity|]. destruct Q. unfold all_parameters. rewrite flat_map_app. apply in_or_app. right. now left.
Qed.
Print Assumptions C92_late_refuted.
Example C92_late_example : ~ In "d" (all_parameters [AddParameter "E"]) /\ added [] [AddParameter "E"] = [].
Proof. cbn. split; [intuition discriminate|reflexivity]. Qed.
(** a coordinate that is given to an Assembler as a text without quotes is the instrument parameter of this name, if there is one *)
Theorem C92_coordinate names s : s <> "" -> (forall t, s <> ("""" ++ t)%string) -> option_map written (coordinate names s) = Some [variable names s].
Proof.
  intros NE Q. unfold coordinate. rewrite (proj2 (String.eqb_neq s "") NE). cbn [option_map]. f_equal. unfold check_expr, best, written. assert (P : startswith """" s = false).
  { destruct (startswith """" s) eqn:E; [|reflexivity]. apply startswith_spec in E as (t & E). destruct (Q t E). }
  rewrite P, verify_idents. cbn [andb idents map]. unfold relabel. cbn [fst snd orb]. change (existsb (String.eqb s) names) with (known names s).
  change ([show (s, known names s)] = [variable names s]). rewrite (show_variable names); [reflexivity|apply known_spec].
Qed.
Print Assumptions C92_coordinate.
(** a coordinate that is given as the text of a product is a mere text in the C program, though it names an instrument parameter *)
Theorem C92_coordinate_product_refuted names a d : In d names -> ~ In (a ++ "*" ++ d)%string names -> (forall t, (a ++ "*" ++ d)%string <> ("""" ++ t)%string) ->
  option_map written (coordinate names (a ++ "*" ++ d)%string) = Some [(a ++ "*" ++ d)%string] /\ last (meant names (SBinary BMul (SName a) (SName d))) "" = ("_instrument_var._parameters." ++ d)%string.
Proof.
  intros I N Q. rewrite C92_coordinate, <- (show_bare _ _ N); [|destruct a; discriminate|exact Q]. split; [reflexivity|]. cbn [meant app last]. unfold variable at 1. destruct (in_dec string_dec d names); [reflexivity|contradiction].
Qed.
Print Assumptions C92_coordinate_product_refuted.
Example C92_coordinate_example : option_map written (coordinate ["d"] "d") = Some ["_instrument_var._parameters.d"] /\ option_map written (coordinate ["d"] "2*d") = Some ["2*d"] /\ ~ In "2*d" ["d"] /\ (forall t, "2*d" <> ("""" ++ t)%string).
Proof. split; [reflexivity|split; [reflexivity|split; [cbn; intuition discriminate|intros t E; discriminate]]]. Qed.
