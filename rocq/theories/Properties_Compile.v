(** C83: an instrument is compiled only after its compiler has been tried. *)
From Coq Require Import List String Ascii Bool ZArith Arith Lia.
From Verif Require Import PyStr TextLines Registry Target Compile Properties_Registry.
Import ListNotations.
Local Open Scope string_scope.
Local Open Scope list_scope.
Local Open Scope nat_scope.

Lemma mem_in x l : mem x l = true <-> In x l.
Proof.
  unfold mem. rewrite existsb_exists. split.
  - intros (y & I & E). apply String.eqb_eq in E. now subst.
  - intro I. exists x. split; [exact I|apply String.eqb_refl].
Qed.
Lemma key_eqb_spec a b : reflect (a = b) (key_eqb a b).
Proof. destruct a, b; constructor; congruence. Qed.

(** configurations in force during a history *)
Definition configs (g : config) (es : list event) : list config :=
  g :: flat_map (fun e => match e with Configure g => [g] | _ => [] end) es.
(** trials among the commands run *)
Definition is_check (k : key) (r : ran) : bool := match r_check r with Some k' => key_eqb k k' | None => false end.
Definition checks (k : key) (l : list ran) : list ran := filter (is_check k) l.

Section P.
Variable expand : string -> string.
Variable exec : list string -> list string -> bool * bool.
Variable is_dir : string -> bool.
Variable ext : string.
Variable tmp : string.
Notation trial := (trial expand exec tmp).
Notation compile := (compile expand exec is_dir ext tmp).
Notation after := (after expand exec is_dir ext tmp).
Notation happen := (happen expand exec is_dir ext tmp).
Notation expanded := (expanded expand).

(** what is known of a process: a remembered success was seen, under one of the
    configurations; trials are remembered *)
Definition inv (gs : list config) (w : world) : Prop :=
  In (w_cfg w) gs /\
  (forall k, w_cache w k = Some true -> exists g, In g gs /\ In (mkRan (Some k) (linux_command (expanded g) (check_target k) [] tmp) true) (w_log w)) /\
  (forall k, w_cache w k = None -> checks k (w_log w) = []) /\
  (forall k, List.length (checks k (w_log w)) <= 1).
Lemma trial_inv gs k w : inv gs w -> let '(b, w') := trial k w in
  inv gs w' /\ w_cache w' k = Some b /\ w_cfg w' = w_cfg w /\ w_files w' = w_files w /\ w_tools w' = w_tools w /\
  exists l, w_log w' = w_log w ++ l /\ Forall (fun r => r_check r = Some k) l.
Proof.
  intros (I1 & I2 & I3 & I4). unfold Compile.trial. destruct (w_cache w k) as [b|] eqn:C.
  { repeat split; auto. exists []. rewrite app_nil_r. auto. }
  assert (NO : inv gs (remember w k false) /\ w_cache (remember w k false) k = Some false /\ w_cfg (remember w k false) = w_cfg w /\
               w_files (remember w k false) = w_files w /\ w_tools (remember w k false) = w_tools w /\
               exists l, w_log (remember w k false) = w_log w ++ l /\ Forall (fun r => r_check r = Some k) l).
  { repeat split; auto; cbn [remember w_cache w_log].
    - intros k'. destruct (key_eqb_spec k' k); [discriminate|apply I2].
    - intros k'. destruct (key_eqb_spec k' k); [discriminate|apply I3].
    - destruct (key_eqb_spec k k); congruence.
    - exists []. rewrite app_nil_r. auto. }
  destruct (mem (configured (w_cfg w) k) (w_tools w)); cbn [negb]; [|exact NO].
  destruct (w_lib w); cbn [negb]; [|exact NO].
  set (cmd := linux_command (expanded (w_cfg w)) (check_target k) [] tmp).
  destruct (attempt exec w cmd) as [[rc wrote]|]; [|exact NO]. clear NO.
  set (r := mkRan (Some k) cmd rc). cbn [remember logged w_cache w_log w_cfg w_files w_tools].
  assert (CK : forall k', checks k' (w_log w ++ [r]) = checks k' (w_log w) ++ if key_eqb k' k then [r] else []).
  { intro k'. unfold checks. rewrite filter_app. reflexivity. }
  repeat split; auto; cbn [remember logged w_cache w_log w_cfg w_files w_tools].
  - intros k'. destruct (key_eqb_spec k' k) as [->|_].
    + intros E. assert (E' : rc && wrote = true) by congruence. apply andb_prop in E' as [E1 _]. unfold r. rewrite E1. exists (w_cfg w). split; [exact I1|]. apply in_or_app. right. left. reflexivity.
    + intro E. destruct (I2 k' E) as (g & Ig & Il). exists g. split; [exact Ig|]. apply in_or_app. now left.
  - intros k'. rewrite CK. destruct (key_eqb_spec k' k); [discriminate|]. intro E. now rewrite (I3 k' E).
  - intros k'. rewrite CK. destruct (key_eqb_spec k' k) as [->|_].
    + rewrite (I3 k C). cbn. lia.
    + rewrite app_nil_r. apply I4.
  - destruct (key_eqb_spec k k); congruence.
  - exists [r]. split; [reflexivity|]. constructor; [reflexivity|constructor].
Qed.
Lemma inv_build gs w r : inv gs w -> r_check r = None -> inv gs (logged w r).
Proof.
  intros (I1 & I2 & I3 & I4) N. assert (CK : forall k, checks k (w_log w ++ [r]) = checks k (w_log w)).
  { intro k. unfold checks. rewrite filter_app. cbn [filter]. unfold is_check at 2. rewrite N. apply app_nil_r. }
  repeat split; auto; cbn [logged w_cache w_log].
  - intros k E. destruct (I2 k E) as (g & Ig & Il). exists g. split; [exact Ig|]. apply in_or_app. now left.
  - intros k E. rewrite CK. auto.
  - intro k. rewrite CK. auto.
Qed.
Lemma compile_inv gs name decoded t output replace w : inv gs w -> inv gs (snd (compile name decoded t output replace w)).
Proof.
  intro I. unfold Compile.compile. pose proof (trial_inv gs (dispatch t) w I) as T. destruct (trial (dispatch t) w) as [b w1].
  destruct T as (T & _). destruct b; cbn [negb]; [|exact T]. destruct (binary_path is_dir ext output name) as [p|]; [|exact T].
  destruct (mem p (w_files w1) && negb replace); [exact T|]. destruct (attempt exec w1 _) as [[rc wrote]|]; [|exact T].
  set (r := mkRan None _ rc). assert (J := inv_build gs w1 r T eq_refl).
  destruct wrote, rc; cbn [negb]; repeat match goal with |- context [if ?c then _ else _] => destruct c end; exact J.
Qed.
Lemma inv_more gs gs' w : incl gs gs' -> inv gs w -> inv gs' w.
Proof.
  intros S (I1 & I2 & I3 & I4). repeat split; auto. intros k E. destruct (I2 k E) as (g & Ig & Il). exists g. auto.
Qed.
Lemma after_inv es : forall gs w, inv gs w -> inv (gs ++ flat_map (fun e => match e with Configure g => [g] | _ => [] end) es) (after es w).
Proof.
  induction es as [|e es IH]; intros gs w I; cbn [flat_map].
  - rewrite app_nil_r. exact I.
  - change (after (e :: es) w) with (after es (happen w e)). destruct e as [g|tools lib files|name decoded t output replace].
    + replace (gs ++ [g] ++ flat_map _ es) with ((gs ++ [g]) ++ flat_map (fun e => match e with Configure g => [g] | _ => [] end) es) by (now rewrite <- app_assoc).
      apply IH. assert (J : inv (gs ++ [g]) w) by (apply (inv_more gs); [apply incl_appl, incl_refl|exact I]).
      destruct J as (_ & I2 & I3 & I4). repeat split; auto. cbn. apply in_or_app. right. now left.
    + apply IH. destruct I as (I1 & I2 & I3 & I4). repeat split; auto.
    + apply IH. apply compile_inv. exact I.
Qed.
Lemma start_inv w : begins w -> inv [w_cfg w] w.
Proof.
  intros (C & L). repeat split.
  - now left.
  - intros k E. rewrite C in E. discriminate.
  - intros k _. now rewrite L.
  - intro k. rewrite L. cbn. lia.
Qed.
End P.

(* Unless an instrument is refused with the message that a working compiler is required, a
   trial compilation with the compiler of its target has succeeded in the process, under
   one of the configurations so far. *)
Theorem C83_tried_before : forall expand exec is_dir ext tmp w0 es name decoded t output replace,
  begins w0 ->
  let '(r, w) := compile expand exec is_dir ext tmp name decoded t output replace (after expand exec is_dir ext tmp es w0) in
  r <> NoCompiler ->
  exists g, In g (configs (w_cfg w0) es) /\
    let cmd := linux_command (expanded expand g) (check_target (dispatch t)) [] tmp in
    In (mkRan (Some (dispatch t)) cmd true) (w_log w) /\ hd "" cmd = compiler (expanded expand g) t.
Proof.
  intros expand exec is_dir ext tmp w0 es name decoded t output replace B.
  pose proof (after_inv expand exec is_dir ext tmp es _ _ (start_inv expand tmp w0 B)) as I.
  set (w := after expand exec is_dir ext tmp es w0) in *. change ([w_cfg w0] ++ _) with (configs (w_cfg w0) es) in I.
  destruct (compile expand exec is_dir ext tmp name decoded t output replace w) as [r w'] eqn:E. intro N.
  unfold compile in E. pose proof (trial_inv expand exec tmp _ (dispatch t) w I) as T. destruct (trial expand exec tmp (dispatch t) w) as [b w1].
  destruct T as ((_ & T & _) & C & _). destruct b; cbn [negb] in E; [|injection E as <- <-; congruence].
  destruct (T _ C) as (g & Ig & Il). exists g. split; [exact Ig|]. cbv zeta. split.
  - destruct (binary_path is_dir ext output name) as [p|]; [|injection E as <- <-; exact Il].
    destruct (mem p (w_files w1) && negb replace); [injection E as <- <-; exact Il|]. destruct (attempt exec w1 _) as [[rc wrote]|]; [|injection E as <- <-; exact Il].
    set (x := mkRan None _ rc) in E. assert (Il' : In (mkRan (Some (dispatch t)) (linux_command (expanded expand g) (check_target (dispatch t)) [] tmp) true) (w_log (logged w1 x))) by (cbn; apply in_or_app; now left).
    destruct wrote, rc; cbn [negb] in E; repeat match type of E with context [if ?c then _ else _] => destruct c end; injection E as <- <-; exact Il'.
  - unfold linux_command, linux_split_flags, compiler, dispatch, check_target. destruct (t_acc t); [reflexivity|]. destruct (t_mpi t); reflexivity.
Qed.
Print Assumptions C83_tried_before.

(* Each compiler is tried once in a process, at most. *)
Theorem C83_tried_once : forall expand exec is_dir ext tmp w0 es k, begins w0 ->
  List.length (checks k (w_log (after expand exec is_dir ext tmp es w0))) <= 1.
Proof.
  intros expand exec is_dir ext tmp w0 es k B. apply (after_inv expand exec is_dir ext tmp es _ _ (start_inv expand tmp w0 B)).
Qed.
Print Assumptions C83_tried_once.

(* What compile_instrument returns is a file that exists: either it existed, was not to be
   replaced and no command but a trial was run, or the last command was the one for this
   instrument and target and it succeeded.  In the other cases no file is lost, and if a
   working compiler is missing no other command was run. *)
Theorem C83_what_was_done : forall expand exec is_dir ext tmp w0 es name decoded t output replace, begins w0 ->
  let w := after expand exec is_dir ext tmp es w0 in
  let '(r, w') := compile expand exec is_dir ext tmp name decoded t output replace w in
  incl (w_files w) (w_files w') /\
  exists l, w_log w' = w_log w ++ l /\
  match r with
  | Binary p => In p (w_files w') /\ binary_path is_dir ext output name = Some p /\
      ((In p (w_files w) /\ replace = false /\ Forall (fun x => r_check x = Some (dispatch t)) l) \/
       exists l', l = l' ++ [mkRan None (linux_command (expanded expand (w_cfg w)) t decoded p) true] /\ Forall (fun x => r_check x = Some (dispatch t)) l')
  | NoCompiler => Forall (fun x => r_check x = Some (dispatch t)) l /\ w_files w' = w_files w
  | Failed => exists l' p, l = l' ++ [mkRan None (linux_command (expanded expand (w_cfg w)) t decoded p) false]
  | _ => True
  end.
Proof.
  intros expand exec is_dir ext tmp w0 es name decoded t output replace B w. unfold compile.
  pose proof (after_inv expand exec is_dir ext tmp es _ _ (start_inv expand tmp w0 B)) as I. fold w in I. clearbody w.
  pose proof (trial_inv expand exec tmp _ (dispatch t) w I) as T. destruct (trial expand exec tmp (dispatch t) w) as [b w1].
  destruct T as (_ & _ & Ec & Ef & Et & l & El & Fl).
  destruct b; cbn [negb].
  2: { rewrite Ef. split; [apply incl_refl|]. exists l. auto. }
  destruct (binary_path is_dir ext output name) as [p|] eqn:Ep.
  2: { rewrite Ef. split; [apply incl_refl|]. exists l. auto. }
  destruct (mem p (w_files w1) && negb replace) eqn:M.
  { apply andb_prop in M as [M1 M2]. apply mem_in in M1. rewrite Ef in *. split; [apply incl_refl|]. exists l. split; [exact El|]. split; [exact M1|]. split; [reflexivity|].
    left. repeat split; auto. now destruct replace. }
  rewrite Ec. set (cmd := linux_command (expanded expand (w_cfg w)) t decoded p).
  destruct (attempt exec w1 cmd) as [[rc wrote]|].
  2: { rewrite Ef. split; [apply incl_refl|]. exists l. auto. }
  set (w3 := if wrote then created (logged w1 (mkRan None cmd rc)) p else logged w1 (mkRan None cmd rc)).
  assert (F3 : incl (w_files w) (w_files w3)).
  { rewrite <- Ef. unfold w3. destruct wrote; cbn; [apply incl_tl, incl_refl|apply incl_refl]. }
  assert (L3 : w_log w3 = w_log w ++ l ++ [mkRan None cmd rc]).
  { rewrite app_assoc, <- El. unfold w3. destruct wrote; reflexivity. }
  destruct rc; cbn [negb].
  - destruct (mem p (w_files w3)) eqn:M3.
    + split; [exact F3|]. exists (l ++ [mkRan None cmd true]). split; [exact L3|]. split; [now apply mem_in|]. split; [reflexivity|]. right. exists l. auto.
    + split; [exact F3|]. eexists. split; [exact L3|exact Logic.I].
  - split; [exact F3|]. eexists. split; [exact L3|]. exists l, p. reflexivity.
Qed.
Print Assumptions C83_what_was_done.

(* Without an output, a binary of an instrument lies in the current directory, under the
   name of the instrument with the suffix of the system. *)
Theorem C83_default_place : forall is_dir ext name, is_dir "." = true -> plain_name name -> startswith "." ext = true -> ext <> "." ->
  binary_path is_dir ext None name = Some (name +++ ext).
Proof.
  intros is_dir ext name D P S N. unfold binary_path. rewrite D. unfold with_suffix. rewrite S.
  destruct (String.eqb_spec ext "."); [contradiction|]. cbn [negb orb andb]. rewrite andb_false_r.
  assert (E : parts ("." +++ "/" +++ name) = [name]).
  { rewrite <- (parts_plain name P). unfold parts. reflexivity. }
  rewrite E. cbn [removelast List.last app]. unfold stem_of. destruct P as (P1 & P2 & P3). rewrite (cut_dot_none name P3). reflexivity.
Qed.
Print Assumptions C83_default_place.

(** ** Examples and refutations *)
Definition linux (cc acc mpicc : string) : config :=
  mkC cc acc mpicc "mpirun" None ["-O2"] ["-acc=gpu"] ["-lm"] ["-DUSE_MPI"] ["-DUSE_NEXUS"].
Definition w_new (g : config) (tools : list string) (files : list string) : world := mkW g tools true files (fun _ => None) [].
(** programs that compile anything *)
Definition always : list string -> list string -> bool * bool := fun _ _ => (true, true).
(** programs that do not know a word *)
Definition without (word : string) : list string -> list string -> bool * bool :=
  fun _ cmd => if mem word cmd then (false, false) else (true, true).
Definition dot (s : string) : bool := s =?s ".".
Definition same (s : string) : string := s.
Definition single : target := create false false 1 false.

(* two compilations with gcc, one with mpicc: two trials *)
Example C83_example :
  let w0 := w_new (linux "gcc" "nvc" "mpicc") ["gcc"; "mpicc"] [] in
  let es := [Compile "one" [] single None false; Compile "two" [] single None false; Compile "two" [] (create true false 2 false) (Some "mpi.out") false] in
  let w := after same always dot ".out" "/tmp/x/output.out" es w0 in
  begins w0 /\ map r_check (w_log w) = [Some KC; None; None; Some KMpi; None] /\ w_files w = ["mpi.out"; "two.out"; "one.out"] /\
  map (fun r => hd "" (r_cmd r)) (w_log w) = ["gcc"; "gcc"; "gcc"; "mpicc"; "mpicc"] /\
  fst (compile same always dot ".out" "/tmp/x/output.out" "one" [] (create false true 1 false) None false w) = NoCompiler.
Proof. repeat split. Qed.
Example C83_default_place_example : dot "." = true /\ plain_name "one" /\ startswith "." ".out" = true /\ ".out" <> ".".
Proof. repeat split; discriminate. Qed.

(* The flags for NeXus are not part of any trial: a compiler that cannot use them passes,
   and the compilation fails with the messages of the compiler. *)
Theorem C83_nexus_not_tried_refuted : exists exec w0, begins w0 /\
  fst (compile same exec dot ".out" "/tmp/x/output.out" "one" [] (create false false 1 true) None false w0) = Failed.
Proof. exists (without "-DUSE_NEXUS"), (w_new (linux "gcc" "nvc" "mpicc") ["gcc"] []). split; [repeat split|reflexivity]. Qed.
Print Assumptions C83_nexus_not_tried_refuted.
(* Nor are the flags for MPI if OpenACC is wanted as well. *)
Theorem C83_mpi_with_acc_not_tried_refuted : exists exec w0, begins w0 /\
  fst (compile same exec dot ".out" "/tmp/x/output.out" "one" [] (create true true 1 false) None false w0) = Failed /\
  fst (compile same exec dot ".out" "/tmp/x/output.out" "one" [] (create true false 1 false) None false w0) = NoCompiler.
Proof. exists (without "-DUSE_MPI"), (w_new (linux "gcc" "nvc" "mpicc") ["nvc"; "mpicc"] []). split; [repeat split|split; reflexivity]. Qed.
Print Assumptions C83_mpi_with_acc_not_tried_refuted.
(* A compiler configured after a failed trial is not tried: the process keeps refusing,
   although a new process would compile. *)
Theorem C83_configured_later_refuted : exists w0 g,
  let es := [Compile "one" [] single None false; Configure g] in
  let w := after same always dot ".out" "/tmp/x/output.out" es w0 in
  begins w0 /\
  fst (compile same always dot ".out" "/tmp/x/output.out" "one" [] single None false w) = NoCompiler /\
  fst (compile same always dot ".out" "/tmp/x/output.out" "one" [] single None false (w_new (w_cfg w) (w_tools w) (w_files w))) = Binary "one.out".
Proof. exists (w_new (linux "cc1" "nvc" "mpicc") ["gcc"] []), (linux "gcc" "nvc" "mpicc"). split; [repeat split|split; reflexivity]. Qed.
Print Assumptions C83_configured_later_refuted.
(* And one configured after a successful trial is used untried. *)
Theorem C83_used_untried_refuted : exists w0 g,
  let es := [Compile "one" [] single None false; Configure g] in
  let w := after same always dot ".out" "/tmp/x/output.out" es w0 in
  begins w0 /\ fst (compile same always dot ".out" "/tmp/x/output.out" "two" [] single None false w) = NotStarted.
Proof. exists (w_new (linux "gcc" "nvc" "mpicc") ["gcc"] []), (linux "cc1" "nvc" "mpicc"). split; [repeat split|reflexivity]. Qed.
Print Assumptions C83_used_untried_refuted.
(* A compiler configured through an environment variable, as `$GCC`, is looked for under
   that very name and refused, although the name is expanded for compiling. *)
Theorem C83_variable_in_name_refuted : exists expand w0, begins w0 /\
  mem (compiler (expanded expand (w_cfg w0)) single) (w_tools w0) = true /\
  fst (compile expand always dot ".out" "/tmp/x/output.out" "one" [] single None false w0) = NoCompiler.
Proof.
  exists (fun s => if s =?s "$GCC" then "gcc" else s), (w_new (linux "$GCC" "nvc" "mpicc") ["gcc"] []). split; [repeat split|split; reflexivity].
Qed.
Print Assumptions C83_variable_in_name_refuted.
(* A binary that exists already is refused without a working compiler, and is returned
   for any other target with one. *)
Theorem C83_existing_binary_refuted : exists w0, begins w0 /\ In "one.out" (w_files w0) /\
  fst (compile same always dot ".out" "/tmp/x/output.out" "one" [] (create true false 1 false) None false w0) = NoCompiler /\
  fst (compile same always dot ".out" "/tmp/x/output.out" "one" [] (create false true 1 false) None false w0) = Binary "one.out".
Proof. exists (w_new (linux "gcc" "nvc" "mpicc") ["nvc"] ["one.out"]). split; [repeat split|split; [now left|split; reflexivity]]. Qed.
Print Assumptions C83_existing_binary_refuted.
(* A name with a dot, possible for instruments made in Python, loses what follows it. *)
Theorem C83_name_with_dot_refuted : binary_path dot ".out" None "scan.1" = Some "scan.out" /\ binary_path dot ".out" None "scan.2" = Some "scan.out".
Proof. split; reflexivity. Qed.
Print Assumptions C83_name_with_dot_refuted.
