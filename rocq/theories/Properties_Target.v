(** C46: compiler target options are not lost. *)
From Coq Require Import List String Ascii Bool ZArith Arith Lia.
From Verif Require Import PyStr Target.
Import ListNotations.
Local Open Scope string_scope.
Local Open Scope list_scope.
Local Open Scope nat_scope.

(** what was asked for: the last value given, the initial one if none was given *)
Fixpoint last_given {A} (l : list (option A)) (d : A) : A := match l with [] => d | Some x :: t => last_given t x | None :: t => last_given t d end.
Definition after (t : target) (ds : list opts) : target := fold_left update ds t.

Lemma update_fields t d : t_count (update t d) = get (o_count d) (t_count t) /\ t_mpi (update t d) = get (o_mpi d) (t_mpi t) /\
  t_acc (update t d) = get (o_acc d) (t_acc t) /\ t_nexus (update t d) = get (o_nexus d) false /\
  t_single (update t d) = negb (get (o_mpi d) (t_mpi t)) && negb (get (o_acc d) (t_acc t)).
Proof.
  unfold update. destruct (get (o_mpi d) (t_mpi t)), (get (o_acc d) (t_acc t)); cbn [base_type andb t_nexus]; destruct (get (o_nexus d) false); cbn; auto 10.
Qed.

Theorem C46_options_survive_updates_partial : forall mpi acc count nexus ds,
  let t := after (create mpi acc count nexus) ds in
  t_mpi t = last_given (map o_mpi ds) mpi /\ t_acc t = last_given (map o_acc ds) acc /\ t_count t = last_given (map o_count ds) count /\
  (t_single t = true <-> t_mpi t = false /\ t_acc t = false) /\
  (Forall (fun d => o_nexus d <> None) ds -> t_nexus t = last_given (map o_nexus ds) nexus).
Proof.
  intros mpi acc count nexus ds. cbv zeta. unfold after.
  assert (G : forall ds t, (t_single t = negb (t_mpi t) && negb (t_acc t)) ->
    let u := fold_left update ds t in t_mpi u = last_given (map o_mpi ds) (t_mpi t) /\ t_acc u = last_given (map o_acc ds) (t_acc t) /\ t_count u = last_given (map o_count ds) (t_count t) /\
    (t_single u = true <-> t_mpi u = false /\ t_acc u = false) /\ (Forall (fun d => o_nexus d <> None) ds -> t_nexus u = last_given (map o_nexus ds) (t_nexus t))).
  { clear. induction ds as [|d ds IH]; intros t S; cbv zeta.
    - destruct t as [tc ts [|] [|] tn]; cbn in *; subst ts; intuition discriminate.
    - destruct (update_fields t d) as (C & M & A & N & Si). cbn [fold_left map]. destruct (IH (update t d)) as (I1 & I2 & I3 & I4 & I5); [now rewrite M, A|].
      split; [rewrite I1, M; cbn [last_given]; now destruct (o_mpi d)|]. split; [rewrite I2, A; cbn [last_given]; now destruct (o_acc d)|].
      split; [rewrite I3, C; cbn [last_given]; now destruct (o_count d)|]. split; [exact I4|].
      intro F. inversion_clear F. rewrite I5 by auto. rewrite N. cbn [last_given]. now destruct (o_nexus d). }
  destruct (G ds (create mpi acc count nexus)) as (I1 & I2 & I3 & I4 & I5).
  - unfold create. destruct mpi, acc, nexus; reflexivity.
  - replace (t_mpi (create mpi acc count nexus)) with mpi in I1 by (destruct mpi, acc, nexus; reflexivity).
    replace (t_acc (create mpi acc count nexus)) with acc in I2 by (destruct mpi, acc, nexus; reflexivity).
    replace (t_count (create mpi acc count nexus)) with count in I3 by (destruct mpi, acc, nexus; reflexivity).
    replace (t_nexus (create mpi acc count nexus)) with nexus in I5 by (destruct mpi, acc, nexus; reflexivity). auto.
Qed.
Print Assumptions C46_options_survive_updates_partial.

(** every update that does not mention nexus switches it off, and with it the NeXus flags *)
Theorem C46_nexus_is_lost_refuted : forall t d g, o_nexus d = None -> t_nexus (update t d) = false /\ extra_flags g (update t d) = if t_mpi (update t d) then f_mpi g else [].
Proof.
  intros t d g N. destruct (update_fields t d) as (_ & _ & _ & X & _). rewrite N in X. cbn in X. split; [exact X|]. unfold extra_flags. rewrite X. now rewrite app_nil_r.
Qed.
Print Assumptions C46_nexus_is_lost_refuted.
Example C46_nexus_nonvacuous : let t := create true false 4 true in t_nexus t = true /\ t_nexus (update t (mkO (Some 8%Z) None None None)) = false /\ t_mpi (update t (mkO (Some 8%Z) None None None)) = true.
Proof. repeat split. Qed.

(** compiling from the command line: the target has what the dictionary asks for, and is an unadorned binary otherwise *)
Theorem C46_target_of_a_compilation : forall d,
  t_mpi (compile_target d) = get (o_mpi d) false /\ t_acc (compile_target d) = get (o_acc d) false /\ t_nexus (compile_target d) = get (o_nexus d) false /\ t_count (compile_target d) = get (o_count d) 1%Z.
Proof. intro d. unfold compile_target. destruct (update_fields (create false false 1 false) d) as (C & M & A & N & _). repeat split; assumption. Qed.
Print Assumptions C46_target_of_a_compilation.

(** ** Compiler *)
(** the command starts with the compiler for what was requested: OpenACC before MPI before neither *)
Theorem C46_command_starts_with_the_compiler : forall g t decoded out, exists c rest, linux_command g t decoded out = c :: rest /\
  (t_acc t = true -> c = g_acc g) /\ (t_acc t = false -> t_mpi t = true -> c = g_mpicc g) /\ (t_acc t = false -> t_mpi t = false -> c = g_cc g).
Proof.
  intros g t decoded out. unfold linux_command. destruct (linux_split_flags g t decoded) as [cf lf]. do 2 eexists. split; [reflexivity|]. unfold compiler.
  repeat split; intros; repeat match goal with H : _ = _ |- _ => rewrite H; clear H end; reflexivity.
Qed.
Print Assumptions C46_command_starts_with_the_compiler.
Example C46_command_starts_with_the_compiler_example : forall g decoded out, exists r,
  linux_command g (create true true 1 false) decoded out = g_acc g :: r.
Proof. intros. unfold linux_command. destruct (linux_split_flags _ _ _). eexists. reflexivity. Qed.

(** ** Flags *)
(** a word that only one of the configured lists has is on the compiler's command line exactly when that option is asked for *)
Theorem C46_flags_exactly_when_requested : forall g t decoded w, w <> "-D__GNUC__" ->
  let cf := fst (linux_split_flags g t decoded) in
  (In w (f_mpi g) -> ~ In w (f_cc g ++ f_acc g ++ f_nexus g) -> (In w cf <-> t_mpi t = true)) /\
  (In w (f_nexus g) -> ~ In w (f_cc g ++ f_acc g ++ f_mpi g) -> (In w cf <-> t_nexus t = true)) /\
  (In w (f_acc g) -> ~ In w (f_cc g ++ f_nexus g ++ f_mpi g) -> (In w cf <-> t_acc t = true)) /\
  (In w (f_cc g) -> ~ In w (f_acc g ++ f_nexus g ++ f_mpi g) -> (In w cf <-> t_acc t = false)) /\
  (~ In w (f_cc g ++ f_acc g ++ f_nexus g ++ f_mpi g) -> ~ In w cf).
Proof.
  intros g t decoded w NG cf. assert (E : In w cf <-> In w (flags g t) \/ In w (extra_flags g t)).
  { subst cf. unfold linux_split_flags. cbn [fst]. destruct (_ && _); rewrite ?in_app_iff; cbn; intuition congruence. }
  unfold flags, extra_flags in E. rewrite !in_app_iff in *. destruct (t_mpi t), (t_acc t), (t_nexus t); cbn in E; repeat split; intros; rewrite ?in_app_iff in *; try tauto; try (intuition discriminate).
Qed.
Print Assumptions C46_flags_exactly_when_requested.

(** what follows the source on the command line: the configured linker flags and each word of the instrument's flags, in order, and nothing else *)
Definition no_space (s : string) : bool := forallb (fun c => negb (is_space c)) (list_ascii_of_string s).
Lemma words_from_join : forall l, Forall (fun w => w <> "" /\ no_space w = true) l -> words_from "" (join " " l) = l.
Proof.
  assert (G : forall w cur r, no_space w = true -> words_from cur (w ++ String " " r)%string = (if (cur ++ w)%string =?s "" then [] else [(cur ++ w)%string]) ++ words_from "" r).
  { induction w as [|c w IH]; intros cur r N; cbn in *; [now rewrite string_app_nil_r|]. apply andb_true_iff in N as [A B]. apply negb_true_iff in A. rewrite A.
    rewrite IH by exact B. replace ((cur ++ String c "") ++ w)%string with (cur ++ String c w)%string by (rewrite string_app_assoc; reflexivity). reflexivity. }
  assert (G' : forall w cur, no_space w = true -> words_from cur w = if (cur ++ w)%string =?s "" then [] else [(cur ++ w)%string]).
  { induction w as [|c w IH]; intros cur N; cbn in *; [now rewrite string_app_nil_r|]. apply andb_true_iff in N as [A B]. apply negb_true_iff in A. rewrite A.
    rewrite IH by exact B. replace ((cur ++ String c "") ++ w)%string with (cur ++ String c w)%string by (rewrite string_app_assoc; reflexivity). reflexivity. }
  induction l as [|w l IH]; intros F; [reflexivity|]. inversion_clear F as [|? ? H Hl]. destruct H as [Ne Ns]. destruct l as [|v l].
  - cbn [join]. rewrite G' by exact Ns. cbn. destruct (w =?s "") eqn:E; [apply String.eqb_eq in E; congruence|reflexivity].
  - change (join " " (w :: v :: l)) with (w ++ " " ++ join " " (v :: l))%string. change (" " ++ join " " (v :: l))%string with (String " " (join " " (v :: l))).
    rewrite G by exact Ns. cbn [append]. destruct (w =?s "") eqn:E; [apply String.eqb_eq in E; congruence|]. rewrite (IH Hl). reflexivity.
Qed.
Theorem C46_linker_words : forall g t out (ws : list (list string)), Forall (Forall (fun w => w <> "" /\ no_space w = true)) ws ->
  exists cf, linux_command g t (map (join " ") ws) out = compiler g t :: cf ++ ["-o"; out; "-"] ++ f_ld g ++ List.concat ws.
Proof.
  intros g t out ws F. unfold linux_command, linux_split_flags.
  assert (E : flat_map words (map (join " ") ws) = List.concat ws).
  { induction F as [|w ws Fw F IH]; [reflexivity|]. cbn [map flat_map List.concat]. unfold words at 1. rewrite (words_from_join w Fw), IH. reflexivity. }
  rewrite E. eexists. reflexivity.
Qed.
Print Assumptions C46_linker_words.
Definition g0 : config := mkC "gcc" "nvc" "mpicc" "mpirun" (Some "hosts") ["-O2"; "-std=c99"] ["-DOPENACC"; "-fast"] ["-lm"] ["-DUSE_MPI"] ["-DUSE_NEXUS"; "-lNeXus"].
Example C46_flags_nonvacuous :
  linux_command g0 (create true true 2 true) [join " " ["-lgsl"; "-L/opt"]; "-lfoo"] "a.out" =
    ["nvc"; "-DOPENACC"; "-fast"; "-DUSE_MPI"; "-DUSE_NEXUS"; "-lNeXus"; "-D__GNUC__"; "-o"; "a.out"; "-"; "-lm"; "-lgsl"; "-L/opt"; "-lfoo"] /\
  Forall (Forall (fun w => w <> "" /\ no_space w = true)) [["-lgsl"; "-L/opt"]; ["-lfoo"]] /\
  In "-DUSE_MPI" (f_mpi g0) /\ ~ In "-DUSE_MPI" (f_cc g0 ++ f_acc g0 ++ f_nexus g0).
Proof. split; [reflexivity|]. split; [repeat constructor; discriminate|]. split; [cbn; auto|]. cbn. intuition discriminate. Qed.

(** ** Windows: every flag goes to one of the two lists, in order *)
Fixpoint to_compiler (l : list string) : list string := match l with [] => [] | f :: r => match windows_place (strip f) with ToCompiler s => s :: to_compiler r | _ => to_compiler r end end.
Fixpoint to_linker (l : list string) : list string := match l with [] => [] | f :: r => match windows_place (strip f) with ToLinker s => s :: to_linker r | _ => to_linker r end end.
Theorem C46_windows_flags_partial : forall g t decoded,
  let '(cf, lf) := windows_split_flags g t decoded in
  cf = flags g t ++ extra_flags g t ++ to_compiler decoded /\ lf = f_ld g ++ to_linker decoded /\
  List.length (to_compiler decoded) + List.length (to_linker decoded) = List.length decoded /\
  (forall s, In s (to_linker decoded) -> exists f, In f decoded /\ s = strip f) /\
  (forall s, In s (to_compiler decoded) -> exists f, In f decoded /\ (s = strip f \/ s = replace_char "=" ":" (strip f)) /\ (startswith "/" (strip f) = true \/ startswith "-" (strip f) = true)).
Proof.
  intros g t decoded. unfold windows_split_flags.
  assert (G : forall l cf lf, windows_loop l cf lf = (cf ++ to_compiler l, lf ++ to_linker l)).
  { induction l as [|f l IH]; cbn; intros cf lf; [now rewrite !app_nil_r|]. destruct (windows_place (strip f)); rewrite IH, <- app_assoc; reflexivity. }
  rewrite G. rewrite <- app_assoc. split; [reflexivity|]. split; [reflexivity|].
  assert (W : forall s, match windows_place s with ToLinker x => x = s | ToCompiler x => (x = s \/ x = replace_char "=" ":" s) /\ (startswith "/" s = true \/ startswith "-" s = true) end).
  { intro s. unfold windows_place. destruct (startswith "/" s), (startswith "-" s); cbn [negb andb]; auto;
      repeat match goal with |- context [if ?b then _ else _] => destruct b end; auto. }
  clear G. induction decoded as [|f l (L & A & B)]; cbn.
  - repeat split; auto; contradiction.
  - pose proof (W (strip f)) as Wf. destruct (windows_place (strip f)) as [x|x]; cbn; (split; [lia|]); split.
    + intros s I. destruct (A s I) as (f' & I' & E). eauto.
    + intros s [<-|I]; [exists f; tauto|]. destruct (B s I) as (f' & I' & E). eauto.
    + intros s [<-|I]; [exists f; auto|]. destruct (A s I) as (f' & I' & E). eauto.
    + intros s I. destruct (B s I) as (f' & I' & E). eauto.
Qed.
Print Assumptions C46_windows_flags_partial.
Example C46_windows_nonvacuous : windows_split_flags g0 (create false false 1 false) [" -DFOO=1"; "-std=c11 "; "user.lib"; "-pthread"; "/DYNAMICBASE"; "-lgsl"] =
  (["-O2"; "-std=c99"; "-DFOO=1"; "-std:c11"], ["-lm"; "user.lib"; "-pthread"; "/DYNAMICBASE"; "-lgsl"]).
Proof. reflexivity. Qed.

(** on Windows a flag of several words stays one argument; on Linux its words are arguments. Linker option /DYNAMICBASE:NO goes to the compiler, as a macro definition. *)
Theorem C46_windows_words_refuted : forall g t,
  snd (linux_split_flags g t ["-lgsl -lgslcblas"]) = f_ld g ++ ["-lgsl"; "-lgslcblas"] /\ snd (windows_split_flags g t ["-lgsl -lgslcblas"]) = f_ld g ++ ["-lgsl -lgslcblas"] /\
  fst (windows_split_flags g t ["/DYNAMICBASE:NO"]) = flags g t ++ extra_flags g t ++ ["/DYNAMICBASE:NO"].
Proof. intros g t. repeat split. unfold windows_split_flags. cbn -[app]. now rewrite app_assoc. Qed.
Print Assumptions C46_windows_words_refuted.

(** ** Running *)
Theorem C46_run_command : forall g d binary options, get (o_mpi d) false = false \/ get (o_acc d) false = false ->
  exists pre, run_held g (target_for_run false d) binary options = Some (pre ++ binary :: words options) /\
  (get (o_mpi d) false = false -> pre = []) /\
  (get (o_mpi d) false = true -> exists m, pre = g_mpirun g :: (if (get (o_count d) 1 =? 0)%Z then [] else ["-np"; str_Z (get (o_count d) 1%Z)]) ++ m /\ (m = [] \/ exists f, g_machinefile g = Some f /\ m = ["-machinefile"; f])).
Proof.
  intros g d binary options H. destruct (C46_target_of_a_compilation d) as (M & A & _ & C). cbn [target_for_run run_held]. unfold run_command. rewrite M, A, C.
  destruct (get (o_mpi d) false) eqn:Em, (get (o_acc d) false) eqn:Ea; cbn [andb]; try (destruct H; discriminate).
  - eexists. split; [reflexivity|]. split; [discriminate|]. intros _. eexists. split; [reflexivity|]. destruct (g_machinefile g); eauto.
  - exists []. repeat split; discriminate.
  - exists []. repeat split; discriminate.
Qed.
Print Assumptions C46_run_command.
Example C46_run_nonvacuous : run_held g0 (target_for_run false (mkO (Some 4%Z) (Some true) None None)) "/x/a.out" "--dir d  -n 10" = Some ["mpirun"; "-np"; "4"; "-machinefile"; "hosts"; "/x/a.out"; "--dir"; "d"; "-n"; "10"].
Proof. reflexivity. Qed.
(** a binary for MPI and OpenACC is compiled but cannot be run *)
Theorem C46_mpi_with_acc_refuted : forall g d b o, get (o_mpi d) false = true -> get (o_acc d) false = true -> run_held g (target_for_run false d) b o = None.
Proof. intros g d b o M A. destruct (C46_target_of_a_compilation d) as (M' & A' & _). cbn. unfold run_command. now rewrite M', A', M, A. Qed.
Print Assumptions C46_mpi_with_acc_refuted.
(** a binary that exists already is never run: the options are still a dictionary *)
Theorem C46_existing_binary_refuted : forall g d b o, run_held g (target_for_run true d) b o = None.
Proof. reflexivity. Qed.
Print Assumptions C46_existing_binary_refuted.
