(* Properties C65 and C66: what a compiled instrument is started with, and what the command line does. *)
From Coq Require Import List String Ascii Bool ZArith QArith Arith Lia.
From Verif Require Import PyStr Scan CmdLine Target Properties_Target RunCmd.
Import ListNotations.
Local Open Scope string_scope.
Local Open Scope list_scope.
Local Open Scope nat_scope.

(** * What the program makes of its arguments *)
(** options of two signs with a value or without, parameters, anything else; --dir takes the next word (the McCode run time, not part of the repository) *)
Inductive meaning := Opt (k v : string) | Flag (k : string) | Par (k v : string) | Stray (w : string).
Definition word_means (w : string) : meaning :=
  if startswith "--" w then let k := substring 2 (String.length w) w in match split_once "=" k with Some (k, v) => Opt k v | None => Flag k end
  else match split_once "=" w with Some (k, v) => Par k v | None => Stray w end.
Fixpoint means (l : list string) : list meaning :=
  match l with
  | [] => []
  | w :: r => if w =?s "--dir" then match r with v :: r => Opt "dir" v :: means r | [] => [word_means w] end else word_means w :: means r
  end.

(** * Words *)
Lemma words_sep s : forall cur t, words_from cur (s ++ String " " t)%string = words_from cur s ++ words_from "" t.
Proof.
  induction s as [|c s IH]; intros cur t; cbn [append words_from]; [reflexivity|].
  destruct (is_space c); rewrite IH; [now rewrite app_assoc|reflexivity].
Qed.
Lemma words_app s t : words (s ++ " " ++ t)%string = words s ++ words t.
Proof. apply words_sep. Qed.
Definition word (w : string) : Prop := w <> "" /\ no_space w = true.
Lemma words_join l : Forall word l -> words (join " " l) = l.
Proof. apply words_from_join. Qed.
Lemma words_one w : word w -> words w = [w].
Proof. intro H. apply (words_join [w]). now constructor. Qed.
Lemma no_space_app a b : no_space (a ++ b)%string = no_space a && no_space b.
Proof. unfold no_space. induction a as [|c a IH]; cbn in *; [reflexivity|]. now rewrite IH, andb_assoc. Qed.

(** a value that stays one word *)
Definition plain_val (v : pyval) : Prop := no_space (str_py v) = true.
Definition par_ok (kv : string * string) : Prop := no_space (fst kv) = true /\ no_space (snd kv) = true /\ has_char "=" (fst kv) = false /\ startswith "-" (fst kv) = false.
Lemma digits_no_space u : no_space (DecimalString.NilEmpty.string_of_uint u) = true.
Proof. induction u; cbn in *; auto. Qed.
Lemma no_space_nat n : no_space (str_nat n) = true.
Proof. unfold str_nat. destruct (Nat.to_uint n) eqn:E; cbn [DecimalString.NilZero.string_of_uint]; [reflexivity|..]; apply digits_no_space. Qed.
Lemma no_space_Z z : no_space (str_Z z) = true.
Proof. destruct z; cbn [str_Z]; rewrite ?no_space_app, ?no_space_nat; reflexivity. Qed.
Lemma plain_int z : plain_val (PInt z). Proof. apply no_space_Z. Qed.

Lemma sub_drop2 s : forall n, String.length s <= n -> substring 0 n s = s.
Proof. induction s as [|c s IH]; intros [|n] L; cbn in *; auto; [lia|]. rewrite IH by lia. reflexivity. Qed.
Lemma means_valued k v : has_char "=" k = false -> word_means ("--" ++ k ++ "=" ++ v)%string = Opt k v.
Proof.
  intro H. unfold word_means. cbn [append startswith Ascii.eqb Bool.eqb]. cbn [substring String.length]. rewrite sub_drop2 by lia.
  assert (E : split_once "=" (k ++ String "=" v) = Some (k, v)) by now apply split_once_some. rewrite E. reflexivity.
Qed.
Lemma means_flag k : has_char "=" k = false -> word_means ("--" ++ k)%string = Flag k.
Proof.
  intro H. unfold word_means. cbn [append startswith Ascii.eqb Bool.eqb]. cbn [substring String.length]. rewrite sub_drop2 by lia.
  apply split_once_none in H. now rewrite H.
Qed.
Lemma dash_dash b : startswith "-" b = false -> startswith "--" b = false.
Proof. destruct b as [|c k]; cbn [startswith]; intro H; [reflexivity|]. destruct (Ascii.eqb "-" c); [discriminate H|reflexivity]. Qed.
Lemma par_not_option k v : startswith "-" k = false -> startswith "--" (k ++ "=" ++ v)%string = false.
Proof. destruct k as [|c k]; cbn [append startswith]; intro H; [reflexivity|]. destruct (Ascii.eqb "-" c); [discriminate H|reflexivity]. Qed.
Lemma means_par k v : par_ok (k, v) -> word_means (k ++ "=" ++ v)%string = Par k v.
Proof.
  intros (_ & _ & E & D). cbn [fst snd] in *. unfold word_means. rewrite par_not_option by exact D.
  assert (X : split_once "=" (k ++ "=" ++ v) = Some (k, v)) by now apply split_once_some. now rewrite X.
Qed.
Lemma means_app l r : ~ In "--dir" l -> means (l ++ r) = map word_means l ++ means r.
Proof.
  induction l as [|w l IH]; intro N; [reflexivity|]. cbn [app means map]. destruct (w =?s "--dir") eqn:E; [apply String.eqb_eq in E; subst; exfalso; apply N; now left|].
  rewrite IH; [reflexivity|]. intro I; apply N; now right.
Qed.

(** * The words *)
Definition sound (args : options) : Prop := forall k v, dict_get args k = Some v -> plain_val v.
Lemma has_no_dir_value k v : has_char "=" k = false -> ("--" ++ k ++ "=" ++ v)%string <> "--dir".
Proof. intros H E. apply (f_equal word_means) in E. rewrite means_valued in E by exact H. discriminate. Qed.
Lemma valued_words args n : sound args -> no_space n = true -> Forall word (valued args n).
Proof.
  intros S N. unfold valued. destruct (dict_get args n) as [v|] eqn:E; [|constructor].
  pose proof (S _ _ E) as P. unfold plain_val in P.
  assert (W : word ("--" ++ n ++ "=" ++ str_py v)%string) by (split; [discriminate|]; rewrite !no_space_app, N, P; reflexivity).
  destruct v; constructor; auto.
Qed.
Lemma flag_words args n : no_space n = true -> Forall word (flag args n).
Proof.
  intro N. unfold flag. destruct (dict_get args n) as [v|]; [|constructor]. destruct (truthy v); constructor; auto.
  split; [discriminate|]. rewrite no_space_app, N. reflexivity.
Qed.
Lemma args_words args : sound args -> Forall word (args_list args).
Proof. intro S. unfold args_list. rewrite !Forall_app. repeat split; first [apply valued_words; auto | apply flag_words; auto]. Qed.
Definition par_word (kv : string * string) : string := (fst kv ++ "=" ++ snd kv)%string.
Lemma par_words pars : Forall par_ok pars -> Forall word (map par_word pars).
Proof.
  induction 1 as [|[k v] l (A & B & _) F IH]; [constructor|]. constructor; [|exact IH]. cbn [fst snd] in *. split; cbn [par_word fst snd].
  - destruct k; discriminate.
  - unfold par_word. cbn [fst snd]. now rewrite !no_space_app, A, B.
Qed.
Lemma run_words dir args pars : word dir -> sound args -> Forall par_ok pars ->
  words (run_text dir (runtime_parameters args pars)) = "--dir" :: dir :: args_list args ++ map par_word pars.
Proof.
  intros D S P. unfold run_text, runtime_parameters. change ("--dir " ++ dir ++ " " ++ join " " (args_list args) ++ " " ++ parameter_text pars)%string with ("--dir" ++ " " ++ (dir ++ " " ++ (join " " (args_list args) ++ " " ++ parameter_text pars)))%string.
  rewrite !words_app. rewrite (words_one dir D), (words_join _ (args_words _ S)). unfold parameter_text. change (fun kv => (fst kv ++ "=" ++ snd kv)%string) with par_word. rewrite (words_join _ (par_words _ P)). reflexivity.
Qed.
(** the meaning of the words for options *)
Definition option_names : list string := ["seed"; "ncount"; "dir"; "bufsiz"; "format"].
Definition flag_names : list string := ["trace"; "gravitation"].
Lemma args_no_dir args : ~ In "--dir" (args_list args).
Proof.
  unfold args_list. rewrite !in_app_iff.
  assert (V : forall n, has_char "=" n = false -> ~ In "--dir" (valued args n)).
  { intros n H. unfold valued. destruct (dict_get args n) as [[| | |]|]; cbn [In]; try tauto; intros [E|[]]; revert E; now apply has_no_dir_value. }
  assert (F : forall n, n <> "dir" -> ~ In "--dir" (flag args n)).
  { intros n H. unfold flag. destruct (dict_get args n) as [v|]; [|tauto]. destruct (truthy v); [|tauto]. intros [E|[]]. apply H. cbn in E. congruence. }
  intros I. repeat destruct I as [I|I]; revert I; first [now apply V | now apply F].
Qed.
Definition opt_part (args : options) (n : string) : list meaning := match dict_get args n with Some PNone | None => [] | Some v => [Opt n (str_py v)] end.
Definition flag_part (args : options) (n : string) : list meaning := match dict_get args n with Some v => if truthy v then [Flag n] else [] | None => [] end.
Lemma map_valued args n : has_char "=" n = false -> map word_means (valued args n) = opt_part args n.
Proof. intro H. unfold valued, opt_part. destruct (dict_get args n) as [[| | |]|]; cbn [map]; rewrite ?means_valued by exact H; reflexivity. Qed.
Lemma map_flag args n : has_char "=" n = false -> map word_means (flag args n) = flag_part args n.
Proof. intro H. unfold flag, flag_part. destruct (dict_get args n) as [v|]; [|reflexivity]. destruct (truthy v); cbn [map]; rewrite ?means_flag by exact H; reflexivity. Qed.
Definition settings (args : options) : list meaning :=
  opt_part args "seed" ++ opt_part args "ncount" ++ opt_part args "dir" ++ flag_part args "trace" ++ flag_part args "gravitation" ++ opt_part args "bufsiz" ++ opt_part args "format".
Lemma args_meaning args : map word_means (args_list args) = settings args.
Proof. unfold args_list, settings. now rewrite !map_app, !map_valued, !map_flag by reflexivity. Qed.
Lemma pars_no_dir pars : Forall par_ok pars -> ~ In "--dir" (map par_word pars).
Proof.
  intros F I. apply in_map_iff in I as ([k v] & E & I). rewrite Forall_forall in F. apply F in I. apply (f_equal word_means) in E. unfold par_word in E. cbn [fst snd] in E.
  rewrite means_par in E by exact I. discriminate.
Qed.
Lemma run_meaning dir args pars : word dir -> sound args -> Forall par_ok pars ->
  means (words (run_text dir (runtime_parameters args pars))) = Opt "dir" dir :: settings args ++ map (fun kv => Par (fst kv) (snd kv)) pars.
Proof.
  intros D S P. rewrite run_words by assumption. cbn [means]. rewrite String.eqb_refl. f_equal. rewrite means_app by apply args_no_dir. rewrite args_meaning. f_equal.
  rewrite <- (app_nil_r (map par_word pars)), means_app by now apply pars_no_dir. cbn [means]. rewrite app_nil_r, map_map. apply map_ext_in. intros [k v] I.
  rewrite Forall_forall in P. apply means_par. now apply P.
Qed.

(** * The options in the commands *)
(** what a program that understands the words w is told, by the options found with [given] *)
Record told (given : string -> option pyval) (dir : string) (pars : list (string * string)) (l : list meaning) : Prop := {
  told_dir : exists r, l = Opt "dir" dir :: r;
  told_option : forall k v, k <> "dir" -> (In (Opt k v) l <-> In k option_names /\ exists x, given k = Some x /\ x <> PNone /\ v = str_py x);
  told_flag : forall k, In (Flag k) l <-> In k flag_names /\ exists x, given k = Some x /\ truthy x = true;
  told_pars : forall w, ~ In (Stray w) l;
  told_params : flat_map (fun m => match m with Par k v => [(k, v)] | _ => [] end) l = pars }.
Lemma in_opt_part args n k v : In (Opt k v) (opt_part args n) <-> k = n /\ exists x, dict_get args n = Some x /\ x <> PNone /\ v = str_py x.
Proof.
  unfold opt_part. split.
  - destruct (dict_get args n) as [x|] eqn:E; [|intros []]. destruct x; cbn [In]; [intros []|..]; (intros [I|[]]; injection I as <- <-; split; [reflexivity|]; eexists; split; [reflexivity|]; split; [discriminate|reflexivity]).
  - intros (-> & x & E & N & ->). rewrite E. destruct x; [congruence|..]; now left.
Qed.
Lemma in_flag_part args n k : In (Flag k) (flag_part args n) <-> k = n /\ exists x, dict_get args n = Some x /\ truthy x = true.
Proof.
  unfold flag_part. split.
  - destruct (dict_get args n) as [x|] eqn:E; [|intros []]. destruct (truthy x) eqn:T; [|intros []]. intros [I|[]]. injection I as <-. eauto.
  - intros (-> & x & E & T). rewrite E, T. now left.
Qed.
Lemma opt_part_kind args n m : In m (opt_part args n) -> exists k v, m = Opt k v.
Proof. unfold opt_part. destruct (dict_get args n) as [[| | |]|]; cbn [In]; try tauto; intros [<-|[]]; eauto. Qed.
Lemma flag_part_kind args n m : In m (flag_part args n) -> exists k, m = Flag k.
Proof. unfold flag_part. destruct (dict_get args n) as [v|]; [|intros []]. destruct (truthy v); [|intros []]. intros [<-|[]]; eauto. Qed.
Lemma settings_kind args m : In m (settings args) -> (exists k v, m = Opt k v) \/ exists k, m = Flag k.
Proof. unfold settings. rewrite !in_app_iff. intro I. repeat destruct I as [I|I]; first [left; now apply opt_part_kind in I | right; now apply flag_part_kind in I]. Qed.
Lemma settings_opt args k v : In (Opt k v) (settings args) <-> In k option_names /\ exists x, dict_get args k = Some x /\ x <> PNone /\ v = str_py x.
Proof.
  unfold settings. rewrite !in_app_iff, !in_opt_part.
  assert (F : forall n, ~ In (Opt k v) (flag_part args n)) by (intros n I; apply flag_part_kind in I as (? & ?); discriminate).
  split.
  - intros I. repeat destruct I as [I|I]; try (now apply F in I); destruct I as (-> & X); (split; [cbn; auto 10|exact X]).
  - intros (I & X). cbn in I. repeat destruct I as [<-|I]; try contradiction; repeat first [left; split; [reflexivity|exact X] | split; [reflexivity|exact X] | right].
Qed.
Lemma settings_flag args k : In (Flag k) (settings args) <-> In k flag_names /\ exists x, dict_get args k = Some x /\ truthy x = true.
Proof.
  unfold settings. rewrite !in_app_iff, !in_flag_part.
  assert (F : forall n, ~ In (Flag k) (opt_part args n)) by (intros n I; apply opt_part_kind in I as (? & ? & ?); discriminate).
  split.
  - intros I. repeat destruct I as [I|I]; try (now apply F in I); destruct I as (-> & X); (split; [cbn; auto 10|exact X]).
  - intros (I & X). cbn in I. repeat destruct I as [<-|I]; try contradiction; repeat first [left; split; [reflexivity|exact X] | split; [reflexivity|exact X] | right].
Qed.
Lemma settings_params args : flat_map (fun m => match m with Par k v => [(k, v)] | _ => [] end) (settings args) = [].
Proof.
  assert (G : forall l, (forall m, In m l -> (exists k v, m = Opt k v) \/ exists k, m = Flag k) -> flat_map (fun m => match m with Par k v => [(k, v)] | _ => [] end) l = []).
  { induction l as [|m l IH]; intro H; [reflexivity|]. cbn [flat_map]. rewrite IH by (intros; apply H; now right). destruct (H m (or_introl eq_refl)) as [(? & ? & ->)|(? & ->)]; reflexivity. }
  apply G, settings_kind.
Qed.
Lemma told_words dir args pars : word dir -> sound args -> Forall par_ok pars ->
  told (dict_get args) dir pars (means (words (run_text dir (runtime_parameters args pars)))).
Proof.
  intros D S P. rewrite run_meaning by assumption.
  assert (Q : forall m, In m (map (fun kv : string * string => Par (fst kv) (snd kv)) pars) -> exists k v, m = Par k v) by (intros m I; apply in_map_iff in I as (kv & <- & _); eauto).
  split.
  - eauto.
  - intros k v N. rewrite <- settings_opt. cbn [In]. rewrite in_app_iff. split; [intros [E|[I|I]]|intros I]; auto.
    + congruence.
    + apply Q in I as (? & ? & ?). discriminate.
  - intros k. rewrite <- settings_flag. cbn [In]. rewrite in_app_iff. split; [intros [E|[I|I]]|intros I]; auto; [discriminate|]. apply Q in I as (? & ? & ?). discriminate.
  - intros w. cbn [In]. rewrite in_app_iff. intros [E|[I|I]]; [discriminate|..]; [apply settings_kind in I as [(? & ? & ?)|(? & ?)]|apply Q in I as (? & ? & ?)]; discriminate.
  - cbn [flat_map]. rewrite flat_map_app, settings_params. cbn [app]. clear. induction pars as [|[k v] l IH]; [reflexivity|]. cbn [map flat_map fst snd app]. now rewrite IH.
Qed.

(** the name an option goes by, and the shorter names *)
Definition names_of (k : string) : list string :=
  if k =?s "seed" then ["seed"; "s"] else if k =?s "ncount" then ["ncount"; "n"] else if k =?s "dir" then ["dir"; "out_dir"; "d"]
  else if k =?s "trace" then ["trace"; "t"] else if k =?s "gravitation" then ["gravitation"; "g"] else [k].
Lemma regular_get src k : In k (option_names ++ flag_names) -> dict_get (regular src) k = best_of src (names_of k).
Proof.
  unfold regular, aliases. cbn [fold_left]. unfold insert_best_of at 1 2 3 4 5 6 7.
  intro I. cbn [hd].
  assert (G : forall snk n ns k', dict_get (match best_of src ns with Some v => dict_set snk n v | None => snk end) k' = if n =?s k' then match best_of src ns with Some v => Some v | None => dict_get snk k' end else dict_get snk k').
  { intros snk n ns k'. destruct (best_of src ns); rewrite ?dict_get_set; destruct (n =?s k'); reflexivity. }
  rewrite !G. cbn in I. repeat destruct I as [<-|I]; try contradiction; cbn [names_of String.eqb Ascii.eqb Bool.eqb dict_get];
    match goal with |- context [best_of src ?l] => now destruct (best_of src l) end.
Qed.
Lemma regular_sound src : sound src -> sound (regular src).
Proof.
  intro S. unfold regular. assert (G : forall l snk, sound snk -> sound (fold_left (insert_best_of src) l snk)).
  { induction l as [|ns l IH]; intros snk H; [exact H|]. cbn [fold_left]. apply IH. unfold insert_best_of. destruct (best_of src ns) as [v|] eqn:E; [|exact H].
    intros k x. rewrite dict_get_set. destruct (hd "" ns =?s k); [|apply H]. intros [= <-]. clear - E S. induction ns as [|n ns IH]; [discriminate|]. cbn in E. destruct (dict_get src n) eqn:D; [injection E as <-; now apply (S n)|auto]. }
  apply G. intros k v H. discriminate.
Qed.
Lemma told_ext f f' dir pars l : (forall k, In k (option_names ++ flag_names) -> f k = f' k) -> told f dir pars l -> told f' dir pars l.
Proof.
  intros E [A B C D P]. split; auto.
  - intros k v N. rewrite B by exact N. split; intros (I & x & X); split; auto; exists x; [rewrite <- E|rewrite E]; auto; apply in_or_app; now left.
  - intros k. rewrite C. split; intros (I & x & X); split; auto; exists x; [rewrite <- E|rewrite E]; auto; apply in_or_app; now right.
Qed.

(** how the binary is started *)
Definition starts (g : config) (mpi : bool) (c : count) (binary : string) (l ws : list string) : Prop :=
  exists pre, l = pre ++ binary :: ws /\ 
    (if mpi then exists m, pre = g_mpirun g :: (if count_is_zero c then [] else ["-np"; count_text c]) ++ m /\ (m = [] \/ exists f, g_machinefile g = Some f /\ m = ["-machinefile"; f]) else pre = []).
Lemma command_starts g mpi acc c b o l : command g mpi acc c b o = Some l -> starts g mpi c b l (words o).
Proof. unfold command. destruct (mpi && acc); [discriminate|]. intros [= <-]. eexists. split; [reflexivity|]. destruct mpi; [|reflexivity]. eexists. split; [reflexivity|]. destruct (g_machinefile g); eauto. Qed.
Lemma sequence_some {A B} (f : A -> option B) l r : sequence (map f l) = Some r -> List.length r = List.length l /\ forall k x, nth_error l k = Some x -> exists y, nth_error r k = Some y /\ f x = Some y.
Proof.
  revert r. induction l as [|a l IH]; cbn [map sequence]; intros r H; [injection H as <-; split; [reflexivity|]; intros [|k] x E; discriminate|].
  destruct (f a) as [b|] eqn:E; [|discriminate]. destruct (sequence (map f l)) as [t|]; [|discriminate]. injection H as <-. destruct (IH t eq_refl) as (L & N). split; [cbn; now rewrite L|].
  intros [|k] x X; cbn in *; [injection X as <-; eauto|auto].
Qed.
(** * C65 *)
(** A single run: the binary is started once, with the directory, the options given under any of their names and the parameters, each as it was given. *)
Theorem C65_single_run : forall str_num g mpi acc c binary name now params d dir grid opts n names pts cmds,
  to_scan params grid = Some (n, names, pts) -> (n <= 1)%Z -> directory_of name now d = Some dir -> word dir -> sound opts -> Forall par_ok (par_texts str_num params) ->
  run_scan_cmds str_num (command g mpi acc c binary) name now params d grid opts = Some cmds ->
  exists l ws, cmds = [l] /\ starts g mpi c binary l ws /\ told (fun k => best_of opts (names_of k)) dir (par_texts str_num params) (means ws).
Proof.
  intros sn g mpi acc c b name now ps d dir grid opts n names pts cmds S N D W O P H. unfold run_scan_cmds in H. rewrite S, D in H.
  replace (1 <? n)%Z with false in H by lia. cbn [sequence] in H. destruct (command _ _ _ _ _ _) as [l|] eqn:C; [|discriminate]. injection H as <-.
  exists l. eexists. split; [reflexivity|]. split; [eapply command_starts, C|]. eapply told_ext; [|apply told_words; auto using regular_sound].
  intros k I. now apply regular_get.
Qed.
Print Assumptions C65_single_run.
(** A scan: one run for every point, in its own directory, with the options given under their full names. *)
Theorem C65_scan_runs : forall str_num g mpi acc c binary name now params d dir grid opts n names pts cmds,
  to_scan params grid = Some (n, names, pts) -> (1 < n)%Z -> directory_of name now d = Some dir -> word dir -> sound opts -> Forall par_ok (par_texts str_num params) ->
  run_scan_cmds str_num (command g mpi acc c binary) name now params d grid opts = Some cmds ->
  List.length cmds = List.length pts /\
  forall k, k < List.length pts -> exists l ws, nth_error cmds k = Some l /\ starts g mpi c binary l ws /\ told (dict_get opts) (dir ++ "/" ++ str_nat k) (par_texts str_num params) (means ws).
Proof.
  intros sn g mpi acc c b name now ps d dir grid opts n names pts cmds S N D W O P H. unfold run_scan_cmds in H. rewrite S, D in H.
  replace (1 <? n)%Z with true in H by lia. apply sequence_some in H as (L & X). rewrite seq_length in L. split; [exact L|].
  intros k K. destruct (X k k) as (l & A & B). { rewrite nth_error_nth' with (d := 0) by now rewrite seq_length. now rewrite seq_nth. }
  exists l. eexists. split; [exact A|]. split; [eapply command_starts, B|]. apply told_words; auto.
  split; [intro E; destruct W as [W _]; destruct dir; [now apply W|discriminate E]|]. destruct W as [_ W]. now rewrite !no_space_app, W, no_space_nat.
Qed.
Print Assumptions C65_scan_runs.
(** In a scan an option given by its short name is lost: no run gets it, though a single run would. *)
Theorem C65_short_names_refuted : forall str_num g mpi acc c binary name now params d dir grid opts n names pts cmds k,
  to_scan params grid = Some (n, names, pts) -> (1 < n)%Z -> directory_of name now d = Some dir -> word dir -> sound opts -> Forall par_ok (par_texts str_num params) ->
  run_scan_cmds str_num (command g mpi acc c binary) name now params d grid opts = Some cmds ->
  In k option_names -> k <> "dir" -> dict_get opts k = None -> best_of opts (names_of k) <> None ->
  forall l, In l cmds -> exists ws, starts g mpi c binary l ws /\ forall v, ~ In (Opt k v) (means ws).
Proof.
  intros sn g mpi acc c b name now ps d dir grid opts n names pts cmds k S N D W O P H K ND E _ l I.
  destruct (C65_scan_runs _ _ _ _ _ _ _ _ _ _ _ _ _ _ _ _ _ S N D W O P H) as (L & X). apply In_nth_error in I as (i & I).
  destruct (X i) as (l' & ws & A & B & T); [rewrite <- L; apply nth_error_Some; congruence|]. rewrite A in I. injection I as <-. exists ws. split; [exact B|].
  intros v J. apply (told_option _ _ _ _ T) in J as (_ & x & Y & _); [congruence|exact ND].
Qed.
Print Assumptions C65_short_names_refuted.
(** A parameter with a blank in its value is cut: the program gets the value up to the blank and a stray word. *)
Theorem C65_value_with_blank_refuted : forall dir args pars k a b, word dir -> sound args -> Forall par_ok pars -> par_ok (k, a) -> word b -> has_char "=" b = false -> startswith "-" b = false ->
  means (words (run_text dir (runtime_parameters args (pars ++ [(k, a ++ " " ++ b)%string])))) =
  means (words (run_text dir (runtime_parameters args pars))) ++ [Par k a; Stray b].
Proof.
  intros dir args pars k a b D S P A B E M.
  assert (T : parameter_text (pars ++ [(k, a ++ " " ++ b)%string]) = join " " (map par_word (pars ++ [(k, a)]) ++ [b])).
  { unfold parameter_text. change (fun kv => (fst kv ++ "=" ++ snd kv)%string) with par_word. rewrite !map_app. cbn [map]. unfold par_word at 2 4. cbn [fst snd].
    rewrite <- app_assoc. cbn [app]. generalize (map par_word pars). induction l as [|x l IH]; cbn [app join].
    - now rewrite !string_app_assoc.
    - rewrite IH. destruct l; reflexivity. }
  assert (F : Forall par_ok (pars ++ [(k, a)])) by (apply Forall_app; split; auto).
  assert (G : words (run_text dir (runtime_parameters args (pars ++ [(k, a ++ " " ++ b)%string]))) = words (run_text dir (runtime_parameters args (pars ++ [(k, a)]))) ++ [b]).
  { unfold run_text, runtime_parameters. rewrite T.
    assert (X : forall t, ("--dir " ++ dir ++ " " ++ join " " (args_list args) ++ " " ++ t)%string = ("--dir" ++ " " ++ (dir ++ " " ++ (join " " (args_list args) ++ " " ++ t)))%string) by reflexivity.
    rewrite !X, !words_app. rewrite (words_join (_ ++ [b])) by (apply Forall_app; split; [now apply par_words|now constructor]).
    unfold parameter_text. change (fun kv => (fst kv ++ "=" ++ snd kv)%string) with par_word. rewrite (words_join _ (par_words _ F)). now rewrite !app_assoc. }
  rewrite G, !run_words by assumption. cbn [app means]. rewrite String.eqb_refl. cbn [app]. f_equal.
  assert (ND : ~ In "--dir" (args_list args ++ map par_word pars)) by (rewrite in_app_iff; intros [I|I]; [now apply args_no_dir in I|now apply pars_no_dir in I]).
  rewrite map_app. cbn [map].
  replace ((args_list args ++ map par_word pars ++ [par_word (k, a)]) ++ [b]) with ((args_list args ++ map par_word pars) ++ [par_word (k, a); b]) by now rewrite <- !app_assoc.
  rewrite (means_app (args_list args ++ map par_word pars) [par_word (k, a); b]) by exact ND.
  rewrite <- (app_nil_r (args_list args ++ map par_word pars)) at 2. rewrite means_app by exact ND. cbn [means app]. rewrite app_nil_r. f_equal.
  unfold par_word. cbn [fst snd]. destruct ((k ++ "=" ++ a)%string =?s "--dir") eqn:Q.
  { apply String.eqb_eq in Q. apply (f_equal word_means) in Q. rewrite means_par in Q by exact A. discriminate. }
  rewrite means_par by exact A. destruct (b =?s "--dir") eqn:Q'; [apply String.eqb_eq in Q'; subst b; discriminate M|]. f_equal. f_equal. unfold word_means.
  assert (Z : startswith "--" b = false) by now apply dash_dash.
  rewrite Z. apply split_once_none in E. now rewrite E.
Qed.
Print Assumptions C65_value_with_blank_refuted.
(** A directory with a blank in its name is cut: the program writes somewhere else. *)
Theorem C65_directory_with_blank_refuted : forall args pars a b, word a -> word b -> sound args -> Forall par_ok pars -> has_char "=" b = false -> startswith "-" b = false ->
  exists r, means (words (run_text (a ++ " " ++ b) (runtime_parameters args pars))) = Opt "dir" a :: Stray b :: r.
Proof.
  intros args pars a b A B S P E M. unfold run_text.
  assert (X : forall t, ("--dir " ++ (a ++ " " ++ b) ++ " " ++ t)%string = ("--dir" ++ " " ++ (a ++ " " ++ (b ++ " " ++ t)))%string) by (intro t; rewrite !string_app_assoc; reflexivity).
  rewrite X, !words_app, (words_one a A), (words_one b B). change (words "--dir") with ["--dir"]. cbn [app means]. rewrite String.eqb_refl.
  destruct (b =?s "--dir") eqn:Q'; [apply String.eqb_eq in Q'; subst b; discriminate M|]. unfold word_means at 1.
  assert (Z : startswith "--" b = false) by now apply dash_dash.
  rewrite Z. apply split_once_none in E. rewrite E. eauto.
Qed.
Print Assumptions C65_directory_with_blank_refuted.

(** ** Examples *)
Definition num0 (q : Q) : string := str_Z (Qnum q).
Definition opts1 : options := [("seed", PInt 12); ("n", PInt 1000); ("trace", PBool false); ("gravitation", PBool true); ("format", PNone)].
Definition par1 : list (string * item) := [("E", ISing (VNum 5) (Some 1%Z)); ("file", ISing (VStr "a.lau") (Some 1%Z))].
Definition par2 : list (string * item) := [("E", IRange (Range.Build_mrange 1 3 1)); ("file", ISing (VStr "a.lau") (Some 3%Z))].
Lemma opts1_sound : sound opts1.
Proof. intros k v. cbn. repeat match goal with |- context [if ?b then _ else _] => destruct b end; intros [= <-]; vm_compute; reflexivity. Qed.
Example C65_example : exists pts, to_scan par1 false = Some (1%Z, ["e"; "file"], pts) /\ word "/tmp/out" /\ Forall par_ok (par_texts num0 par1) /\
  run_scan_cmds num0 (command g0 true false (CInt 4) "/bin/x.out") "x" "now" par1 (DPath "/tmp/out") false opts1 =
  Some [["mpirun"; "-np"; "4"; "-machinefile"; "hosts"; "/bin/x.out"; "--dir"; "/tmp/out"; "--seed=12"; "--ncount=1000"; "--gravitation"; "E=5"; "file=a.lau"]].
Proof. eexists. split; [vm_compute; reflexivity|]. split; [split; [discriminate|reflexivity]|]. split; [repeat constructor|vm_compute; reflexivity]. Qed.
Example C65_scan_example : exists pts, to_scan par2 false = Some (3%Z, ["e"; "file"], pts) /\ Forall par_ok (par_texts num0 par2) /\
  run_scan_cmds num0 (command g0 false false (CInt 1) "/bin/x.out") "x" "now" par2 (DPath "/tmp/out") false opts1 =
  Some (map (fun d => ["/bin/x.out"; "--dir"; d; "--seed=12"; "--gravitation"; "E=1:1:3"; "file=a.lau"]) ["/tmp/out/0"; "/tmp/out/1"; "/tmp/out/2"]) /\
  dict_get opts1 "ncount" = None /\ best_of opts1 (names_of "ncount") = Some (PInt 1000).
Proof. eexists. split; [vm_compute; reflexivity|]. split; [repeat constructor|]. split; [vm_compute; reflexivity|]. split; reflexivity. Qed.
Example C65_blank_example : means (words (run_text "/tmp/out" (runtime_parameters [] [("E", "5"); ("sample", "my file")]))) = [Opt "dir" "/tmp/out"; Par "E" "5"; Par "sample" "my"; Stray "file"].
Proof. reflexivity. Qed.

(** * C66: the command line *)
(** the option k asked for on the command line *)
Definition asked (a : cmdline) (k : string) : option pyval :=
  if k =?s "seed" then Some (of_int (a_seed a)) else if k =?s "ncount" then Some (of_int (a_ncount a)) else if k =?s "bufsiz" then Some (of_int (a_bufsiz a))
  else if k =?s "format" then Some match a_format a with Some s => PStr s | None => PNone end
  else if k =?s "trace" then Some (PBool (a_trace a)) else if k =?s "gravitation" then Some (PBool (a_grav a)) else None.
Lemma runtime_get a k : In k (option_names ++ flag_names) -> dict_get (runtime_of a) k = asked a k /\ best_of (runtime_of a) (names_of k) = asked a k.
Proof. intro I. cbn in I. repeat destruct I as [<-|I]; try contradiction; split; reflexivity. Qed.
Lemma runtime_sound a : match a_format a with Some s => no_space s = true | None => True end -> sound (runtime_of a).
Proof.
  intros F k v. unfold runtime_of. cbn [dict_get].
  repeat (match goal with |- context [?x =?s k] => destruct (x =?s k) end; [intros [= <-]|]); try discriminate; unfold plain_val, of_int;
    repeat match goal with |- context [match ?o with Some _ => _ | None => _ end] => destruct o end; cbn [str_py]; auto using no_space_Z; try reflexivity;
    repeat match goal with |- context [if ?b then _ else _] => destruct b end; reflexivity.
Qed.
Lemma sequence_total {A B} (f : A -> option B) l : (forall x, f x <> None) -> sequence (map f l) <> None.
Proof. intro H. induction l as [|x l IH]; cbn [map sequence]; [discriminate|]. specialize (H x). destruct (f x); [|congruence]. destruct (sequence (map f l)); [discriminate|congruence]. Qed.
(** The command line does what it says: an instrument that was not compiled before is compiled for the target asked for, and its binary run once for every point, with the options asked for. *)
Theorem C66_command_line : forall str_num g (B : Type) (disk : string -> option (file B)) read build cwd ext now is_dir a f name b n names pts,
  disk (a_file a) = Some f -> f_read f = true -> (f_exec f = false \/ a_output a <> None) ->
  read (f_content f) = Some name -> disk (output_of cwd ext is_dir (a_output a) name) = None -> build (f_content f) (a_parallel a) (a_gpu a) = Some b ->
  a_params a <> [] -> a_dir a = None -> a_parallel a && a_gpu a = false -> (a_parallel a = true -> a_count a = None) ->
  to_scan (a_params a) (a_mesh a) = Some (n, names, pts) -> word (name ++ now) -> match a_format a with Some s => no_space s = true | None => True end -> Forall par_ok (par_texts str_num (a_params a)) ->
  exists cmds, run_cmd str_num g disk read build cwd ext now is_dir a = Ran b cmds /\
    List.length cmds = (if (1 <? n)%Z then List.length pts else 1) /\
    forall k l, nth_error cmds k = Some l -> exists ws, starts g (a_parallel a) (CInt 0) (output_of cwd ext is_dir (a_output a) name) l ws /\
      told (asked a) (if (1 <? n)%Z then ((name ++ now) ++ "/" ++ str_nat k)%string else (name ++ now)%string) (par_texts str_num (a_params a)) (means ws).
Proof.
  intros sn g B disk read build cwd ext now is_dir a f name b n names pts Df R X Rd Dn Bd P Dir MG Cn S W F Pk.
  assert (O : sound (runtime_of a)) by now apply runtime_sound.
  set (c := match a_count a with Some z => CList z | None => CInt 0 end). set (out := output_of cwd ext is_dir (a_output a) name).
  assert (T : run_cmd sn g disk read build cwd ext now is_dir a =
    match run_scan_cmds sn (command g (a_parallel a) (a_gpu a) c out) name now (a_params a) DNone (a_mesh a) (runtime_of a) with Some l => Ran b l | None => Raised end).
  { unfold run_cmd. rewrite Df, R, Rd, Dir. unfold compile. fold out. change (disk out = None) in Dn. rewrite Dn, Bd. cbn [negb].
    assert (X' : match a_output a with None => f_exec f | Some _ => false end = false) by (destruct X as [X|X]; [rewrite X; now destruct (a_output a)|destruct (a_output a); [reflexivity|congruence]]).
    rewrite X'. destruct (a_params a) as [|p ps] eqn:EP; [congruence|]. reflexivity. }
  assert (E : exists cmds, run_scan_cmds sn (command g (a_parallel a) (a_gpu a) c out) name now (a_params a) DNone (a_mesh a) (runtime_of a) = Some cmds).
  { assert (C : forall o, command g (a_parallel a) (a_gpu a) c out o <> None) by (intro o; unfold command; rewrite MG; discriminate).
    unfold run_scan_cmds. rewrite S. cbn [directory_of]. destruct (1 <? n)%Z.
    - match goal with |- exists _, ?x = _ => destruct x eqn:Q end; [eauto|]. exfalso. revert Q. apply sequence_total. intro k. apply C.
    - cbn [sequence]. match goal with |- context [command ?a ?b ?c ?d ?e ?o] => specialize (C o); destruct (command a b c d e o); [eauto|congruence] end. }
  assert (Cs : forall l ws, starts g (a_parallel a) c out l ws -> starts g (a_parallel a) (CInt 0) out l ws).
  { intros l ws (pre & -> & Q). exists pre. split; [reflexivity|]. destruct (a_parallel a); [|exact Q]. unfold c in Q. rewrite Cn in Q by reflexivity. exact Q. }
  destruct E as (cmds & E). exists cmds. rewrite T, E. split; [reflexivity|].
  destruct (1 <? n)%Z eqn:N.
  - destruct (C65_scan_runs sn g (a_parallel a) (a_gpu a) c out name now (a_params a) DNone (name ++ now) (a_mesh a) (runtime_of a) n names pts cmds S ltac:(lia) eq_refl W O Pk E) as (L & K). split; [exact L|].
    intros k l I. destruct (K k) as (l' & ws & I' & St & To); [rewrite <- L; apply nth_error_Some; congruence|]. rewrite I in I'. injection I' as <-. exists ws. split; [now apply Cs|].
    eapply told_ext; [|exact To]. intros q Q. now apply runtime_get.
  - destruct (C65_single_run sn g (a_parallel a) (a_gpu a) c out name now (a_params a) DNone (name ++ now) (a_mesh a) (runtime_of a) n names pts cmds S ltac:(lia) eq_refl W O Pk E) as (l' & ws & -> & St & To). split; [reflexivity|].
    intros [|[|k]] l I; cbn in I; [|discriminate..]. injection I as <-. exists ws. split; [now apply Cs|]. eapply told_ext; [|exact To]. intros q Q. now apply runtime_get.
Qed.
Print Assumptions C66_command_line.
(** Without parameters nothing is run, even if the instrument has none. *)
Theorem C66_no_parameters_refuted : forall str_num g (B : Type) (disk : string -> option (file B)) read build cwd ext now is_dir a b cmds, a_params a = [] -> run_cmd str_num g disk read build cwd ext now is_dir a <> Ran b cmds.
Proof.
  intros sn g B disk read build cwd ext now is_dir a b cmds P. unfold run_cmd. rewrite P. destruct (disk (a_file a)) as [f|]; [|discriminate].
  destruct (match a_output a with None => f_exec f | Some _ => false end); [discriminate|]. destruct (negb (f_read f)); [discriminate|]. destruct (read (f_content f)) as [name|]; [|discriminate].
  destruct (compile _ _ _ _ _ _ _ _ _ _) as [[out b']|]; discriminate.
Qed.
Print Assumptions C66_no_parameters_refuted.
Lemma text_dir_fails sn {W} (start : string -> option W) name now ps s grid opts : run_scan_cmds sn start name now ps (DText s) grid opts = None.
Proof. unfold run_scan_cmds. destruct (to_scan ps grid) as [[[n names] pts]|]; reflexivity. Qed.
(** With a directory (option -d) nothing is run: the directory is a text, its methods mkdir and parent do not exist. *)
Theorem C66_directory_refuted : forall str_num g (B : Type) (disk : string -> option (file B)) read build cwd ext now is_dir a s b cmds, a_dir a = Some s -> run_cmd str_num g disk read build cwd ext now is_dir a <> Ran b cmds.
Proof.
  intros sn g B disk read build cwd ext now is_dir a s b cmds P. unfold run_cmd. rewrite P. destruct (disk (a_file a)) as [f|]; [|discriminate].
  destruct (match a_output a with None => f_exec f | Some _ => false end); [rewrite text_dir_fails; now destruct (a_params a)|]. destruct (negb (f_read f)); [discriminate|]. destruct (read (f_content f)) as [name|]; [|discriminate].
  destruct (compile _ _ _ _ _ _ _ _ _ _) as [[out b']|]; [|discriminate]. rewrite text_dir_fails. now destruct (a_params a).
Qed.
Print Assumptions C66_directory_refuted.
(** A number of processes is passed on as a list: mpirun gets -np [4]. *)
Theorem C66_process_count_refuted : forall str_num g (B : Type) (disk : string -> option (file B)) read build cwd ext now is_dir a z b cmds l,
  a_parallel a = true -> a_count a = Some z -> run_cmd str_num g disk read build cwd ext now is_dir a = Ran b cmds -> In l cmds ->
  exists r, l = g_mpirun g :: "-np" :: ("[" ++ str_Z z ++ "]")%string :: r.
Proof.
  intros sn g B disk read build cwd ext now is_dir a z b cmds l M C R I. unfold run_cmd in R. destruct (disk (a_file a)) as [f|]; [|discriminate].
  assert (G : forall (start : string -> option (list string)) name ps d grid opts x, run_scan_cmds sn start name now ps d grid opts = Some cmds -> In x cmds -> exists o, start o = Some x).
  { intros start name ps d grid opts x H J. unfold run_scan_cmds in H. destruct (to_scan ps grid) as [[[n names] pts]|]; [|discriminate]. destruct (directory_of name now d); [|discriminate].
    destruct (1 <? n)%Z.
    - apply sequence_some in H as (L & H). apply In_nth_error in J as (k & J). destruct (nth_error (seq 0 (List.length pts)) k) as [y|] eqn:E.
      + destruct (H _ _ E) as (y' & A & A'). rewrite J in A. injection A as <-. eauto.
      + apply nth_error_None in E. assert (k < List.length cmds) by (apply nth_error_Some; congruence). lia.
    - cbn [sequence] in H. destruct (start _) as [y|] eqn:E; [|discriminate]. injection H as <-. destruct J as [<-|[]]. eauto. }
  destruct (match a_output a with None => f_exec f | Some _ => false end).
  { destruct (a_params a); [discriminate|]. destruct (run_scan_cmds _ _ _ _ _ _ _ _) as [cs|] eqn:E; [|discriminate]. injection R as _ <-. destruct (G _ _ _ _ _ _ _ E I) as (o & X). discriminate. }
  destruct (negb (f_read f)); [discriminate|]. destruct (read (f_content f)) as [name|]; [|discriminate]. destruct (compile _ _ _ _ _ _ _ _ _ _) as [[out b']|]; [|discriminate].
  destruct (a_params a); [discriminate|]. destruct (run_scan_cmds _ _ _ _ _ _ _ _) as [cs|] eqn:E; [|discriminate]. injection R as _ <-. destruct (G _ _ _ _ _ _ _ E I) as (o & X).
  rewrite M, C in X. unfold command in X. destruct (true && a_gpu a); [discriminate|]. injection X as <-. eexists. reflexivity.
Qed.
Print Assumptions C66_process_count_refuted.
(** A file that stands where the binary should go is run instead, whatever it was made from: a changed instrument is not compiled again. *)
Theorem C66_old_binary_refuted : forall str_num g (B : Type) (disk : string -> option (file B)) read build cwd ext now is_dir a f name old b cmds,
  disk (a_file a) = Some f -> (f_exec f = false \/ a_output a <> None) -> read (f_content f) = Some name -> disk (output_of cwd ext is_dir (a_output a) name) = Some old ->
  run_cmd str_num g disk read build cwd ext now is_dir a = Ran b cmds -> b = f_content old.
Proof.
  intros sn g B disk read build cwd ext now is_dir a f name old b cmds Df X Rd Do R. unfold run_cmd in R. rewrite Df, Rd in R. unfold compile in R. rewrite Do in R.
  assert (X' : match a_output a with None => f_exec f | Some _ => false end = false) by (destruct X as [X|X]; [rewrite X; now destruct (a_output a)|destruct (a_output a); [reflexivity|congruence]]).
  rewrite X' in R. destruct (negb (f_read f)); [discriminate|]. destruct (a_params a); [discriminate|]. destruct (run_scan_cmds _ _ _ _ _ _ _ _) as [cs|]; [|discriminate]. now injection R as <- _.
Qed.
Print Assumptions C66_old_binary_refuted.
(** A file that may be executed is taken for a binary, and no binary that exists is ever started: the target is a dictionary where an object is needed. *)
Theorem C66_executable_file_refuted : forall str_num g (B : Type) (disk : string -> option (file B)) read build cwd ext now is_dir a f b cmds,
  disk (a_file a) = Some f -> f_exec f = true -> a_output a = None -> run_cmd str_num g disk read build cwd ext now is_dir a = Ran b cmds -> cmds = [].
Proof.
  intros sn g B disk read build cwd ext now is_dir a f b cmds Df X O R. unfold run_cmd in R. rewrite Df, O, X in R. destruct (a_params a) as [|p ps]; [discriminate|].
  unfold run_scan_cmds in R. destruct (to_scan (p :: ps) (a_mesh a)) as [[[n names] pts]|]; [|discriminate]. destruct (directory_of _ _ _) as [dir|]; [|discriminate]. destruct (1 <? n)%Z.
  - destruct (List.length pts) as [|k]; [now injection R as _ <-|]. cbn [seq map sequence] in R. discriminate.
  - discriminate.
Qed.
Print Assumptions C66_executable_file_refuted.
(** mcstas_run and mcxtrace_run pass their arguments in another order than mccode_run takes them: the generator is taken for the directory. *)
Theorem C66_python_run_refuted : forall p, mccode_run_dir (mcstas_run_args p) = None /\ mccode_run_dir [VInstr; VGenerator; VParams []; VDirectory p] = Some p.
Proof. split; reflexivity. Qed.
Print Assumptions C66_python_run_refuted.

(** The results: under each name the data of the last file of that name; if names differ, all of them. *)
Lemma dats_get {D} (files : list (string * D)) : forall d s, dict_get (fold_left (fun d (f : string * D) => dict_set d (fst f) (snd f)) files d) s =
  match find (fun f : string * D => fst f =?s s) (rev files) with Some f => Some (snd f) | None => dict_get d s end.
Proof.
  induction files as [|[n x] files IH]; intros d s; [reflexivity|]. cbn [fold_left rev fst snd]. rewrite IH.
  assert (G : forall l, find (fun f : string * D => fst f =?s s) (l ++ [(n, x)]) = match find (fun f : string * D => fst f =?s s) l with Some f => Some f | None => if n =?s s then Some (n, x) else None end).
  { induction l as [|y l IHl]; cbn; [reflexivity|]. destruct (fst y =?s s); [reflexivity|exact IHl]. }
  rewrite G. destruct (find _ (rev files)); [reflexivity|]. rewrite dict_get_set. destruct (n =?s s); reflexivity.
Qed.
Theorem C66_results : forall (D : Type) (files : list (string * D)),
  (forall s x, dict_get (dats files) s = Some x -> In (s, x) files) /\
  (forall s, In s (map fst files) -> dict_get (dats files) s <> None) /\
  (NoDup (map fst files) -> forall s x, In (s, x) files -> dict_get (dats files) s = Some x).
Proof.
  intros D files. unfold dats. repeat split.
  - intros s x. rewrite dats_get. destruct (find _ (rev files)) as [[n y]|] eqn:E; [|discriminate]. intros [= <-]. apply find_some in E as (I & E). apply String.eqb_eq in E. cbn in E. subst. now apply in_rev.
  - intros s I. rewrite dats_get. destruct (find _ (rev files)) as [[n y]|] eqn:E; [discriminate|]. exfalso. apply in_map_iff in I as ([n x] & <- & I). apply in_rev in I. apply (find_none _ _ E) in I. cbn in I. rewrite String.eqb_refl in I. discriminate.
  - intros N s x I. rewrite dats_get. destruct (find _ (rev files)) as [[n y]|] eqn:E.
    + apply find_some in E as (J & E). apply String.eqb_eq in E. cbn in E. subst n. apply in_rev in J. f_equal. cbn [snd].
      clear - N I J. induction files as [|[n z] l IH]; [contradiction|]. cbn in N. inversion_clear N as [|? ? A B]. destruct I as [I|I], J as [J|J].
      * congruence.
      * injection I as -> ->. exfalso. apply A. apply in_map_iff. now exists (s, y).
      * injection J as -> ->. exfalso. apply A. apply in_map_iff. now exists (s, x).
      * auto.
    + exfalso. apply in_rev in I. apply (find_none _ _ E) in I. cbn in I. rewrite String.eqb_refl in I. discriminate.
Qed.
Print Assumptions C66_results.
(** Of two files of the same name in different directories one is lost. *)
Theorem C66_same_name_lost_refuted : forall (D : Type) (a b c : list (string * D)) s x y, ~ In s (map fst c) -> dict_get (dats (a ++ (s, x) :: b ++ (s, y) :: c)) s = Some y.
Proof.
  intros D a b c s x y N. unfold dats. rewrite dats_get. replace (a ++ (s, x) :: b ++ (s, y) :: c) with ((a ++ (s, x) :: b) ++ (s, y) :: c) by now rewrite <- app_assoc.
  rewrite rev_app_distr. cbn [rev]. rewrite <- app_assoc. cbn [app].
  assert (G : forall l, ~ In s (map fst l) -> forall r, find (fun f : string * D => fst f =?s s) (l ++ r) = find (fun f : string * D => fst f =?s s) r).
  { induction l as [|z l IH]; intros H r; [reflexivity|]. cbn in *. destruct (fst z =?s s) eqn:E; [apply String.eqb_eq in E; tauto|]. apply IH. tauto. }
  rewrite G by (rewrite map_rev, <- in_rev; exact N). cbn [find fst]. now rewrite String.eqb_refl.
Qed.
Print Assumptions C66_same_name_lost_refuted.

(** ** Examples *)
Definition disk0 (p : string) : option (file string) := if p =?s "/w/x.instr" then Some (mkFile "source" true false) else if p =?s "/w/y.instr" then Some (mkFile "source" true true) else if p =?s "/w/old" then Some (mkFile "old binary" true true) else None.
Definition cmd0 (file : string) (out dir : option string) (parallel : bool) (c : option Z) ps : cmdline := mkCmd file "x" out dir parallel false c false true (Some 1000%Z) None None None false ps.
Definition go := run_cmd num0 g0 disk0 (fun s => if s =?s "source" then Some "x" else None) (fun s m _ => Some (if m then "mpi binary" else "binary")) "/w" ".out" "2026" (fun p => p =?s "/w").
Example C66_example : go (cmd0 "/w/x.instr" None None false None par2) =
  Ran "binary" (map (fun d => ["/w/x.out"; "--dir"; d; "--ncount=1000"; "--gravitation"; "E=1:1:3"; "file=a.lau"]) ["x2026/0"; "x2026/1"; "x2026/2"]) /\
  go (cmd0 "/w/x.instr" None None true None par1) = Ran "mpi binary" [["mpirun"; "-machinefile"; "hosts"; "/w/x.out"; "--dir"; "x2026"; "--ncount=1000"; "--gravitation"; "E=5"; "file=a.lau"]].
Proof. split; vm_compute; reflexivity. Qed.
Example C66_findings_examples :
  go (cmd0 "/w/x.instr" None None false None []) = NoRun /\ go (cmd0 "/w/x.instr" None (Some "out") false None par1) = Raised /\
  go (cmd0 "/w/x.instr" None None true (Some 4%Z) par1) = Ran "mpi binary" [["mpirun"; "-np"; "[4]"; "-machinefile"; "hosts"; "/w/x.out"; "--dir"; "x2026"; "--ncount=1000"; "--gravitation"; "E=5"; "file=a.lau"]] /\
  go (cmd0 "/w/x.instr" (Some "/w/old") None false None par1) = Ran "old binary" [["/w/old"; "--dir"; "x2026"; "--ncount=1000"; "--gravitation"; "E=5"; "file=a.lau"]] /\
  go (cmd0 "/w/y.instr" None None false None par1) = Raised.
Proof. repeat split; vm_compute; reflexivity. Qed.
