(* Properties C27-C30: scan ranges, scans, runs, command line. *)
From Coq Require Import String Ascii List Bool ZArith QArith Lia Permutation.
From Verif Require Import PyStr Range Scan CmdLine.
Import ListNotations.

(* ---------------- C27 ---------------- *)
(* Full statement: for every range accepted by the constructor, list() is the grid and
   len() its length. True when at least two grid points fit; false otherwise, see below. *)
Theorem C27_range_lists_its_grid_partial :
  forall start stop step r fuel l,
    mk_mrange start stop step = Some r ->
    not_past stop step (start + step)%Q ->
    mrange_list fuel r = Some l ->
    lists_grid start stop step l /\
    mrange_len r = Some (Z.of_nat (length l)) /\
    (forall k, mrange_get r (Z.of_nat k) = nth_error l k).
Proof.
  intros start stop step r fuel l Hr H2 HL.
  destruct (mk_mrange_step _ _ _ _ Hr) as (-> & Hs & _).
  set (r := {| mr_start := start; mr_stop := stop; mr_step := step |}) in *.
  split; [exact (mrange_list_grid r fuel l Hs H2 HL)|].
  split; [exact (mrange_list_length r fuel l Hs H2 HL) | exact (mrange_get_nth r fuel l Hs H2 HL)].
Qed.
Print Assumptions C27_range_lists_its_grid_partial.

(* iteration ends for every accepted range, and gives one list only *)
Theorem C27_range_iteration_terminates :
  forall start stop step r, mk_mrange start stop step = Some r ->
    exists l, (exists fuel, mrange_list fuel r = Some l) /\
              (forall fuel l', mrange_list fuel r = Some l' -> l' = l).
Proof.
  intros start stop step r Hr. destruct (mk_mrange_step _ _ _ _ Hr) as (-> & Hs & _).
  destruct (mrange_list_terminates {| mr_start := start; mr_stop := stop; mr_step := step |} Hs) as (f & l & H).
  exists l. split; [exists f; exact H|]. intros f' l' H'. exact (mrange_list_det _ _ _ _ _ H' H).
Qed.
Print Assumptions C27_range_iteration_terminates.

(* the constructor rejects exactly equal ends and zero steps *)
Theorem C27_constructor_rejects :
  forall start stop step, mk_mrange start stop step = None <-> (start == stop \/ step == 0)%Q.
Proof.
  intros start stop step. unfold mk_mrange.
  destruct (Qeq_bool start stop) eqn:E1.
  - apply Qeq_bool_iff in E1. split; [left; exact E1 | reflexivity].
  - destruct (Qeq_bool step 0) eqn:E2.
    + apply Qeq_bool_iff in E2. split; [right; exact E2 | reflexivity].
    + split; [discriminate|]. intros [H|H]; apply Qeq_bool_iff in H; congruence.
Qed.
Print Assumptions C27_constructor_rejects.

(* one grid point fits (the step passes the end): the list is empty although its
   length is announced to be one and index 0 is served *)
Theorem C27_single_point_range :
  forall start stop step r fuel l, mk_mrange start stop step = Some r ->
    not_past stop step start -> ~ not_past stop step (start + step)%Q ->
    mrange_list fuel r = Some l ->
    l = [] /\ mrange_len r = Some 1%Z /\ exists v, mrange_get r 0 = Some v /\ (v == start)%Q.
Proof.
  intros start stop step r fuel l Hr H1 H2 HL.
  destruct (mk_mrange_step _ _ _ _ Hr) as (-> & Hs & _).
  pose proof (mrange_len_overshoot {| mr_start := start; mr_stop := stop; mr_step := step |} Hs H1 H2) as HL1.
  split; [|split; [exact HL1|]].
  - destruct fuel as [|f]; [discriminate|].
    rewrite (mrange_list_fewer {| mr_start := start; mr_stop := stop; mr_step := step |} (S f)) in HL;
      [injection HL as <-; reflexivity | lia | exact H2].
  - unfold mrange_get. rewrite HL1. simpl. eexists. split; [reflexivity|]. simpl. ring.
Qed.
Print Assumptions C27_single_point_range.

(* MRange(0, 1, 2): list() is [] but the grid is [0]; len() is 1 *)
Theorem C27_range_lists_its_grid_refuted :
  exists start stop step r l, mk_mrange start stop step = Some r /\
    mrange_list 5 r = Some l /\ l = [] /\ mrange_len r = Some 1%Z /\
    lists_grid start stop step [(grid_pt start step 0)] /\ ~ lists_grid start stop step l.
Proof.
  exists 0%Q, 1%Q, 2%Q, {| mr_start := 0%Q; mr_stop := 1%Q; mr_step := 2%Q |}, [].
  repeat split; try (vm_compute; reflexivity).
  - exists 1%nat. split; [reflexivity|]. intros k.
    rewrite (not_past_ratio 0 1 2 k); [|discriminate].
    unfold Qle. simpl. lia.
  - intros (n & E & H). destruct n as [|n]; [|discriminate].
    assert (HH : (0 < 0)%nat); [|lia]. apply H. left. split; reflexivity || discriminate.
Qed.
Print Assumptions C27_range_lists_its_grid_refuted.

(* MRange(0, -1/2, 1) contains no grid point but announces one *)
Theorem C27_empty_range_length_refuted :
  exists start stop step r, mk_mrange start stop step = Some r /\
    lists_grid start stop step [] /\ mrange_len r = Some 1%Z.
Proof.
  exists 0%Q, (-1 # 2)%Q, 1%Q, {| mr_start := 0%Q; mr_stop := (-1 # 2)%Q; mr_step := 1%Q |}.
  repeat split; try (vm_compute; reflexivity).
  exists 0%nat. split; [reflexivity|]. intros k. split; [lia|].
  rewrite (not_past_ratio 0 (-1#2) 1 k); [|discriminate]. unfold Qle; simpl. lia.
Qed.
Print Assumptions C27_empty_range_length_refuted.

Example C27_nonvacuous :
  exists r, mk_mrange 1 2 (1#4) = Some r /\ not_past 2 (1#4) (1 + (1#4))%Q /\
            exists l, mrange_list 10 r = Some l /\ length l = 5%nat.
Proof.
  eexists. split; [vm_compute; reflexivity|]. split; [left; split; vm_compute; [reflexivity | discriminate]|].
  eexists. split; [vm_compute; reflexivity | reflexivity].
Qed.

(* ---------------- C28 ---------------- *)
Definition entries_valid (params : list (string * item)) : Prop :=
  Forall (fun p => valid_item (snd p)) params.

(* linear scans: as many tuples as announced, the k-th tuple pairs the k-th values *)
Theorem C28_linear_scan_count_and_values :
  forall params n names pts,
    entries_valid params -> to_scan params false = Some (n, names, pts) ->
    n = Z.of_nat (length pts) /\
    names = map (fun p => lower (fst p)) params /\
    (forall k t, nth_error pts k = Some t ->
       length t = length names /\
       Forall2 (fun p v => linear_value (snd p) k v) params t).
Proof.
  intros params n names pts Hv H. destruct (linear_scan_spec params n names pts Hv H) as (H1 & H2 & H3).
  split; [exact H1|]. split; [exact H2|]. intros k t Hk. specialize (H3 k t Hk). split; [|exact H3].
  rewrite H2, map_length. symmetry. clear - H3. induction H3; simpl; congruence.
Qed.
Print Assumptions C28_linear_scan_count_and_values.

(* grid scans: as many tuples as announced, every combination, exactly once.
   Full statement: for every accepted range; needs two points per range, see the refutation. *)
Theorem C28_grid_scan_complete_partial :
  forall params n names pts,
    params <> [] -> Forall (fun p => sound_range_item (snd p)) params ->
    to_scan params true = Some (n, names, pts) ->
    n = Z.of_nat (length pts) /\
    names = map (fun p => lower (fst p)) params /\
    (forall t, In t pts <-> Forall2 (fun p v => grid_value (snd p) v) params t) /\
    (Forall (fun p => match snd p with IList l => NoDup l | _ => True end) params -> NoDup pts).
Proof. intros params n names pts Hne Hv H. exact (grid_scan_spec params n names pts Hv Hne H). Qed.
Print Assumptions C28_grid_scan_complete_partial.

(* a grid over a one-point range announces one point and produces none *)
Theorem C28_grid_scan_count_refuted :
  exists params n names, entries_valid params /\ to_scan params true = Some (n, names, []) /\ n = 1%Z.
Proof.
  exists [("a"%string, IRange {| mr_start := 0; mr_stop := 1; mr_step := 2 |})], 1%Z, ["a"%string].
  split; [constructor; [discriminate|constructor]|]. split; vm_compute; reflexivity.
Qed.
Print Assumptions C28_grid_scan_count_refuted.

(* ranges of different length (both longer than one) are rejected in a linear scan *)
Theorem C28_linear_scan_rejects_mismatch :
  forall params p q np nq, In p params -> In q params ->
    item_len (snd p) = Some np -> item_len (snd q) = Some nq ->
    (1 < np)%Z -> (1 < nq)%Z -> np <> nq -> to_scan params false = None.
Proof.
  intros params p q np nq Hp Hq Hnp Hnq H1 H2 Hne. unfold to_scan.
  destruct (map (fun p0 => snd p0) params) as [|i0 is0] eqn:Ei; [destruct params; [destruct Hp | discriminate]|].
  rewrite <- Ei. clear Ei i0 is0.
  destruct (mapM item_len (map (fun p0 => snd p0) params)) as [lens|] eqn:E; [|reflexivity].
  assert (G : forall x n, In x params -> item_len (snd x) = Some n -> In n lens).
  { apply mapM_Forall2 in E. clear - E. revert lens E. induction params as [|a ps IH]; intros lens E x n Hx Hn; [destruct Hx|].
    inversion E as [|? m ? ms Hm E']; subst. destruct Hx as [->|Hx].
    - rewrite Hn in Hm. injection Hm as <-. left; reflexivity.
    - right. eapply IH; eassumption. }
  assert (Hex : existsb (fun n => ((1 <? n) && negb (n =? maxZ lens))%Z%bool) lens = true).
  { apply existsb_exists. destruct (Z.eq_dec np (maxZ lens)) as [E1|E1].
    - exists nq. split; [exact (G _ _ Hq Hnq)|]. apply andb_true_iff. split; [lia|].
      apply negb_true_iff, Z.eqb_neq. congruence.
    - exists np. split; [exact (G _ _ Hp Hnp)|]. apply andb_true_iff. split; [lia|].
      apply negb_true_iff, Z.eqb_neq. exact E1. }
  rewrite Hex. reflexivity.
Qed.
Print Assumptions C28_linear_scan_rejects_mismatch.

(* a list of one value is a legal entry, but a linear scan with it fails *)
Theorem C28_one_element_list_refuted :
  exists params, entries_valid params /\ to_scan params false = None /\
    to_scan (map (fun p => (fst p, match snd p with IList [v] => ISing v (Some 1%Z) | i => i end)) params) false <> None.
Proof.
  exists [("a"%string, IRange {| mr_start := 0; mr_stop := 2; mr_step := 1 |}); ("b"%string, IList [VNum 5])].
  split; [constructor; [discriminate | constructor; [exact I | constructor]]|]. split; [vm_compute; reflexivity|]. vm_compute. discriminate.
Qed.
Print Assumptions C28_one_element_list_refuted.

Example C28_nonvacuous :
  exists pts, to_scan [("A"%string, IRange {| mr_start := 0; mr_stop := 2; mr_step := 1 |});
                       ("b"%string, ISing (VStr "x") (Some 3%Z))] false = Some (3%Z, ["a"%string; "b"%string], pts)
              /\ length pts = 3%nat.
Proof. eexists. split; [vm_compute; reflexivity | reflexivity]. Qed.

(* ---------------- C29 ---------------- *)
(* The part that holds: one run per scan point, all in different directories, in scan order.
   Missing from the full statement: that the k-th run gets the k-th values (refuted below). *)
Theorem C29_one_run_per_point_partial :
  forall str_num params grid n names pts runs,
    to_scan params grid = Some (n, names, pts) -> (1 < n)%Z ->
    run_scan str_num params grid = Some runs ->
    length runs = length pts /\ NoDup (map run_dir runs) /\
    (forall k r, nth_error runs k = Some r -> run_dir r = str_nat k).
Proof.
  intros str_num params grid n names pts runs H Hn HR. unfold run_scan in HR. rewrite H in HR.
  replace (1 <? n)%Z with true in HR by lia. injection HR as <-.
  split; [apply runs_from_length|]. split; [apply runs_dirs_distinct|].
  intros k r Hk. apply runs_from_nth in Hk. destruct Hk as [-> _]. reflexivity.
Qed.
Print Assumptions C29_one_run_per_point_partial.

(* the text the k-th run should receive *)
Definition point_text (str_num : Q -> string) (params : list (string * item)) (t : list val) : string :=
  parameter_text (combine (map fst params) (map (str_val str_num) t)).

(* Every point of a multi-point scan is run with the same parameter text: the values of the
   point are not used at all. *)
Theorem C29_runs_ignore_point_values :
  forall str_num params grid n names pts runs r1 r2,
    to_scan params grid = Some (n, names, pts) -> (1 < n)%Z ->
    run_scan str_num params grid = Some runs -> In r1 runs -> In r2 runs -> run_pars r1 = run_pars r2.
Proof.
  intros str_num params grid n names pts runs r1 r2 H Hn HR H1 H2. unfold run_scan in HR. rewrite H in HR.
  replace (1 <? n)%Z with true in HR by lia. injection HR as <-.
  assert (G : forall pts m r, In r (runs_from str_num m pts params) ->
                run_pars r = parameter_text (map (fun p => (fst p, str_item str_num (snd p))) params)).
  { clear. induction pts as [|t pts IH]; simpl; intros m r; [intros [] | intros [<-|Hr]; [reflexivity | eapply IH, Hr]]. }
  rewrite (G _ _ _ H1), (G _ _ _ H2). reflexivity.
Qed.
Print Assumptions C29_runs_ignore_point_values.

Theorem C29_runs_get_point_values_refuted :
  forall str_num : Q -> string,
  exists params n names pts runs t r,
    to_scan params false = Some (n, names, pts) /\ (1 < n)%Z /\
    run_scan str_num params false = Some runs /\
    nth_error pts 0 = Some t /\ nth_error runs 0 = Some r /\
    run_pars r <> point_text str_num params t.
Proof.
  intros str_num.
  exists [("a"%string, IRange {| mr_start := 1; mr_stop := 2; mr_step := 1 |})].
  eexists _, _, _, _, _, _.
  split; [vm_compute; reflexivity|]. split; [reflexivity|].
  split; [vm_compute; reflexivity|]. split; [vm_compute; reflexivity|]. split; [reflexivity|].
  cbn -[Qmult Qplus]. intros E. injection E as E.
  apply (f_equal String.length) in E. rewrite !string_app_length in E. simpl in E.
  rewrite string_app_length in E. simpl in E. lia.
Qed.
Print Assumptions C29_runs_get_point_values_refuted.

(* ---------------- C30 ---------------- *)
Theorem C30_command_line_parse :
  forall conv ws d, parse_command_line conv ws = Some d ->
    exists ps, spells ws ps /\
      (forall k, dict_get d k = obind (last_value k ps) conv) /\
      NoDup (map fst d).
Proof.
  intros conv ws d H. destruct (parse_cl_spec conv (length ws) ws [] d (le_n _) H) as (ps & S & F & G & N).
  exists ps. split; [exact S|]. split; [|apply N; constructor].
  intros k. rewrite G. destruct (last_value k ps); reflexivity.
Qed.
Print Assumptions C30_command_line_parse.

(* accepted exactly when the words spell pairs whose values convert; the reading is unique *)
Theorem C30_command_line_accepts :
  forall conv ws, (exists ps, spells ws ps /\ Forall (fun p => conv (snd p) <> None) ps)
                  <-> parse_command_line conv ws <> None.
Proof.
  intros conv ws. split.
  - intros (ps & S & F). exact (parse_cl_complete conv ws ps S F []).
  - intros H. destruct (parse_command_line conv ws) as [d|] eqn:E; [|congruence].
    destruct (parse_cl_spec conv (length ws) ws [] d (le_n _) E) as (ps & S & F & _). exists ps. split; assumption.
Qed.
Print Assumptions C30_command_line_accepts.

Theorem C30_reading_unique : forall ws ps ps', spells ws ps -> spells ws ps' -> ps = ps'.
Proof. exact spells_det. Qed.
Print Assumptions C30_reading_unique.

(* sort_args keeps all words, puts the option words first, keeps both relative orders *)
Theorem C30_sort_args :
  forall args, Permutation args (sort_args args) /\
    sort_args args = select true (front false args) args ++ select false (front false args) args /\
    (forall w, In w (select false (front false args) args) -> is_opt w = false).
Proof.
  intros args. split; [exact (sort_args_perm args)|]. split; [exact (sort_args_spec args)|].
  generalize false at 2. induction args as [|a args IH]; intros b w; simpl; [intros []|].
  destruct (is_opt a) eqn:E; simpl; [apply IH|].
  destruct (b && negb (has_char eq_char a))%bool; simpl; [apply IH|].
  intros [<-|H]; [exact E | eapply IH, H].
Qed.
Print Assumptions C30_sort_args.

(* but a parameter given as a separate negative number is torn from its name *)
Theorem C30_negative_value_refuted :
  exists args, spells args [("x"%string, "-5"%string)] /\ ~ spells (sort_args args) [("x"%string, "-5"%string)].
Proof.
  exists ["x"%string; "-5"%string]. split; [repeat constructor|].
  replace (sort_args ["x"%string; "-5"%string]) with ["-5"%string; "x"%string] by reflexivity.
  intros H. assert (H' : spells ["-5"; "x"]%string [("-5", "x")]%string) by (repeat constructor).
  pose proof (spells_det _ _ _ H H') as E. discriminate.
Qed.
Print Assumptions C30_negative_value_refuted.

Example C30_nonvacuous :
  parse_command_line (fun s => Some (ISing (VStr s) None)) ["a=1"; "b"; "2"; "a=3"]%string
  = Some [("a"%string, ISing (VStr "3") None); ("b"%string, ISing (VStr "2") None)] /\
  sort_args ["f.instr"; "-n"; "10"; "a=1"; "--trace"]%string = ["-n"; "10"; "--trace"; "f.instr"; "a=1"]%string.
Proof. split; reflexivity. Qed.
